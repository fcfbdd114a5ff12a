(** * UntypedVec: zero-sized elements, and vectors that never held anything (C27, C28, C29) *)
From Verif Require Import ProofBase SpecUVec.
From Verif Require Export ProofUVec.

(** *** Only pushing makes an allocation *)
Lemma uv_pop_cap v b v' e : uv_pop v = Done b v' e → uv_cap v' = uv_cap v.
Proof.
  rewrite /uv_pop (bind_done_nil _ _ v v v eq_refl). case_decide as H1; [by intros [= _ <- _]|].
  case_decide as H2; [|by intros [= _ <- _]].
  rewrite (bind_done_nil _ _ v () (uv_set_len (uv_len v - uv_size v) v) eq_refl).
  rewrite /bind /or_ub. destruct (mem_read _ _ _); [|done]. by intros [= _ <- _].
Qed.
Lemma uv_swap_remove_cap i v u v' e : uv_swap_remove i v = Done u v' e → uv_cap v' = uv_cap v.
Proof.
  rewrite /uv_swap_remove (bind_done_nil _ _ v v v eq_refl).
  intros (? & v1 & ? & ? & Hx & Hy & _)%bind_done_inv. rewrite /massert in Hx. case_match; [|done]. injection Hx as _ <- _.
  apply bind_done_inv in Hy as (? & v1 & ? & ? & Hx & Hy & _). rewrite /massert in Hx. case_match; [|done]. injection Hx as _ <- _.
  case_decide.
  - apply bind_done_inv in Hy as (? & v1 & ? & ? & Hx & Hy & _). rewrite /massert in Hx. case_match; [|done]. injection Hx as _ <- _.
    apply bind_done_inv in Hy as (? & v1 & ? & ? & Hx & Hy & _). injection Hy as _ <- _. by eapply uv_pop_cap.
  - apply bind_done_inv in Hy as (p & v1 & ? & ? & Hx & Hy & _). rewrite /or_ub in Hx. case_match; [|done]. injection Hx as _ <- _.
    apply bind_done_inv in Hy as (? & v1 & ? & ? & Hx & Hy & _). injection Hx as _ <- _.
    apply bind_done_inv in Hy as (? & v1 & ? & ? & Hx & Hy & _). injection Hy as _ <- _. apply uv_pop_cap in Hx. done.
Qed.
Lemma on_snd_fst {S T A} (m : M T A) (s s' : S * T) a e : on_snd m s = Done a s' e → s'.1 = s.1.
Proof. rewrite /on_snd /zoom. destruct (m s.2); intros; simplify_eq; done. Qed.
Lemma uv_swap_move_cap i s u s' e : uv_swap_move i s = Done u s' e → uv_cap s'.1 = uv_cap s.1.
Proof.
  destruct s as [v o]. rewrite /uv_swap_move (bind_done_nil _ _ (v, o) (v, o) (v, o) eq_refl).
  intros (? & v1 & ? & ? & Hx & Hy & _)%bind_done_inv. rewrite /massert in Hx. case_match; [|done]. injection Hx as _ <- _.
  apply bind_done_inv in Hy as (? & v1 & ? & ? & Hx & Hy & _). rewrite /massert in Hx. case_match; [|done]. injection Hx as _ <- _.
  apply bind_done_inv in Hy as (? & v1 & ? & ? & Hx & Hy & _). rewrite /massert in Hx. case_match; [|done]. injection Hx as _ <- _.
  case_decide as Hz; [|case_decide as Hl].
  - apply bind_done_inv in Hy as (? & v1 & ? & ? & Hx & Hy & _). injection Hx as _ <- _. apply on_snd_fst in Hy. by rewrite Hy.
  - apply bind_done_inv in Hy as (p & v1 & ? & ? & Hx & Hy & _). rewrite /or_ub in Hx. case_match; [|done]. injection Hx as _ <- _.
    apply bind_done_inv in Hy as (? & v1 & ? & ? & Hx & Hy & _). apply on_snd_fst in Hx. injection Hy as _ <- _. cbn. by rewrite Hx.
  - apply bind_done_inv in Hy as (p & v1 & ? & ? & Hx & Hy & _). rewrite /or_ub in Hx. case_match; [|done]. injection Hx as _ <- _.
    apply bind_done_inv in Hy as (? & v1 & ? & ? & Hx & Hy & _). injection Hx as _ <- _.
    apply bind_done_inv in Hy as (? & v1 & ? & ? & Hx & Hy & _). rewrite /or_ub in Hx. case_match; [|done]. injection Hx as _ <- _.
    apply bind_done_inv in Hy as (? & v1 & ? & ? & Hx & Hy & _). apply on_snd_fst in Hx. injection Hy as _ <- _. cbn. by rewrite Hx.
Qed.
Lemma on_side_cap b b' (m : M uvec bool) s r s' e : (∀ v x v' e, m v = Done x v' e → uv_cap v' = uv_cap v) →
  on_side b m s = Done r s' e → uv_cap (if b' : bool then s'.1 else s'.2) = uv_cap (if b' then s.1 else s.2).
Proof.
  intros Hm. destruct s as [v1 v2]. destruct b; rewrite /on_side /on_fst /on_snd /zoom; cbn.
  - destruct (m v1) eqn:E; intros [=]; subst. destruct b'; cbn; [|done]. by eapply Hm.
  - destruct (m v2) eqn:E; intros [=]; subst. destruct b'; cbn; [done|]. by eapply Hm.
Qed.
Lemma feeds_dec o : feeds o ∨ ¬ feeds o.
Proof. destruct o as [[] x j|b|b i|[] i]; cbn; naive_solver. Qed.
Lemma uv_step_cap ti1 ti2 o s p r p' ev0 r' s' ev : ti_layout ti1 = ti_layout ti2 → ti_size ti1 ≠ 0 → rep2 ti1 ti2 s p →
  lv_step (ti_size ti1) (λ b, ti_drop (if b then ti1 else ti2)) o p = Some (r, p', ev0) →
  uv_step o s = Done r' s' ev → uv_cap s'.1 ≠ 0 ↔ uv_cap s.1 ≠ 0 ∨ feeds o.
Proof.
  intros Hti Hs Hr Hl Hd. pose proof (uv_step_spec ti1 ti2 o s p r p' ev0 Hti Hr Hl) as Hw. rewrite /wp Hd in Hw.
  destruct Hw as (_ & _ & Ht1 & _ & Hr1 & _).
  assert (feeds o → uv_cap s'.1 ≠ 0) as Hf.
  { intros Hf. eapply uv_rep_nonempty_cap; [exact Hr1|by rewrite /uv_size Ht1|].
    destruct o as [[] x j|b|b i|[] i]; try done; cbn in Hl.
    - case_decide; [|done]. injection Hl as _ <- _. cbn. intros E%app_nil. by destruct E.
    - destruct (list_swap_remove i p.2) as [[x l']|]; [|done]. injection Hl as _ <- _. cbn. intros E%app_nil. by destruct E. }
  assert (¬ feeds o → uv_cap s'.1 = uv_cap s.1) as Hn.
  { intros Hn. destruct o as [[] x j|b|b i|[] i]; try (by destruct Hn); cbn in Hd.
    - apply bind_done_inv in Hd as (? & s1 & e1 & e2 & H1 & H2 & _). injection H2 as _ <- _. by rewrite (on_snd_fst _ _ _ _ _ H1).
    - apply (on_side_cap b true) in Hd; [done|]. apply uv_pop_cap.
    - apply bind_done_inv in Hd as (? & s1 & e1 & e2 & H1 & H2 & _). injection H2 as _ <- _.
      destruct b; [|by rewrite (on_snd_fst _ _ _ _ _ H1)]. rewrite /on_side /on_fst /zoom in H1.
      destruct (uv_swap_remove i s.1) as [u0 v0 ev9| | |] eqn:E; [|done..]. injection H1 as _ <- _. cbn. by apply uv_swap_remove_cap in E.
    - apply bind_done_inv in Hd as (? & s1 & e1 & e2 & H1 & H2 & _). injection H2 as _ <- _. by eapply uv_swap_move_cap. }
  destruct (feeds_dec o) as [H|H]; [naive_solver|]. rewrite (Hn H). naive_solver.
Qed.
Lemma uv_run_cap ti1 ti2 h s p rs p' ev0 rs' s' ev : ti_layout ti1 = ti_layout ti2 → ti_size ti1 ≠ 0 → rep2 ti1 ti2 s p →
  lv_run (ti_size ti1) (λ b, ti_drop (if b then ti1 else ti2)) h p = Some (rs, p', ev0) →
  uv_run h s = Done rs' s' ev → uv_cap s'.1 ≠ 0 ↔ uv_cap s.1 ≠ 0 ∨ Exists feeds h.
Proof.
  intros Hti Hs. revert s p rs ev0 rs' ev. induction h as [|o h IH]; intros s p rs ev0 rs' ev Hr Hl Hd; cbn in Hl, Hd.
  { injection Hd as _ <- _. rewrite Exists_nil. naive_solver. }
  destruct (lv_step _ _ o p) as [[[r p1] e1]|] eqn:El; [|done]. destruct (lv_run _ _ h p1) as [[[rs1 p2] e2]|] eqn:Er; [|done].
  injection Hl as _ -> _. apply bind_done_inv in Hd as (r' & s1 & e3 & e4 & H1 & H2 & _).
  apply bind_done_inv in H2 as (rs2 & s2 & e5 & e6 & H2 & H3 & _). injection H3 as _ <- _.
  pose proof (uv_step_spec ti1 ti2 o s p r p1 e1 Hti Hr El) as Hw. rewrite /wp H1 in Hw. destruct Hw as (_ & _ & Hr1).
  rewrite (IH s1 p1 rs1 e2 rs2 e5 Hr1 Er H2) (uv_step_cap ti1 ti2 o s p r p1 e1 r' s1 e3 Hti Hs Hr El H1) Exists_cons. naive_solver.
Qed.

(** *** as_slice *)
Lemma uv_as_slice_unallocated v l t : uv_rep v l → ti_layout (uv_ti v) = layout_of t → ty_size t ≠ 0 →
  uv_cap v = 0 → ty_align t ≠ 1 → uv_as_slice t v = UB.
Proof.
  intros Hrep Hlay Hs Hc Hal. rewrite /uv_as_slice (bind_done_nil _ _ v v v eq_refl).
  assert (uv_size v = ty_size t) as Hsz by by rewrite /uv_size /ti_size Hlay.
  rewrite bool_decide_true // (bind_done_nil _ _ v () v eq_refl). rewrite decide_False; [|congruence].
  pose proof Hrep as (Hl & Hlen & Hcase)%uv_rep_sized; [|congruence].
  destruct Hcase as [(_ & Hd & ->)|(rest & Hd & Hc' & Hc4 & _)]; [|exfalso; lia].
  rewrite Hlen /= Nat.mod_0_l; [|congruence]. rewrite bool_decide_true // (bind_done_nil _ _ v () v eq_refl). rewrite Hd /= bool_decide_false //.
Qed.
Lemma uv_as_slice_zst v t : ti_layout (uv_ti v) = layout_of t → ty_size t = 0 → uv_as_slice t v = Panicked RRemZero v [].
Proof.
  intros Hlay Hs. rewrite /uv_as_slice (bind_done_nil _ _ v v v eq_refl). rewrite bool_decide_true // (bind_done_nil _ _ v () v eq_refl).
  rewrite decide_True; [done|]. by rewrite /uv_size /ti_size Hlay.
Qed.
Lemma uv_as_slice_full ti1 ti2 h rs l1 l2 ev t :
  ti_layout ti1 = layout_of t → ti_layout ti2 = layout_of t → ty_align t ≠ 0 →
  lv_run (ty_size t) (λ b, ti_drop (if b then ti1 else ti2)) h ([], []) = Some (rs, (l1, l2), ev) →
  match uv_run h (uv_new ti1, uv_new ti2) with
  | Done _ s _ =>
      (ty_size t = 0 → uv_as_slice t s.1 = Panicked RRemZero s.1 []) ∧
      (ty_size t ≠ 0 → ty_align t = 1 ∨ Exists feeds h → uv_as_slice t s.1 = Done l1 s.1 []) ∧
      (ty_size t ≠ 0 → ty_align t ≠ 1 → ¬ Exists feeds h → uv_as_slice t s.1 = UB)
  | Panicked r _ _ => r = RCapacity
  | Deadlock | UB => False
  end.
Proof.
  intros Hlay Hlay2 Ha Hrun.
  assert (ty_size t = ti_size ti1) as Hsz by by rewrite /ti_size Hlay.
  rewrite Hsz in Hrun. assert (ti_layout ti1 = ti_layout ti2) as Hti by congruence.
  pose proof (uv_run_spec _ _ _ _ _ _ _ _ Hti (rep2_new ti1 ti2) Hrun) as Hwp.
  rewrite /wp in Hwp. destruct (uv_run h _) as [rs' s ev'|r s ev'| |] eqn:Er; [|by destruct Hwp|done..].
  destruct Hwp as (_ & _ & H1 & _ & Hr & _). simpl in Hr.
  assert (ty_size t ≠ 0 → uv_cap s.1 ≠ 0 ↔ Exists feeds h) as Hcap.
  { intros Hs. rewrite Hsz in Hs. rewrite (uv_run_cap _ _ _ _ _ _ _ _ _ _ _ Hti Hs (rep2_new ti1 ti2) Hrun Er). cbn. naive_solver. }
  split_and!.
  - intros Hs. apply uv_as_slice_zst; [congruence|done].
  - intros Hs Hf. apply uv_as_slice_rep; [done|congruence|done|]. destruct Hf as [|Hf%Hcap]; [by left|by right|done].
  - intros Hs Hal Hf. eapply uv_as_slice_unallocated; [done|congruence|done| |done].
    destruct (decide (uv_cap s.1 = 0)) as [|Hc]; [done|]. exfalso. by apply Hf, Hcap.
Qed.

(** *** Zero-sized elements *)
Lemma uv_pop_empty_zst v : uv_rep v [] → uv_size v = 0 → uv_pop v = Done true v (drop_event (ti_drop (uv_ti v)) []).
Proof.
  intros Hr Hs. apply uv_rep_zst in Hr as (_ & Hd & Hc & Hl); [|done]. rewrite /uv_pop (bind_done_nil _ _ v v v eq_refl).
  rewrite decide_False; [|rewrite Hl /=; lia]. rewrite decide_True; [|lia].
  rewrite (bind_done_nil _ _ v () v); [|rewrite /modify Hl Hs /=; f_equal; destruct v; cbn in *; by subst]. rewrite Hd Hl Hs.
  rewrite (bind_done_nil _ _ v [] v eq_refl). rewrite /bind /emit /=. by rewrite app_nil_r.
Qed.
Lemma uv_pop_empty_full ti1 ti2 h rs l2 ev : ti_layout ti1 = ti_layout ti2 →
  lv_run (ti_size ti1) (λ b, ti_drop (if b then ti1 else ti2)) h ([], []) = Some (rs, ([], l2), ev) →
  match uv_run h (uv_new ti1, uv_new ti2) with
  | Done _ s _ => if decide (ti_size ti1 = 0) then uv_pop s.1 = Done true s.1 (ldrop (ti_drop ti1) [])
                  else uv_pop s.1 = Done false s.1 []
  | Panicked r _ _ => r = RCapacity
  | Deadlock | UB => False
  end.
Proof.
  intros Hti Hrun. pose proof (uv_run_spec _ _ _ _ _ _ _ _ Hti (rep2_new ti1 ti2) Hrun) as Hwp.
  rewrite /wp in Hwp. destruct (uv_run h _) as [rs' s ev'|r s ev'| |]; [|by destruct Hwp|done..].
  destruct Hwp as (_ & _ & H1 & _ & Hr & _). simpl in Hr. case_decide as Hs.
  - rewrite uv_pop_empty_zst //; [by rewrite H1|by rewrite /uv_size H1].
  - apply uv_pop_empty; [done|]. by rewrite /uv_size H1.
Qed.
Lemma uv_drop_full ti1 ti2 h rs l1 l2 ev : ti_layout ti1 = ti_layout ti2 →
  lv_run (ti_size ti1) (λ b, ti_drop (if b then ti1 else ti2)) h ([], []) = Some (rs, (l1, l2), ev) →
  match uv_run h (uv_new ti1, uv_new ti2) with
  | Done _ s _ => ∃ v', uv_drop s.1 = Done () v' (if decide (ti_size ti1 = 0) then [] else concat (ldrop (ti_drop ti1) <$> reverse l1))
  | Panicked r _ _ => r = RCapacity
  | Deadlock | UB => False
  end.
Proof.
  intros Hti Hrun. pose proof (uv_run_spec _ _ _ _ _ _ _ _ Hti (rep2_new ti1 ti2) Hrun) as Hwp.
  rewrite /wp in Hwp. destruct (uv_run h _) as [rs' s ev'|r s ev'| |]; [|by destruct Hwp|done..].
  destruct Hwp as (_ & _ & H1 & _ & Hr & _). simpl in Hr.
  destruct (uv_drop_rep _ _ Hr) as [v' Hd]. exists v'. by rewrite Hd /drop_events_of H1.
Qed.
(** *** Other layouts *)
Lemma uv_swap_move_other i v o : ti_layout (uv_ti v) ≠ ti_layout (uv_ti o) → uv_swap_move i (v, o) = Panicked RAssert (v, o) [].
Proof.
  intros H. rewrite /uv_swap_move (bind_done_nil _ _ (v, o) (v, o) (v, o) eq_refl) /ti_eqb bool_decide_eq_false_2 //.
Qed.
Lemma uv_as_slice_other t v : ti_layout (uv_ti v) ≠ Layout (ty_size t) (ty_align t) → uv_as_slice t v = Panicked RAssert v [].
Proof. intros H. rewrite /uv_as_slice (bind_done_nil _ _ v v v eq_refl) bool_decide_eq_false_2 //. Qed.
Lemma uv_pop_empty_wrong : ∃ ti v', ti_size ti = 0 ∧
  uv_elems_len (uv_new ti) = Done 0 (uv_new ti) [] ∧
  uv_pop (uv_new ti) = Done true v' [EvDrop (DropFn 3) []].
Proof.
  exists (TypeInfo (Layout 0 1) (Some (DropFn 3))), (uv_new (TypeInfo (Layout 0 1) (Some (DropFn 3)))).
  split_and!; (vm_compute; reflexivity).
Qed.
Lemma uv_as_slice_zst_wrong : ∃ t v r, ty_size t = 0 ∧
  uv_push_raw [] (uv_new (TypeInfo (Layout (ty_size t) (ty_align t)) None)) = Done () v [] ∧
  uv_as_slice t v = Panicked r v [].
Proof.
  exists (Ty 1 0 1), (UVec (TypeInfo (Layout 0 1) None) Dangling 0 1), RRemZero.
  split_and!; vm_compute; reflexivity.
Qed.
Lemma uv_as_slice_unallocated_wrong : ∃ t, ty_size t = 4 ∧ ty_align t = 4 ∧
  uv_as_slice t (uv_new (TypeInfo (Layout (ty_size t) (ty_align t)) None)) = UB.
Proof. exists (Ty 1 4 4). split_and!; (vm_compute; reflexivity). Qed.
Lemma uv_drop_zst_wrong : ∃ ti v v', ti_drop ti = Some (DropFn 3) ∧
  uv_push_raw [] (uv_new ti) = Done () v [] ∧ uv_elems_len v = Done 1 v [] ∧
  uv_drop v = Done () v' [].
Proof.
  exists (TypeInfo (Layout 0 1) (Some (DropFn 3))),
    (UVec (TypeInfo (Layout 0 1) (Some (DropFn 3))) Dangling 0 1),
    (UVec (TypeInfo (Layout 0 1) (Some (DropFn 3))) Dangling 0 1).
  split_and!; vm_compute; reflexivity.
Qed.
