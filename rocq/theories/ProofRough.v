(** * Rough histories: counting destructor calls, and the vectors *)
From Verif Require Import ProofBase SpecSmall World Query History ProofEntities ProofBitset ProofArrayVec ProofUVec.
From Verif Require Export ProofDropPanicWorld SpecRough.

(** [rp m s Q P]: [m] neither deadlocks nor has undefined behaviour; [Q] holds if it returns and
    [P] if it panics, for whatever reason. *)
Definition rp {S A} (m : M S A) (s : S) (Q : post S A) (P : ppost S) : Prop :=
  match m s with
  | Done a s' ev => Q a s' ev
  | Panicked r s' ev => P r s' ev
  | Deadlock | UB => False
  end.
Section rp.
  Context {S : Type}.
  Implicit Types s : S.
  Lemma rp_ret {A} (a : A) s (Q : post S A) (P : ppost S) : Q a s [] → rp (ret a) s Q P.
  Proof. done. Qed.
  Lemma rp_panic {A} r s (Q : post S A) (P : ppost S) : P r s [] → rp (panic r) s Q P.
  Proof. done. Qed.
  Lemma rp_mono {A} (m : M S A) s (Q Q' : post S A) (P P' : ppost S) :
    rp m s Q P → (∀ a s' e, Q a s' e → Q' a s' e) → (∀ r s' e, P r s' e → P' r s' e) → rp m s Q' P'.
  Proof. rewrite /rp. intros H1 H2 H3. destruct (m s); naive_solver. Qed.
  Lemma rp_bind {A B} (m : M S A) (k : A → M S B) s (Q : post S B) (P : ppost S) :
    rp m s (λ a s' e, rp (k a) s' (λ b s'' e', Q b s'' (e ++ e')) (λ r s'' e', P r s'' (e ++ e'))) P →
    rp (bind m k) s Q P.
  Proof.
    rewrite /rp /bind. destruct (m s) as [a s' e| | |]; try done.
    rewrite /add_events. destruct (k a s'); done.
  Qed.
  Lemma rp_bind' {A B} (m : M S A) (k : A → M S B) s (Q1 : post S A) (P1 : ppost S) (Q : post S B) (P : ppost S) :
    rp m s Q1 P1 → (∀ r s' e, P1 r s' e → P r s' e) →
    (∀ a s' e, Q1 a s' e → rp (k a) s' (λ b s'' e', Q b s'' (e ++ e')) (λ r s'' e', P r s'' (e ++ e'))) →
    rp (bind m k) s Q P.
  Proof. intros H1 H2 H3. apply rp_bind. eapply rp_mono; [exact H1| exact H3 | exact H2]. Qed.
  (** A first step that returns without events. *)
  Lemma rp_step {A B} (m : M S A) (k : A → M S B) s a s' (Q : post S B) (P : ppost S) :
    m s = Done a s' [] → rp (k a) s' Q P → rp (bind m k) s Q P.
  Proof. intros H1 H2. by rewrite /rp (bind_done_nil _ _ _ _ _ H1). Qed.
  Lemma rp_stop {A B} (m : M S A) (k : A → M S B) s r s' e (Q : post S B) (P : ppost S) :
    m s = Panicked r s' e → P r s' e → rp (bind m k) s Q P.
  Proof. intros H1 H2. by rewrite /rp /bind H1. Qed.
  Lemma rp_unwrap {A} (o : option A) r s (Q : post S A) (P : ppost S) :
    (∀ a, o = Some a → Q a s []) → (o = None → P r s []) → rp (unwrap o r) s Q P.
  Proof. destruct o; rewrite /rp /unwrap /=; naive_solver. Qed.
  Lemma rp_massert b r s (Q : post S ()) (P : ppost S) : (b = true → Q () s []) → (b = false → P r s []) → rp (massert b r) s Q P.
  Proof. destruct b; rewrite /rp /massert /=; naive_solver. Qed.
  Lemma rp_on_unwind {A} (m : M S A) c ev s (Q : post S A) (P : ppost S) :
    c = Some ev → rp m s Q (λ r s' e, P r s' (e ++ ev)) → rp (on_unwind m c) s Q P.
  Proof. rewrite /rp /on_unwind. intros ->. destruct (m s); naive_solver. Qed.
End rp.

(** ** Counting *)
Definition cnt (x : event) (l : list event) : nat := length (filter (x =.) l).
Global Arguments cnt : simpl never.
Lemma cnt_nil x : cnt x [] = 0.
Proof. done. Qed.
Lemma cnt_app x a b : cnt x (a ++ b) = cnt x a + cnt x b.
Proof. by rewrite /cnt filter_app app_length. Qed.
Lemma cnt_cons x y l : cnt x (y :: l) = cnt x [y] + cnt x l.
Proof. apply (cnt_app x [y] l). Qed.
Lemma cnt_perm x a b : a ≡ₚ b → cnt x a = cnt x b.
Proof. intros H. rewrite /cnt. by rewrite H. Qed.
Lemma cnt_sub x a b : a ⊆+ b → cnt x a ≤ cnt x b.
Proof. intros [k Hk]%submseteq_Permutation. rewrite (cnt_perm x _ _ Hk) cnt_app. lia. Qed.
Lemma cnt_in x l : x ∈ l ↔ 0 < cnt x l.
Proof.
  rewrite /cnt. split.
  - intros H. assert (x ∈ filter (x =.) l) as Hx by by apply elem_of_list_filter. destruct (filter _ l); [by apply elem_of_nil in Hx|simpl; lia].
  - intros H. destruct (filter (x =.) l) as [|y k] eqn:E; [simpl in H; lia|].
    assert (y ∈ filter (x =.) l) as [<- ?]%elem_of_list_filter by (rewrite E; left). done.
Qed.
Lemma cnt_submseteq a b : (∀ x, cnt x a ≤ cnt x b) → a ⊆+ b.
Proof.
  revert b. induction a as [|x a IH]; intros b H; [apply submseteq_nil_l|].
  assert (x ∈ b) as Hx. { apply cnt_in. specialize (H x). rewrite cnt_cons in H. assert (0 < cnt x [x]) by (apply cnt_in; left). lia. }
  apply elem_of_Permutation in Hx as [b' Hb]. rewrite Hb. apply submseteq_skip, IH. intros y.
  specialize (H y). rewrite (cnt_perm y _ _ Hb) (cnt_cons y x a) (cnt_cons y x b') in H. lia.
Qed.
Lemma cnt_bind_insert {A} (f : A → list event) x (l : list A) i a b : l !! i = Some a →
  cnt x (f a) + cnt x (<[i := b]> l ≫= f) = cnt x (f b) + cnt x (l ≫= f).
Proof.
  revert i. induction l as [|y l IH]; intros [|i]; [done|done| |].
  - intros [= ->]. change (<[0 := b]> (a :: l)) with (b :: l). rewrite !bind_cons !cnt_app. lia.
  - intros H. specialize (IH i H). change (<[S i := b]> (y :: l)) with (y :: <[i := b]> l). rewrite !bind_cons !cnt_app. lia.
Qed.
Lemma cnt_bind_app {A} (f : A → list event) x (l k : list A) : cnt x ((l ++ k) ≫= f) = cnt x (l ≫= f) + cnt x (k ≫= f).
Proof. by rewrite bind_app cnt_app. Qed.

(** ** The vectors *)
(** A step of a column: its type stays; the destructor calls made and still owed afterwards were
    owed before, or are those of the values in [G]. *)
Definition vstep (G : list event) (v v' : uvec) (ev : list event) : Prop :=
  uv_wf v' ∧ uv_ti v' = uv_ti v ∧ ∀ x, cnt x ev + cnt x (owed_vec v') ≤ cnt x (owed_vec v) + cnt x G.
Lemma vstep_refl G v : uv_wf v → vstep G v v [].
Proof. intros H. split; [done|]. split; [done|]. intros x. rewrite cnt_nil. lia. Qed.
Lemma push_vstep v src G : uv_wf v → uv_size v ≤ length src → G = ldrop (ti_drop (uv_ti v)) (take (uv_size v) src) →
  rp (uv_push_raw src) v (λ _ v' ev, vstep G v v' ev) (λ _ v' ev, v' = v ∧ ev = []).
Proof.
  intros Hwf Hsrc ->. pose proof (uv_push_rep v _ src Hwf Hsrc) as Hwp. rewrite /rp /wp in Hwp |- *.
  destruct (uv_push_raw src v) as [a v' e|r v' e| |] eqn:Hp; [|by apply uv_push_panic in Hp as [-> ->]|done..].
  destruct Hwp as (-> & Ht & Hr). split; [by eapply uv_rep_wf|]. split; [done|]. intros x.
  rewrite (owed_vec_rep _ _ Hwf) (owed_vec_rep _ _ Hr) Ht /owed_list cnt_bind_app cnt_nil /= app_nil_r. lia.
Qed.
Lemma swap_remove_vstep bomb v i : uv_wf v →
  rp (uv_swap_remove_b bomb i) v (λ _ v' ev, vstep [] v v' ev) (λ _ v' ev, vstep [] v v' ev).
Proof.
  intros Hwf. rewrite /rp vec_swap_remove_explode. pose proof (owed_swap_remove v i Hwf) as H.
  destruct (uv_swap_remove i v) as [a v' ev|r v' ev| |]; [| |done..]; cbn [explode].
  - destruct H as (H1 & H2 & H3 & _). assert (vstep [] v v' ev) as Hv.
    { split; [done|]. split; [done|]. intros x. rewrite (cnt_perm x _ _ H3) cnt_app. lia. }
    by case_decide.
  - destruct H as (_ & -> & ->). by apply vstep_refl.
Qed.
Lemma owed_zst v : uv_wf v → uv_size v = 0 → owed_vec v = replicate (uv_len v) [] ≫= ldrop (ti_drop (uv_ti v)).
Proof. intros Hwf Hs. by rewrite /owed_vec /vec_values decide_True. Qed.
Lemma move_vstep v o i : uv_wf v → uv_wf o → uv_ti v = uv_ti o →
  match uv_swap_move i (v, o) with
  | Done _ s ev | Panicked _ s ev => total1 v s.1 ∧ total1 o s.2 ∧
      ∀ x, cnt x ev + cnt x (owed_vec s.1) + cnt x (owed_vec s.2) = cnt x (owed_vec v) + cnt x (owed_vec o)
  | _ => False
  end.
Proof.
  intros Hwf Hwfo Heq. assert (ti_layout (uv_ti v) = ti_layout (uv_ti o)) as Hti' by by rewrite Heq.
  assert (ti_eqb (uv_ti v) (uv_ti o) = true) as Hti by by rewrite /ti_eqb bool_decide_true.
  destruct (decide (0 < uv_len v)) as [H0|H0].
  2:{ rewrite /uv_swap_move (bind_done_nil _ _ (v, o) (v, o) (v, o) eq_refl) Hti.
      rewrite (bind_done_nil _ _ (v, o) () (v, o) eq_refl) bool_decide_false //=. }
  destruct (decide (uv_size v = 0)) as [Hs|Hs].
  { assert (uv_size o = 0) as Hso by by rewrite /uv_size -Heq.
    rewrite /uv_swap_move (bind_done_nil _ _ (v, o) (v, o) (v, o) eq_refl) Hti.
    rewrite (bind_done_nil _ _ (v, o) () (v, o) eq_refl) bool_decide_true //.
    rewrite (bind_done_nil _ _ (v, o) () (v, o) eq_refl) (bool_decide_true (uv_size v = 0)) //.
    rewrite (bind_done_nil _ _ (v, o) () (v, o) eq_refl) decide_True //=.
    assert (uv_wf (uv_set_len (uv_len v - 1) v)) as Hw1 by by apply uv_set_len_wf.
    assert (uv_wf (uv_set_len (uv_len o + 1) o)) as Hw2 by by apply uv_set_len_wf.
    split; [by split|]. split; [by split|]. intros x.
    rewrite (owed_zst _ Hw1 Hs) (owed_zst _ Hw2 Hso) (owed_zst v) // (owed_zst o) //=. rewrite -Heq.
    destruct (uv_len v) as [|n]; [lia|]. rewrite Nat.add_1_r. cbn [Nat.sub replicate]. rewrite Nat.sub_0_r. rewrite !bind_cons !cnt_app. lia. }
  destruct (decide (i < length (uv_vals v))) as [Hi|Hi].
  2:{ rewrite uv_swap_move_out //. lia. }
  destruct (lookup_lt_is_Some_2 _ _ Hi) as [x0 Hx]. destruct (vec_swap_remove_some _ _ Hi) as [l' Hl'].
  pose proof (uv_swap_move_rep _ _ _ _ _ _ _ Hwf Hwfo Hti' Hx Hl') as Hwp. rewrite /wp in Hwp.
  destruct (uv_swap_move i (v, o)) as [a s e|r s e| |] eqn:Hm; [| |done..].
  { destruct Hwp as (-> & H1 & H2 & H3 & H4). split; [split; [done|by eapply uv_rep_wf]|]. split; [split; [done|by eapply uv_rep_wf]|].
    intros x. rewrite (owed_vec_rep _ _ H3) (owed_vec_rep _ _ H4) (owed_vec_rep _ _ Hwf) (owed_vec_rep _ _ Hwfo) H1 H2 /owed_list.
    rewrite (cnt_perm x (uv_vals v ≫= _) ((x0 :: l') ≫= ldrop (ti_drop (uv_ti v)))); [|by rewrite (vec_swap_remove_perm _ _ _ _ Hl' Hx)].
    rewrite cnt_bind_app !bind_cons !cnt_app cnt_nil Heq. change ([] ≫= ldrop (ti_drop (uv_ti o))) with (@nil event). rewrite ?cnt_nil. lia. }
  rewrite /uv_swap_move (bind_done_nil _ _ (v, o) (v, o) (v, o) eq_refl) Hti in Hm.
  rewrite (bind_done_nil _ _ (v, o) () (v, o) eq_refl) bool_decide_true // in Hm.
  rewrite (bind_done_nil _ _ (v, o) () (v, o) eq_refl) (bool_decide_false (uv_size v = 0)) // in Hm.
  rewrite uv_len_div // bool_decide_true // in Hm.
  rewrite (bind_done_nil _ _ (v, o) () (v, o) eq_refl) decide_False // in Hm.
  assert (∀ v1 bytes r s e, (do* on_snd (uv_push_raw bytes) in on_fst (modify (uv_set_len (uv_len v - uv_size v)))) (v1, o) = Panicked r s e → s = (v1, o) ∧ e = []) as Hpush.
  { intros v1 bytes r' s' e' [Hp|(a & s1 & e1 & e2 & Hd & Hk & ->)]%bind_panic_inv; [|done].
    rewrite /on_snd /zoom /= in Hp. destruct (uv_push_raw bytes o) as [| r1 o' e1| |] eqn:Hpo; try done.
    apply uv_push_panic in Hpo as [-> ->]. by injection Hp as <- <- <-. }
  case_decide as Hbr.
  - rewrite (uv_read_rep _ _ _ _ Hwf Hx) in Hm. rewrite (bind_done_nil _ _ (v, o) x0 (v, o) eq_refl) in Hm.
    apply Hpush in Hm as [-> ->]. done.
  - destruct (exists_last (l := uv_vals v)) as (l0 & y & Hl0). { intros E. rewrite E /= in Hi. lia. }
    rewrite Hl0 app_length /= in Hbr. assert (i ≠ length l0) as Hne by lia.
    assert (uv_len v - uv_size v = length l0 * uv_size v) as Hts.
    { pose proof Hwf as (_ & Hlen & _)%uv_rep_sized; [|done]. rewrite Hlen Hl0 app_length /=. nia. }
    rewrite Hts in Hm, Hpush. assert (uv_vals v !! length l0 = Some y) as Hy by by rewrite Hl0 lookup_app_r // Nat.sub_diag.
    destruct (uv_swap_rep v _ i (length l0) x0 y Hwf Hs Hne Hx Hy) as (p & Hp & Hrep1).
    rewrite Hp in Hm. rewrite (bind_done_nil _ _ (v, o) p (v, o) eq_refl) in Hm.
    rewrite (bind_done_nil _ _ (v, o) () (uv_set_data p (uv_cap v) v, o) eq_refl) in Hm.
    destruct (mem_read p _ _) as [bytes|] eqn:Hread; [|done].
    rewrite (bind_done_nil _ _ (uv_set_data p (uv_cap v) v, o) bytes _ eq_refl) in Hm.
    apply Hpush in Hm as [-> ->]. split; [split; [done|by eapply uv_rep_wf]|]. split; [done|]. intros x. cbn [fst snd].
    rewrite (owed_vec_rep _ _ Hrep1) (owed_vec_rep _ _ Hwf) /owed_list. change (uv_ti (uv_set_data p (uv_cap v) v)) with (uv_ti v).
    pose proof (cnt_bind_insert (ldrop (ti_drop (uv_ti v))) x _ _ _ y Hx) as E1.
    assert (<[i := y]> (uv_vals v) !! length l0 = Some y) as Hy' by by rewrite list_lookup_insert_ne.
    pose proof (cnt_bind_insert (ldrop (ti_drop (uv_ti v))) x _ _ _ x0 Hy') as E2. rewrite cnt_nil. lia.
Qed.
