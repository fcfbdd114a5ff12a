(** * Iterators kept across other calls *)
From Verif Require Import ProofBase SpecSmall World Query History ProofEntities ProofBitset ProofArrayVec ProofUVec.
From Verif Require Export ProofShape SpecFlight.

(** *** Calling [next] again and again *)
Section runs.
  Context {I A : Type} (next : I → M world (A * I)) (run : nat → I → M world (list A * I)).
  Context (R : A → A → Prop) (Hnext : ∀ it, alike (λ x y, R x.1 y.1 ∧ x.2 = y.2) (next it) (next it)).
  Context (run_0 : ∀ it, run 0 it = ret ([], it)).
  Context (run_S : ∀ n it, run (S n) it = let* '(r, it') := next it in let* '(rs, it'') := run n it' in ret (r :: rs, it'')).

  Lemma alike_run n it : alike (λ x y, Forall2 R x.1 y.1 ∧ x.2 = y.2) (run n it) (run n it).
  Proof using run_S run_0 Hnext.
    revert it. induction n as [|n IH]; intros it.
    - rewrite run_0. apply alike_ret. split; [constructor|done].
    - rewrite run_S. eapply alike_bind; [apply Hnext|]. intros [r i1] [r' i1'] [Hr Hi]. cbn in Hr, Hi. subst i1'.
      eapply alike_bind; [apply IH|]. intros [rs i2] [rs' i2'] [Hrs Hi]. cbn in Hrs, Hi. subst i2'. apply alike_ret. split; [by constructor|done].
  Qed.
  Lemma next_pure it w : match next it w with Done _ w' _ | Panicked _ w' _ => w' = w | _ => True end.
  Proof using Hnext. pose proof (Hnext it w w (shape_refl w)) as H. destruct (next it w); naive_solver. Qed.
  Lemma run_inv n it w rs it' : run (S n) it w = Done (rs, it') w [] →
    ∃ r rs' it1, rs = r :: rs' ∧ next it w = Done (r, it1) w [] ∧ run n it1 w = Done (rs', it') w [].
  Proof using run_S Hnext.
    rewrite run_S /bind. pose proof (next_pure it w) as Hp. destruct (next it w) as [[r it1] w1 ev|r w1 ev| |]; [|done..]. subst w1.
    destruct (run n it1 w) as [[rs' it2] w2 ev2|r' w2 ev2| |] eqn:Hr; [|done..]. cbn. intros [= <- <- -> Hev].
    rewrite app_nil_r in Hev. apply app_eq_nil in Hev as [-> ->]. exists r, rs', it1. done.
  Qed.
  Lemma run_step n it w r it1 : next it w = Done (r, it1) w [] →
    run (S n) it w = match run n it1 w with Done (rs, it') w' ev => Done (r :: rs, it') w' ev | Panicked x w' ev => Panicked x w' ev | Deadlock => Deadlock | UB => UB end.
  Proof using run_S.
    intros H. rewrite run_S (bind_done_nil _ _ _ _ _ H) /bind. destruct (run n it1 w) as [[rs it2] w2 ev| | |]; [|done..]. cbn. by rewrite app_nil_r.
  Qed.
  Lemma run_length n it w rs it' : run n it w = Done (rs, it') w [] → length rs = n.
  Proof using run_S run_0 Hnext.
    revert it rs. induction n as [|n IH]; intros it rs H; [rewrite run_0 in H; by injection H as <- _|].
    apply run_inv in H as (r & rs' & it1 & -> & _ & H). cbn. f_equal. by eapply IH.
  Qed.
  Lemma run_snoc n it w rs it' : run n it w = Done (rs, it') w [] →
    run (S n) it w = match next it' w with
                     | Done (r, it'') w' ev => Done (rs ++ [r], it'') w' ev
                     | Panicked x w' ev => Panicked x w' ev | Deadlock => Deadlock | UB => UB end.
  Proof using run_S run_0 Hnext.
    revert it rs. induction n as [|n IH]; intros it rs H.
    - rewrite run_0 in H. injection H as <- <-. rewrite run_S /bind. destruct (next it w) as [[r it1] w1 ev| | |]; [|done..].
      rewrite run_0. cbn. by rewrite app_nil_r.
    - apply run_inv in H as (r & rs' & it1 & -> & H1 & H). rewrite (run_step _ _ _ _ _ H1) (IH _ _ H).
      by destruct (next it' w) as [[r' it''] w' ev| | |].
  Qed.
  Lemma run_take n m it w rs it' : run n it w = Done (rs, it') w [] → m ≤ n → ∃ it'', run m it w = Done (take m rs, it'') w [].
  Proof using run_S run_0 Hnext.
    revert m it rs. induction n as [|n IH]; intros m it rs H Hm.
    - assert (m = 0) as -> by lia. rewrite run_0. exists it. done.
    - destruct m as [|m]; [rewrite run_0; by exists it|]. apply run_inv in H as (r & rs' & it1 & -> & H1 & H).
      destruct (IH m it1 rs' H) as (it'' & Hr); [lia|]. rewrite (run_step _ _ _ _ _ H1) Hr. by exists it''.
  Qed.
End runs.
Lemma eq_split {A B} : ∀ x y : A * B, x = y → x.1 = y.1 ∧ x.2 = y.2.
Proof. by intros x _ <-. Qed.
Lemma alike_di_next' it : alike (λ x y, x.1 = y.1 ∧ x.2 = y.2) (di_next it) (di_next it).
Proof. eapply alike_weaken; [apply eq_split|apply alike_di_next]. Qed.
Lemma alike_ci_next' it : alike (λ x y, x.1 = y.1 ∧ x.2 = y.2) (ci_next it) (ci_next it).
Proof. eapply alike_weaken; [apply eq_split|apply alike_ci_next]. Qed.
Definition rows_alike n it := alike_run di_next di_run eq alike_di_next' (λ _, eq_refl) (λ _ _, eq_refl) n it.
Definition cols_alike n it := alike_run ci_next ci_run eq alike_ci_next' (λ _, eq_refl) (λ _ _, eq_refl) n it.
Definition refs_alike n it := alike_run si_next si_run (option_Forall2 same_ptrs) alike_si_next (λ _, eq_refl) (λ _ _, eq_refl) n it.

(** *** An iterator in flight is one that could have been started just now *)
Definition on_course (w : world) (q : oquery) (fl : flight) : Prop :=
  match fl, q with
  | FlRows it seen, QDyn q => ∃ it0, dq_iter q w = Done it0 w [] ∧ di_run (length seen) it0 w = Done (seen, it) w []
  | FlCols it seen, QDyn q => ∃ it0, dq_column_iter q w = Done it0 w [] ∧ ci_run (length seen) it0 w = Done (seen, it) w []
  | FlRefs it seen, QStat q => ∃ it0 rs, sq_iter q w = Done it0 w [] ∧ si_run (length seen) it0 w = Done (rs, it) w [] ∧ row_ptrs <$> rs = seen
  | _, _ => False
  end.
Lemma alike_eq_done {A} (R : A → A → Prop) (m m' : M world A) w w' a : alike R m m' → shape w w' → m w = Done a w [] → ∃ a', R a a' ∧ m' w' = Done a' w' [].
Proof. intros H Hs Hm. specialize (H w w' Hs). rewrite Hm in H. destruct (m' w'); naive_solver. Qed.
Lemma Forall2_eq_list {A} (l l' : list A) : Forall2 eq l l' → l = l'.
Proof. induction 1; by subst. Qed.
Lemma on_course_shape w w' q fl : shape w w' → on_course w q fl → on_course w' q fl.
Proof.
  intros Hs. destruct fl as [it seen|it seen|it seen], q as [q|q]; try done; cbn [on_course].
  - intros (it0 & H1 & H2). destruct (alike_eq_done _ _ _ _ _ _ (alike_dq_iter q) Hs H1) as (_ & <- & H1').
    destruct (alike_eq_done _ _ _ _ _ _ (rows_alike _ _) Hs H2) as ([seen' it'] & [H3%Forall2_eq_list H4] & H2'). cbn in H3, H4. subst. eauto.
  - intros (it0 & H1 & H2). destruct (alike_eq_done _ _ _ _ _ _ (alike_dq_column_iter q) Hs H1) as (_ & <- & H1').
    destruct (alike_eq_done _ _ _ _ _ _ (cols_alike _ _) Hs H2) as ([seen' it'] & [H3%Forall2_eq_list H4] & H2'). cbn in H3, H4. subst. eauto.
  - intros (it0 & rs & H1 & H2 & Hrs). destruct (alike_eq_done _ _ _ _ _ _ (alike_sq_iter q) Hs H1) as (_ & <- & H1').
    destruct (alike_eq_done _ _ _ _ _ _ (refs_alike _ _) Hs H2) as ([rs' it'] & [H3 H4] & H2'). cbn in H3, H4. subst it'. exists it0, rs'.
    split_and!; [done..|]. rewrite -Hrs. clear -H3. induction H3 as [|x y l l' Hxy _ IH]; [done|]. rewrite !fmap_cons IH. f_equal.
    destruct Hxy as [a b Hab|]; [|done]. cbn. by rewrite /same_ptrs in Hab; rewrite Hab.
Qed.
Definition finv (f : fsess) : Prop :=
  ∀ i fl, fs_iters f !! i = Some fl → ∃ q, ss_open (fs_sess f) !! i = Some (Some q) ∧ on_course (ss_world (fs_sess f)) q fl.

(** *** The calls of [History] keep the shape while queries are open *)
Lemma reachable_done s o r s' ev : reachable s → sop_legal o s → sop_tame o s → sstep o s = Done r s' ev → reachable s'.
Proof. intros [l Hl] H1 H2 H3. eexists. by eapply steps_done. Qed.
Lemma reachable_panic s o r s' ev : reachable s → sop_legal o s → sop_tame o s → sstep o s = Panicked r s' ev → resumable r → reachable s'.
Proof. intros [l Hl] H1 H2 H3 H4. eexists. by eapply steps_panic. Qed.
Definition undisturbed (o : sop) (s s' : sess) : Prop :=
  ∀ i q, uses o ≠ Some i → ss_open s !! i = Some (Some q) → shape (ss_world s) (ss_world s') ∧ ss_open s' !! i = Some (Some q).
Lemma undisturbed_locks o s ls l : (∀ i q, uses o ≠ Some i → ss_open s !! i = Some (Some q) → l !! i = Some (Some q)) →
  undisturbed o s (Sess (set_locks ls (ss_world s)) l).
Proof. intros H i q Hu Hi. split; [apply shape_locks|by apply H]. Qed.
Lemma sstore_shape s i n j v :
  match sstep (SStore i n j v) s with Done _ s' _ | Panicked _ s' _ => shape (ss_world s) (ss_world s') ∧ ss_open s' = ss_open s | _ => True end.
Proof.
  cbn [sstep]. rewrite (bind_done_nil _ _ s s s eq_refl). assert (shape (ss_world s) (ss_world s) ∧ ss_open s = ss_open s) as Hsame by (split; [apply shape_refl|done]).
  destruct (ss_open s !! i) as [[q|]|] eqn:Hi; [|done..].
  rewrite {1}/bind in_sworld_run. 
  assert (match query_item q n (ss_world s) with Done _ w' _ | Panicked _ w' _ => w' = ss_world s | _ => True end) as Hp.
  { destruct q as [q|q].
    - rewrite query_item_dyn. assert (alike eq (iter_dyn q (S n)) (iter_dyn q (S n))) as Ha.
      { eapply (alike_bind eq); [apply alike_dq_iter|]. intros it _ <-. eapply alike_bind; [apply rows_alike|].
        intros [x ?] [y ?] [Hxy%Forall2_eq_list _]. by apply alike_ret. }
      specialize (Ha _ _ (shape_refl (ss_world s))). destruct (iter_dyn q (S n) (ss_world s)); naive_solver.
    - rewrite query_item_static. assert (alike (Forall2 (option_Forall2 same_ptrs)) (iter_static q (S n)) (iter_static q (S n))) as Ha.
      { eapply (alike_bind eq); [apply alike_sq_iter|]. intros it _ <-. eapply alike_bind; [apply refs_alike|].
        intros [x ?] [y ?] [Hxy _]. by apply alike_ret. }
      specialize (Ha _ _ (shape_refl (ss_world s))). destruct (iter_static q (S n) (ss_world s)); naive_solver. }
  destruct (query_item q n (ss_world s)) as [o w' ev|r w' ev| |]; [| |done..]; subst w'; rewrite sess_eta.
  2:{ done. }
  destruct (o ≫= (.!! j)) as [p|]; [|done]. rewrite /bind in_sworld_run. pose proof (shape_store p v (ss_world s)) as Hst.
  destruct (ptr_store p v (ss_world s)); [| |done..]; cbn; (split; [exact Hst|done]).
Qed.
Lemma sstep_undisturbed o s : sinv s → sop_legal o s →
  match sstep o s with Done _ s' _ | Panicked _ s' _ => undisturbed o s s' | _ => True end.
Proof.
  intros Hs Hleg. destruct o as [o|fs|ps|i u|i|i n j v]; cbn [sstep].
  - destruct Hleg as [Hleg Hnone]. rewrite /bind in_sworld_run. destruct Hnone as [Hsh|Hnone].
    + pose proof (shared_step o (ss_world s) Hsh) as Hss. destruct (step o (ss_world s)) as [r w' ev|r w' ev| |]; [| |done..];
        destruct Hss as [-> ->]; cbn; intros i q _ Hi; (split; [apply shape_refl|done]).
    + destruct (step o (ss_world s)) as [r w' ev|r w' ev| |]; [| |done..]; cbn; intros i q _ Hi; eapply Forall_lookup_1 in Hnone; try done; done.
  - rewrite /open_query {1}/bind in_sworld_run {1}/bind. destruct (sv_locks _ Hs) as [F HF].
    pose proof (dq_new_run (ss_world s) _ fs (λ c i, sinv_lock_lt s c i Hs) HF) as H.
    destruct (dq_new fs (ss_world s)) as [q w' ev|r w' ev| |]; [| |done..]; cbn.
    + destruct H as (_ & _ & _ & _ & _ & _ & _ & ls & -> & _). apply undisturbed_locks. intros i q' _ Hi. by apply lookup_app_l_Some.
    + destruct H as (_ & _ & _ & ls & -> & _). by apply undisturbed_locks.
  - rewrite /open_query {1}/bind in_sworld_run {1}/bind. destruct (sv_locks _ Hs) as [F HF].
    pose proof (sq_new_run (ss_world s) _ ps (λ c i, sinv_lock_lt s c i Hs) HF) as H.
    destruct (sq_new ps (ss_world s)) as [q w' ev|r w' ev| |]; [| |done..]; cbn.
    + destruct H as (_ & _ & _ & _ & _ & _ & ls & -> & _). apply undisturbed_locks. intros i q' _ Hi. by apply lookup_app_l_Some.
    + destruct H as (_ & _ & _ & ls & -> & _). by apply undisturbed_locks.
  - rewrite (bind_done_nil _ _ s s s eq_refl). assert (undisturbed (SDrop i u) s s) as Hsame by (intros ???; by split; [apply shape_refl|]).
    destruct (ss_open s !! i) as [[q|]|] eqn:Hi; [|done..]. cbn.
    destruct (release_all_locks u (oq_guards q) (ss_world s)) as (ls & -> & _). apply undisturbed_locks.
    intros i' q' Hu Hi'. rewrite list_lookup_insert_ne; [done|]. cbn in Hu. congruence.
  - cbn. intros i' q' Hu Hi'. split; [apply shape_refl|]. cbn in *. rewrite list_lookup_insert_ne; [done|]. congruence.
  - pose proof (sstore_shape s i n j v) as H. cbn [sstep] in H.
    match goal with |- match ?x with _ => _ end => destruct x end; [| |done..]; destruct H as [H1 H2]; intros i' q' _ Hi'; rewrite H2; done.
Qed.
