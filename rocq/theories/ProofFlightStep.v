(** * Histories with iterators in flight *)
From Verif Require Import ProofBase SpecSmall World Query History ProofEntities ProofBitset ProofArrayVec ProofUVec.
From Verif Require Export ProofFlight.

(** *** Rows in the hands of the caller are rows of the open query *)
Lemma on_course_iter w q fl : on_course w q fl →
  match fl, q with
  | FlRows it seen, QDyn q => iter_dyn q (length seen) w = Done seen w [] ∧
      iter_dyn q (S (length seen)) w = match di_next it w with
        | Done (o, _) w' ev => Done (seen ++ [o]) w' ev | Panicked r w' ev => Panicked r w' ev | Deadlock => Deadlock | UB => UB end
  | FlCols it seen, QDyn q => iter_cols q (length seen) w = Done seen w [] ∧
      iter_cols q (S (length seen)) w = match ci_next it w with
        | Done (o, _) w' ev => Done (seen ++ [o]) w' ev | Panicked r w' ev => Panicked r w' ev | Deadlock => Deadlock | UB => UB end
  | FlRefs it seen, QStat q => ∃ rs, row_ptrs <$> rs = seen ∧ iter_static q (length seen) w = Done rs w [] ∧
      iter_static q (S (length seen)) w = match si_next it w with
        | Done (o, _) w' ev => Done (rs ++ [o]) w' ev | Panicked r w' ev => Panicked r w' ev | Deadlock => Deadlock | UB => UB end
  | _, _ => False
  end.
Proof.
  destruct fl as [it seen|it seen|it seen], q as [q|q]; try done; cbn [on_course].
  - intros (it0 & H1 & H2). pose proof (run_snoc di_next di_run eq alike_di_next' (λ _, eq_refl) (λ _ _, eq_refl) _ _ _ _ _ H2) as H3.
    rewrite /iter_dyn !(bind_done_nil _ _ _ _ _ H1) (bind_done_nil _ _ _ _ _ H2). split; [done|]. rewrite /bind H3.
    destruct (di_next it w) as [[o it'] w' ev| | |]; [|done..]. cbn. by rewrite app_nil_r.
  - intros (it0 & H1 & H2). pose proof (run_snoc ci_next ci_run eq alike_ci_next' (λ _, eq_refl) (λ _ _, eq_refl) _ _ _ _ _ H2) as H3.
    rewrite /iter_cols !(bind_done_nil _ _ _ _ _ H1) (bind_done_nil _ _ _ _ _ H2). split; [done|]. rewrite /bind H3.
    destruct (ci_next it w) as [[o it'] w' ev| | |]; [|done..]. cbn. by rewrite app_nil_r.
  - intros (it0 & rs & H1 & H2 & Hrs). pose proof (run_snoc si_next si_run _ alike_si_next (λ _, eq_refl) (λ _ _, eq_refl) _ _ _ _ _ H2) as H3.
    exists rs. split; [done|]. rewrite /iter_static !(bind_done_nil _ _ _ _ _ H1) (bind_done_nil _ _ _ _ _ H2). split; [done|]. rewrite /bind H3.
    destruct (si_next it w) as [[o it'] w' ev| | |]; [|done..]. cbn. by rewrite app_nil_r.
Qed.
Lemma calls_some {A} N (l : list A) n x : calls N l !! n = Some (Some x) → l !! n = Some x.
Proof. intros H. pose proof (lookup_lt_Some _ _ _ H) as Hlt. rewrite calls_length in Hlt. rewrite (calls_lookup N l n Hlt) in H. congruence. Qed.
Lemma mjoin_last_take {A} n (l : list (option A)) x : l !! n = Some x → mjoin (last (take (S n) l)) = x.
Proof. intros H. by rewrite (last_take_S _ _ _ H). Qed.
Lemma on_course_rows w q it seen n ps : on_course w (QDyn q) (FlRows it seen) → seen !! n = Some (Some ps) → query_item (QDyn q) n w = Done (Some ps) w [].
Proof.
  intros (it0 & H1 & H2) Hn. pose proof (lookup_lt_Some _ _ _ Hn) as Hlt.
  destruct (run_take di_next di_run eq alike_di_next' (λ _, eq_refl) (λ _ _, eq_refl) _ (S n) _ _ _ _ H2) as (it' & H3); [lia|].
  cbn [query_item]. rewrite (bind_done_nil _ _ _ _ _ H1) (bind_done_nil _ _ _ _ _ H3). rewrite (mjoin_last_take _ _ _ Hn). done.
Qed.
Lemma on_course_refs w q it seen n ps : on_course w (QStat q) (FlRefs it seen) → seen !! n = Some (Some ps) → query_item (QStat q) n w = Done (Some ps) w [].
Proof.
  intros (it0 & rs & H1 & H2 & Hrs) Hn. pose proof (lookup_lt_Some _ _ _ Hn) as Hlt.
  destruct (run_take si_next si_run _ alike_si_next (λ _, eq_refl) (λ _ _, eq_refl) _ (S n) _ _ _ _ H2) as (it' & H3); [lia|].
  cbn [query_item]. rewrite (bind_done_nil _ _ _ _ _ H1) (bind_done_nil _ _ _ _ _ H3).
  rewrite -Hrs list_lookup_fmap in Hn. destruct (rs !! n) as [o|] eqn:Ho; [|done]. cbn in Hn. injection Hn as Hn.
  rewrite (mjoin_last_take _ _ _ Ho). by rewrite /ret -Hn.
Qed.
Lemma ci_next_some w R it col it' : winv w R → ci_next it w = Done (Some col, it') w [] →
  ∃ k a, w_archs w !! k = Some a ∧ matching (ci_fetches it) a.
Proof.
  intros Hw. rewrite /ci_next /bind. 
  destruct (arch_next (ci_arch it) w) as [[[[k a]|] b] w1 ev|r w1 ev| |] eqn:Hn; try done.
  assert (w1 = w ∧ w_archs w !! k = Some a) as [-> Ha].
  { revert Hn. rewrite /arch_next. destruct (bi_next (ci_arch it)) as [[[k'|] b']|]; [|done..].
    rewrite /bind /get_arch /bind /=. destruct (w_archs w !! k') as [a'|] eqn:Ha'; [|done]. cbn. intros [= <- <- _ <- _]. done. }
  destruct (create_ptrs_run _ _ Hw k a (ci_fetches it) Ha) as [[Hm Hc]|[Hm Hc]]; rewrite Hc; [|done]. eauto.
Qed.
Lemma ci_next_fetches it w o it' w' ev : ci_next it w = Done (o, it') w' ev → ci_fetches it' = ci_fetches it.
Proof.
  rewrite /ci_next /bind. destruct (arch_next (ci_arch it) w) as [[[[k a]|] b] w1 ev1|r w1 ev1| |]; try done.
  - destruct (create_ptrs k a (ci_fetches it) w1); try done. cbn. by intros [= _ <- _ _].
  - cbn. by intros [= _ <- _ _].
Qed.
Lemma ci_run_some w R n it rs it' col : winv w R → ci_run n it w = Done (rs, it') w [] → Some col ∈ rs →
  ∃ k a, w_archs w !! k = Some a ∧ matching (ci_fetches it) a.
Proof.
  intros Hw. revert it rs. induction n as [|n IH]; intros it rs H Hin.
  - injection H as <- _. by apply elem_of_nil in Hin.
  - apply (run_inv ci_next ci_run eq alike_ci_next' (λ _ _, eq_refl)) in H as (r & rs' & it1 & -> & H1 & H).
    apply elem_of_cons in Hin as [<-|Hin]; [by eapply ci_next_some|].
    rewrite -(ci_next_fetches _ _ _ _ _ _ H1). by eapply IH.
Qed.
Lemma dq_column_iter_fetches q w it w' ev : dq_column_iter q w = Done it w' ev → ci_fetches it = dq_fetches q.
Proof. rewrite /dq_column_iter /bind. destruct (dq_arch_iter q w); [|done..]. cbn. by intros [= <- _ _]. Qed.

Lemma held_cols s i q it seen n col : reachable s → ss_open s !! i = Some (Some (QDyn q)) → on_course (ss_world s) (QDyn q) (FlCols it seen) →
  seen !! n = Some (Some col) → dq_fetches q ≠ [] →
  all_in_use (ss_world s) (dq_fetches q) ∧
  ∃ cols, cols !! n = Some col ∧ even_column col ∧
    ∀ N, query_item (QDyn q) N (ss_world s) = Done ((cols ≫= column_rows (ss_world s) (dq_fetches q)) !! N) (ss_world s) [].
Proof.
  intros Hre Hi Hon Hn Hne. pose proof (reachable_inv _ Hre) as Hs. destruct (sv_world _ Hs) as [[R Hw] Hroom].
  pose proof Hon as (it0 & H1 & H2). destruct (ci_run_some _ _ _ _ _ _ col Hw H2) as (k & a & Ha & Hm); [by eapply elem_of_list_lookup_2|].
  rewrite (dq_column_iter_fetches _ _ _ _ _ H1) in Hm.
  assert (all_in_use (ss_world s) (dq_fetches q)) as Hu.
  { apply (ready_in_use _ _ _ Hw). intros f c Hf Hc. exists k, a. split; [done|]. by eapply Hm. }
  split; [done|]. destruct (open_columns s i q Hre Hi Hne) as (cols & Hev & Hc & Hd); [by intros [_ ?]|].
  exists cols. destruct (on_course_iter _ _ _ Hon) as [Hseen _]. rewrite Hc in Hseen. injection Hseen as Hseen.
  assert (cols !! n = Some col) as Hcol.
  { rewrite -Hseen in Hn. by eapply calls_some. }
  split; [done|]. split; [by eapply Forall_lookup_1|]. intros N. rewrite query_item_dyn Hd calls_nth. done.
Qed.
(** The row of a fresh iteration that a row in the hands of the caller is. *)
Lemma held_open f i : reachable (fs_sess f) → finv f →
  ∃ pos : nat → nat → nat, (∀ n r fs ps, fs ≠ [] → held_row f i n r fs ps → open_row (fs_sess f) i fs (pos n r) ps) ∧
    ∀ n r fs ps n' r' fs' ps', fs ≠ [] → held_row f i n r fs ps → held_row f i n' r' fs' ps' → (n, r) ≠ (n', r') → pos n r ≠ pos n' r'.
Proof.
  intros Hre Hfv. destruct (fs_iters f !! i) as [fl|] eqn:Hfl.
  2:{ exists (λ _ _, 0). split; intros n r fs ps; [intros _ (q & fl & _ & _ & ? & _); congruence|intros ? ? ? ? _ (q & fl & _ & _ & ? & _); congruence]. }
  destruct (Hfv i fl Hfl) as (q & Hi & Hon). destruct fl as [it seen|it seen|it seen], q as [q|q]; try done.
  - exists (λ n _, n). split.
    + intros n r fs ps _ (q' & fl & Hi' & Hfs & Hfl' & Hx). simplify_eq. destruct Hx as [-> Hn]. exists (QDyn q). split_and!; [done..|]. by eapply on_course_rows.
    + intros n r fs ps n' r' fs' ps' _ (q' & fl & Hi' & Hfs & Hfl' & Hx) (q'' & fl' & Hi'' & Hfs' & Hfl'' & Hx'). simplify_eq.
      destruct Hx as [-> _], Hx' as [-> _]. congruence.
  - destruct (list_eq_nil_dec (dq_fetches q)) as [Hnil|Hne].
    { exists (λ _ _, 0). split; intros n r fs ps.
      - intros Hn (q' & fl & Hi' & Hfs & _). simplify_eq. cbn in Hfs. congruence.
      - intros n' r' fs' ps' Hn (q' & fl & Hi' & Hfs & _). simplify_eq. cbn in Hfs. congruence. }
    assert (∃ cols, (∀ n col, seen !! n = Some (Some col) → cols !! n = Some col) ∧
      ((∃ n col, seen !! n = Some (Some col)) → ∀ N, query_item (QDyn q) N (ss_world (fs_sess f)) = Done ((cols ≫= column_rows (ss_world (fs_sess f)) (dq_fetches q)) !! N) (ss_world (fs_sess f)) []))
      as (cols & Hcols & Hit).
    { destruct (decide (Exists is_Some seen)) as [Hex|Hnex].
      - apply Exists_exists in Hex as (o & [n Hn]%elem_of_list_lookup & [col ->]).
        destruct (held_cols _ _ _ _ _ _ _ Hre Hi Hon Hn Hne) as (Hu & _).
        destruct (open_columns _ _ q Hre Hi Hne) as (cols & Hev & Hc & Hd); [by intros [_ ?]|]. exists cols.
        destruct (on_course_iter _ _ _ Hon) as [Hseen _]. rewrite Hc in Hseen. injection Hseen as Hseen. split.
        + intros n' col' Hn'. rewrite -Hseen in Hn'. by eapply calls_some.
        + intros _ N. rewrite query_item_dyn Hd calls_nth. done.
      - exists []. split.
        + intros n col Hn. exfalso. apply Hnex, Exists_exists. exists (Some col). split; [by eapply elem_of_list_lookup_2|eauto].
        + intros (n & col & Hn). exfalso. apply Hnex, Exists_exists. exists (Some col). split; [by eapply elem_of_list_lookup_2|eauto]. }
    exists (λ n r, offset (column_rows (ss_world (fs_sess f)) (dq_fetches q)) cols n + r). split.
    + intros n r fs ps _ (q' & fl & Hi' & Hfs & Hfl' & Hx). simplify_eq. injection Hfs as <-. destruct Hx as (col & Hn & Hr). exists (QDyn q). split_and!; [done..|].
      rewrite Hit; [|eauto]. by rewrite (offset_lookup _ _ _ _ _ _ (Hcols _ _ Hn) Hr).
    + intros n r fs ps n' r' fs' ps' _ (q' & fl & Hi' & Hfs & Hfl' & Hx) (q'' & fl' & Hi'' & Hfs' & Hfl'' & Hx'). simplify_eq.
      injection Hfs as <-. destruct Hx as (col & Hn & Hr), Hx' as (col' & Hn' & Hr').
      by apply (offset_inj _ _ _ _ _ _ _ _ _ _ (Hcols _ _ Hn) Hr (Hcols _ _ Hn') Hr').
  - exists (λ n _, n). split.
    + intros n r fs ps _ (q' & fl & Hi' & Hfs & Hfl' & Hx). simplify_eq. destruct Hx as [-> Hn]. exists (QStat q). split_and!; [done..|]. by eapply on_course_refs.
    + intros n r fs ps n' r' fs' ps' _ (q' & fl & Hi' & Hfs & Hfl' & Hx) (q'' & fl' & Hi'' & Hfs' & Hfl'' & Hx'). simplify_eq.
      destruct Hx as [-> _], Hx' as [-> _]. congruence.
Qed.
