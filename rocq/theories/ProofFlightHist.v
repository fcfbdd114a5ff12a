(** * Iterators in flight: the properties *)
From Verif Require Import ProofBase SpecSmall World Query History ProofEntities ProofBitset ProofArrayVec ProofUVec ProofKnown.
From Verif Require Export ProofFlightLaws.

Lemma fsteps_ok l f0 f : fok f0 → fsteps f0 l f → fok f.
Proof.
  intros H0. induction 1 as [|f0 l f1 o r f2 ev Hst IH Hleg Htame Hrun|f0 l f1 o r f2 ev Hst IH Hleg Htame Hrun Hres]; [done|..].
  - pose proof (fstep_ok o f1 (IH H0) Hleg Htame) as H. by rewrite Hrun in H.
  - pose proof (fstep_ok o f1 (IH H0) Hleg Htame) as H. rewrite Hrun in H. by apply H.
Qed.
Lemma fnew_ok : fok fsess_new.
Proof. split; [exists []; constructor|]. intros i fl H. by rewrite lookup_empty in H. Qed.
Lemma freachable_ok f : freachable f → fok f.
Proof. intros [l Hl]. eapply fsteps_ok; [exact fnew_ok|done]. Qed.
Lemma freachable_reachable f : freachable f → reachable (fs_sess f).
Proof. intros H. apply (freachable_ok _ H). Qed.
Lemma reachable_freachable s : reachable s → freachable (FSess s ∅).
Proof.
  intros [l Hl]. cut (∃ l', fsteps (FSess sess_new ∅) l' (FSess s ∅)); [done|].
  induction Hl as [s|s0 l s1 o r s2 ev _ [l' IH] Hleg Htame Hrun|s0 l s1 o r s2 ev _ [l' IH] Hleg Htame Hrun Hres].
  - exists []. constructor.
  - eexists. eapply (fsteps_done _ _ _ (FCall o)); [exact IH|exact Hleg|exact Htame|]. rewrite fcall_run. cbn [fs_sess]. rewrite Hrun.
    f_equal. f_equal. destruct (uses o); [apply delete_empty|done].
  - eexists. eapply (fsteps_panic _ _ _ (FCall o)); [exact IH|exact Hleg|exact Htame| |exact Hres]. rewrite fcall_run. cbn [fs_sess]. rewrite Hrun.
    f_equal. f_equal. destruct (uses o); [apply delete_empty|done].
Qed.
Lemma flights_defined f o : freachable f → fop_legal o f → fop_tame o f →
  match fstep o f with
  | UB => False
  | Deadlock => ∃ o', o = FCall o' ∧ opens o'
  | _ => True
  end.
Proof. intros H Hl Ht. pose proof (fstep_ok o f (freachable_ok _ H) Hl Ht) as Hx. by destruct (fstep o f). Qed.

(** *** Starting *)
Lemma flight_start f i q : freachable f → ss_open (fs_sess f) !! i = Some (Some q) →
  match fstep (FIter i) f with
  | Done r f' ev => r = FNothing ∧ ev = [] ∧
      ∃ fl, f' = answered f i fl ∧ match q, fl with QDyn _, FlRows _ seen | QStat _, FlRefs _ seen => seen = [] | _, _ => False end
  | Panicked r f' ev => f' = ended f i ∧ ev = [] ∧ ∃ fs, oq_fetches (ss_world (fs_sess f)) q = Some fs ∧ left_over (ss_world (fs_sess f)) fs
  | _ => False
  end.
Proof.
  intros [Hre Hfv]%freachable_ok Hi.
  cbn [fstep]. rewrite (bind_done_nil _ _ f () (ended f i) eq_refl) (bind_done_nil _ _ (ended f i) (ended f i) (ended f i) eq_refl). cbn [fs_sess ended].
  rewrite Hi. destruct q as [q|q].
  - pose proof (open_dyn_fused _ _ q 0 Hre Hi) as Hf. rewrite /iter_dyn in Hf.
    assert (match dq_iter q (ss_world (fs_sess f)) with Done _ w ev => w = ss_world (fs_sess f) ∧ ev = []
      | Panicked _ w ev => w = ss_world (fs_sess f) ∧ ev = [] ∧ left_over (ss_world (fs_sess f)) (dq_fetches q) | _ => False end) as Hp.
    { pose proof (alike_pure _ _ (ss_world (fs_sess f)) (alike_dq_iter q)) as Ha. rewrite /bind in Hf.
      destruct (dq_iter q (ss_world (fs_sess f))); [|naive_solver|done..]. cbn in Hf. subst. rewrite app_nil_r in Hf. naive_solver. }
    rewrite {1}/bind in_fworld_pure; [|cbn; destruct (dq_iter q _); naive_solver]. cbn [fs_sess ended].
    destruct (dq_iter q (ss_world (fs_sess f))) as [it w ev|r w ev| |]; [| |done..]; cbn.
    + rewrite fly_delete. split_and!; [done..|]. by eexists.
    + destruct Hp as (_ & _ & Hl). eauto.
  - pose proof (open_static_fused _ _ q 0 Hre Hi) as Hf. rewrite /iter_static in Hf.
    assert (match sq_iter q (ss_world (fs_sess f)) with Done _ w ev => w = ss_world (fs_sess f) ∧ ev = []
      | Panicked _ w ev => w = ss_world (fs_sess f) ∧ ev = [] ∧ ∃ fs, sq_fetches q = Some fs ∧ left_over (ss_world (fs_sess f)) fs | _ => False end) as Hp.
    { pose proof (alike_pure _ _ (ss_world (fs_sess f)) (alike_sq_iter q)) as Ha. rewrite /bind in Hf.
      destruct (sq_iter q (ss_world (fs_sess f))); [|naive_solver|done..]. cbn in Hf. subst. rewrite app_nil_r in Hf. naive_solver. }
    rewrite {1}/bind in_fworld_pure; [|cbn; destruct (sq_iter q _); naive_solver]. cbn [fs_sess ended].
    destruct (sq_iter q (ss_world (fs_sess f))) as [it w ev|r w ev| |]; [| |done..]; cbn.
    + rewrite fly_delete. split_and!; [done..|]. by eexists.
    + destruct Hp as (_ & _ & Hl). eauto.
Qed.
Lemma flight_start_columns f i q : freachable f → ss_open (fs_sess f) !! i = Some (Some (QDyn q)) →
  match fstep (FColumns i) f with
  | Done r f' ev => r = FNothing ∧ ev = [] ∧ ∃ it, f' = answered f i (FlCols it [])
  | Panicked r f' ev => f' = ended f i ∧ ev = [] ∧ left_over (ss_world (fs_sess f)) (dq_fetches q)
  | _ => False
  end.
Proof.
  intros [Hre Hfv]%freachable_ok Hi.
  cbn [fstep]. rewrite (bind_done_nil _ _ f () (ended f i) eq_refl) (bind_done_nil _ _ (ended f i) (ended f i) (ended f i) eq_refl). cbn [fs_sess ended].
  rewrite Hi. pose proof (open_cols_fused _ _ q 0 Hre Hi) as Hf. rewrite /iter_cols in Hf.
  assert (match dq_column_iter q (ss_world (fs_sess f)) with Done _ w ev => w = ss_world (fs_sess f) ∧ ev = []
    | Panicked _ w ev => w = ss_world (fs_sess f) ∧ ev = [] ∧ left_over (ss_world (fs_sess f)) (dq_fetches q) | _ => False end) as Hp.
  { pose proof (alike_pure _ _ (ss_world (fs_sess f)) (alike_dq_column_iter q)) as Ha. rewrite /bind in Hf.
    destruct (dq_column_iter q (ss_world (fs_sess f))); [|naive_solver|done..]. cbn in Hf. subst. rewrite app_nil_r in Hf. naive_solver. }
  rewrite {1}/bind in_fworld_pure; [|cbn; destruct (dq_column_iter q _); naive_solver]. cbn [fs_sess ended].
  destruct (dq_column_iter q (ss_world (fs_sess f))) as [it w ev|r w ev| |]; [| |done..]; cbn.
  + rewrite fly_delete. split_and!; [done..|]. by eexists.
  + destruct Hp as (_ & _ & Hl). eauto.
Qed.

(** *** [next] *)
Lemma calls_S_last {A} n (l : list A) (seen : list (option A)) o : calls (S n) l = seen ++ [o] → length seen = n → o = l !! n ∧ seen = calls n l.
Proof.
  intros H Hlen. assert (length seen < S n) as Hlt by lia. pose proof (calls_lookup (S n) l _ Hlt) as Hx.
  rewrite H lookup_app_r // Nat.sub_diag /= Hlen in Hx. injection Hx as ->. split; [done|].
  apply list_eq. intros m. destruct (decide (m < n)) as [Hm|Hm].
  - rewrite calls_lookup //. pose proof (calls_lookup (S n) l m ltac:(lia)) as Hy. rewrite H in Hy. rewrite lookup_app_l in Hy; [done|lia].
  - rewrite !lookup_ge_None_2 ?calls_length //; lia.
Qed.
Lemma flight_rows f i it seen q : freachable f → fs_iters f !! i = Some (FlRows it seen) → ss_open (fs_sess f) !! i = Some (Some (QDyn q)) →
  dq_fetches q ≠ [] → ¬ left_over (ss_world (fs_sess f)) (dq_fetches q) →
  ∃ es items, enumerates (wanted (ss_world (fs_sess f)) (dq_fetches q)) es ∧
    Forall2 (shows_row (ss_world (fs_sess f)) (dq_fetches q)) es items ∧ seen = calls (length seen) items ∧
    ∃ it', fstep (FNext i) f = Done (FRow (items !! length seen)) (answered f i (FlRows it' (seen ++ [items !! length seen]))) [].
Proof.
  intros [Hre Hfv]%freachable_ok Hfl Hi Hne Hl. destruct (open_dyn_all _ _ q Hre Hi Hne Hl) as (es & items & H1 & H2 & H3).
  exists es, items. split; [done|]. split; [done|]. destruct (next_rows f Hre Hfv i it seen Hfl) as (q' & Hi' & Hs & Hn). simplify_eq.
  rewrite H3 in Hs. rewrite H3 in Hn. injection Hs as Hs. split; [done|].
  destruct Hn as (_ & _ & o & it' & Ho & _ & Hn). exists it'.
  apply calls_S_last in Ho as Ho'; [|done]. destruct Ho' as [-> _]. rewrite Hn Ho. done.
Qed.
Lemma flight_cols f i it seen q : freachable f → fs_iters f !! i = Some (FlCols it seen) → ss_open (fs_sess f) !! i = Some (Some (QDyn q)) →
  dq_fetches q ≠ [] → ¬ left_over (ss_world (fs_sess f)) (dq_fetches q) →
  ∃ es cols, enumerates (wanted (ss_world (fs_sess f)) (dq_fetches q)) es ∧ Forall even_column cols ∧
    Forall2 (shows_row (ss_world (fs_sess f)) (dq_fetches q)) es (cols ≫= column_rows (ss_world (fs_sess f)) (dq_fetches q)) ∧ seen = calls (length seen) cols ∧
    ∃ it', fstep (FNext i) f = Done (FCol (cols !! length seen)) (answered f i (FlCols it' (seen ++ [cols !! length seen]))) [].
Proof.
  intros [Hre Hfv]%freachable_ok Hfl Hi Hne Hl. destruct (open_dyn_all _ _ q Hre Hi Hne Hl) as (es & items & H1 & H2 & H3).
  destruct (open_columns _ _ q Hre Hi Hne Hl) as (cols & H4 & H5 & H6).
  exists es, cols. split; [done|]. split; [done|]. split.
  { assert (items = cols ≫= column_rows (ss_world (fs_sess f)) (dq_fetches q)) as <-; [|done].
    set (l := cols ≫= _) in *. apply list_eq. intros n. rewrite -!(calls_nth n). pose proof (H3 (S n)) as Ha. rewrite H6 in Ha. injection Ha as Ha. by rewrite Ha. }
  destruct (next_cols f Hre Hfv i it seen Hfl) as (q' & Hi' & Hs & Hn). simplify_eq.
  rewrite H5 in Hs. rewrite H5 in Hn. injection Hs as Hs. split; [done|]. destruct Hn as (_ & _ & o & it' & Ho & _ & Hn). exists it'.
  apply calls_S_last in Ho as Ho'; [|done]. destruct Ho' as [-> _]. rewrite Hn Ho. done.
Qed.
Lemma flight_refs f i it seen q : freachable f → fs_iters f !! i = Some (FlRefs it seen) → ss_open (fs_sess f) !! i = Some (Some (QStat q)) →
  sq_params q ≠ [] → types_in_use (ss_world (fs_sess f)) (sq_params q) →
  ∃ es items, enumerates (wants (ss_world (fs_sess f)) (sq_params q)) es ∧
    Forall2 (yields_row (ss_world (fs_sess f)) (sq_params q)) es items ∧ seen = row_ptrs <$> calls (length seen) items ∧
    ∃ it', fstep (FNext i) f = Done (FRef (items !! length seen)) (answered f i (FlRefs it' (seen ++ [row_ptrs (items !! length seen)]))) [].
Proof.
  intros [Hre Hfv]%freachable_ok Hfl Hi Hne Hl. destruct (open_types_rows _ _ q Hre Hi Hne Hl) as (es & items & H1 & H2 & H3).
  exists es, items. split; [done|]. split; [done|]. destruct (next_refs f Hre Hfv i it seen Hfl) as (q' & rs & Hi' & Hs & Hseen & Hn). simplify_eq.
  rewrite H3 in Hs. rewrite H3 in Hn. injection Hs as Hs. rewrite fmap_length in Hs. rewrite !fmap_length in Hn |- *. split; [by rewrite Hs|].
  destruct Hn as (_ & _ & o & it' & Ho & _ & Hn). exists it'.
  apply calls_S_last in Ho as [-> _]; [|done]. done.
Qed.
(** Without a condition on the world: as an iterator made just now would answer. *)
Lemma flight_next f i fl : freachable f → fs_iters f !! i = Some fl →
  ∃ q, ss_open (fs_sess f) !! i = Some (Some q) ∧ let w := ss_world (fs_sess f) in
    match fl, q with
    | FlRows it seen, QDyn q => iter_dyn q (length seen) w = Done seen w [] ∧
        match iter_dyn q (S (length seen)) w with
        | Done rs w' ev => w' = w ∧ ev = [] ∧ ∃ o it', rs = seen ++ [o] ∧ fstep (FNext i) f = Done (FRow o) (answered f i (FlRows it' (seen ++ [o]))) []
        | Panicked r w' ev => w' = w ∧ ev = [] ∧ left_over w (dq_fetches q) ∧ fstep (FNext i) f = Panicked r (ended f i) []
        | _ => False
        end
    | FlCols it seen, QDyn q => iter_cols q (length seen) w = Done seen w [] ∧
        match iter_cols q (S (length seen)) w with
        | Done rs w' ev => w' = w ∧ ev = [] ∧ ∃ o it', rs = seen ++ [o] ∧ fstep (FNext i) f = Done (FCol o) (answered f i (FlCols it' (seen ++ [o]))) []
        | Panicked r w' ev => w' = w ∧ ev = [] ∧ left_over w (dq_fetches q) ∧ fstep (FNext i) f = Panicked r (ended f i) []
        | _ => False
        end
    | FlRefs it seen, QStat q => ∃ rs0, iter_static q (length seen) w = Done rs0 w [] ∧ seen = row_ptrs <$> rs0 ∧
        match iter_static q (S (length seen)) w with
        | Done rs w' ev => w' = w ∧ ev = [] ∧ ∃ o it', rs = rs0 ++ [o] ∧ fstep (FNext i) f = Done (FRef o) (answered f i (FlRefs it' (seen ++ [row_ptrs o]))) []
        | Panicked r w' ev => w' = w ∧ ev = [] ∧ (∃ fs, sq_fetches q = Some fs ∧ left_over w fs) ∧ fstep (FNext i) f = Panicked r (ended f i) []
        | _ => False
        end
    | _, _ => False
    end.
Proof.
  intros [Hre Hfv]%freachable_ok Hfl. destruct fl as [it seen|it seen|it seen].
  - destruct (next_rows f Hre Hfv i it seen Hfl) as (q & Hi & H1 & H2). exists (QDyn q). split; [done|]. cbn zeta. split; [done|].
    destruct (iter_dyn q (S (length seen)) (ss_world (fs_sess f))); [|done..]. destruct H2 as (-> & -> & o & it' & -> & _ & H2). eauto 8.
  - destruct (next_cols f Hre Hfv i it seen Hfl) as (q & Hi & H1 & H2). exists (QDyn q). split; [done|]. cbn zeta. split; [done|].
    destruct (iter_cols q (S (length seen)) (ss_world (fs_sess f))); [|done..]. destruct H2 as (-> & -> & o & it' & -> & _ & H2). eauto 8.
  - destruct (next_refs f Hre Hfv i it seen Hfl) as (q & rs0 & Hi & H1 & Hs & H2). exists (QStat q). split; [done|]. cbn zeta. exists rs0. split; [done|]. split; [done|].
    destruct (iter_static q (S (length seen)) (ss_world (fs_sess f))); [|done..]. destruct H2 as (-> & -> & o & it' & -> & _ & H2). eauto 8.
Qed.

(** *** Pointers in the hands of the caller *)
Lemma flight_shows f i n r fs ps : freachable f → held_row f i n r fs ps → fs ≠ [] →
  ∃ e, wanted (ss_world (fs_sess f)) fs e ∧ shows_row (ss_world (fs_sess f)) fs e ps.
Proof.
  intros [Hre Hfv]%freachable_ok Hr Hne. destruct (held_open f i Hre Hfv) as (pos & Hp & _). eapply open_row_shows; [done|]. by apply Hp.
Qed.
Lemma flight_bounds f i n r fs ps j g p : freachable f → held_row f i n r fs ps → fs !! j = Some g → ps !! j = Some p →
  in_bounds (ss_world (fs_sess f)) p (fetch_size (ss_world (fs_sess f)) g).
Proof.
  intros [Hre Hfv]%freachable_ok Hr Hj Hps. destruct (held_open f i Hre Hfv) as (pos & Hp & _). eapply open_row_bounds; [done| |done..]. apply (Hp n r); [by intros ->|done].
Qed.
Lemma flight_apart f i n r fs ps j c p i' n' r' fs' ps' j' g p' : freachable f →
  held_row f i n r fs ps → fs !! j = Some (FMut c) → ps !! j = Some p →
  held_row f i' n' r' fs' ps' → fs' !! j' = Some g → ps' !! j' = Some p' →
  (i, n, r, j) ≠ (i', n', r', j') →
  apart p (fetch_size (ss_world (fs_sess f)) (FMut c)) p' (fetch_size (ss_world (fs_sess f)) g).
Proof.
  intros [Hre Hfv]%freachable_ok Hr Hj Hp Hr' Hj' Hp' Hne. destruct (held_open f i Hre Hfv) as (pos & Hpos & Hinj). destruct (held_open f i' Hre Hfv) as (pos' & Hpos' & _).
  assert (fs ≠ []) as Hn by by intros ->. assert (fs' ≠ []) as Hn' by by intros ->.
  destruct (decide (i = i')) as [<-|Hd].
  - eapply (open_apart _ i fs (pos n r) ps j c p i fs' (pos n' r') ps'); [done|by apply Hpos|done|done|by apply Hpos|done|done|].
    destruct (decide ((n, r) = (n', r'))) as [E|Hnr]; [injection E as <- <-; congruence|].
    pose proof (Hinj _ _ _ _ _ _ _ _ Hn Hr Hr' Hnr). congruence.
  - eapply (open_apart _ i fs (pos n r) ps j c p i' fs' (pos' n' r') ps'); [done|by apply Hpos|done|done|by apply Hpos'|done|done|]. congruence.
Qed.
Lemma flight_store f i n j r v : freachable f → fop_legal (FStore i n j r v) f →
  ∃ f', fstep (FStore i n j r v) f = Done FNothing f' [] ∧ fs_iters f' = fs_iters f ∧ ss_open (fs_sess f') = ss_open (fs_sess f) ∧
    ((f' = f ∧ ∀ fs ps, held_row f i n r fs ps → ps !! j = None) ∨
     ∃ fs ps c e, let w := ss_world (fs_sess f) in let w' := ss_world (fs_sess f') in
       held_row f i n r fs ps ∧ fs !! j = Some (FMut c) ∧ shows_row w fs e ps ∧
       same_lives w w' ∧ same_stored w w' ∧ same_types w w' ∧ sets w w' e c v).
Proof.
  intros [Hre Hfv]%freachable_ok Hleg. destruct (store_as f Hre Hfv i n j r v Hleg) as [(n' & Hl' & Ht' & (fs & ps & Hr & Ho & [p Hp]) & ->)|[Hno ->]].
  - pose proof (open_store _ i n' j v Hre Hl') as H. assert (sstep (SStore i n' j v) (fs_sess f) = sstep (SStore i n' j v) (fs_sess f)) as Heq by done.
    revert H. destruct (sstep (SStore i n' j v) (fs_sess f)) as [x s' ev|x s' ev| |] eqn:E; [| |done..].
    + intros (-> & -> & Hop & H). eexists. split; [done|]. cbn. split; [done|]. split; [done|]. destruct H as [[-> H]|(fs' & ps' & c & e & Ho' & Hj & Hsh & H1 & H2 & H3 & H4)].
      * exfalso. pose proof (H _ _ Ho). congruence.
      * right. destruct Ho as (q & Hi & Hfs & Hit), Ho' as (q' & Hi' & Hfs' & Hit'). simplify_eq. rewrite Hit in Hit'. injection Hit' as <-. eexists _, _, c, e. cbn zeta. split; [exact Hr|]. do 5 (split; [done|]). done.
    + intros (-> & -> & q & fs' & Hi & Hfs & Hl). exfalso. revert E. cbn [sstep]. rewrite (bind_done_nil _ _ (fs_sess f) (fs_sess f) (fs_sess f) eq_refl) Hi.
      destruct Ho as (q' & Hi' & Hfs' & Hit). simplify_eq. rewrite {1}/bind in_sworld_run Hit sess_eta. cbn [mbind option_bind]. rewrite Hp /bind in_sworld_run.
      destruct (ptr_store p v (ss_world (fs_sess f))) as [a w' ev|x' w' ev| |] eqn:Hst; try done. intros _.
      destruct (Hleg _ Hi') as (fs2 & c & Hfs2 & Hj & Hv). destruct (sv_world _ (reachable_inv _ Hre)) as [[R Hw0] Hroom].
      simplify_eq. destruct (query_positions _ _ _ _ Hw0 Hroom (sv_open _ (reachable_inv _ Hre) _ _ Hi') Hfs') as (S0 & _ & Hpos). destruct (Hpos _ _ _ _ Hit) as (pos & _ & Hg & ->).
      destruct (ptr_store_run _ _ _ _ _ _ _ _ Hw0 Hg Hj Hv Hp) as (e & w'' & _ & Hrun & _). congruence.
  - eexists. split; [done|]. split; [done|]. split; [done|]. left. done.
Qed.

(** *** Histories *)
Lemma plain_same o x f f' : (∀ o', o ≠ FCall o') → fs_sess f' = fs_sess f → ∃ l, plainly (o, x, []) l ∧ steps (fs_sess f) l (fs_sess f').
Proof. intros Ho ->. exists []. split; [by constructor|constructor]. Qed.
Lemma fstep_plain o f : freachable f → fop_legal o f → fop_tame o f →
  match fstep o f with
  | Done x f' ev => ∃ l, plainly (o, FOk x, ev) l ∧ steps (fs_sess f) l (fs_sess f')
  | Panicked r f' ev => resumable r → ∃ l, plainly (o, FPanic r, ev) l ∧ steps (fs_sess f) l (fs_sess f')
  | _ => True
  end.
Proof.
  intros Hfr Hleg Htame. destruct (freachable_ok _ Hfr) as [Hre Hfv]. destruct o as [o|i|i|i|i e|i|i n j r v].
  - rewrite fcall_run. destruct (sstep o (fs_sess f)) as [r s' ev|r s' ev| |] eqn:Hrun; [| |done..].
    + eexists. split; [constructor|]. apply (steps_done _ [] (fs_sess f)); [constructor|done..].
    + intros Hres. eexists. split; [constructor|]. apply (steps_panic _ [] (fs_sess f)); [constructor|done..].
  - destruct (ss_open (fs_sess f) !! i) as [[q|]|] eqn:Hi.
    + pose proof (flight_start f i q Hfr Hi) as H. destruct (fstep (FIter i) f); [| |done..].
      * destruct H as (-> & -> & fl & -> & _). by apply plain_same.
      * destruct H as (-> & -> & _). intros _. by apply plain_same.
    + cbn [fstep]. rewrite (bind_done_nil _ _ f () (ended f i) eq_refl) (bind_done_nil _ _ (ended f i) (ended f i) (ended f i) eq_refl). cbn [fs_sess ended]. rewrite Hi. by apply (plain_same _ _ f (ended f i)).
    + cbn [fstep]. rewrite (bind_done_nil _ _ f () (ended f i) eq_refl) (bind_done_nil _ _ (ended f i) (ended f i) (ended f i) eq_refl). cbn [fs_sess ended]. rewrite Hi. by apply (plain_same _ _ f (ended f i)).
  - destruct (ss_open (fs_sess f) !! i) as [[[q|q]|]|] eqn:Hi.
    + pose proof (flight_start_columns f i q Hfr Hi) as H. destruct (fstep (FColumns i) f); [| |done..].
      * destruct H as (-> & -> & fl & ->). by apply plain_same.
      * destruct H as (-> & -> & _). intros _. by apply plain_same.
    + cbn [fstep]. rewrite (bind_done_nil _ _ f () (ended f i) eq_refl) (bind_done_nil _ _ (ended f i) (ended f i) (ended f i) eq_refl). cbn [fs_sess ended]. rewrite Hi. by apply (plain_same _ _ f (ended f i)).
    + cbn [fstep]. rewrite (bind_done_nil _ _ f () (ended f i) eq_refl) (bind_done_nil _ _ (ended f i) (ended f i) (ended f i) eq_refl). cbn [fs_sess ended]. rewrite Hi. by apply (plain_same _ _ f (ended f i)).
    + cbn [fstep]. rewrite (bind_done_nil _ _ f () (ended f i) eq_refl) (bind_done_nil _ _ (ended f i) (ended f i) (ended f i) eq_refl). cbn [fs_sess ended]. rewrite Hi. by apply (plain_same _ _ f (ended f i)).
  - destruct (fs_iters f !! i) as [fl|] eqn:Hfl.
    + destruct (flight_next f i fl Hfr Hfl) as (q & _ & H). cbn zeta in H. destruct fl as [it seen|it seen|it seen], q as [q|q]; try done.
      * destruct H as [_ H]. destruct (iter_dyn q (S (length seen)) (ss_world (fs_sess f))); [| |done..].
        -- destruct H as (_ & _ & o & it' & _ & ->). by apply plain_same.
        -- destruct H as (_ & _ & _ & ->). intros _. by apply plain_same.
      * destruct H as [_ H]. destruct (iter_cols q (S (length seen)) (ss_world (fs_sess f))); [| |done..].
        -- destruct H as (_ & _ & o & it' & _ & ->). by apply plain_same.
        -- destruct H as (_ & _ & _ & ->). intros _. by apply plain_same.
      * destruct H as (rs0 & _ & _ & H). destruct (iter_static q (S (length seen)) (ss_world (fs_sess f))); [| |done..].
        -- destruct H as (_ & _ & o & it' & _ & ->). by apply plain_same.
        -- destruct H as (_ & _ & _ & ->). intros _. by apply plain_same.
    + cbn [fstep]. rewrite (bind_done_nil _ _ f f f eq_refl) (bind_done_nil _ _ f () (ended f i) eq_refl) Hfl. by apply (plain_same _ _ f (ended f i)).
  - cbn [fstep]. rewrite (bind_done_nil _ _ f () (ended f i) eq_refl) (bind_done_nil _ _ (ended f i) (ended f i) (ended f i) eq_refl). cbn [fs_sess ended].
    destruct (ss_open (fs_sess f) !! i) as [[[q|q]|]|] eqn:Hi; [by apply (plain_same _ _ f (ended f i))| |by apply (plain_same _ _ f (ended f i))..].
    pose proof (open_get _ _ q e Hre Hi) as Hg. rewrite /bind in_fworld_pure; cbn [fs_sess ended].
    + destruct (sq_get q e (ss_world (fs_sess f))); [|intros _|done..]; by apply (plain_same _ _ f (ended f i)).
    + destruct (sq_get q e (ss_world (fs_sess f))); naive_solver.
  - cbn. by apply (plain_same _ _ f (ended f i)).
  - destruct (flight_store f i n j r v Hfr Hleg) as (f' & Hrun & _). rewrite Hrun.
    destruct (store_as f Hre Hfv i n j r v Hleg) as [(n' & Hl' & Ht' & _ & Hrun')|[_ Hrun']]; rewrite Hrun in Hrun'.
    + pose proof (open_store _ i n' j v Hre Hl') as Hx. destruct (sstep (SStore i n' j v) (fs_sess f)) as [x s' ev|x s' ev| |] eqn:E; try done.
      destruct Hx as (-> & -> & _). injection Hrun' as ->. eexists. split; [apply (plain_store _ _ _ _ _ n')|].
      apply (steps_done _ [] (fs_sess f)); [constructor|done..].
    + injection Hrun' as ->. by apply plain_same.
Qed.
Lemma steps_trans s l s1 l' s2 : steps s l s1 → steps s1 l' s2 → steps s (l ++ l') s2.
Proof.
  intros H1 H2. induction H2; [by rewrite app_nil_r|rewrite app_assoc; eapply steps_done; eauto|rewrite app_assoc; eapply steps_panic; eauto].
Qed.
Lemma flight_history l f : fsteps fsess_new l f → ∃ ls, Forall2 plainly l ls ∧ steps sess_new (concat ls) (fs_sess f).
Proof.
  remember fsess_new as f0 eqn:E0. induction 1 as [|f0 l f1 o r f2 ev Hst IH Hleg Htame Hrun|f0 l f1 o r f2 ev Hst IH Hleg Htame Hrun Hres]; subst.
  - exists []. split; constructor.
  - destruct (IH eq_refl) as (ls & H1 & H2). pose proof (fstep_plain o f1 (ex_intro _ l Hst) Hleg Htame) as H. rewrite Hrun in H. destruct H as (l' & H3 & H4).
    exists (ls ++ [l']). split; [by apply Forall2_app; [|constructor]|]. rewrite concat_app /= app_nil_r. by eapply steps_trans.
  - destruct (IH eq_refl) as (ls & H1 & H2). pose proof (fstep_plain o f1 (ex_intro _ l Hst) Hleg Htame) as H. rewrite Hrun in H. destruct (H Hres) as (l' & H3 & H4).
    exists (ls ++ [l']). split; [by apply Forall2_app; [|constructor]|]. rewrite concat_app /= app_nil_r. by eapply steps_trans.
Qed.
Lemma flight_no_left_over l f fs : fsteps fsess_new l f → (∀ o r ev, (FCall (SWorld o), FPanic r, ev) ∉ l) → ¬ left_over (ss_world (fs_sess f)) fs.
Proof.
  intros Hl Hn. destruct (flight_history _ _ Hl) as (ls & Hls & Hst). eapply no_left_over; [done|].
  intros o r ev Hin. apply elem_of_list_In, in_concat in Hin as (l' & Hl'%elem_of_list_In & Hin%elem_of_list_In).
  apply elem_of_list_lookup in Hl' as [k Hk]. destruct (Forall2_lookup_r _ _ _ _ _ Hls Hk) as (x & Hx & Hp).
  apply elem_of_list_lookup_2 in Hx. destruct Hp; [..|by apply elem_of_nil in Hin]; apply elem_of_list_singleton in Hin; simplify_eq. by eapply Hn.
Qed.
