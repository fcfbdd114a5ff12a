(** * Iterators in flight: the invariant, and what they answer *)
From Verif Require Import ProofBase SpecSmall World Query History ProofEntities ProofBitset ProofArrayVec ProofUVec.
From Verif Require Export ProofFlightStep.

Lemma in_fworld_run {A} (m : M world A) f :
  in_fworld m f = match m (ss_world (fs_sess f)) with
                  | Done a w ev => Done a (FSess (Sess w (ss_open (fs_sess f))) (fs_iters f)) ev
                  | Panicked r w ev => Panicked r (FSess (Sess w (ss_open (fs_sess f))) (fs_iters f)) ev
                  | Deadlock => Deadlock | UB => UB end.
Proof. rewrite /in_fworld /in_sess /zoom in_sworld_run. by destruct (m (ss_world (fs_sess f))). Qed.
Lemma in_fworld_pure {A} (m : M world A) f :
  (match m (ss_world (fs_sess f)) with Done _ w ev | Panicked _ w ev => w = ss_world (fs_sess f) ∧ ev = [] | _ => True end) →
  in_fworld m f = match m (ss_world (fs_sess f)) with
                  | Done a _ _ => Done a f []
                  | Panicked r _ _ => Panicked r f []
                  | Deadlock => Deadlock | UB => UB end.
Proof.
  intros H. rewrite in_fworld_run. destruct (m (ss_world (fs_sess f))); try done; destruct H as [-> ->]; rewrite sess_eta; by destruct f.
Qed.
Lemma alike_pure {A} (R : A → A → Prop) m w : alike R m m → match m w with Done _ w' _ | Panicked _ w' _ => w' = w | _ => True end.
Proof. intros H. specialize (H w w (shape_refl w)). destruct (m w); naive_solver. Qed.

(** *** What [next] answers *)
Lemma held_size w R c v : winv w R → in_use w c → value_fits w c v → fetch_size w (FMut c) = length v.
Proof.
  intros Hw (k & L & HL & Hc)%(in_use_ids _ _ Hw) Hv. destruct (wi_comps _ _ Hw _ _ _ HL Hc) as (Hal & Hst).
  rewrite /fetch_size /=. rewrite get_entity_meta_alive //. destruct (meta_at w (uindex c)) as [m|] eqn:Hm.
  - symmetry. apply (Hv w m). by rewrite get_entity_meta_alive // Hm.
  - exfalso. destruct Hst as [[cm Hcm] _]. by rewrite /comp_of Hm in Hcm.
Qed.

Lemma course_rows w q it seen o it' : on_course w (QDyn q) (FlRows it seen) → di_next it w = Done (o, it') w [] → on_course w (QDyn q) (FlRows it' (seen ++ [o])).
Proof.
  intros (it0 & H1 & H2) Hn. exists it0. split; [done|]. rewrite app_length Nat.add_1_r.
  rewrite (run_snoc di_next di_run eq alike_di_next' (λ _, eq_refl) (λ _ _, eq_refl) _ _ _ _ _ H2) Hn. done.
Qed.
Lemma course_cols w q it seen o it' : on_course w (QDyn q) (FlCols it seen) → ci_next it w = Done (o, it') w [] → on_course w (QDyn q) (FlCols it' (seen ++ [o])).
Proof.
  intros (it0 & H1 & H2) Hn. exists it0. split; [done|]. rewrite app_length Nat.add_1_r.
  rewrite (run_snoc ci_next ci_run eq alike_ci_next' (λ _, eq_refl) (λ _ _, eq_refl) _ _ _ _ _ H2) Hn. done.
Qed.
Lemma course_refs w q it seen o it' : on_course w (QStat q) (FlRefs it seen) → si_next it w = Done (o, it') w [] → on_course w (QStat q) (FlRefs it' (seen ++ [row_ptrs o])).
Proof.
  intros (it0 & rs & H1 & H2 & Hrs) Hn. exists it0, (rs ++ [o]). split; [done|]. split; [|by rewrite fmap_app Hrs].
  rewrite app_length Nat.add_1_r. rewrite (run_snoc si_next si_run _ alike_si_next (λ _, eq_refl) (λ _ _, eq_refl) _ _ _ _ _ H2) Hn. done.
Qed.

Lemma fly_delete f i fl : FSess (fs_sess f) (<[i := fl]> (delete i (fs_iters f))) = answered f i fl.
Proof. by rewrite /answered insert_delete_insert. Qed.
Section next.
  Context (f : fsess) (Hre : reachable (fs_sess f)) (Hfv : finv f) (i : nat).
  Notation w := (ss_world (fs_sess f)).
  Local Set Default Proof Using "Hre Hfv".

  Lemma next_rows it seen : fs_iters f !! i = Some (FlRows it seen) →
    ∃ q, ss_open (fs_sess f) !! i = Some (Some (QDyn q)) ∧ iter_dyn q (length seen) w = Done seen w [] ∧
      match iter_dyn q (S (length seen)) w with
      | Done rs w' ev => w' = w ∧ ev = [] ∧ ∃ o it', rs = seen ++ [o] ∧ on_course w (QDyn q) (FlRows it' rs) ∧
          fstep (FNext i) f = Done (FRow o) (answered f i (FlRows it' rs)) []
      | Panicked r w' ev => w' = w ∧ ev = [] ∧ left_over w (dq_fetches q) ∧ fstep (FNext i) f = Panicked r (ended f i) []
      | _ => False
      end.
  Proof.
    intros Hfl. destruct (Hfv _ _ Hfl) as ([q|q] & Hi & Hon); [|done]. exists q. destruct (on_course_iter _ _ _ Hon) as [H1 H2]. split_and!; [done..|].
    pose proof (open_dyn_fused _ _ q (S (length seen)) Hre Hi) as Hf. rewrite H2 in Hf |- *. cbn [fstep]. rewrite (bind_done_nil _ _ f f f eq_refl) (bind_done_nil _ _ f () (ended f i) eq_refl) Hfl.
    assert (match di_next it w with Done _ w' ev | Panicked _ w' ev => w' = w ∧ ev = [] | _ => True end) as Hpure.
    { destruct (di_next it w) as [[o it'] w' ev|r w' ev| |]; naive_solver. }
    rewrite {1 3}/bind (in_fworld_pure (di_next it) (ended f i) Hpure). cbn [ended fs_sess].
    destruct (di_next it w) as [[o it'] w' ev|r w' ev| |] eqn:Hn; [| |done..].
    - destruct Hpure as [-> ->]. split_and!; [done..|]. exists o, it'. split; [done|]. split; [by eapply course_rows|]. cbn. by rewrite fly_delete.
    - destruct Hpure as [-> ->]. naive_solver.
  Qed.
  Lemma next_cols it seen : fs_iters f !! i = Some (FlCols it seen) →
    ∃ q, ss_open (fs_sess f) !! i = Some (Some (QDyn q)) ∧ iter_cols q (length seen) w = Done seen w [] ∧
      match iter_cols q (S (length seen)) w with
      | Done rs w' ev => w' = w ∧ ev = [] ∧ ∃ o it', rs = seen ++ [o] ∧ on_course w (QDyn q) (FlCols it' rs) ∧
          fstep (FNext i) f = Done (FCol o) (answered f i (FlCols it' rs)) []
      | Panicked r w' ev => w' = w ∧ ev = [] ∧ left_over w (dq_fetches q) ∧ fstep (FNext i) f = Panicked r (ended f i) []
      | _ => False
      end.
  Proof.
    intros Hfl. destruct (Hfv _ _ Hfl) as ([q|q] & Hi & Hon); [|done]. exists q. destruct (on_course_iter _ _ _ Hon) as [H1 H2]. split_and!; [done..|].
    pose proof (open_cols_fused _ _ q (S (length seen)) Hre Hi) as Hf. rewrite H2 in Hf |- *. cbn [fstep]. rewrite (bind_done_nil _ _ f f f eq_refl) (bind_done_nil _ _ f () (ended f i) eq_refl) Hfl.
    assert (match ci_next it w with Done _ w' ev | Panicked _ w' ev => w' = w ∧ ev = [] | _ => True end) as Hpure.
    { destruct (ci_next it w) as [[o it'] w' ev|r w' ev| |]; naive_solver. }
    rewrite {1 3}/bind (in_fworld_pure (ci_next it) (ended f i) Hpure). cbn [ended fs_sess].
    destruct (ci_next it w) as [[o it'] w' ev|r w' ev| |] eqn:Hn; [| |done..].
    - destruct Hpure as [-> ->]. split_and!; [done..|]. exists o, it'. split; [done|]. split; [by eapply course_cols|]. cbn. by rewrite fly_delete.
    - destruct Hpure as [-> ->]. naive_solver.
  Qed.
  Lemma next_refs it seen : fs_iters f !! i = Some (FlRefs it seen) →
    ∃ q rs0, ss_open (fs_sess f) !! i = Some (Some (QStat q)) ∧ iter_static q (length seen) w = Done rs0 w [] ∧ seen = row_ptrs <$> rs0 ∧
      match iter_static q (S (length seen)) w with
      | Done rs w' ev => w' = w ∧ ev = [] ∧ ∃ o it', rs = rs0 ++ [o] ∧ on_course w (QStat q) (FlRefs it' (seen ++ [row_ptrs o])) ∧
          fstep (FNext i) f = Done (FRef o) (answered f i (FlRefs it' (seen ++ [row_ptrs o]))) []
      | Panicked r w' ev => w' = w ∧ ev = [] ∧ (∃ fs, sq_fetches q = Some fs ∧ left_over w fs) ∧ fstep (FNext i) f = Panicked r (ended f i) []
      | _ => False
      end.
  Proof.
    intros Hfl. destruct (Hfv _ _ Hfl) as ([q|q] & Hi & Hon); [done|]. destruct (on_course_iter _ _ _ Hon) as (rs0 & Hrs & H1 & H2). exists q, rs0. split_and!; [done..|].
    pose proof (open_static_fused _ _ q (S (length seen)) Hre Hi) as Hf. rewrite H2 in Hf |- *. cbn [fstep]. rewrite (bind_done_nil _ _ f f f eq_refl) (bind_done_nil _ _ f () (ended f i) eq_refl) Hfl.
    assert (match si_next it w with Done _ w' ev | Panicked _ w' ev => w' = w ∧ ev = [] | _ => True end) as Hpure.
    { destruct (si_next it w) as [[o it'] w' ev|r w' ev| |]; naive_solver. }
    rewrite {1 3}/bind (in_fworld_pure (si_next it) (ended f i) Hpure). cbn [ended fs_sess].
    destruct (si_next it w) as [[o it'] w' ev|r w' ev| |] eqn:Hn; [| |done..].
    - destruct Hpure as [-> ->]. split_and!; [done..|]. exists o, it'. split; [done|]. split; [by eapply course_refs|]. cbn. by rewrite fly_delete.
    - destruct Hpure as [-> ->]. naive_solver.
  Qed.
  (** *** A write through a pointer in the hands of the caller is one through a fresh item *)
  Lemma held_row_ptr n j r v p fl q fs c : fs_iters f !! i = Some fl → ss_open (fs_sess f) !! i = Some (Some q) → oq_fetches w q = Some fs →
    fs !! j = Some (FMut c) → value_fits w c v → handed fl n j r (length v) = Some p →
    ∃ ps, held_row f i n r fs ps ∧ ps !! j = Some p.
  Proof.
    intros Hfl Hi Hfs Hj Hv Hh. destruct (Hfv _ _ Hfl) as (q' & Hi' & Hon). simplify_eq.
    assert (fs ≠ []) as Hne by by intros ->. rewrite /handed in Hh.
    destruct fl as [it seen|it seen|it seen], q as [q|q]; try done.
    - destruct (seen !! n) as [[ps|]|] eqn:Hn; cbn in Hh; try done. destruct (ps !! j) as [p'|] eqn:Hp; cbn in Hh; [|done]. case_decide; [|done]. simplify_eq.
      exists ps. split; [|done]. by eexists _, _.
    - destruct (seen !! n) as [[col|]|] eqn:Hn; cbn in Hh; try done. destruct (col !! j) as [x|] eqn:Hx; cbn in Hh; [|done]. case_decide as Hr; [|done]. simplify_eq.
      cbn in Hfs. injection Hfs as <-. destruct (held_cols _ _ _ _ _ _ _ Hre Hi Hon Hn Hne) as (Hu & cols & Hcol & Hev & _).
      destruct (sv_world _ (reachable_inv _ Hre)) as [[R Hw] _].
      assert (fetch_size w (FMut c) = length v) as Hsz by (eapply held_size; [done| |done]; eapply Hu; [by eapply elem_of_list_lookup_2|done]).
      eexists. split.
      + eexists (QDyn q), _. split_and!; [done..|]. exists col. split; [done|]. rewrite /column_rows list_lookup_fmap.
        rewrite lookup_seq_lt; [done|]. destruct col as [|y col]; [done|]. cbn. rewrite (Hev y x); [done|left|by eapply elem_of_list_lookup_2].
      + rewrite lookup_zip_with Hj Hx. cbn [mbind option_bind]. by rewrite Hsz.
    - destruct (seen !! n) as [[ps|]|] eqn:Hn; cbn in Hh; try done. destruct (ps !! j) as [p'|] eqn:Hp; cbn in Hh; [|done]. case_decide; [|done]. simplify_eq.
      exists ps. split; [|done]. by eexists _, _.
  Qed.
  Lemma store_as n j r v : fop_legal (FStore i n j r v) f →
    (∃ n', sop_legal (SStore i n' j v) (fs_sess f) ∧ sop_tame (SStore i n' j v) (fs_sess f) ∧
       (∃ fs ps, held_row f i n r fs ps ∧ open_row (fs_sess f) i fs n' ps ∧ is_Some (ps !! j)) ∧
       fstep (FStore i n j r v) f = match sstep (SStore i n' j v) (fs_sess f) with
         | Done _ s ev => Done FNothing (FSess s (fs_iters f)) ev
         | Panicked x s ev => Panicked x (FSess s (fs_iters f)) ev | Deadlock => Deadlock | UB => UB end) ∨
    ((∀ fs ps, held_row f i n r fs ps → ps !! j = None) ∧ fstep (FStore i n j r v) f = Done FNothing f []).
  Proof.
    intros Hleg. cbn [fstep]. rewrite (bind_done_nil _ _ f f f eq_refl).
    destruct (fs_iters f !! i) as [fl|] eqn:Hfl; cbn [mbind option_bind].
    2:{ right. split; [|done]. intros fs ps (q & fl & _ & _ & ? & _). congruence. }
    destruct (Hfv _ _ Hfl) as (q & Hi & Hon). destruct (Hleg _ Hi) as (fs & c & Hfs & Hj & Hv).
    destruct (handed fl n j r (length v)) as [p|] eqn:Hh.
    - left. destruct (held_row_ptr _ _ _ _ _ _ _ _ _ Hfl Hi Hfs Hj Hv Hh) as (ps & Hrow & Hp). destruct (held_open f i Hre Hfv) as (pos & Hpos & _).
      pose proof (Hpos n r fs ps ltac:(by intros ->) Hrow) as Hopen. exists (pos n r). split_and!; [done|done|by eexists _, _|].
      destruct Hopen as (q' & Hi' & Hfs' & Hit). simplify_eq. cbn [sstep]. rewrite (bind_done_nil _ _ (fs_sess f) (fs_sess f) (fs_sess f) eq_refl) Hi.
      rewrite {2}/bind in_sworld_run Hit sess_eta. cbn [mbind option_bind]. rewrite Hp. rewrite /bind in_fworld_run in_sworld_run.
      by destruct (ptr_store p v w).
    - right. split; [|done]. intros fs' ps (q' & fl' & Hi' & Hfs' & Hfl' & Hx). simplify_eq. rewrite /handed in Hh.
      destruct fl as [it seen|it seen|it seen], q as [q|q]; try done.
      + destruct Hx as [-> Hn]. rewrite Hn in Hh. cbn in Hh. by destruct (ps !! j).
      + destruct Hx as (col & Hn & Hr). rewrite Hn in Hh. cbn in Hh. destruct (col !! j) as [x|] eqn:Hx; cbn in Hh.
        * case_decide as Hlt; [done|]. exfalso. apply Hlt. assert (fs ≠ []) as Hne by by intros ->.
          cbn in Hfs. injection Hfs as <-. destruct (held_cols _ _ _ _ _ _ _ Hre Hi Hon Hn Hne) as (_ & cols & _ & Hev & _).
          rewrite /column_rows list_lookup_fmap in Hr. destruct (seq 0 _ !! r) as [m|] eqn:Hm; [|done].
          apply lookup_seq in Hm as [_ Hm]. destruct col as [|y col]; [done|]. cbn in Hm. rewrite (Hev x y); [done|by eapply elem_of_list_lookup_2|left].
        * rewrite /column_rows list_lookup_fmap in Hr. destruct (seq 0 _ !! r) as [m|]; [|done]. cbn in Hr. injection Hr as <-.
          rewrite lookup_zip_with Hx. by destruct (fs !! j).
      + destruct Hx as [-> Hn]. rewrite Hn in Hh. cbn in Hh. by destruct (ps !! j).
  Qed.
End next.
Local Set Default Proof Using "Type".

(** *** The invariant *)
Definition fok (f : fsess) : Prop := reachable (fs_sess f) ∧ finv f.
Lemma finv_ended f i : finv f → finv (ended f i).
Proof. intros H j fl Hj. cbn in Hj. apply lookup_delete_Some in Hj as [_ Hj]. by apply H. Qed.
Lemma finv_answered f i q fl : finv f → ss_open (fs_sess f) !! i = Some (Some q) → on_course (ss_world (fs_sess f)) q fl → finv (answered f i fl).
Proof. intros H Hi Hon j fl' Hj. cbn in Hj. apply lookup_insert_Some in Hj as [[-> <-]|[Hne Hj]]; [by exists q|by apply H]. Qed.
Lemma finv_call f o s' : finv f → undisturbed o (fs_sess f) s' → finv (FSess s' (match uses o with Some i => delete i (fs_iters f) | None => fs_iters f end)).
Proof.
  intros H Hu j fl Hj. assert (uses o ≠ Some j ∧ fs_iters f !! j = Some fl) as [Hn Hj'].
  { cbn in Hj. destruct (uses o) as [i|]; [|done]. apply lookup_delete_Some in Hj as [? ?]. split; [congruence|done]. }
  destruct (H _ _ Hj') as (q & Hi & Hon). destruct (Hu _ _ Hn Hi) as [Hs Hi']. exists q. split; [done|]. by eapply on_course_shape.
Qed.
Lemma fcall_run o f : fstep (FCall o) f = match sstep o (fs_sess f) with
  | Done r s' ev => Done (FRet r) (FSess s' (match uses o with Some i => delete i (fs_iters f) | None => fs_iters f end)) ev
  | Panicked r s' ev => Panicked r (FSess s' (match uses o with Some i => delete i (fs_iters f) | None => fs_iters f end)) ev
  | Deadlock => Deadlock | UB => UB end.
Proof.
  cbn [fstep]. assert (∀ g, bind (in_sess (sstep o)) (λ r, ret (FRet r)) g = match sstep o (fs_sess g) with
    | Done r s' ev => Done (FRet r) (FSess s' (fs_iters g)) ev | Panicked r s' ev => Panicked r (FSess s' (fs_iters g)) ev | Deadlock => Deadlock | UB => UB end) as H.
  { intros g. rewrite /bind /in_sess /zoom. destruct (sstep o (fs_sess g)); try done. cbn. by rewrite app_nil_r. }
  destruct (uses o) as [i|].
  - rewrite (bind_done_nil _ _ f () (ended f i) eq_refl) H. done.
  - rewrite (bind_done_nil _ _ f () f eq_refl) H. done.
Qed.
Lemma fstep_ok o f : fok f → fop_legal o f → fop_tame o f →
  match fstep o f with
  | Done _ f' _ => fok f'
  | Panicked r f' _ => resumable r → fok f'
  | Deadlock => ∃ o', o = FCall o' ∧ opens o'
  | UB => False
  end.
Proof.
  intros [Hre Hfv] Hleg Htame. pose proof (reachable_inv _ Hre) as Hs. destruct o as [o|i|i|i|i e|i|i n j r v].
  - rewrite fcall_run. pose proof (sstep_inv o _ Hs Hleg Htame) as H1. pose proof (sstep_undisturbed o _ Hs Hleg) as H2.
    destruct (sstep o (fs_sess f)) as [r s' ev|r s' ev| |] eqn:Hrun; [| |eauto|done].
    + split; [by eapply reachable_done|by apply finv_call].
    + intros Hres. split; [by eapply reachable_panic|by apply finv_call].
  - cbn [fstep]. rewrite (bind_done_nil _ _ f () (ended f i) eq_refl) (bind_done_nil _ _ (ended f i) (ended f i) (ended f i) eq_refl). cbn [fs_sess ended].
    assert (fok (ended f i)) as Hok by (split; [done|by apply finv_ended]).
    destruct (ss_open (fs_sess f) !! i) as [[[q|q]|]|] eqn:Hi; [| |done..].
    + pose proof (open_dyn_fused _ _ q 0 Hre Hi) as Hf. rewrite /iter_dyn in Hf.
      assert (match dq_iter q (ss_world (fs_sess f)) with Done _ w ev | Panicked _ w ev => w = ss_world (fs_sess f) ∧ ev = [] | _ => False end) as Hp.
      { pose proof (alike_pure _ _ (ss_world (fs_sess f)) (alike_dq_iter q)) as Ha. rewrite /bind in Hf.
        destruct (dq_iter q (ss_world (fs_sess f))); [|naive_solver|done..]. cbn in Hf. subst. rewrite app_nil_r in Hf. naive_solver. }
      rewrite {1}/bind in_fworld_pure; [|cbn; by destruct (dq_iter q _)]. cbn [fs_sess ended].
      destruct (dq_iter q (ss_world (fs_sess f))) as [it w ev|r w ev| |] eqn:Hit; [| |done..]; destruct Hp as [-> ->]; [|done]. cbn. rewrite fly_delete.
      split; [done|]. eapply finv_answered; [done..|]. by exists it.
    + pose proof (open_static_fused _ _ q 0 Hre Hi) as Hf. rewrite /iter_static in Hf.
      assert (match sq_iter q (ss_world (fs_sess f)) with Done _ w ev | Panicked _ w ev => w = ss_world (fs_sess f) ∧ ev = [] | _ => False end) as Hp.
      { pose proof (alike_pure _ _ (ss_world (fs_sess f)) (alike_sq_iter q)) as Ha. rewrite /bind in Hf.
        destruct (sq_iter q (ss_world (fs_sess f))); [|naive_solver|done..]. cbn in Hf. subst. rewrite app_nil_r in Hf. naive_solver. }
      rewrite {1}/bind in_fworld_pure; [|cbn; by destruct (sq_iter q _)]. cbn [fs_sess ended].
      destruct (sq_iter q (ss_world (fs_sess f))) as [it w ev|r w ev| |] eqn:Hit; [| |done..]; destruct Hp as [-> ->]; [|done]. cbn. rewrite fly_delete.
      split; [done|]. eapply finv_answered; [done..|]. by exists it, [].
  - cbn [fstep]. rewrite (bind_done_nil _ _ f () (ended f i) eq_refl) (bind_done_nil _ _ (ended f i) (ended f i) (ended f i) eq_refl). cbn [fs_sess ended].
    assert (fok (ended f i)) as Hok by (split; [done|by apply finv_ended]).
    destruct (ss_open (fs_sess f) !! i) as [[[q|q]|]|] eqn:Hi; [|done..].
    pose proof (open_cols_fused _ _ q 0 Hre Hi) as Hf. rewrite /iter_cols in Hf.
    assert (match dq_column_iter q (ss_world (fs_sess f)) with Done _ w ev | Panicked _ w ev => w = ss_world (fs_sess f) ∧ ev = [] | _ => False end) as Hp.
    { pose proof (alike_pure _ _ (ss_world (fs_sess f)) (alike_dq_column_iter q)) as Ha. rewrite /bind in Hf.
      destruct (dq_column_iter q (ss_world (fs_sess f))); [|naive_solver|done..]. cbn in Hf. subst. rewrite app_nil_r in Hf. naive_solver. }
    rewrite {1}/bind in_fworld_pure; [|cbn; by destruct (dq_column_iter q _)]. cbn [fs_sess ended].
    destruct (dq_column_iter q (ss_world (fs_sess f))) as [it w ev|r w ev| |] eqn:Hit; [| |done..]; destruct Hp as [-> ->]; [|done]. cbn. rewrite fly_delete.
    split; [done|]. eapply finv_answered; [done..|]. by exists it.
  - destruct (fs_iters f !! i) as [[it seen|it seen|it seen]|] eqn:Hfl.
    + destruct (next_rows f Hre Hfv i it seen Hfl) as (q & Hi & _ & H). destruct (iter_dyn q (S (length seen)) (ss_world (fs_sess f))); [| |done..].
      * destruct H as (_ & _ & o & it' & -> & Hon & ->). split; [done|]. by eapply finv_answered.
      * destruct H as (_ & _ & _ & ->). intros _. split; [done|by apply finv_ended].
    + destruct (next_cols f Hre Hfv i it seen Hfl) as (q & Hi & _ & H). destruct (iter_cols q (S (length seen)) (ss_world (fs_sess f))); [| |done..].
      * destruct H as (_ & _ & o & it' & -> & Hon & ->). split; [done|]. by eapply finv_answered.
      * destruct H as (_ & _ & _ & ->). intros _. split; [done|by apply finv_ended].
    + destruct (next_refs f Hre Hfv i it seen Hfl) as (q & rs & Hi & _ & _ & H). destruct (iter_static q (S (length seen)) (ss_world (fs_sess f))); [| |done..].
      * destruct H as (_ & _ & o & it' & -> & Hon & ->). split; [done|]. by eapply finv_answered.
      * destruct H as (_ & _ & _ & ->). intros _. split; [done|by apply finv_ended].
    + cbn [fstep]. rewrite (bind_done_nil _ _ f f f eq_refl) (bind_done_nil _ _ f () (ended f i) eq_refl) Hfl. split; [done|by apply finv_ended].
  - cbn [fstep]. rewrite (bind_done_nil _ _ f () (ended f i) eq_refl) (bind_done_nil _ _ (ended f i) (ended f i) (ended f i) eq_refl). cbn [fs_sess ended].
    assert (fok (ended f i)) as Hok by (split; [done|by apply finv_ended]).
    destruct (ss_open (fs_sess f) !! i) as [[[q|q]|]|] eqn:Hi; [done| |done..].
    pose proof (open_get _ _ q e Hre Hi) as Hg. rewrite /bind in_fworld_pure; cbn [fs_sess ended].
    + destruct (sq_get q e (ss_world (fs_sess f))); done.
    + destruct (sq_get q e (ss_world (fs_sess f))); naive_solver.
  - cbn. split; [done|]. by apply finv_ended.
  - destruct (store_as f Hre Hfv i n j r v Hleg) as [(n' & Hl' & Ht' & _ & ->)|[_ ->]]; [|done].
    pose proof (sstep_inv _ _ Hs Hl' Ht') as H1.
    assert (match sstep (SStore i n' j v) (fs_sess f) with Done _ s' _ | Panicked _ s' _ => finv (FSess s' (fs_iters f)) | _ => True end) as H2.
    { assert (∀ s', shape (ss_world (fs_sess f)) (ss_world s') → ss_open s' = ss_open (fs_sess f) → finv (FSess s' (fs_iters f))) as Hshape.
      { intros s' Hsh Hop k fl Hk. destruct (Hfv _ _ Hk) as (q & Hi & Hon). exists q. cbn. rewrite Hop. split; [done|]. by eapply on_course_shape. }
      pose proof (sstore_shape (fs_sess f) i n' j v) as Hst.
      destruct (sstep (SStore i n' j v) (fs_sess f)); [| |done..]; destruct Hst; by apply Hshape. }
    destruct (sstep (SStore i n' j v) (fs_sess f)) as [x s' ev|x s' ev| |] eqn:E; [| |done..].
    + split; [by eapply reachable_done|done].
    + intros Hres. split; [by eapply reachable_panic|done].
Qed.
