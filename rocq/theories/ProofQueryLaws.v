(** * Consequences for the creation and iteration of queries (C14, C40, C42) *)
From Verif Require Import ProofBase SpecSmall World History ProofEntities ProofBitset ProofArrayVec ProofUVec.
From Verif Require Export ProofKnown.

(** *** Creating queries *)
Lemma creates_dyn l s fs : steps sess_new l s → no_forget l → no_unwinding l → Forall fetch_wf fs →
  exclusive (ss_world s) (open_fetches s ++ fs) →
  ∃ s' q, sstep (SOpenDyn fs) s = Done (SHandle (length (ss_open s))) s' [] ∧
    ss_open s' = ss_open s ++ [Some (QDyn q)] ∧ dq_fetches q = fs ∧ same_view (ss_world s) (ss_world s').
Proof.
  intros Hl Hf Hu Hw Hx. pose proof (open_dyn_view l s fs Hl Hf Hw) as H. destruct (sstep (SOpenDyn fs) s) as [r s' ev|r s' ev| |].
  - destruct H as (-> & -> & Hv & (q & ? & ?) & _). by exists s', q.
  - by destruct H as (_ & _ & _ & _ & []).
  - done.
  - done.
Qed.
Lemma creates_static l s ps : steps sess_new l s → no_forget l → no_unwinding l → Forall param_wf ps → Forall param_tame ps →
  (∀ fs, Forall2 (asks (ss_world s)) ps fs → exclusive (ss_world s) (open_fetches s ++ fs)) → ¬ not_in_use (ss_world s) ps →
  ∃ s' q, sstep (SOpenStat ps) s = Done (SHandle (length (ss_open s))) s' [] ∧
    ss_open s' = ss_open s ++ [Some (QStat q)] ∧ sq_params q = ps ∧ same_view (ss_world s) (ss_world s').
Proof.
  intros Hl Hf Hu Hw Ht Hx Hn. pose proof (open_stat_view l s ps Hl Hf Hw Ht) as H. destruct (sstep (SOpenStat ps) s) as [r s' ev|r s' ev| |].
  - destruct H as (-> & -> & Hv & (q & ? & ? & _)). by exists s', q.
  - by destruct H as (_ & _ & _ & [[_ []]|[_ ?]]).
  - destruct H as (fs & H1 & H2). exfalso. by apply H2, Hx.
  - done.
Qed.
Lemma opens_released s o r s' ev : reachable s → opens o → sstep o s = Done r s' ev →
  ∃ i, r = SHandle i ∧ sstep (SDrop i false) s' = Done SNothing (Sess (ss_world s) (ss_open s ++ [None])) [].
Proof. intros Hs. apply open_drop. by apply reachable_inv. Qed.

(** *** Components nobody has *)
Lemma quiet_dyn s i q f c n : reachable s → ss_open s !! i = Some (Some (QDyn q)) → f ∈ dq_fetches q → fetch_id f = Some c →
  ¬ in_use (ss_world s) c → ¬ left_over (ss_world s) (dq_fetches q) →
  iter_dyn q n (ss_world s) = Done (replicate n None) (ss_world s) [].
Proof.
  intros Hs Hq Hf Hc Hk Hl. pose proof (open_dyn_none s i q n Hs Hq) as H.
  assert (¬ all_in_use (ss_world s) (dq_fetches q)) as Hn by (intros H0; by eapply Hk, H0). specialize (H Hn).
  destruct (iter_dyn q n (ss_world s)); [|by destruct H as (_ & _ & _ & ?)|done..]. by destruct H as (-> & -> & ->).
Qed.
Lemma quiet_static s i q p t n : reachable s → ss_open s !! i = Some (Some (QStat q)) → p ∈ sq_params q → param_ty p = Some t →
  (∀ c, type_id (ss_world s) t c → ¬ in_use (ss_world s) c) → (∀ fs, sq_fetches q = Some fs → ¬ left_over (ss_world s) fs) →
  iter_static q n (ss_world s) = Done (replicate n None) (ss_world s) [].
Proof.
  intros Hs Hq Hf Hc Hk Hl. pose proof (open_static_none s i q n Hs Hq) as H.
  assert (¬ types_in_use (ss_world s) (sq_params q)) as Hn by (intros H0; destruct (H0 p t Hf Hc) as (c & H1 & H2); by eapply Hk). specialize (H Hn).
  destruct (iter_static q n (ss_world s)); [|destruct H as (_ & _ & _ & fs & ? & ?); by edestruct Hl|done..]. by destruct H as (-> & -> & ->).
Qed.
Lemma silent_dyn l s i q f c n : steps sess_new l s → no_panic l → ss_open s !! i = Some (Some (QDyn q)) → f ∈ dq_fetches q → fetch_id f = Some c →
  ¬ in_use (ss_world s) c → iter_dyn q n (ss_world s) = Done (replicate n None) (ss_world s) [].
Proof. intros Hl Hn Hq Hf Hc Hu. eapply quiet_dyn; try done; [by exists l|]. by eapply no_left_over. Qed.
Lemma silent_static l s i q p t n : steps sess_new l s → no_panic l → ss_open s !! i = Some (Some (QStat q)) → p ∈ sq_params q → param_ty p = Some t →
  (∀ c, type_id (ss_world s) t c → ¬ in_use (ss_world s) c) →
  iter_static q n (ss_world s) = Done (replicate n None) (ss_world s) [] ∧
  ∀ e, ¬ unissued (ss_world s) e → sq_get q e (ss_world s) = Done None (ss_world s) [].
Proof.
  intros Hl Hn Hq Hf Hc Hu. assert (reachable s) as Hs by by exists l. split.
  - eapply quiet_static; try done. intros fs _. by eapply no_left_over.
  - intros e He. pose proof (open_get s i q e Hs Hq) as H. destruct (sq_get q e (ss_world s)) as [[xs|] w' ev|r w' ev| |]; [| |by destruct H as (_ & _ & _ & ?)|done..].
    + exfalso. destruct H as (_ & _ & _ & [_ Hx] & _). destruct (Hx p t Hf Hc) as (c & Ht & [v Hv]). apply (Hu c Ht).
      destruct Hv as (k & i0 & a & j & u & Ha & _ & Hj & _). exists k, a, j, u. done.
    + by destruct H as (-> & -> & _).
Qed.
