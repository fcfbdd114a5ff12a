(** * No undefined behaviour in any history (C48) *)
From Verif Require Import ProofBase SpecSmall World History ProofEntities ProofBitset ProofArrayVec ProofUVec.
From Verif Require Export ProofLedger ProofQueryLaws.

Lemma history_ledger s l s' : reachable s → steps s l s' →
  ∃ ns, ledger s l ns ∧
    cells (ss_world s') ++ (ns ≫= dropt) ++ (ns ≫= lost) ≡ₚ cells (ss_world s) ++ (ns ≫= took) ∧
    (no_duplicate l → events_of l ≡ₚ dropping_all (ss_world s') (ns ≫= dropt) ++ (ns ≫= back)).
Proof.
  intros Hs Hst. destruct (steps_ledger s l s') as (ns & H1 & H2 & H3); [by apply reachable_inv|done|].
  exists ns. split_and!; [done..|]. intros H. by apply H3.
Qed.
Lemma dropped_world w : reachable_world w → ∃ ev, world_drop w = Some ev ∧ ev ≡ₚ dropping_sized w (cells w).
Proof. intros [[R Hw] _]%reachable_world_ok. by eapply world_drop_sized. Qed.
Lemma never_undefined s : reachable s →
  (∀ o, sop_legal o s → sop_tame o s → sstep o s ≠ UB) ∧
  (∀ i q, ss_open s !! i = Some (Some (QDyn q)) →
     ∀ n, iter_dyn q n (ss_world s) ≠ UB ∧ iter_cols q n (ss_world s) ≠ UB) ∧
  (∀ i q, ss_open s !! i = Some (Some (QStat q)) →
     ∀ n e, iter_static q n (ss_world s) ≠ UB ∧ sq_get q e (ss_world s) ≠ UB) ∧
  is_Some (world_drop (ss_world s)).
Proof.
  intros Hs. pose proof (reachable_inv _ Hs) as Hi. split_and!.
  - intros o Hl Ht E. pose proof (sstep_inv o s Hi Hl Ht) as H. by rewrite E in H.
  - intros i q Hq n. split; intros E.
    + pose proof (open_dyn_fused s i q n Hs Hq) as H. by rewrite E in H.
    + pose proof (open_cols_fused s i q n Hs Hq) as H. by rewrite E in H.
  - intros i q Hq n e. split; intros E.
    + pose proof (open_static_fused s i q n Hs Hq) as H. by rewrite E in H.
    + pose proof (open_get s i q e Hs Hq) as H. by rewrite E in H.
  - destruct (sv_world _ Hi) as [[R Hw] _]. destruct (world_drop_sized _ _ Hw) as (ev & -> & _). by exists ev.
Qed.
