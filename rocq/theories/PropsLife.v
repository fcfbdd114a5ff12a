(** * Properties of whole histories: what happens to component values, absence of undefined
    behaviour.  Theorems only; proofs in ProofLedger.v, ProofLife.v, ProofRefuted.v, non-vacuity
    witnesses in ExamplesLife.v. *)
From Verif Require Import SpecLedger SpecQuery ProofLife ProofRefuted ProofRefutedQuery.

(** C30: over any history, what is held at the end, what was dropped and what was lost is
    what was held at the start and what was taken over; the destructors that ran are those of
    the dropped values and of the values passed to [add_component] in vain. *)
Theorem C30_ledger : ∀ s l s', reachable s → steps s l s' →
  ∃ ns, ledger s l ns ∧
    cells (ss_world s') ++ (ns ≫= dropt) ++ (ns ≫= lost) ≡ₚ cells (ss_world s) ++ (ns ≫= took) ∧
    (no_duplicate l → events_of l ≡ₚ dropping_all (ss_world s') (ns ≫= dropt) ++ (ns ≫= back)).
Proof. exact history_ledger. Qed.
Print Assumptions C30_ledger.
(** C30: dropping the world drops each value it holds once, zero-sized ones excepted (C29). *)
Theorem C30_world_drop : ∀ w, reachable_world w →
  ∃ ev, world_drop w = Some ev ∧ ev ≡ₚ dropping_sized w (cells w).
Proof. exact dropped_world. Qed.
Print Assumptions C30_world_drop.
(** C30: from the creation of the world to its end, each value it took over is dropped once;
    only zero-sized values present at the end are not dropped. *)
Theorem C30_each_once : ∀ l s', steps sess_new l s' → no_duplicate l → no_overwrite l →
  ∃ ns ev, ledger sess_new l ns ∧ world_drop (ss_world s') = Some ev ∧
    events_of l ++ ev ++ dropping_all (ss_world s') (filter (λ p, p.2 = []) (cells (ss_world s')))
      ≡ₚ dropping_all (ss_world s') (ns ≫= took) ++ (ns ≫= back).
Proof. exact life_ledger. Qed.
Print Assumptions C30_each_once.
(** C30: a value given to a builder that is built twice is dropped twice. *)
Theorem C30_build_twice_refuted : ∃ w t v e w' w'' ev, reachable_world w ∧
  op_legal (OSpawn None (CompMeta None (Layout 0 1)) [BWith t v; BBuild; BBuild] BDrop) w ∧
  EvDrop (DropOf t) v ∉ default [] (world_drop w) ∧
  step (OSpawn None (CompMeta None (Layout 0 1)) [BWith t v; BBuild; BBuild] BDrop) w = Done (RId e) w' [] ∧
  step (ODespawn e) w' = Done (RBool true) w'' [EvDrop (DropOf t) v] ∧
  world_drop w'' = Some ev ∧ EvDrop (DropOf t) v ∈ ev.
Proof. exact dropped_twice. Qed.
Print Assumptions C30_build_twice_refuted.

(** C48 *)
Theorem C48_never_undefined : ∀ s, reachable s →
  (∀ o, sop_legal o s → sop_tame o s → sstep o s ≠ UB) ∧
  (∀ i q, ss_open s !! i = Some (Some (QDyn q)) →
     ∀ n, iter_dyn q n (ss_world s) ≠ UB ∧ iter_cols q n (ss_world s) ≠ UB) ∧
  (∀ i q, ss_open s !! i = Some (Some (QStat q)) →
     ∀ n e, iter_static q n (ss_world s) ≠ UB ∧ sq_get q e (ss_world s) ≠ UB) ∧
  is_Some (world_drop (ss_world s)).
Proof. exact never_undefined. Qed.
Print Assumptions C48_never_undefined.
