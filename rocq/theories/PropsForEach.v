(** * Property theorems about loops over queries (C66).
    Theorems only; proofs in ProofForEach.v, non-vacuity witnesses in ExamplesForEach.v. *)
From Verif Require Import ProofForEach.

(** C66: [for_each] over an open query calls its body once for every matching entity, on what the entity
    had before the loop.  It changes exactly what the body writes. *)
Theorem C66_for_each : ∀ f i q g, freachable f → ss_open (fs_sess f) !! i = Some (Some (QStat q)) → sq_params q ≠ [] →
  types_in_use (ss_world (fs_sess f)) (sq_params q) → writes_fit (sq_params q) g →
  ∃ es, enumerates (wants (ss_world (fs_sess f)) (sq_params q)) es ∧
    ∀ fuel, length es < fuel → ∃ f', for_each g i fuel f = Done (length es) f' [] ∧
      ss_open (fs_sess f') = ss_open (fs_sess f) ∧ fs_iters f' = delete i (fs_iters f) ∧ freachable f' ∧
      all_updated (ss_world (fs_sess f)) (ss_world (fs_sess f')) (sq_params q) g.
Proof. exact loop_updates. Qed.
Print Assumptions C66_for_each.
(** C66: over a query naming a type that was never registered, it does nothing. *)
Theorem C66_nothing : ∀ f i q g fuel, freachable f → ss_open (fs_sess f) !! i = Some (Some (QStat q)) →
  unregistered (ss_world (fs_sess f)) (sq_params q) → 0 < fuel → for_each g i fuel f = Done 0 (ended f i) [].
Proof. exact loop_nothing. Qed.
Print Assumptions C66_nothing.
(** C66: opening a query, looping over it and dropping it, when no query is open before. *)
Theorem C66_run : ∀ ps g l s, Forall param_wf ps → Forall param_tame ps → ps ≠ [] → unshared ps → writes_fit ps g →
  closed_by l s → types_in_use (ss_world s) ps →
  ∃ es, enumerates (wants (ss_world s) ps) es ∧ ∀ fuel, length es < fuel →
    ∃ l' s', run_query ps g fuel (FSess s ∅) = Done (length es) (FSess s' ∅) [] ∧ closed_by l' s' ∧ all_updated (ss_world s) (ss_world s') ps g.
Proof. exact run_updates. Qed.
Print Assumptions C66_run.
(** C66: doing so any number of times. *)
Theorem C66_runs : ∀ ps g l s m, Forall param_wf ps → Forall param_tame ps → ps ≠ [] → unshared ps → writes_fit ps g →
  closed_by l s → types_in_use (ss_world s) ps →
  ∃ N, ∀ fuel, N < fuel → ∃ l' s', run_queries ps g fuel m (FSess s ∅) = Done () (FSess s' ∅) [] ∧ closed_by l' s' ∧
    nsteps (λ w w', all_updated w w' ps g) m (ss_world s) (ss_world s').
Proof. exact runs_update. Qed.
Print Assumptions C66_runs.
