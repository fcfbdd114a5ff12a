(** * Property theorems about loops over dynamic queries (C67).
    Theorems only; proofs in ProofForEachDyn.v, non-vacuity witnesses in ExamplesForEachDyn.v. *)
From Verif Require Import ProofForEachDyn.

(** C67: [for_each] over an open query calls its body once for every matching entity.  The body can read
    through the pointers it is given, and sees what the entity had before the loop.  The loop changes
    exactly what the body writes. *)
Theorem C67_for_each : ∀ f i q g, freachable f → ss_open (fs_sess f) !! i = Some (Some (QDyn q)) → dq_fetches q ≠ [] →
  all_in_use (ss_world (fs_sess f)) (dq_fetches q) → Forall (castable (ss_world (fs_sess f))) (dq_fetches q) → rows_fit (ss_world (fs_sess f)) (dq_fetches q) g →
  ∃ es, enumerates (wanted (ss_world (fs_sess f)) (dq_fetches q)) es ∧
    ∀ fuel, length es < fuel → ∃ f', for_each_row (dq_fetches q) g i fuel f = Done (length es) f' [] ∧
      ss_open (fs_sess f') = ss_open (fs_sess f) ∧ fs_iters f' = delete i (fs_iters f) ∧ freachable f' ∧
      all_rows_updated (ss_world (fs_sess f)) (ss_world (fs_sess f')) (dq_fetches q) g.
Proof. exact rows_updated. Qed.
Print Assumptions C67_for_each.
(** C67: over a query that fetches nothing, or fetches a component of no entity so far, it does nothing. *)
Theorem C67_nothing : ∀ f i q g fuel, freachable f → ss_open (fs_sess f) !! i = Some (Some (QDyn q)) →
  dq_fetches q = [] ∨ (¬ all_in_use (ss_world (fs_sess f)) (dq_fetches q) ∧ ¬ left_over (ss_world (fs_sess f)) (dq_fetches q)) →
  0 < fuel → for_each_row (dq_fetches q) g i fuel f = Done 0 (ended f i) [].
Proof. exact no_rows. Qed.
Print Assumptions C67_nothing.
(** C67: opening a query, looping over it and dropping it, when no query is open before. *)
Theorem C67_run : ∀ xs g l s, Forall fetch_wf xs → xs ≠ [] → unshared_ids xs → closed_by l s →
  all_in_use (ss_world s) xs → Forall (castable (ss_world s)) xs → rows_fit (ss_world s) xs g →
  ∃ es, enumerates (wanted (ss_world s) xs) es ∧ ∀ fuel, length es < fuel →
    ∃ l' s', run_dynamic xs g fuel (FSess s ∅) = Done (length es) (FSess s' ∅) [] ∧ closed_by l' s' ∧ all_rows_updated (ss_world s) (ss_world s') xs g.
Proof. exact drun_updates. Qed.
Print Assumptions C67_run.
(** C67: doing so any number of times. *)
Theorem C67_runs : ∀ xs g l s m, Forall fetch_wf xs → xs ≠ [] → unshared_ids xs → closed_by l s →
  all_in_use (ss_world s) xs → Forall (castable (ss_world s)) xs → rows_fit (ss_world s) xs g →
  ∃ N, ∀ fuel, N < fuel → ∃ l' s', run_dynamics xs g fuel m (FSess s ∅) = Done () (FSess s' ∅) [] ∧ closed_by l' s' ∧
    nsteps (λ w w', all_rows_updated w w' xs g) m (ss_world s) (ss_world s').
Proof. exact druns_update. Qed.
Print Assumptions C67_runs.
