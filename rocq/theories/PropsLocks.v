(** * Locks that never become free again.  Theorems only; proofs in ProofLeaked.v, non-vacuity
    witnesses in ExamplesLocks.v. *)
From Verif Require Import SpecLocks ProofLeaked.

(** C41: every component with a column has a lock. *)
Theorem C41_locks : ∀ s c, reachable s → in_use (ss_world s) c → known (ss_world s) c.
Proof. exact used_known. Qed.
Print Assumptions C41_locks.
(** C42: a query that is forgotten instead of dropped keeps its locks for ever: no later query
    that would conflict with it succeeds. *)
Theorem C42_leaked : ∀ s i q fs f c r1 s1 ev1 l s2 o f' r s3 ev, reachable s →
  ss_open s !! i = Some (Some q) → oq_fetches (ss_world s) q = Some fs → f ∈ fs → fetch_id f = Some c → known (ss_world s) c →
  sstep (SForget i) s = Done r1 s1 ev1 → steps s1 l s2 →
  requests (ss_world s2) o f' → fetch_id f' = Some c → f = FMut c ∨ f' = FMut c → sstep o s2 ≠ Done r s3 ev.
Proof. exact leaked_query. Qed.
Print Assumptions C42_leaked.
(** C42: a query dropped by a panic of its user poisons what it had locked for writing: no later
    query that asks for one of these components succeeds, ... *)
Theorem C42_poisoned : ∀ s i q fs c r1 s1 ev1 l s2 o f r s3 ev, reachable s →
  ss_open s !! i = Some (Some q) → oq_fetches (ss_world s) q = Some fs → FMut c ∈ fs → known (ss_world s) c →
  sstep (SDrop i true) s = Done r1 s1 ev1 → steps s1 l s2 →
  requests (ss_world s2) o f → fetch_id f = Some c → sstep o s2 ≠ Done r s3 ev.
Proof. exact poisoned_query. Qed.
Print Assumptions C42_poisoned.
(** ... but if it had locked nothing for writing this is like any other drop. *)
Theorem C42_readers : ∀ s i q fs, reachable s → ss_open s !! i = Some (Some q) → oq_fetches (ss_world s) q = Some fs →
  (∀ c, FMut c ∈ fs → ¬ known (ss_world s) c) → sstep (SDrop i true) s = sstep (SDrop i false) s.
Proof. exact readers_dropped. Qed.
Print Assumptions C42_readers.
