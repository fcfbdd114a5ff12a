(** * Ids over whole histories of a world.  Theorems only; proofs in ProofIds.v, non-vacuity
    witnesses in ExamplesIds.v. *)
From Verif Require Import SpecIds ProofIds.

(** C57: in every history the calls that bring an id with index [k] to life can be counted. *)
Theorem C57_counted : ∀ k s l s', reachable s → (k < 2 ^ 32)%N → steps s l s' → ∃ n, births k s l s' n.
Proof. exact steps_births. Qed.
Print Assumptions C57_counted.
(** C57: [World::is_alive] panics exactly for the ids whose index was never handed out. *)
Theorem C57_is_alive_panics : ∀ e l s n, id_wf e → births (id_idx e) sess_new l s n →
  is_alive e (ss_world s) = Panicked RNoGeneration (ss_world s) [] ↔ n = 0%N.
Proof. exact unissued_births. Qed.
Print Assumptions C57_is_alive_panics.
(** C57: the generation of a live id is the number of times its index was handed out before,
    modulo 2^32, ... *)
Theorem C57_generation : ∀ e l s n, id_wf e → births (id_idx e) sess_new l s n → lives (ss_world s) e →
  id_gen e = ((n - 1) mod 2 ^ 32)%N ∧ n ≠ 0%N.
Proof. exact first_generations. Qed.
Print Assumptions C57_generation.
(** ... so two live ids of one index, at different times, differ unless the number of times it
    was handed out in between is a multiple of 2^32. *)
Theorem C57_reuse : ∀ e e' s l s' n, reachable s → id_wf e → lives (ss_world s) e → births (id_idx e) s l s' n →
  lives (ss_world s') e' → id_idx e' = id_idx e → id_gen e' = ((id_gen e + n) mod 2 ^ 32)%N.
Proof. exact later_generations. Qed.
Print Assumptions C57_reuse.
(** C57: an id that ceased to be alive stays dead until its index was handed out 2^32 times. *)
Theorem C57_stays_dead : ∀ e s x s1 l s' n, reachable s → id_wf e → lives (ss_world s) e →
  steps s [x] s1 → ¬ lives (ss_world s1) e → births (id_idx e) s1 l s' n → (n < 2 ^ 32)%N → ¬ lives (ss_world s') e.
Proof. exact stays_dead. Qed.
Print Assumptions C57_stays_dead.
(** C57: an index is handed out for the first time only when all smaller ones are alive. *)
Theorem C57_dense : ∀ k s x s', reachable s → steps s [x] s' → born k (ss_world s) (ss_world s') →
  (∀ e, id_wf e → id_idx e = k → unissued (ss_world s) e) →
  ∀ k', (k' < k)%N → ∃ e, id_wf e ∧ id_idx e = k' ∧ lives (ss_world s') e.
Proof. exact dense_ids. Qed.
Print Assumptions C57_dense.
