(** * Histories of fewer than 2^32 calls.
    Theorems only; proofs in ProofShort.v, non-vacuity witnesses in ExamplesShort.v. *)
From Verif Require Import SpecShort ProofShort.

(** C64: a history makes at most one archetype per call, and the empty one. *)
Theorem C64_archetypes : ∀ l s, steps sess_new l s → length (w_archs (ss_world s)) ≤ S (length l).
Proof. exact steps_archs. Qed.
Print Assumptions C64_archetypes.
(** C64: after fewer than 2^32 - 2 calls, whether a call is tame depends on its arguments only. *)
Theorem C64_tame : ∀ l s o, steps sess_new l s → simple_call o → (N.of_nat (length l) + 3 <= 2 ^ 32)%N → sop_tame o s.
Proof. exact short_tame. Qed.
Print Assumptions C64_tame.
(** C64: so what is proved of reachable states is true after any 2^32 - 2 legal calls with such arguments. *)
Theorem C64_runs : ∀ l s, runs l s → (N.of_nat (length l) + 2 <= 2 ^ 32)%N → steps sess_new l s.
Proof. exact short_runs. Qed.
Print Assumptions C64_runs.
