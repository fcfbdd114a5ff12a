(** * Despawning and spawning in turn.  Theorems only; proofs in ProofRecycle.v, non-vacuity
    witnesses in ExamplesRecycle.v. *)
From Verif Require Import ProofRecycle.

(** C74: in every world, despawning an entity and spawning one without components in turn always
    works, however often.  The new entity always has the index of the old one and the next generation,
    modulo 2^32.  No archetype is made, and nothing else changes. *)
Theorem C74_rounds : ∀ n h s e, steps sess_new h s → Forall (λ q, q = None) (ss_open s) → expendable (ss_world s) e →
  (N.of_nat (sum_list_with passed_bytes (calls_of h)) <= byte_limit)%N → (N.of_nat (length (w_archs (ss_world s)) + 1) <= u32_max)%N →
  ∃ l w', steps s l (Sess w' (ss_open s)) ∧ l.*1 = seq 0 n ≫= recycle e ∧ lives w' (later_id e n) ∧ stored w' (later_id e n) ∧
    (n ≠ 0 → ∀ c v, ¬ holds w' (later_id e n) c v) ∧ others_same (ss_world s) w' e ∧ kinds w' = kinds (ss_world s).
Proof. exact recycle_run. Qed.
Print Assumptions C74_rounds.
(** C74: so the claim "an id that was despawned never names an entity again" is false of every world:
    after 2^32 such rounds the id is alive, and belongs to another entity. *)
Theorem C74_stale_id_refuted : ∀ h s e, steps sess_new h s → Forall (λ q, q = None) (ss_open s) → expendable (ss_world s) e →
  (N.of_nat (sum_list_with passed_bytes (calls_of h)) <= byte_limit)%N → (N.of_nat (length (w_archs (ss_world s)) + 1) <= u32_max)%N →
  ∃ x s1 l s2, steps s [x] s1 ∧ x.1 = (SWorld (ODespawn e), ROk (SRet (RBool true))) ∧ ¬ lives (ss_world s1) e ∧
    steps s1 l s2 ∧ N.of_nat (S (length l)) = (2 * 2 ^ 32)%N ∧
    (∃ y, last l = Some y ∧ y.1 = (SWorld (spawn_macro []), ROk (SRet (RId e)))) ∧
    lives (ss_world s2) e ∧ stored (ss_world s2) e ∧ (∀ c v, ¬ holds (ss_world s2) e c v) ∧ others_same (ss_world s) (ss_world s2) e.
Proof. exact stale_revived. Qed.
Print Assumptions C74_stale_id_refuted.
