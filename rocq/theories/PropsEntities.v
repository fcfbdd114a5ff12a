(** * Properties of entity ids and the entity allocator.
    Theorems only; proofs in ProofEntities.v, non-vacuity witnesses in ExamplesSmall.v. *)
From Verif Require Import SpecSmall ProofEntities.

(** C01: after any history, a successful spawn returns an id that was dead, is alive, differs
    from every live id; nobody else's liveness changes. *)
Theorem C01_spawn_fresh : ∀ h e s' ev,
  Forall eop_wf h →
  ents_spawn (erun h entities_new).2 = Done e s' ev →
  alive s' e ∧
  ¬ alive (erun h entities_new).2 e ∧
  (∀ e', id_wf e' → alive (erun h entities_new).2 e' → ecsid_eqb e' e = false) ∧
  (∀ e', e' ≠ e → alive s' e' ↔ alive (erun h entities_new).2 e').
Proof. exact spawn_fresh_reachable. Qed.
Print Assumptions C01_spawn_fresh.

(** C01: and spawn does succeed as long as fewer than 2^32 calls were made. *)
Theorem C01_spawn_succeeds : ∀ h,
  Forall eop_wf h → (N.of_nat (length h) < u32_modulus)%N →
  ∃ e s', ents_spawn (erun h entities_new).2 = Done e s' [].
Proof. exact spawn_succeeds. Qed.
Print Assumptions C01_spawn_succeeds.

(** C02: a despawned id stays dead until its slot was handed out 2^32 times again. *)
Theorem C02_dead_stays_dead : ∀ h1 e s2 ev h2,
  Forall eop_wf h1 → Forall eop_wf h2 → id_wf e →
  ents_despawn e (erun h1 entities_new).2 = Done true s2 ev →
  (handed_out e (erun h2 s2).1 < u32_modulus)%N →
  ents_is_alive (erun h2 s2).2 e = Some false.
Proof. exact dead_stays_dead'. Qed.
Print Assumptions C02_dead_stays_dead.

(** C02: two spawns of one history return the same id only if the slot was handed out 2^32
    times in between. *)
Theorem C02_no_early_reuse : ∀ h e i j,
  Forall eop_wf h → i < j →
  (erun h entities_new).1 !! i = Some (Some e) →
  (erun h entities_new).1 !! j = Some (Some e) →
  (u32_modulus ≤ handed_out e (take (j - i) (drop (S i) (erun h entities_new).1)))%N.
Proof. exact no_early_reuse. Qed.
Print Assumptions C02_no_early_reuse.

(** C03: for every live id of every reachable state, 2^32 rounds of despawn and spawn on its
    slot bring the stale id back to life. *)
Theorem C03_wraparound_resurrects : ∀ h e,
  Forall eop_wf h → id_wf e → alive (erun h entities_new).2 e →
  let s := (erun h entities_new).2 in
  let ops := cycle_ops s e (N.to_nat u32_modulus) in
  Forall eop_wf ops ∧ N.of_nat (length ops) = (2 * u32_modulus)%N ∧
  (∃ ops', ops = EDespawn e :: ops') ∧
  ents_is_alive (estep (EDespawn e) s).2 e = Some false ∧
  ents_is_alive (erun ops s).2 e = Some true.
Proof. exact wraparound_resurrects'. Qed.
Print Assumptions C03_wraparound_resurrects.

(** C19: equality, order and [as_u64] agree. *)
Theorem C19_eq_is_componentwise : ∀ a b, id_wf a → id_wf b →
  (ecsid_eqb a b = true ↔ id_gen a = id_gen b ∧ id_idx a = id_idx b) ∧
  (as_u64 a = as_u64 b → id_gen a = id_gen b ∧ id_idx a = id_idx b) ∧
  (as_u64 a < 2 ^ 64)%N ∧
  (ecsid_leb a b = true ↔ (as_u64 a ≤ as_u64 b)%N) ∧
  (ecsid_leb a b = true → ecsid_leb b a = true → ecsid_eqb a b = true).
Proof. exact ecsid_order_eq. Qed.
Print Assumptions C19_eq_is_componentwise.
