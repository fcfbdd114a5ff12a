(** * Theorems of C69 *)
From Verif Require Import History SpecBenches Benches ProofBenches.

(** C69: spawning one entity after the other with [spawn!] runs to the end, if each names no type
    twice, no type named was despawned, and there is room.  The entities are new and distinct; each
    has the components it was given; nothing else changed. *)
Theorem C69_spawns : ∀ h s ls, steps sess_new h s → Forall (λ q, q = None) (ss_open s) →
  Forall (λ l, args_ok l ∧ NoDup l.*1 ∧ types_live (ss_world s) l) ls → roomy h (ss_world s) ls →
  ∃ es s', spawn_all ls s = Done es s' [] ∧ ss_open s' = ss_open s ∧ populated (ss_world s) (ss_world s') ls es.
Proof. exact spawn_all_done. Qed.
Print Assumptions C69_spawns.
(** C69: the add_remove benches run to the end, however often [run] is called.  Each call of [run]
    destroys the added value once per entity.  In the end each entity has the components it was
    spawned with; dropping the world then destroys each of them once. *)
Theorem C69_add_remove : ∀ l t v n m, args_ok l → NoDup l.*1 → ty_wf t → length v = ty_size t → t ∉ l.*1 →
  (N.of_nat (n * macro_ids l) < 2 ^ 32)%N → (N.of_nat (n * (macro_bytes l + ty_size t)) <= byte_limit)%N → (N.of_nat (S (2 * n)) < u32_max)%N →
  ∃ es s, add_remove_bench l t v n m sess_new = Done es s (replicate (m * n) (EvDrop (DropOf t) v)) ∧
    length es = n ∧ NoDup es ∧ (∀ e, e ∈ es → id_wf e ∧ lives (ss_world s) e ∧ stored (ss_world s) e) ∧
    (∀ e c x, holds (ss_world s) e c x ↔ e ∈ es ∧ ∃ t', (t', x) ∈ l ∧ type_id (ss_world s) t' c) ∧
    ∃ ev, world_drop (ss_world s) = Some ev ∧ ev ≡ₚ concat (replicate n (drops_of l)).
Proof. exact add_remove_bench_run. Qed.
Print Assumptions C69_add_remove.
(** C69: this is so for the 10000 entities of the three benches in the repository, which have at most
    eight components and 1032 bytes. *)
Theorem C69_add_remove_10000 : ∀ l t v m, args_ok l → NoDup l.*1 → ty_wf t → length v = ty_size t → t ∉ l.*1 →
  length l ≤ 8 → macro_bytes l + ty_size t ≤ 2000 →
  ∃ es s, add_remove_bench l t v (N.to_nat 10000) m sess_new = Done es s (replicate (m * N.to_nat 10000) (EvDrop (DropOf t) v)) ∧
    length es = N.to_nat 10000 ∧ NoDup es ∧ (∀ e c x, holds (ss_world s) e c x ↔ e ∈ es ∧ ∃ t', (t', x) ∈ l ∧ type_id (ss_world s) t' c).
Proof. exact add_remove_10000. Qed.
Print Assumptions C69_add_remove_10000.
