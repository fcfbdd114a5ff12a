(** * Property theorems about the benches that loop over static queries (C70).
    Theorems only; proofs in ProofIterBench.v, non-vacuity witnesses in ExamplesIterBench.v. *)
From Verif Require Import ProofIterBench.

(** C70: spawning entities with the components [ls] into a new world and then looping [m] times over a
    query: no call panics, every entity has its own components with the body applied [m] times if they
    match, and dropping the world destroys exactly these values. *)
Theorem C70_iter_bench : ∀ ls ps g m, Forall (λ l, args_ok l ∧ NoDup l.*1) ls →
  Forall param_wf ps → Forall param_tame ps → ps ≠ [] → unshared ps → writes_fit ps g → all_named ps ls →
  roomy [] world_new ls →
  ∃ es N, length es = length ls ∧ NoDup es ∧ ∀ fuel, N < fuel →
    ∃ s, iter_bench ls ps g fuel m (FSess sess_new ∅) = Done es (FSess s ∅) [] ∧
      (∀ e, e ∈ es → id_wf e ∧ lives (ss_world s) e ∧ stored (ss_world s) e) ∧
      (∀ l t, l ∈ ls → t ∈ l.*1 → ∃ c, type_id (ss_world s) t c ∧ lives (ss_world s) c) ∧
      tabulates (ss_world s) es (zip_with (λ e, Nat.iter m (updated ps g e)) es ls) ∧
      ∃ ev, world_drop (ss_world s) = Some ev ∧ ev ≡ₚ zip_with (λ e, Nat.iter m (updated ps g e)) es ls ≫= drops_of.
Proof. exact iter_bench_run. Qed.
Print Assumptions C70_iter_bench.
(** C70: 10000 entities alike, as in simple_iter and simple_large_iter. *)
Theorem C70_iter_10000 : ∀ l ps g m, args_ok l → NoDup l.*1 → length l ≤ 8 → macro_bytes l ≤ 2000 →
  Forall param_wf ps → Forall param_tame ps → ps ≠ [] → unshared ps → writes_fit ps g →
  (∀ p t, p ∈ ps → param_ty p = Some t → t ∈ l.*1) →
  ∃ es N, length es = N.to_nat 10000 ∧ NoDup es ∧ ∀ fuel, N < fuel →
    ∃ s, iter_bench (replicate (N.to_nat 10000) l) ps g fuel m (FSess sess_new ∅) = Done es (FSess s ∅) [] ∧
      ∀ e c x, holds (ss_world s) e c x ↔ e ∈ es ∧ ∃ t, (t, x) ∈ Nat.iter m (updated ps g e) l ∧ type_id (ss_world s) t c.
Proof. exact iter_10000. Qed.
Print Assumptions C70_iter_10000.
