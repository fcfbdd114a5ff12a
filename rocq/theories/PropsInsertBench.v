(** * Property theorems about the insert benches and the archetypes they make (C73).
    Theorems only; proofs in ProofInsertBench.v, non-vacuity witnesses in ExamplesInsertBench.v. *)
From Verif Require Import ProofInsertBench.

(** C73: spawning one entity after the other, in any state with no query open, makes archetypes for the
    sets of types of the entities only, and the empty one; afterwards each of these sets has one. *)
Theorem C73_kinds : ∀ h s ls, steps sess_new h s → Forall (λ q, q = None) (ss_open s) →
  Forall (λ l, args_ok l ∧ NoDup l.*1 ∧ types_live (ss_world s) l) ls → roomy h (ss_world s) ls →
  ∃ es s' K, spawn_all ls s = Done es s' [] ∧ kinds (ss_world s') = kinds (ss_world s) ++ K ∧
    (∀ L, L ∈ K → L = [] ∨ ∃ l, l ∈ ls ∧ kind_of (ss_world s') L (type_set l)) ∧
    (∀ l, l ∈ ls → ∃ L, L ∈ kinds (ss_world s') ∧ kind_of (ss_world s') L (type_set l)).
Proof. exact spawn_kinds_done. Qed.
Print Assumptions C73_kinds.
(** C73: in a new world there are then as many archetypes as there are different sets of types, the empty
    one counted in; dropping the world destroys each value once. *)
Theorem C73_world : ∀ ls, ls ≠ [] → Forall (λ l, args_ok l ∧ NoDup l.*1) ls → roomy [] world_new ls →
  ∃ es s, spawn_all ls sess_new = Done es s [] ∧ tabulates (ss_world s) es ls ∧ length es = length ls ∧ NoDup es ∧
    length (w_archs (ss_world s)) = size (type_sets ls) ∧
    ∃ ev, world_drop (ss_world s) = Some ev ∧ ev ≡ₚ ls ≫= drops_of.
Proof. exact insert_world. Qed.
Print Assumptions C73_world.
(** C73: the insert benches run to their end, however often; each run destroys what it made. *)
Theorem C73_insert_bench : ∀ ls m, Forall (λ l, args_ok l ∧ NoDup l.*1) ls → roomy [] world_new ls →
  ∃ ev, insert_runs ls m () = Done () () ev ∧ ev ≡ₚ concat (replicate m (ls ≫= drops_of)).
Proof. exact insert_runs_ok. Qed.
Print Assumptions C73_insert_bench.
(** C73: with at most 10000 entities that share the components [l], and [n] of which have the component [x]
    for each [x] of [ts]: there is an archetype for each [x], and the empty one. *)
Theorem C73_frag_insert : ∀ l ts n, 0 < n → ts ≠ [] → Forall (λ x, args_ok (l ++ [x])) ts → NoDup (l ++ ts).*1 →
  (N.of_nat (n * length ts) <= 10000)%N → length l ≤ 8 → Forall (λ x, macro_bytes (l ++ [x]) ≤ 2000) ts →
  ∃ es s, spawn_all (ts ≫= λ x, replicate n (l ++ [x])) sess_new = Done es s [] ∧
    length es = n * length ts ∧ NoDup es ∧
    tabulates (ss_world s) es (ts ≫= λ x, replicate n (l ++ [x])) ∧
    length (w_archs (ss_world s)) = S (length ts).
Proof. exact frag_insert_run. Qed.
Print Assumptions C73_frag_insert.
