(** * Property theorems about the playground (C65).
    Theorems only; proofs in ProofPlayground.v, non-vacuity witnesses in ExamplesPlayground.v. *)
From Verif Require Import SpecQuery SpecLimit ProofPlayground ProofGetBench.

(** C65: with any number of entities and rounds the program runs to its end: no panic, no deadlock, no
    undefined behaviour.  The ids are distinct, nothing else has a component, each round opened one query and
    none is left open, and dropping the world drops each value once. *)
Theorem C65_playground : ∀ t v, ty_wf t → ty_size t ≠ 0 ∨ ty_align t = 1 → length v = ty_size t →
  ∀ n m, (N.of_nat (2 * n) <= 2 ^ 32)%N → (N.of_nat (n * ty_size t) <= byte_limit)%N →
  ∃ es s, playground t v n m sess_new = Done es s [] ∧ length es = n ∧ NoDup es ∧
    Forall (λ e, id_wf e ∧ lives (ss_world s) e) es ∧ ss_open s = replicate m None ∧
    (∀ e c x, holds (ss_world s) e c x ↔ e ∈ es ∧ type_id (ss_world s) t c ∧ x = v) ∧
    ∃ ev, world_drop (ss_world s) = Some ev ∧ ev ≡ₚ if decide (ty_size t = 0) then [] else replicate n (EvDrop (DropOf t) v).
Proof. exact playground_run. Qed.
Print Assumptions C65_playground.
(** C65: so does the program as written: 10000 entities with an [f32], 1000000 rounds. *)
Theorem C65_main : ∀ i v, length v = 4 →
  ∃ es s, playground (Ty i 4 4) v (N.to_nat 10000) (N.to_nat 1000000) sess_new = Done es s [] ∧ length es = N.to_nat 10000 ∧
    ss_open s = replicate (N.to_nat 1000000) None ∧
    ∀ e c x, holds (ss_world s) e c x ↔ e ∈ es ∧ type_id (ss_world s) (Ty i 4 4) c ∧ x = v.
Proof. exact main_run. Qed.
Print Assumptions C65_main.
(** C65: the lookups go on to the end if and only if every entity has the components asked for; otherwise the
    first one that has not stops them. *)
Theorem C65_lookups : ∀ s i q es, reachable s → ss_open s !! i = Some (Some (QStat q)) →
  match pg_gets q es s with
  | Done _ s' ev => s' = s ∧ ev = [] ∧ Forall (wants (ss_world s) (sq_params q)) es
  | Panicked r s' ev => s' = s ∧ ev = [] ∧ ∃ es1 e es2, es = es1 ++ e :: es2 ∧ Forall (wants (ss_world s) (sq_params q)) es1 ∧
      ((r = RUnwrap ∧ ¬ unissued (ss_world s) e ∧ ¬ wants (ss_world s) (sq_params q) e) ∨ (r = RNoGeneration ∧ unissued (ss_world s) e))
  | _ => False
  end.
Proof. exact pg_gets_exact. Qed.
Print Assumptions C65_lookups.
(** C65: one or more rounds, started after any execution with no query open, with any entities that live: they end
    if and only if every entity has the component, and the world is then as before. *)
Theorem C65_rounds : ∀ t m l s es, ty_wf t → param_tame (PMut t) → closed_by l s → ¬ not_in_use (ss_world s) [PMut t] →
  Forall (λ e, id_wf e ∧ lives (ss_world s) e) es →
  match pg_rounds t (S m) es s with
  | Done _ s' ev => ss_world s' = ss_world s ∧ ev = [] ∧ Forall (wants (ss_world s) [PMut t]) es
  | Panicked r s' ev => r = RUnwrap ∧ same_view (ss_world s) (ss_world s') ∧ ev = [] ∧ ¬ Forall (wants (ss_world s) [PMut t]) es
  | _ => False
  end.
Proof. exact pg_rounds_exact. Qed.
Print Assumptions C65_rounds.
