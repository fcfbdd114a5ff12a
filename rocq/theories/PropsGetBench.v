(** * Property theorems about the benches that look entities up in a query (C72).
    Theorems only; proofs in ProofGetBench.v, non-vacuity witnesses in ExamplesGetBench.v. *)
From Verif Require Import ProofGetBench.

(** C72: after any execution, with no query open: making a query, looking up entities that match, and
    dropping the query.  No call panics, each lookup shows what the entity has, and the world is as before. *)
Theorem C72_gets : ∀ ps l s es, Forall param_wf ps → Forall param_tame ps → unshared ps → closed_by l s →
  ¬ not_in_use (ss_world s) ps → Forall (λ e, id_wf e ∧ lives (ss_world s) e ∧ wants (ss_world s) ps e) es →
  ∃ xs l' s', get_run ps es s = Done xs s' [] ∧ closed_by l' s' ∧ ss_world s' = ss_world s ∧
    Forall2 (λ e x, Forall2 (sees (ss_world s) e) ps x) es xs.
Proof. exact get_run_ok. Qed.
Print Assumptions C72_gets.
(** C72: after any execution, with no query open: spawning entities and adding another component to each.  No call
    panics, nothing is dropped, there are these entities with these components, and nothing else is changed. *)
Theorem C72_adding : ∀ qs h s, steps sess_new h s → Forall (λ q, q = None) (ss_open s) →
  Forall (λ q, args_ok (with_added q) ∧ NoDup (with_added q).*1 ∧ types_live (ss_world s) (with_added q)) qs →
  roomy_adding h (ss_world s) qs →
  ∃ es s', spawn_adding qs s = Done es s' [] ∧ ss_open s' = ss_open s ∧
    populated (ss_world s) (ss_world s') (with_added <$> qs) es.
Proof. exact spawn_adding_done. Qed.
Print Assumptions C72_adding.
(** C72: the bench get, with any components and any query: all [m] runs show, for every entity, what it was
    spawned with; and dropping the world destroys exactly these values. *)
Theorem C72_get_bench : ∀ ls ps m, ls ≠ [] → Forall (λ l, args_ok l ∧ NoDup l.*1 ∧ has_all ps l) ls →
  Forall param_wf ps → Forall param_tame ps → unshared ps → roomy [] world_new ls →
  ∃ es xs s, get_bench ls ps m sess_new = Done (es, replicate m xs) s [] ∧ length es = length ls ∧ NoDup es ∧
    zip_with (λ e l, mapM (item_seen e l) ps) es ls = Some <$> xs ∧ tabulates (ss_world s) es ls ∧
    ∃ ev, world_drop (ss_world s) = Some ev ∧ ev ≡ₚ ls ≫= drops_of.
Proof. exact get_bench_run. Qed.
Print Assumptions C72_get_bench.
(** C72: the same of the bench padded_get. *)
Theorem C72_padded_get_bench : ∀ qs ps m, qs ≠ [] →
  Forall (λ q, args_ok (with_added q) ∧ NoDup (with_added q).*1 ∧ has_all ps (with_added q)) qs →
  Forall param_wf ps → Forall param_tame ps → unshared ps → roomy_adding [] world_new qs →
  ∃ es xs s, padded_get_bench qs ps m sess_new = Done (es, replicate m xs) s [] ∧ length es = length qs ∧ NoDup es ∧
    zip_with (λ e l, mapM (item_seen e l) ps) es (with_added <$> qs) = Some <$> xs ∧
    tabulates (ss_world s) es (with_added <$> qs) ∧
    ∃ ev, world_drop (ss_world s) = Some ev ∧ ev ≡ₚ (with_added <$> qs) ≫= drops_of.
Proof. exact padded_get_bench_run. Qed.
Print Assumptions C72_padded_get_bench.
(** C72: padded_get with its 10000 entities alike, up to 26 components and one more: every lookup shows the
    component that was added. *)
Theorem C72_padded_get_10000 : ∀ l t v m, args_ok (l ++ [(t, v)]) → NoDup (l ++ [(t, v)]).*1 → length l ≤ 26 →
  macro_bytes (l ++ [(t, v)]) ≤ 2000 → param_tame (PMut t) →
  ∃ es s, padded_get_bench (replicate (N.to_nat 10000) (l, (t, v))) [PMut t] m sess_new =
      Done (es, replicate m (replicate (N.to_nat 10000) [IVal v])) s [] ∧
    length es = N.to_nat 10000 ∧ NoDup es ∧
    ∀ e c x, holds (ss_world s) e c x ↔ e ∈ es ∧ ∃ t0, (t0, x) ∈ l ++ [(t, v)] ∧ type_id (ss_world s) t0 c.
Proof. exact padded_get_10000. Qed.
Print Assumptions C72_padded_get_10000.
(** C72: with an open query, the lookups succeed if and only if every entity has the components asked for, and then
    show them; otherwise the first entity that has not stops them. *)
Theorem C72_lookups : ∀ s i q es, reachable s → ss_open s !! i = Some (Some (QStat q)) →
  match get_each q es s with
  | Done xs s' ev => s' = s ∧ ev = [] ∧ Forall2 (λ e x, wants (ss_world s) (sq_params q) e ∧ Forall2 (sees (ss_world s) e) (sq_params q) x) es xs
  | Panicked r s' ev => s' = s ∧ ev = [] ∧ ∃ es1 e es2, es = es1 ++ e :: es2 ∧ Forall (wants (ss_world s) (sq_params q)) es1 ∧
      ((r = RUnwrap ∧ ¬ unissued (ss_world s) e ∧ ¬ wants (ss_world s) (sq_params q) e) ∨ (r = RNoGeneration ∧ unissued (ss_world s) e))
  | _ => False
  end.
Proof. exact get_each_exact. Qed.
Print Assumptions C72_lookups.
