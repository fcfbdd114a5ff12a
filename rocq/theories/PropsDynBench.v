(** * Property theorems about spawning with dynamic components and the benches that use them (C71).
    Vocabulary: SpecDynBench. *)
From Verif Require Import ProofDynBench.

(** C71: after any execution, with no query open: spawning entities one after the other, with any metas and
    with dynamic components, panics nowhere and drops nothing.  There are these entities and components and
    nothing else is changed. *)
Theorem C71_spawns : ∀ h s ps, steps sess_new h s → Forall (λ q, q = None) (ss_open s) →
  Forall (λ p, layout_wf (cm_layout p.1) ∧ Forall (fits_in (ss_world s)) p.2 ∧ NoDup p.2.*1) ps →
  dyn_roomy h (ss_world s) ps →
  ∃ es s', spawn_dynamics ps s = Done es s' [] ∧ ss_open s' = ss_open s ∧
    dyn_populated (ss_world s) (ss_world s') ps es.
Proof. exact spawn_dynamics_done. Qed.
Print Assumptions C71_spawns.
(** C71: a bench that makes components in a new world, spawns entities with these, and loops [m] times over
    a dynamic query.  It comes to its end, and each entity has what [m] updates of its own components give;
    the components keep their metas, and dropping the world destroys these values and no others. *)
Theorem C71_dyn_bench : ∀ cms ls xs g m, Forall (λ cm, layout_wf (cm_layout cm)) cms →
  (N.of_nat (length cms) + 1 <= u32_max)%N →
  (∀ cs, NoDup cs → length cs = length cms → sensible cms cs (ls cs) (xs cs) g) →
  ∃ cs es N, length cs = length cms ∧ length es = length (ls cs) ∧ NoDup (cs ++ es) ∧ ∀ fuel, N < fuel →
    ∃ s, dyn_bench cms ls xs g fuel m (FSess sess_new ∅) = Done (cs, es) (FSess s ∅) [] ∧
      (∀ e, e ∈ cs ++ es → id_wf e) ∧ (∀ e, id_wf e → lives (ss_world s) e ↔ e ∈ cs ++ es) ∧
      (∀ e, stored (ss_world s) e ↔ e ∈ cs ++ es) ∧
      (∀ c cm, made_as cs cms c cm → recorded (ss_world s) c cm) ∧
      tabulates_ids (ss_world s) es (zip_with (λ e, Nat.iter m (row_updated (xs cs) g e)) es (ls cs)) ∧
      ∃ ev, world_drop (ss_world s) = Some ev ∧
        ev ≡ₚ zip_with (λ e, Nat.iter m (row_updated (xs cs) g e)) es (ls cs) ≫= drops_by cs cms.
Proof. exact dyn_bench_run. Qed.
Print Assumptions C71_dyn_bench.
