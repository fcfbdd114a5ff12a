(** * Theorems of C68 *)
From Verif Require Import History SpecAddRounds AddRounds ProofAddRounds.

(** C68: giving an entity a component, or taking one away, makes an archetype only if there is none
    for the components the entity then has, and it makes that one. *)
Theorem C68_made : ∀ w o e r w' ev, reachable_world w → op_legal o w → op_tame o w → moves o = Some e →
  step o w = Done r w' ev → made_for w w' e.
Proof. exact (λ w o e r w' ev H, moves_made w o e r w' ev (reachable_world_ok w H)). Qed.
Print Assumptions C68_made.
(** C68: whatever the call, archetypes stay, and one is made only for a component set that had none:
    that of the entity spawned, given a component or deprived of one, or the empty set. *)
Theorem C68_only : ∀ w o r w' ev, reachable_world w → op_legal o w → op_tame o w →
  step o w = Done r w' ev → made_only w w' (subject o r).
Proof. exact (λ w o r w' ev H, step_made w o r w' ev (reachable_world_ok w H)). Qed.
Print Assumptions C68_only.
(** C68: adding a component to all of some entities and taking it away again, over and over, runs to
    the end.  Each round destroys the value once per entity and nothing else.  All components are as
    before, and after the first round no archetype is made any more. *)
Theorem C68_rounds : ∀ t v es s, reachable s → Forall (λ q, q = None) (ss_open s) → ty_wf t → length v = ty_size t →
  without (ss_world s) t es → usable (ss_world s) t → spacious (ss_world s) t (length es) →
  ∃ s1, add_remove_round t v es s = Done () s1 (replicate (length es) (EvDrop (DropOf t) v)) ∧
    length (kinds (ss_world s1)) ≤ length (kinds (ss_world s)) + length es ∧
    ∀ m, ∃ s2, add_remove_rounds t v m es s1 = Done () s2 (replicate (m * length es) (EvDrop (DropOf t) v)) ∧
      reachable s2 ∧ Forall (λ q, q = None) (ss_open s2) ∧ kinds (ss_world s2) = kinds (ss_world s1) ∧ same_holds (ss_world s) (ss_world s2) ∧ grown (ss_world s) (ss_world s2) ∧
      other_types (ss_world s) (ss_world s2) t.
Proof. exact rounds_all. Qed.
Print Assumptions C68_rounds.
