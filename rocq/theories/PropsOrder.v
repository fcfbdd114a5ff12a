(** * What the calls do with dead and unknown ids.
    Theorems only; proofs in ProofOrder.v, non-vacuity witnesses in ExamplesOrder.v. *)
From Verif Require Import SpecOrder ProofOrder.

(** C61: an id lives, was despawned or was never given out. *)
Theorem C61_cases : ∀ w e, lives w e ∨ despawned w e ∨ unissued w e.
Proof. exact id_cases. Qed.
Print Assumptions C61_cases.
(** C61: the first of its ids that does not live decides what the call does. *)
Theorem C61_calls : ∀ o w l1 d l2, checked_ids w o = l1 ++ d :: l2 → Forall (lives w) l1 →
  (despawned w d → step o w = dead_answer o w) ∧ (unissued w d → step o w = unknown_answer o w).
Proof. exact calls_order. Qed.
Print Assumptions C61_calls.
(** C61: [has_component] with an unregistered type does not look at the entity. *)
Theorem C61_unregistered : ∀ w e t, (∀ c, ¬ type_id w t c) → step (OHas e t) w = Done (RBool false) w [].
Proof. exact has_unregistered. Qed.
Print Assumptions C61_unregistered.
(** C61: [StaticQuery::get]. *)
Theorem C61_get : ∀ w q e,
  (despawned w e → sq_get q e w = Done None w []) ∧ (unissued w e → sq_get q e w = Panicked RNoGeneration w []).
Proof. exact get_order. Qed.
Print Assumptions C61_get.
(** C61: the builder. *)
Theorem C61_builder : ∀ b w c,
  (despawned w c → run_bop (BWithDyn c) (b, w) = Panicked RUnwrap (b, w) [] ∧
     ∀ v, ∃ b', run_bop (BWithDynData c v) (b, w) = Panicked RDeadComponent (b', w) []) ∧
  (unissued w c → run_bop (BWithDyn c) (b, w) = Panicked RNoGeneration (b, w) [] ∧
     ∀ v, ∃ b', run_bop (BWithDynData c v) (b, w) = Panicked RNoGeneration (b', w) []).
Proof. exact builder_order. Qed.
Print Assumptions C61_builder.
