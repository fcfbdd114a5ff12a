(** * What the world records about components.  Theorems only; proofs in ProofLimitVec.v and
    ProofRecorded.v, non-vacuity witnesses in ExamplesMeta.v. *)
From Verif Require Import SpecWorld ProofRecorded.

(** C54: the columns of an archetype have the layout and the destructor recorded for their
    component, ... *)
Theorem C54_columns : ∀ s k a c u, reachable s → w_archs (ss_world s) !! k = Some a → (c, u) ∈ a_storages a →
  ∃ cm, recorded (ss_world s) c cm ∧ uv_ti u = TypeInfo (cm_layout cm) (cm_drop cm).
Proof. exact (λ s k a c u H, column_info _ k a c u (sv_world _ (reachable_inv s H))). Qed.
Print Assumptions C54_columns.
(** ... each value has the size recorded for its component, ... *)
Theorem C54_values : ∀ s e c v, reachable s → holds (ss_world s) e c v →
  ∃ cm, recorded (ss_world s) c cm ∧ length v = l_size (cm_layout cm).
Proof. exact (λ s e c v H, value_info _ e c v (sv_world _ (reachable_inv s H))). Qed.
Print Assumptions C54_values.
(** ... for a Rust type these are the type's own, however it came to be registered, ... *)
Theorem C54_types : ∀ s t c, reachable s → type_id (ss_world s) t c → lives (ss_world s) c →
  stored (ss_world s) c ∧ recorded (ss_world s) c (CompMeta (Some (DropOf t)) (Layout (ty_size t) (ty_align t))).
Proof. exact (λ s t c H, type_info_recorded _ t c (sv_world _ (reachable_inv s H))). Qed.
Print Assumptions C54_types.
(** ... for an entity spawned plainly, and built, it is a component without data, ... *)
Theorem C54_plain : ∀ w cap bs fin e w' ev, reachable_world w →
  op_legal (OSpawn cap cm_unit bs fin) w → op_tame (OSpawn cap cm_unit bs fin) w → BBuild ∈ bs →
  step (OSpawn cap cm_unit bs fin) w = Done (RId e) w' ev → recorded w' e (CompMeta None (Layout 0 1)) ∧ ¬ sized w' e.
Proof. exact (λ w cap bs fin e w' ev H, plain_recorded w cap bs fin e w' ev (reachable_world_ok w H)). Qed.
Print Assumptions C54_plain.
(** ... and what is recorded for an entity stays the same until the entity is despawned. *)
Theorem C54_stable : ∀ s l s' e cm, reachable s → steps s l s' → id_wf e →
  (∀ o, o ∈ calls_of l → ¬ kills o e) → recorded (ss_world s) e cm → recorded (ss_world s') e cm.
Proof. exact (λ s l s' e cm H, steps_recorded s l s' e cm (reachable_inv s H)). Qed.
Print Assumptions C54_stable.
(** C54: [ComponentMeta::from_size_align] gives a component of that layout without a destructor
    if the alignment is a power of two and the size, rounded up to it, fits the address space;
    otherwise it panics. *)
Theorem C54_from_size_align : ∀ size align cm, cm_from_size_align size align = Some cm ↔
  cm = CompMeta None (Layout size align) ∧ (∃ k, align = 2 ^ k) ∧ (N.of_nat size + N.of_nat align <= 2 ^ 63)%N.
Proof. exact from_size_align_some. Qed.
Print Assumptions C54_from_size_align.
(** C54: the layouts that the statements of the other properties call well-formed are those. *)
Theorem C54_layouts : ∀ l, layout_wf l ↔
  (∃ k, l_align l = 2 ^ k) ∧ (N.of_nat (l_size l) + N.of_nat (l_align l) <= 2 ^ 63)%N.
Proof. exact layout_wf_valid. Qed.
Print Assumptions C54_layouts.
