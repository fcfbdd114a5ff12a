(** * Properties of histories that go on after every panic that can be caught.  Theorems only;
    proofs in ProofRough*.v, non-vacuity witnesses in ExamplesRough.v.  [bomb f v] says that the
    destructor [f] panics on the value [v]. *)
From Verif Require Import SpecQuery SpecRough ProofRoughThms ProofRoughRefuted.

(** C58: calls on the world are defined, whatever panicked before: in a destructor, in an
    assertion, or for want of address space. *)
Theorem C58_defined : ∀ bomb w made gifts o, rough bomb w made gifts → op_legal o w → op_tame o w →
  step_b bomb o w ≠ UB ∧ step_b bomb o w ≠ Deadlock.
Proof. exact rough_defined. Qed.
Print Assumptions C58_defined.
(** C58: no value is destroyed twice: the destructor calls made, and those still owed for the
    values in the columns, are among those owed for the values passed to the calls. *)
Theorem C58_once : ∀ bomb w made gifts, rough bomb w made gifts → made ++ owed w ⊆+ gifts.
Proof. exact rough_once. Qed.
Print Assumptions C58_once.
(** C58: nor when the world is dropped, and more destructors panic then. *)
Theorem C58_drop : ∀ bomb w made gifts, rough bomb w made gifts →
  ∀ bomb', ∃ x, world_drop_b bomb' w = Some x ∧ falls bomb' w x ∧ made ++ fall_events x ⊆+ gifts.
Proof. exact rough_drop. Qed.
Print Assumptions C58_drop.
(** C58: what [get_component_mut] hands out points to bytes of the component's type, and to a
    value that was not destroyed. *)
Theorem C58_pointers : ∀ bomb w made gifts e c l w' ev, rough bomb w made gifts → get_component_mut e c w = Done (Some l) w' ev →
  w' = w ∧ ev = [] ∧ ∃ cm v, recorded w c cm ∧ read_loc w l (l_size (cm_layout cm)) = Some v ∧ ldrop (cm_drop cm) v ⊆+ owed w.
Proof. exact rough_pointers. Qed.
Print Assumptions C58_pointers.
(** C58: each column has the layout and the destructor of its component, ... *)
Theorem C58_columns : ∀ bomb w made gifts k a c u, rough bomb w made gifts → w_archs w !! k = Some a → (c, u) ∈ a_storages a →
  ∃ cm, recorded w c cm ∧ uv_ti u = TypeInfo (cm_layout cm) (cm_drop cm).
Proof. exact rough_columns. Qed.
Print Assumptions C58_columns.
(** ... a type's component no other information than that of the type, ... *)
Theorem C58_types : ∀ bomb w made gifts t c, rough bomb w made gifts → type_id w t c → lives w c →
  ∀ cm, recorded w c cm → cm = CompMeta (Some (DropOf t)) (Layout (ty_size t) (ty_align t)).
Proof. exact rough_type_id. Qed.
Print Assumptions C58_types.
(** ... and no two archetypes have the same components. *)
Theorem C58_distinct : ∀ bomb w made gifts, rough bomb w made gifts → distinct_sets w.
Proof. exact rough_distinct. Qed.
Print Assumptions C58_distinct.
(** C58: an entity dies in no other way than by a [despawn] of it that returns, ... *)
Theorem C58_lives : ∀ bomb w made gifts o, rough bomb w made gifts → op_legal o w → op_tame o w →
  match step_b bomb o w with
  | Done r w' _ => ∀ e, lives w e → lives w' e ∨ (o = ODespawn e ∧ r = RBool true ∧ ¬ lives w' e)
  | Panicked _ w' _ => ∀ e, lives w e → lives w' e
  | _ => False
  end.
Proof. exact rough_lives. Qed.
Print Assumptions C58_lives.
(** ... and new entities have new ids. *)
Theorem C58_spawn : ∀ bomb w made gifts cap meta bs fin r w' ev, rough bomb w made gifts →
  op_legal (OSpawn cap meta bs fin) w → op_tame (OSpawn cap meta bs fin) w →
  step_b bomb (OSpawn cap meta bs fin) w = Done r w' ev → ∃ e, r = RId e ∧ id_wf e ∧ ¬ lives w e ∧ lives w' e.
Proof. exact rough_spawn. Qed.
Print Assumptions C58_spawn.
(** C58: "queries are defined in these worlds, too" is false: after a destructor panicked in
    [remove_component], a query can run past the end of a column. *)
Theorem C58_query_refuted : ∃ bomb w made gifts t q w1 n, rough bomb w made gifts ∧ ty_wf t ∧ ty_size t ≠ 0 ∧
  sq_new [PRef t] w = Done q w1 [] ∧ iter_static q n w1 = UB.
Proof. exact rough_query_refuted. Qed.
Print Assumptions C58_query_refuted.
(** C58: for that no destructor has to panic: the assertion in [build] will do. *)
Theorem C58_query_plain_refuted : ∃ w made gifts t q w1 n, rough (λ _ _, false) w made gifts ∧ ty_wf t ∧ ty_size t ≠ 0 ∧
  sq_new [PRef t] w = Done q w1 [] ∧ iter_static q n w1 = UB.
Proof. exact rough_query_plain_refuted. Qed.
Print Assumptions C58_query_plain_refuted.
