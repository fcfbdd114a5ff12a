(** * Properties of destructors that panic.  Theorems only; proofs in ProofDropPanic*.v,
    non-vacuity witnesses in ExamplesDropPanic.v.  [bomb f v] says that the destructor [f] panics
    on the value [v]. *)
From Verif Require Import SpecQuery SpecDropPanic ProofDropPanicThms ProofDropPanicRefuted.

(** C56: [pop] and [swap_remove] have done all their work when they call the destructor: if it
    panics, the vector is left as if it had returned. *)
Theorem C56_vec_pop : ∀ bomb v, uv_pop_b bomb v = explode bomb (uv_pop v).
Proof. exact vec_pop. Qed.
Print Assumptions C56_vec_pop.
Theorem C56_vec_swap_remove : ∀ bomb i v, uv_swap_remove_b bomb i v = explode bomb (uv_swap_remove i v).
Proof. exact vec_swap_remove_explode. Qed.
Print Assumptions C56_vec_swap_remove.
(** C56: dropping a vector stops at the first destructor that panics. *)
Theorem C56_vec_drop : ∀ bomb v v' ev, uv_drop v = Done () v' ev →
  (harmless bomb ev ∧ uv_drop_b bomb v = Done () v' ev) ∨
  ∃ v1 ev1, uv_drop_b bomb v = Panicked RDestructor v1 ev1 ∧ cut_off bomb ev ev1.
Proof. exact vec_drop. Qed.
Print Assumptions C56_vec_drop.
(** C56: a [despawn] cut short by a destructor: only the destructors up to that one ran, the
    entity is still alive but in no archetype, the others are where they were; only the entity in
    the last row of its archetype may show other values than before. *)
Theorem C56_despawn : ∀ bomb w e, reachable_world w → op_legal (ODespawn e) w → op_tame (ODespawn e) w →
  cut_short bomb (despawn e w) (despawn_b bomb e w)
    (λ w' ev, wrecked w w' e ev ∧ (∀ e0, stored w' e0 ↔ e0 ≠ e ∧ stored w e0) ∧ half_despawned w w' e).
Proof. exact at_despawn. Qed.
Print Assumptions C56_despawn.
(** C56: such an entity cannot be despawned any more: every attempt panics and changes nothing. *)
Theorem C56_despawn_again : ∀ bomb w e w1 ev, reachable_world w → despawn_b bomb e w = Panicked RDestructor w1 ev →
  ∀ bomb', ∃ r, (r = RIndex ∨ r = RAssert) ∧ despawn_b bomb' e w1 = Panicked r w1 [].
Proof. exact at_despawn_again. Qed.
Print Assumptions C56_despawn_again.
(** C56: likewise [remove_component_dynamic]; here every entity is still in its row. *)
Theorem C56_remove : ∀ bomb w e c, reachable_world w → op_legal (ORemoveDyn e c) w → op_tame (ORemoveDyn e c) w →
  cut_short bomb (remove_component_dynamic e c w) (remove_component_dynamic_b bomb e c w)
    (λ w' ev, wrecked w w' e ev ∧ same_stored w w' ∧ (∀ e0 k i, placed w e0 k i → placed w' e0 k i) ∧ spilled w w' e c).
Proof. exact at_remove. Qed.
Print Assumptions C56_remove.
(** C56: [remove_component::<T>] is [remove_component_dynamic] of the id of [T], or calls no
    destructor. *)
Theorem C56_remove_typed : ∀ bomb w e t, reachable_world w → op_legal (ORemove e t) w → op_tame (ORemove e t) w →
  (∃ c, lives w e ∧ type_id w t c ∧ remove_component_b bomb e t w = remove_component_dynamic_b bomb e c w ∧
     remove_component e t w = remove_component_dynamic e c w) ∨
  ((∀ c, type_id w t c → ¬ lives w e) ∧ remove_component_b bomb e t w = remove_component e t w).
Proof. exact at_remove_typed. Qed.
Print Assumptions C56_remove_typed.
(** C56: what a world owes is one destructor call for every value held. *)
Theorem C56_owed : ∀ w, reachable_world w → owed w ≡ₚ dropping_all w (cells w).
Proof. exact at_owed. Qed.
Print Assumptions C56_owed.
(** C56: dropping a world. *)
Theorem C56_world_drop : ∀ bomb w, reachable_world w → ∃ x, world_drop_b bomb w = Some x ∧ falls bomb w x.
Proof. exact at_world_drop. Qed.
Print Assumptions C56_world_drop.
(** C56: no value is destroyed twice, even when a world in which a call was cut short is dropped,
    and more destructors panic then. *)
Theorem C56_once_despawn : ∀ bomb w e w1 ev, reachable_world w → despawn_b bomb e w = Panicked RDestructor w1 ev →
  ∀ bomb', ∃ x, world_drop_b bomb' w1 = Some x ∧ falls bomb' w1 x ∧ ev ++ fall_events x ⊆+ owed w.
Proof. exact at_once_despawn. Qed.
Print Assumptions C56_once_despawn.
Theorem C56_once_remove : ∀ bomb w e c w1 ev, reachable_world w → op_legal (ORemoveDyn e c) w → op_tame (ORemoveDyn e c) w →
  remove_component_dynamic_b bomb e c w = Panicked RDestructor w1 ev →
  ∀ bomb', ∃ x, world_drop_b bomb' w1 = Some x ∧ falls bomb' w1 x ∧ ev ++ fall_events x ⊆+ owed w.
Proof. exact at_once_remove. Qed.
Print Assumptions C56_once_remove.
(** C56: "a despawn cut short does not change what other entities show" is false: one of them shows
    a value of the despawned entity. *)
Theorem C56_despawn_bystander_refuted : ∃ bomb w e e0 c v w1 ev, reachable_world w ∧ op_legal (ODespawn e) w ∧ op_tame (ODespawn e) w ∧
  despawn_b bomb e w = Panicked RDestructor w1 ev ∧ e0 ≠ e ∧ stored w1 e0 ∧
  holds w1 e0 c v ∧ ¬ holds w e0 c v ∧ holds w e c v.
Proof. exact despawn_bystander_refuted. Qed.
Print Assumptions C56_despawn_bystander_refuted.
(** C56: "the half-despawned entity gives no access to values of others" is false. *)
Theorem C56_despawn_alias_refuted : ∃ bomb w e e0 c v w1 ev l, reachable_world w ∧ op_legal (ODespawn e) w ∧ op_tame (ODespawn e) w ∧
  despawn_b bomb e w = Panicked RDestructor w1 ev ∧ e0 ≠ e ∧
  get_component_mut e c w1 = Done (Some l) w1 [] ∧ read_loc w1 l (length v) = Some v ∧
  ¬ holds w e c v ∧ holds w e0 c v ∧ holds w1 e0 c v.
Proof. exact despawn_alias_refuted. Qed.
Print Assumptions C56_despawn_alias_refuted.
(** C56: "no query shows a destroyed value" is false: after a [remove_component] cut short, a query
    hands out a reference to the very value that was destroyed. *)
Theorem C56_remove_dropped_refuted : ∃ bomb w e c f v w1 q w2 n items p p', reachable_world w ∧ op_legal (ORemoveDyn e c) w ∧ op_tame (ORemoveDyn e c) w ∧
  (∀ e0 c0, holds w e0 c0 v → e0 = e ∧ c0 = c) ∧
  remove_component_dynamic_b bomb e c w = Panicked RDestructor w1 [EvDrop f v] ∧
  dq_new [FEcsId; FImmut c] w1 = Done q w2 [] ∧ iter_dyn q n w2 = Done items w2 [] ∧
  Some [p; p'] ∈ items ∧ deref_ent w2 p = Some e ∧ deref_val w2 p' (length v) = Some v.
Proof. exact remove_dropped_refuted. Qed.
Print Assumptions C56_remove_dropped_refuted.
