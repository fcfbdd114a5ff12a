(** * Rows and their values by position (C32).  Nothing here is used by the model. *)
From Verif Require Export SpecWorld.

(** In row [i] of the archetype at position [k], the bytes in the column of [c] are [v]. *)
Definition shows (w : world) (k i : nat) (c : ecsid) (v : value) : Prop :=
  ∃ a j u, w_archs w !! k = Some a ∧ i < length (a_entities a) ∧ a_storages a !! j = Some (c, u) ∧
    mem_read (uv_data u) (i * uv_size u) (uv_size u) = Some v.
(** [w2] has the rows of [w1] and one more, row [i2] of archetype [k2], for the entity [e].
    If that is the archetype of [e]'s row [i1] the new row is a bitwise copy of it, otherwise
    it has no values. *)
Definition row_added (w1 : world) (e : ecsid) (k1 i1 k2 i2 : nat) (w2 : world) : Prop :=
  (∀ e0, ¬ placed w1 e0 k2 i2) ∧
  (∀ e0 k i, placed w2 e0 k i ↔ placed w1 e0 k i ∨ (e0 = e ∧ k = k2 ∧ i = i2)) ∧
  (∀ k i c v, shows w2 k i c v ↔ shows w1 k i c v ∨ (k = k2 ∧ i = i2 ∧ k2 = k1 ∧ shows w1 k1 i1 c v)).
Definition same_rows (w1 w2 : world) : Prop :=
  (∀ e k i, placed w2 e k i ↔ placed w1 e k i) ∧ (∀ k i c v, shows w2 k i c v ↔ shows w1 k i c v).
