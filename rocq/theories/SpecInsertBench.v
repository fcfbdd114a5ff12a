(** * Which archetypes spawning makes: vocabulary of C73 *)
From Verif Require Export SpecIterBench SpecAddRounds InsertBench.

(** The types of the components [l]. *)
Definition type_set (l : list (ty * value)) : gset ty := list_to_set l.*1.
(** The component set [L] is that of the types [X]. *)
Definition kind_of (w : world) (L : list ecsid) (X : gset ty) : Prop := ∀ c, c ∈ L ↔ ∃ t, t ∈ X ∧ type_id w t c.
(** The sets of types the entities have, and the empty one. *)
Definition type_sets (ls : list (list (ty * value))) : gset (gset ty) := {[∅]} ∪ list_to_set (type_set <$> ls).
