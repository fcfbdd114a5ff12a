(** * Which archetypes there are: vocabulary of C68 *)
From Verif Require Export SpecWorld SpecLimit SpecFull.

(** The component sets for which there is an archetype, in the order of their creation. *)
Definition kinds (w : world) : list (list ecsid) := columns <$> w_archs w.
(** No archetype was made except maybe one, for the components [e] has now, and only if there was
    none for these. *)
Definition made_for (w w' : world) (e : ecsid) : Prop :=
  kinds w' = kinds w ∨
  ∃ L, kinds w' = kinds w ++ [L] ∧ (∀ c, c ∈ L ↔ has w' e c) ∧ ∀ L', L' ∈ kinds w → ¬ same_set L' L.
(** The calls that give an entity a component or take it away. *)
Definition moves (o : op) : option ecsid :=
  match o with
  | OAdd e _ _ | ORemove e _ | OAddDyn e _ | OAddDynData e _ _ | ORemoveDyn e _ => Some e
  | _ => None
  end.
(** The entity a call is about, or has brought to life. *)
Definition subject (o : op) (r : oret) : option ecsid :=
  match o, r with OSpawn _ _ _ _, RId e => Some e | _, _ => moves o end.
(** The archetypes stay, in their order; each one made is for a new set: that of the components of
    [e], or the empty one (which types have, since they become entities). *)
Definition made_only (w w' : world) (s : option ecsid) : Prop :=
  ∃ K, kinds w' = kinds w ++ K ∧ ∀ L, L ∈ K →
    (∀ L', L' ∈ kinds w → ¬ same_set L' L) ∧ (L = [] ∨ ∃ e, s = Some e ∧ ∀ c, c ∈ L ↔ has w' e c).
(** The entities are there, differ, and have no component of type [t]. *)
Definition without (w : world) (t : ty) (es : list ecsid) : Prop :=
  NoDup es ∧ ∀ e, e ∈ es → id_wf e ∧ lives w e ∧ stored w e ∧ ∀ c, type_id w t c → ¬ has w e c.
(** The component type can be used: it is registered and its entity lives, or there is an id left. *)
Definition usable (w : world) (t : ty) : Prop :=
  (∃ c, type_id w t c ∧ lives w c) ∨ ((∀ c, ¬ type_id w t c) ∧ ¬ no_index_left w).
(** There is room for one component of type [t] and one archetype per entity. *)
Definition spacious (w : world) (t : ty) (n : nat) : Prop :=
  (N.of_nat (bytes_held w + n * ty_size t) <= byte_limit)%N ∧ (N.of_nat (length (w_archs w) + n) < u32_max)%N.
