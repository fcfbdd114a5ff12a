(** * Dead and unknown ids passed to a call (C61).  Nothing here is used by the model. *)
From Verif Require Export SpecWorld Query.

(** An id that was despawned: [World::is_alive] says no. *)
Definition despawned (w : world) (e : ecsid) : Prop := is_alive e w = Done false w [].
(** The ids a call looks at, in the order in which it does. *)
Definition checked_ids (w : world) (o : op) : list ecsid :=
  match o with
  | ODespawn e | OIsAlive e | OAdd e _ _ | ORemove e _ => [e]
  | OAddDyn e c | OAddDynData e c _ | ORemoveDyn e c | OWrite e c _ => [e; c]
  | OHas e t => match w_types w !! t with Some _ => [e] | None => [] end
  | OSpawn _ _ _ _ | ORegister _ => []
  end.
(** What it does if one of them was despawned, *)
Definition dead_answer (o : op) (w : world) : outcome world oret :=
  match o with
  | ODespawn _ | OIsAlive _ | OWrite _ _ _ | OHas _ _ => Done (RBool false) w []
  | OAddDynData _ _ _ | ORemoveDyn _ _ => Done RUnit w []
  | OAdd _ t v => Panicked RAssert w [EvDrop (DropOf t) v]
  | _ => Panicked RAssert w []
  end.
(** ... or never given out. *)
Definition unknown_answer (o : op) (w : world) : outcome world oret :=
  Panicked RNoGeneration w (match o with OAdd _ t v => [EvDrop (DropOf t) v] | _ => [] end).
