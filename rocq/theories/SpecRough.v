(** * Histories that go on after every panic that can be caught: after panicking destructors
    (C56), after the columns of an archetype have come apart (C34), after the address space ran
    out.  [bomb f v] says that the destructor [f] panics on the value [v]. *)
From Verif Require Export SpecDropPanic.

Section bombs.
  Context (bomb : dropfn → value → bool).
  (** [History.step] with destructors that may panic (DropPanic.v). *)
  Definition step_b (o : op) : M world oret :=
    match o with
    | ODespawn e => let* b := despawn_b bomb e in ret (RBool b)
    | ORemove e t => do* remove_component_b bomb e t in ret RUnit
    | ORemoveDyn e c => do* remove_component_dynamic_b bomb e c in ret RUnit
    | _ => step o
    end.

  (** The destructor calls owed for the values passed to a call; [w]: the world after the call. *)
  Definition bgift (w : world) (o : bop) : list event :=
    match o with
    | BWith t v => [EvDrop (DropOf t) v]
    | BWithDyn c => dropping w c []
    | BWithDynData c v => dropping w c v
    | BBuild => []
    end.
  Definition gift (w : world) (o : op) : list event :=
    match o with
    | OSpawn _ _ bs _ => bs ≫= bgift w
    | OAdd _ t v => [EvDrop (DropOf t) v]
    | OAddDyn _ c => dropping w c []
    | OAddDynData _ c v | OWrite _ c v => dropping w c v
    | _ => []
    end.

  (** [rough w made gifts]: [w] is the world after some calls on a new world.  [made]: the
      destructor calls made; [gifts]: those owed for the values passed to the calls.  A call that
      panicked is followed by other calls, unless a destructor panicked while the stack was
      unwinding: that ends the process. *)
  Inductive rough : world → list event → list event → Prop :=
  | rough_new : rough world_new [] []
  | rough_done w made gifts o r w' ev :
      rough w made gifts → op_legal o w → op_tame o w →
      step_b o w = Done r w' ev → rough w' (made ++ ev) (gifts ++ gift w' o)
  | rough_panic w made gifts o r w' ev :
      rough w made gifts → op_legal o w → op_tame o w →
      step_b o w = Panicked r w' ev → r = RDestructor ∨ harmless bomb ev →
      rough w' (made ++ ev) (gifts ++ gift w' o).
End bombs.
