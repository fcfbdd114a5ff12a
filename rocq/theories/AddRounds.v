(** * Model of the add_remove benches: [run] in benches/bench_static.rs, lines 411-418, 445-452, 495-502 *)
From Verif Require Export History.

Section rounds.
  (** The component ([B]) and its value ([B(1.)]). *)
  Context (t : ty) (v : value).

  (** The first loop (lines 412-414): [world.add_component(entity, B(1.))] for each entity. *)
  Fixpoint add_each (es : list ecsid) : M sess () :=
    match es with
    | [] => ret ()
    | e :: es' => do* sstep (SWorld (OAdd e t v)) in add_each es'
    end.
  (** The second loop (lines 415-417): [world.remove_component::<B>(entity)] for each entity. *)
  Fixpoint remove_each (es : list ecsid) : M sess () :=
    match es with
    | [] => ret ()
    | e :: es' => do* sstep (SWorld (ORemove e t)) in remove_each es'
    end.
  (** [run] (lines 411-418). *)
  Definition add_remove_round (es : list ecsid) : M sess () :=
    do* add_each es in remove_each es.
  (** [run] called [m] times ([b.iter] in benches/benchmarks.rs, lines 9-20). *)
  Fixpoint add_remove_rounds (m : nat) (es : list ecsid) : M sess () :=
    match m with
    | 0 => ret ()
    | S m' => do* add_remove_round es in add_remove_rounds m' es
    end.
End rounds.
