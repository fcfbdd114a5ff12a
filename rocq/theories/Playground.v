(** * Model of playground/src/main.rs *)
From Verif Require Export Macro.

Section playground.
  (** The component ([A], line 5) and its value ([A(10.0)], line 14). *)
  Context (t : ty) (v : value).

  (** The first loop (lines 13-16), [n] times. *)
  Fixpoint pg_spawn (n : nat) : M sess (list ecsid) :=
    match n with
    | 0 => ret []
    | S n' =>
        let* r := sstep (SWorld (spawn_macro [(t, v)])) in
        match r with
        | SRet (RId e) => let* es := pg_spawn n' in ret (e :: es)
        | _ => ub                                  (* [spawn] returns an id *)
        end
    end.
  (** The inner loop (lines 20-22): [q.get(entity).unwrap()] for each entity.  If one of them
      panicked, the unwinding would drop the query; this is not modelled. *)
  Fixpoint pg_gets (q : squery) (es : list ecsid) : M sess () :=
    match es with
    | [] => ret ()
    | e :: es' =>
        let* o := in_sworld (sq_get q e) in
        do* unwrap o RUnwrap in
        pg_gets q es'
    end.
  (** The body of the second loop (lines 19-23). *)
  Definition pg_round (es : list ecsid) : M sess () :=
    let* r := sstep (SOpenStat [PMut t]) in
    match r with
    | SHandle i =>
        let* s := gets id in
        match ss_open s !! i with
        | Some (Some (QStat q)) =>
            do* pg_gets q es in
            do* sstep (SDrop i false) in ret ()
        | _ => ub
        end
    | _ => ub
    end.
  (** The second loop (lines 18-24), [m] times. *)
  Fixpoint pg_rounds (m : nat) (es : list ecsid) : M sess () :=
    match m with
    | 0 => ret ()
    | S m' => do* pg_round es in pg_rounds m' es
    end.
  (** [main] (lines 9-25) with [n] entities and [m] rounds; the world is not dropped.  It returns
      the entities. *)
  Definition playground (n m : nat) : M sess (list ecsid) :=
    let* es := pg_spawn n in
    do* pg_rounds m es in ret es.
End playground.
