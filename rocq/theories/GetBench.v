(** * Model of the get benches, as whole programs *)
From Verif Require Export Benches Query.

(** The loop of [run] in benches/bench_static.rs (lines 530-533, 571-574): [q.get(entity).unwrap()] for
    each entity; it returns what was seen.  If one of them panicked, the unwinding would drop the query;
    this is not modelled. *)
Fixpoint get_each (q : squery) (es : list ecsid) : M sess (list (list item)) :=
  match es with
  | [] => ret []
  | e :: es' =>
      let* o := in_sworld (sq_get q e) in
      let* xs := unwrap o RUnwrap in
      let* r := get_each q es' in ret (xs.*2 :: r)
  end.
(** [run] (lines 528-534, 569-575). *)
Definition get_run (ps : list param) (es : list ecsid) : M sess (list (list item)) :=
  let* r := sstep (SOpenStat ps) in
  match r with
  | SHandle i =>
      let* s := gets id in
      match ss_open s !! i with
      | Some (Some (QStat q)) =>
          let* xs := get_each q es in
          do* sstep (SDrop i false) in ret xs
      | _ => ub
      end
  | _ => ub
  end.
(** [run] called [m] times. *)
Fixpoint get_runs (ps : list param) (m : nat) (es : list ecsid) : M sess (list (list (list item))) :=
  match m with
  | 0 => ret []
  | S m' => let* xs := get_run ps es in let* r := get_runs ps m' es in ret (xs :: r)
  end.
(** The loop of [new] in padded_get (lines 549-554): [spawn!] with the components [q.1], then
    [world.add_component(entity, ..)] with [q.2]. *)
Fixpoint spawn_adding (qs : list (list (ty * value) * (ty * value))) : M sess (list ecsid) :=
  match qs with
  | [] => ret []
  | q :: qs' =>
      let* r := sstep (SWorld (spawn_macro q.1)) in
      match r with
      | SRet (RId e) =>
          do* sstep (SWorld (OAdd e q.2.1 q.2.2)) in
          let* es := spawn_adding qs' in ret (e :: es)
      | _ => ub                                  (* [spawn!] gives an id *)
      end
  end.
(** Module get (lines 516-534): [new], and [run] [m] times.  The world is not dropped. *)
Definition get_bench (ls : list (list (ty * value))) (ps : list param) (m : nat) : M sess (list ecsid * list (list (list item))) :=
  let* es := spawn_all ls in
  let* xs := get_runs ps m es in ret (es, xs).
(** Module padded_get (lines 561-575). *)
Definition padded_get_bench (qs : list (list (ty * value) * (ty * value))) (ps : list param) (m : nat) :
    M sess (list ecsid * list (list (list item))) :=
  let* es := spawn_adding qs in
  let* xs := get_runs ps m es in ret (es, xs).
