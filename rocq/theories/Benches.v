(** * Model of the benches' [Benchmark::new], and of the add_remove benches as a whole *)
From Verif Require Export Macro AddRounds.

(** The loops of [new] in benches/bench_static.rs (lines 26-28 with 21, 130-140, 183-190, 277-279,
    302-311, 358-365, 405-407, 439-441, 479-491, 521-524): one [spawn!] after the other; [l] are the
    components given to each.  It returns the entities, as the vector [entities] (line 403). *)
Fixpoint spawn_all (ls : list (list (ty * value))) : M sess (list ecsid) :=
  match ls with
  | [] => ret []
  | l :: ls' =>
      let* r := sstep (SWorld (spawn_macro l)) in
      match r with
      | SRet (RId e) => let* es := spawn_all ls' in ret (e :: es)
      | _ => ub                                  (* [spawn!] gives an id *)
      end
  end.
(** benches/bench_static.rs, lines 400-419, 434-453, 474-503: [new] spawns [n] entities with the
    components [l], and [run] is called [m] times.  The world is not dropped. *)
Definition add_remove_bench (l : list (ty * value)) (t : ty) (v : value) (n m : nat) : M sess (list ecsid) :=
  let* es := spawn_all (replicate n l) in
  do* add_remove_rounds t v m es in ret es.
