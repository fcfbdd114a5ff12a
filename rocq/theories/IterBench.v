(** * Model of the benches that loop over static queries, as whole programs *)
From Verif Require Export Benches ForEach.

(** benches/bench_static.rs, lines 34-73, 100-112, 139-165, 192-204, 225-248 and 355-383: [new] spawns
    entities with the components [ls], and [run] is called [m] times.  The world is not dropped. *)
Definition iter_bench (ls : list (list (ty * value))) (ps : list param) (g : list item → list (option value)) (fuel m : nat) :
    M fsess (list ecsid) :=
  let* es := in_sess (spawn_all ls) in
  do* run_queries ps g fuel m in ret es.
