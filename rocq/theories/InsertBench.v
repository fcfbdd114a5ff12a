(** * Model of the insert benches, as whole programs *)
From Verif Require Export Benches.

(** [run] of simple_insert and frag_insert in benches/bench_static.rs (lines 273-285, 330-335 with
    302-311): a new world, one [spawn!] after the other, and the world is dropped at the end, or by the
    unwinding. *)
Definition insert_run (ls : list (list (ty * value))) : M () () := λ _,
  match spawn_all ls sess_new with
  | Done _ s ev => match world_drop (ss_world s) with Some ev' => Done () () (ev ++ ev') | None => UB end
  | Panicked r s ev => match world_drop (ss_world s) with Some ev' => Panicked r () (ev ++ ev') | None => UB end
  | Deadlock => Deadlock
  | UB => UB
  end.
(** [run] called [m] times. *)
Fixpoint insert_runs (ls : list (list (ty * value))) (m : nat) : M () () :=
  match m with
  | 0 => ret ()
  | S m' => do* insert_run ls in insert_runs ls m'
  end.
