(** * Consuming an iterator of a static query with [for_each].
    [Iterator::for_each] is not overridden by [StaticQueryIter] (static_query.rs:121-178), so that it
    is std's loop: [while let Some(x) = it.next() { f(x) }], and then the iterator is dropped. *)
From Verif Require Export Flight.

(** The body of the loop: what it writes, per parameter, given what it sees; it writes through the
    references of the [n]-th item. *)
Fixpoint update_row (i n j : nat) (us : list (option value)) : M fsess () :=
  match us with
  | [] => ret ()
  | u :: us' =>
      do* (match u with Some v => let* _ := fstep (FStore i n j 0 v) in ret () | None => ret () end) in
      update_row i n (S j) us'
  end.
(** The loop; running out of fuel is not a behaviour of the program. *)
Fixpoint each_next (g : list item → list (option value)) (i n fuel : nat) : M fsess nat :=
  match fuel with
  | 0 => ub
  | S fuel' =>
      let* r := fstep (FNext i) in
      match r with
      | FRef (Some xs) => do* update_row i n 0 (g xs.*2) in each_next g i (S n) fuel'
      | FRef None => ret n
      | _ => ub
      end
  end.
(** [q.iter().for_each(g)], where [q] is query [i]; returns the number of items. *)
Definition for_each (g : list item → list (option value)) (i fuel : nat) : M fsess nat :=
  do* fstep (FIter i) in
  let* n := each_next g i 0 fuel in
  do* fstep (FEnd i) in ret n.
(** [world.query::<ps>().iter().for_each(g)]: the [run] functions of benches/bench_static.rs (lines 69-73,
    108-112, 147-150, 200-204, 241-248 and 373-383). *)
Definition run_query (ps : list param) (g : list item → list (option value)) (fuel : nat) : M fsess nat :=
  let* r := fstep (FCall (SOpenStat ps)) in
  match r with
  | FRet (SHandle i) =>
      let* n := for_each g i fuel in
      do* fstep (FCall (SDrop i false)) in ret n
  | _ => ub
  end.
(** [m] runs. *)
Fixpoint run_queries (ps : list param) (g : list item → list (option value)) (fuel m : nat) : M fsess () :=
  match m with
  | 0 => ret ()
  | S m' => do* run_query ps g fuel in run_queries ps g fuel m'
  end.
