(** * Consuming an iterator of a dynamic query with [for_each].
    As in ForEach.v, but [DynQueryIter] yields pointers (dyn_query.rs:54-85), which the body casts and
    dereferences (benches/bench_dynamic.rs). *)
From Verif Require Export ForEach.

(** [&*(p as *const T)], where [T] is the type of the component: what is read through a pointer for
    fetch [x].  The pointer has to be aligned for [T].  For [FetchType::EcsId], [T] is [EcsId]. *)
Definition read_ptr (x : fetch) (p : qptr) : M fsess item := λ f,
  let w := ss_world (fs_sess f) in
  match fetch_id x with
  | None => match deref_ent w p with Some e => Done (IEnt e) f [] | None => UB end
  | Some c =>
      match get_entity_meta c w with
      | Done (Some m) _ _ =>
          match deref_val w p (cm_size (em_comp m)) with
          | Some v => if col_aligned w p (l_align (cm_layout (em_comp m))) then Done (IVal v) f [] else UB
          | None => UB
          end
      | _ => UB
      end
  end.
Fixpoint read_ptrs (xs : list fetch) (ps : list qptr) : M fsess (list item) :=
  match xs, ps with
  | x :: xs', p :: ps' => let* y := read_ptr x p in let* ys := read_ptrs xs' ps' in ret (y :: ys)
  | [], [] => ret []
  | _, _ => ub
  end.
(** The loop; running out of fuel is not a behaviour of the program. *)
Fixpoint each_row (xs : list fetch) (g : list item → list (option value)) (i n fuel : nat) : M fsess nat :=
  match fuel with
  | 0 => ub
  | S fuel' =>
      let* r := fstep (FNext i) in
      match r with
      | FRow (Some ps) => let* ys := read_ptrs xs ps in do* update_row i n 0 (g ys) in each_row xs g i (S n) fuel'
      | FRow None => ret n
      | _ => ub
      end
  end.
(** [q.iter().for_each(g)], where [q] is query [i], opened with the fetches [xs]; returns the number of items. *)
Definition for_each_row (xs : list fetch) (g : list item → list (option value)) (i fuel : nat) : M fsess nat :=
  do* fstep (FIter i) in
  let* n := each_row xs g i 0 fuel in
  do* fstep (FEnd i) in ret n.
(** [world.query_dynamic(xs).iter().for_each(g)]: the [run] functions of benches/bench_dynamic.rs (lines
    62-67, 112-117, 162-167, 212-217, 285-294 and 329-363). *)
Definition run_dynamic (xs : list fetch) (g : list item → list (option value)) (fuel : nat) : M fsess nat :=
  let* r := fstep (FCall (SOpenDyn xs)) in
  match r with
  | FRet (SHandle i) =>
      let* n := for_each_row xs g i fuel in
      do* fstep (FCall (SDrop i false)) in ret n
  | _ => ub
  end.
(** [m] runs. *)
Fixpoint run_dynamics (xs : list fetch) (g : list item → list (option value)) (fuel m : nat) : M fsess () :=
  match m with
  | 0 => ret ()
  | S m' => do* run_dynamic xs g fuel in run_dynamics xs g fuel m'
  end.
