(** * Iterators kept across other calls.

    [DynQuery::iter], [DynQuery::column_iter] and [StaticQuery::iter] return iterators
    (dyn_query.rs:54-109, static_query.rs:13-23, 149-178) that borrow the query mutably, but the
    world only through the query.  While such an iterator lives, other queries can be opened,
    used and dropped, calls on the shared world can be made, and the pointers it has yielded can
    be written through.  [History.sop] only has iterations that run at one go; here every
    iterator is a value of its own, advanced by one [next] at a time. *)
From Verif Require Export History.

(** An iterator and what it answered so far. *)
Inductive flight :=
| FlRows (it : diter) (seen : list (option (list qptr)))             (* DynQueryIter *)
| FlCols (it : citer) (seen : list (option (list (qptr * nat))))     (* DynQueryColumnIter *)
| FlRefs (it : siter) (seen : list (option (list qptr))).            (* StaticQueryIter *)
(** A session and, per open query, the iterator borrowing it.  Query [i] is borrowed by at
    most one iterator: any other use of the query ends the iterator. *)
Record fsess := FSess { fs_sess : sess; fs_iters : gmap nat flight }.
Definition fsess_new : fsess := FSess sess_new ∅.

Inductive fop :=
| FCall (o : sop)                    (* a call of [History] *)
| FIter (i : nat)                    (* query i .iter() *)
| FColumns (i : nat)                 (* query i .column_iter() *)
| FNext (i : nat)                    (* .next() of the iterator of query i *)
| FGet (i : nat) (e : ecsid)         (* query i .get(e), StaticQuery only *)
| FEnd (i : nat)                     (* the iterator of query i is dropped *)
| FStore (i n j r : nat) (v : value).
    (* write v through the j-th pointer of the n-th answer of the iterator of query i, moved
       by r elements (for answers of column_iter; 0 for the others) *)

Inductive fret :=
| FRet (r : sret)
| FRow (o : option (list qptr))
| FCol (o : option (list (qptr * nat)))
| FRef (o : option (list (qptr * item)))
| FNothing.

Definition in_sess {A} (m : M sess A) : M fsess A :=
  zoom (λ f, Some (fs_sess f)) (λ s f, FSess s (fs_iters f)) m.
Definition in_fworld {A} (m : M world A) : M fsess A := in_sess (in_sworld m).
(** The iterator of query [i] comes to its end. *)
Definition land (i : nat) : M fsess () := modify (λ f, FSess (fs_sess f) (delete i (fs_iters f))).
Definition fly (i : nat) (fl : flight) : M fsess () :=
  modify (λ f, FSess (fs_sess f) (<[i := fl]> (fs_iters f))).
(** The query whose mutable borrow or move a call needs. *)
Definition uses (o : sop) : option nat :=
  match o with SDrop i _ | SForget i | SStore i _ _ _ => Some i | _ => None end.

(** The pointer for [FStore]; the elements of the column have [size] bytes. *)
Definition handed (fl : flight) (n j r size : nat) : option qptr :=
  match fl with
  | FlRows _ seen | FlRefs _ seen =>
      ps ← mjoin (seen !! n); p ← ps !! j; if decide (r = 0) then Some p else None
  | FlCols _ seen =>
      col ← mjoin (seen !! n); x ← col !! j;
      if decide (r < x.2) then Some (ptr_move x.1 (r * size)) else None
  end.

Definition fstep (o : fop) : M fsess fret :=
  match o with
  | FCall o =>
      do* (match uses o with Some i => land i | None => ret () end) in
      let* r := in_sess (sstep o) in ret (FRet r)
  | FIter i =>
      do* land i in
      let* f := gets id in
      match ss_open (fs_sess f) !! i with
      | Some (Some (QDyn q)) => let* it := in_fworld (dq_iter q) in do* fly i (FlRows it []) in ret FNothing
      | Some (Some (QStat q)) => let* it := in_fworld (sq_iter q) in do* fly i (FlRefs it []) in ret FNothing
      | _ => ret FNothing
      end
  | FColumns i =>
      do* land i in
      let* f := gets id in
      match ss_open (fs_sess f) !! i with
      | Some (Some (QDyn q)) => let* it := in_fworld (dq_column_iter q) in do* fly i (FlCols it []) in ret FNothing
      | _ => ret FNothing
      end
  | FNext i =>
      let* f := gets id in
      do* land i in                    (* an iterator whose [next] panics is not used again *)
      match fs_iters f !! i with
      | Some (FlRows it seen) =>
          let* '(o, it') := in_fworld (di_next it) in
          do* fly i (FlRows it' (seen ++ [o])) in ret (FRow o)
      | Some (FlCols it seen) =>
          let* '(o, it') := in_fworld (ci_next it) in
          do* fly i (FlCols it' (seen ++ [o])) in ret (FCol o)
      | Some (FlRefs it seen) =>
          let* '(o, it') := in_fworld (si_next it) in
          do* fly i (FlRefs it' (seen ++ [(λ l, l.*1) <$> o])) in ret (FRef o)
      | None => ret FNothing
      end
  | FGet i e =>
      do* land i in
      let* f := gets id in
      match ss_open (fs_sess f) !! i with
      | Some (Some (QStat q)) => let* o := in_fworld (sq_get q e) in ret (FRef o)
      | _ => ret FNothing
      end
  | FEnd i => do* land i in ret FNothing
  | FStore i n j r v =>
      let* f := gets id in
      match fl ← fs_iters f !! i; handed fl n j r (length v) with
      | Some p => do* in_fworld (ptr_store p v) in ret FNothing
      | None => ret FNothing
      end
  end.

Definition fop_legal (o : fop) (f : fsess) : Prop :=
  match o with
  | FCall o => sop_legal o (fs_sess f)
  | FGet _ e => id_wf e
  | FStore i n j r v =>
      (* as for SStore *)
      ∀ q, ss_open (fs_sess f) !! i = Some (Some q) →
        ∃ fs c, oq_fetches (ss_world (fs_sess f)) q = Some fs ∧ fs !! j = Some (FMut c) ∧
                value_fits (ss_world (fs_sess f)) c v
  | _ => True
  end.
Definition fop_tame (o : fop) (f : fsess) : Prop :=
  match o with FCall o => sop_tame o (fs_sess f) | _ => True end.

(** Executions, as in [History.steps]. *)
Inductive fres := FOk (r : fret) | FPanic (r : reason).
Inductive fsteps : fsess → list (fop * fres * list event) → fsess → Prop :=
| fsteps_nil f : fsteps f [] f
| fsteps_done f0 l f1 o r f2 ev :
    fsteps f0 l f1 → fop_legal o f1 → fop_tame o f1 →
    fstep o f1 = Done r f2 ev →
    fsteps f0 (l ++ [(o, FOk r, ev)]) f2
| fsteps_panic f0 l f1 o r f2 ev :
    fsteps f0 l f1 → fop_legal o f1 → fop_tame o f1 →
    fstep o f1 = Panicked r f2 ev → resumable r →
    fsteps f0 (l ++ [(o, FPanic r, ev)]) f2.
Definition freachable (f : fsess) : Prop := ∃ l, fsteps fsess_new l f.
