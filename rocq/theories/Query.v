(** * Model of arche_tape/src/dyn_query.rs and arche_tape/src/static_query.rs *)
From Verif Require Export World.

(** ** Guards and locks (std::sync::RwLock as used through utils::EitherGuard, lib.rs:47-51).
    A [World] is neither Send nor Sync, so all requests come from one thread: a request that
    cannot be granted at once is never granted. *)
Inductive lguard := GNone | GRead (lock : nat) | GWrite (lock : nat).
Global Instance lguard_eq_dec : EqDecision lguard.
Proof. solve_decision. Defined.

Definition in_lock {A} (i : nat) (m : M rwlock A) : M world A :=
  zoom (λ w, w_locks w !! i) (λ l w, set_locks (<[i := l]> (w_locks w)) w) m.

(** [lock.write().unwrap()]: wait; then a poisoned lock makes [unwrap] panic, which drops the
    guard inside the PoisonError (the lock is free again and stays poisoned). *)
Definition acquire_write (i : nat) : M world lguard :=
  in_lock i (λ l,
    if decide (0 < rw_readers l ∨ rw_writer l = true) then Deadlock
    else if rw_poisoned l then Panicked RPoisoned l []
    else Done (GWrite i) (RwLock 0 true false) []).
(** [lock.read().unwrap()] *)
Definition acquire_read (i : nat) : M world lguard :=
  in_lock i (λ l,
    if rw_writer l then Deadlock
    else if rw_poisoned l then Panicked RPoisoned l []
    else Done (GRead i) (RwLock (rw_readers l + 1) false false) []).

(** Dropping a guard; a write guard dropped while unwinding poisons its lock. *)
Definition release_lock (unwinding : bool) (g : lguard) (w : world) : world :=
  match g with
  | GNone => w
  | GRead i => set_locks (alter (λ l, RwLock (rw_readers l - 1) (rw_writer l) (rw_poisoned l)) i (w_locks w)) w
  | GWrite i => set_locks (alter (λ l, RwLock (rw_readers l) false (rw_poisoned l || unwinding)) i (w_locks w)) w
  end.
Definition release_all (unwinding : bool) (gs : list lguard) (w : world) : world :=
  foldl (λ w g, release_lock unwinding g w) w gs.

(** Run [m]; if it panics, the guards collected so far are dropped by the unwinding. *)
Definition releasing {A} (gs : list lguard) (m : M world A) : M world A := λ w,
  match m w with
  | Panicked r w' ev => Panicked r (release_all true gs w') ev
  | o => o
  end.

(** ** Fetches (dyn_query.rs:111-115) *)
Inductive fetch := FEcsId | FMut (c : ecsid) | FImmut (c : ecsid).
Global Instance fetch_eq_dec : EqDecision fetch.
Proof. solve_decision. Defined.
(** [FetchType::get_id] (118-123) *)
Definition fetch_id (f : fetch) : option ecsid :=
  match f with FEcsId => None | FMut c | FImmut c => Some c end.

(** ** Pointers handed out by iterators.  [PEnt k off]: byte [off] of the entities Vec of
    archetype [k]; [PCol k i off]: byte [off] of storage [i] of archetype [k];
    [PNull]: the placeholder of an empty intra-archetype iterator. *)
Inductive qptr := PNull | PEnt (k off : nat) | PCol (k i off : nat).
Global Instance qptr_eq_dec : EqDecision qptr.
Proof. solve_decision. Defined.

(** [size_of::<EcsId>()]: two u32 *)
Definition ecsid_size : nat := 8.

(** Bytes of the memory a pointer points into; [None] when there is no such memory. *)
Definition ptr_extent (w : world) (p : qptr) : option nat :=
  match p with
  | PNull => Some 0
  | PEnt k _ => a ← w_archs w !! k; Some (ecsid_size * length (a_entities a))
  | PCol k i _ =>
      a ← w_archs w !! k; s ← a_storages a !! i;
      Some (match uv_data s.2 with Dangling => 0 | Heap _ m => length m end)
  end.
Definition ptr_off (p : qptr) : nat :=
  match p with PNull => 0 | PEnt _ off => off | PCol _ _ off => off end.
Definition ptr_move (p : qptr) (n : nat) : qptr :=
  match p with PNull => PNull | PEnt k off => PEnt k (off + n) | PCol k i off => PCol k i (off + n) end.

(** [ptr.add(n)]: the result must be inside the memory or one past its end. *)
Definition ptr_add (p : qptr) (n : nat) : M world qptr := λ w,
  if decide (n = 0) then Done p w []
  else
    match ptr_extent w p with
    | None => UB
    | Some ext => if decide (ptr_off p + n ≤ ext) then Done (ptr_move p n) w [] else UB
    end.

(** What a pointer of an item designates once dereferenced. *)
Inductive item := IEnt (e : ecsid) | IVal (v : value).
(** Dereference as an EcsId / as [n] bytes. *)
Definition deref_ent (w : world) (p : qptr) : option ecsid :=
  match p with
  | PEnt k off =>
      if decide (off mod ecsid_size = 0) then
        a ← w_archs w !! k; a_entities a !! (off / ecsid_size)
      else None
  | _ => None
  end.
Definition deref_val (w : world) (p : qptr) (n : nat) : option value :=
  match p with
  | PCol k i off => a ← w_archs w !! k; s ← a_storages a !! i; mem_read (uv_data s.2) off n
  | _ => None
  end.
(** Is the address of the pointer a multiple of [align]? *)
Definition col_aligned (w : world) (p : qptr) (align : nat) : bool :=
  match p with
  | PCol k i off =>
      match w_archs w !! k with
      | None => false
      | Some a =>
          match a_storages a !! i with
          | None => false
          | Some s => ptr_aligned (uv_data s.2) align && bool_decide (off mod align = 0)
          end
      end
  | _ => false
  end.

(** ** Archetype iterator (world.rs:15-26): index and archetype *)
Definition arch_next (it : biter) : M world (option (nat * archetype) * biter) :=
  match bi_next it with
  | None => ub
  | Some (None, it') => ret (None, it')
  | Some (Some k, it') => let* a := get_arch k in ret (Some (k, a), it')
  end.

(** Lines 222-235 / 281-294 / static_query.rs:109-122: one slice iterator per fetch and the
    smallest bit length. *)
Definition fetch_iter (f : fetch) : M world (list N * (N → N)) :=
  let* w := gets id in
  match fetch_id f with
  | None => ret (bv_data (w_entbits w), identity_map)
  | Some c =>
      let* b := unwrap (bs_get_bitvec (w_bitset w) c) RUnwrap in
      ret (bv_data b, identity_map)
  end.
Fixpoint fetch_iters (fs : list fetch) : M world (list (list N * (N → N))) :=
  match fs with
  | [] => ret []
  | f :: fs' =>
      let* i := fetch_iter f in
      let* is_ := fetch_iters fs' in ret (i :: is_)
  end.
Definition fetch_bit_length (w : world) (fs : list fetch) : N :=
  fold_left
    (λ bl f,
      match fetch_id f with
      | None => bl
      | Some c =>
          match bs_get_bitvec (w_bitset w) c with
          | None => bl
          | Some b => N.min bl (wrap32 (N.of_nat (bv_len b)))
          end
      end) fs (wrap32 (N.of_nat (bv_len (w_entbits w)))).

(** ** DynQuery (dyn_query.rs:149-189) *)
Record dquery := DQuery { dq_guards : list lguard; dq_fetches : list fetch; dq_incomplete : bool }.

Fixpoint dq_lock (fs : list fetch) (gs : list lguard) (incomplete : bool)
    : M world (list lguard * bool) :=
  match fs with
  | [] => ret (gs, incomplete)
  | f :: fs' =>
      match fetch_id f with
      | None => dq_lock fs' (gs ++ [GNone]) incomplete                      (* 167 *)
      | Some c =>
          let* o := gets (λ w, w_lock_lookup w !! c) in
          match o with
          | None => dq_lock fs' (gs ++ [GNone]) true                        (* 178-180 *)
          | Some i =>
              let* g := releasing gs
                  (match f with FMut _ => acquire_write i | _ => acquire_read i end) in
              dq_lock fs' (gs ++ [g]) incomplete
          end
      end
  end.
(** [DynQuery::new] (159-189) *)
Definition dq_new (fs : list fetch) : M world dquery :=
  let* '(gs, inc) := dq_lock fs [] false in
  ret (DQuery gs fs inc).

(** Lines 206-241 / 265-300 *)
Definition dq_arch_iter (q : dquery) : M world biter :=
  if dq_incomplete q then
    let* data := gets (λ w, bv_data (w_entbits w)) in
    ret (bi_new ((λ _, (data, word_not)) <$> dq_fetches q) 0)
  else
    let* is_ := fetch_iters (dq_fetches q) in
    let* bl := gets (λ w, fetch_bit_length w (dq_fetches q)) in
    ret (bi_new is_ bl).

(** [make_create_ptr_fn] (125-146) applied to archetype [k]: pointer and stride *)
Definition create_ptr (k : nat) (a : archetype) (f : fetch) : M world (qptr * nat) :=
  match fetch_id f with
  | None => ret (PEnt k 0, ecsid_size)
  | Some c =>
      let* i := unwrap (a_lookup a !! c) RIndex in
      let* s := unwrap (a_storages a !! i) RIndex in
      ret (PCol k i 0, uv_size s.2)
  end.
Fixpoint create_ptrs (k : nat) (a : archetype) (fs : list fetch) : M world (list (qptr * nat)) :=
  match fs with
  | [] => ret []
  | f :: fs' =>
      let* p := create_ptr k a f in
      let* ps := create_ptrs k a fs' in ret (p :: ps)
  end.

(** [ptrs.iter_mut().zip(offsets)]: advance every pointer by its stride (45-47) *)
Fixpoint advance (ps : list (qptr * nat)) : M world (list (qptr * nat)) :=
  match ps with
  | [] => ret []
  | (p, n) :: ps' =>
      let* p' := ptr_add p n in
      let* r := advance ps' in ret ((p', n) :: r)
  end.

(** ** IntraArchetypeIter (dyn_query.rs:5-52) *)
Record intra := Intra { in_remaining : nat; in_ptrs : list (qptr * nat) }.
Definition intra_unit (n : nat) : intra := Intra 0 (replicate n (PNull, 0)).
Definition intra_next (it : intra) : M world (option (list qptr) * intra) :=
  if decide (in_remaining it = 0) then ret (None, it)
  else
    let* ps := advance (in_ptrs it) in
    ret (Some (in_ptrs it).*1, Intra (in_remaining it - 1) ps).

(** ** DynQueryIter (78-109) *)
Record diter := DIter { di_fetches : list fetch; di_arch : biter; di_intra : intra }.
(** [DynQuery::iter] (250-308) *)
Definition dq_iter (q : dquery) : M world diter :=
  let* b := dq_arch_iter q in
  ret (DIter (dq_fetches q) b (intra_unit (length (dq_fetches q)))).

Fixpoint di_next_fuel (fuel : nat) (it : diter) : M world (option (list qptr) * diter) :=
  match fuel with
  | O => ub
  | S fuel' =>
      let* '(o, ii) := intra_next (di_intra it) in
      match o with
      | Some ps => ret (Some ps, DIter (di_fetches it) (di_arch it) ii)
      | None =>
          let* '(oa, b) := arch_next (di_arch it) in
          match oa with
          | None => ret (None, DIter (di_fetches it) b ii)
          | Some (k, a) =>
              let* ps := create_ptrs k a (di_fetches it) in
              di_next_fuel fuel' (DIter (di_fetches it) b (Intra (length (a_entities a)) ps))
          end
      end
  end.
(** Every round of the loop moves the archetype iterator past at least one bit. *)
Definition arch_fuel (it : biter) : nat :=
  2 + usize_bits * (1 + match bi_iters it with [] => 0 | (ws, _) :: _ => length ws end).
Definition di_next (it : diter) : M world (option (list qptr) * diter) :=
  di_next_fuel (arch_fuel (di_arch it)) it.
(** The results of [n] calls of [next]. *)
Fixpoint di_run (n : nat) (it : diter) : M world (list (option (list qptr)) * diter) :=
  match n with
  | O => ret ([], it)
  | S n' =>
      let* '(r, it') := di_next it in
      let* '(rs, it'') := di_run n' it' in ret (r :: rs, it'')
  end.

(** ** DynQueryColumnIter (54-76) *)
Record citer := CIter { ci_fetches : list fetch; ci_arch : biter }.
(** [DynQuery::column_iter] (191-248) *)
Definition dq_column_iter (q : dquery) : M world citer :=
  let* b := dq_arch_iter q in ret (CIter (dq_fetches q) b).
Definition ci_next (it : citer) : M world (option (list (qptr * nat)) * citer) :=
  let* '(oa, b) := arch_next (ci_arch it) in
  match oa with
  | None => ret (None, CIter (ci_fetches it) b)
  | Some (k, a) =>
      let* ps := create_ptrs k a (ci_fetches it) in
      ret (Some ((λ p, (p.1, length (a_entities a))) <$> ps), CIter (ci_fetches it) b)
  end.
Fixpoint ci_run (n : nat) (it : citer) : M world (list (option (list (qptr * nat))) * citer) :=
  match n with
  | O => ret ([], it)
  | S n' =>
      let* '(r, it') := ci_next it in
      let* '(rs, it'') := ci_run n' it' in ret (r :: rs, it'')
  end.

(** ** Static queries (static_query.rs).  A parameter is [&mut T], [&T] or [EcsIds]; the
    tuple sizes 1 to 10 for which the trait is implemented are a list here. *)
Inductive param := PMut (t : ty) | PRef (t : ty) | PEcsIds.
Global Instance param_eq_dec : EqDecision param.
Proof. solve_decision. Defined.
(** [QueryParam::fetch_type] (238-241, 260-263, 284-286) *)
Definition param_fetch (w : world) (p : param) : option fetch :=
  match p with
  | PMut t => FMut <$> w_types w !! t
  | PRef t => FImmut <$> w_types w !! t
  | PEcsIds => Some FEcsId
  end.

Record squery := SQuery {
  sq_guards : list lguard;
  sq_params : list param;
  sq_fetches : option (list fetch)
}.

(** Lines 61-75: [world.locks[world.lock_lookup[id]].write().unwrap()] and alike. *)
Fixpoint sq_lock (fs : list fetch) (gs : list lguard) : M world (list lguard) :=
  match fs with
  | [] => ret gs
  | f :: fs' =>
      let* g := releasing gs
          (match fetch_id f with
           | None => ret GNone
           | Some c =>
               let* o := gets (λ w, w_lock_lookup w !! c) in
               let* i := unwrap o RIndex in
               match f with FMut _ => acquire_write i | _ => acquire_read i end
           end) in
      sq_lock fs' (gs ++ [g])
  end.
(** [StaticQuery::new] (54-84) *)
Definition sq_new (ps : list param) : M world squery :=
  let* fs := gets (λ w, mapM (param_fetch w) ps) in
  match fs with
  | None => ret (SQuery (replicate (length ps) GNone) ps None)
  | Some fs => let* gs := sq_lock fs [] in ret (SQuery gs ps (Some fs))
  end.

(** [QueryParam::create_ptr] (243-247, 265-269, 288-290); inner [None] is [None]. *)
Definition param_ptr (k : nat) (a : archetype) (f : fetch) : M world (option qptr) :=
  match fetch_id f with
  | None => ret (Some (PEnt k 0))
  | Some c =>
      match a_lookup a !! c with
      | None => ret None
      | Some i => let* s := unwrap (a_storages a !! i) RIndex in ret (Some (PCol k i 0))
      end
  end.
(** [size_of] the type a parameter's pointer is cast to in [offset_ptr] *)
Definition param_size (p : param) : nat :=
  match p with PMut t | PRef t => ty_size t | PEcsIds => ecsid_size end.

(** [QueryParam::cast_ptr] (253-255, 275-277, 296-298): making a reference requires the whole
    value to be in bounds and the address to be aligned.  The item is the value seen through
    the reference at that moment, together with the pointer. *)
Definition cast_ptr (p : param) (q : qptr) : M world (qptr * item) := λ w,
  match p with
  | PEcsIds => match deref_ent w q with Some e => Done (q, IEnt e) w [] | None => UB end
  | PMut t | PRef t =>
      match deref_val w q (ty_size t) with
      | Some v => if col_aligned w q (ty_align t) then Done (q, IVal v) w [] else UB
      | None => UB
      end
  end.
Fixpoint cast_ptrs (l : list (param * qptr)) : M world (list (qptr * item)) :=
  match l with
  | [] => ret []
  | (p, q) :: l' => let* x := cast_ptr p q in let* r := cast_ptrs l' in ret (x :: r)
  end.

(** create_ptr of every parameter with [?] ([get], line 97): [None] at the first missing one. *)
Fixpoint param_ptrs (k : nat) (a : archetype) (fs : list fetch) : M world (option (list qptr)) :=
  match fs with
  | [] => ret (Some [])
  | f :: fs' =>
      let* o := param_ptr k a f in
      match o with
      | None => ret None
      | Some p =>
          let* r := param_ptrs k a fs' in
          ret (cons p <$> r)
      end
  end.
(** [offset_ptr] (249-251, 271-273, 292-294) of every pointer by [n] elements *)
Fixpoint offset_ptrs (n : nat) (l : list (param * qptr)) : M world (list (param * qptr)) :=
  match l with
  | [] => ret []
  | (p, q) :: l' =>
      let* q' := ptr_add q (n * param_size p) in
      let* r := offset_ptrs n l' in ret ((p, q') :: r)
  end.

(** [StaticQuery::get] (87-102) *)
Definition sq_get (q : squery) (e : ecsid) : M world (option (list (qptr * item))) :=
  let* alive := is_alive e in
  if negb alive then ret None
  else
  let* om := get_entity_meta e in
  match om with
  | None => ret None
  | Some m =>
      let k := im_arch (em_inst m) in
      let* a := get_arch k in
      do* massert (bool_decide (im_index (em_inst m) < length (a_entities a))) RAssert in
      match sq_fetches q with
      | None => ret None
      | Some fs =>
          let* o := param_ptrs k a fs in
          match o with
          | None => ret None
          | Some ps =>
              let* qs := offset_ptrs (im_index (em_inst m)) (zip (sq_params q) ps) in
              let* r := cast_ptrs qs in ret (Some r)
          end
      end
  end.

(** [StaticQuery::iter] (105-141) *)
Definition sq_arch_iter (q : squery) : M world biter :=
  match sq_fetches q with
  | Some fs =>
      let* is_ := fetch_iters fs in
      let* bl := gets (λ w, fetch_bit_length w fs) in
      ret (bi_new is_ bl)
  | None =>
      let* data := gets (λ w, bv_data (w_entbits w)) in
      ret (bi_new ((λ _, (data, identity_map)) <$> sq_params q) 0)
  end.
(** StaticQueryIter and its IntraArchetypeIter (13-23) *)
Record siter := SIter {
  si_params : list param;
  si_fetches : option (list fetch);
  si_arch : biter;
  si_remaining : nat;
  si_ptrs : list qptr
}.
Definition sq_iter (q : squery) : M world siter :=
  let* b := sq_arch_iter q in
  ret (SIter (sq_params q) (sq_fetches q) b 0 (replicate (length (sq_params q)) PNull)).

(** [IntraArchetypeIter::next] (195-210) *)
Definition si_intra_next (it : siter) : M world (option (list qptr) * siter) :=
  if decide (si_remaining it = 0) then ret (None, it)
  else
    let* qs := offset_ptrs 1 (zip (si_params it) (si_ptrs it)) in
    ret (Some (si_ptrs it),
         SIter (si_params it) (si_fetches it) (si_arch it) (si_remaining it - 1) qs.*2).

(** [StaticQueryIter::next] (149-178) *)
Fixpoint si_next_fuel (fuel : nat) (it : siter)
    : M world (option (list (qptr * item)) * siter) :=
  match fuel with
  | O => ub
  | S fuel' =>
      let* '(o, it1) := si_intra_next it in
      match o with
      | Some ps =>
          let* r := cast_ptrs (zip (si_params it) ps) in ret (Some r, it1)
      | None =>
          let* '(oa, b) := arch_next (si_arch it) in
          match oa with
          | None => ret (None, SIter (si_params it) (si_fetches it) b (si_remaining it) (si_ptrs it))
          | Some (k, a) =>
              let* fs := unwrap (si_fetches it) RUnwrap in
              let* ops := param_ptrs k a fs in
              let* ps := unwrap ops RUnwrap in
              si_next_fuel fuel'
                (SIter (si_params it) (si_fetches it) b (length (a_entities a)) ps)
          end
      end
  end.
Definition si_next (it : siter) : M world (option (list (qptr * item)) * siter) :=
  si_next_fuel (arch_fuel (si_arch it)) it.
Fixpoint si_run (n : nat) (it : siter) : M world (list (option (list (qptr * item))) * siter) :=
  match n with
  | O => ret ([], it)
  | S n' =>
      let* '(r, it') := si_next it in
      let* '(rs, it'') := si_run n' it' in ret (r :: rs, it'')
  end.
