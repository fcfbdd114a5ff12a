(** * Model of untyped_vec/src/lib.rs (byte level) *)
From Verif Require Export Base.

(** [core::alloc::Layout] *)
Record layout := Layout { l_size : nat; l_align : nat }.
Global Instance layout_eq_dec : EqDecision layout.
Proof. solve_decision. Defined.

(** [Layout::from_size_align(size, align)]: [None] is the error that [.unwrap()] turns into a
    panic: alignment not a power of two, or size above isize::MAX once rounded up. *)
Definition is_pow2 (n : nat) : bool :=
  bool_decide (n ≠ 0) && bool_decide (Nat.land n (n - 1) = 0).
Definition layout_from_size_align (size align : nat) : option layout :=
  if is_pow2 align && (N.of_nat size + (N.of_nat align - 1) <=? isize_max)%N
  then Some (Layout size align) else None.

(** [Layout::new::<T>()] *)
Definition layout_of (t : ty) : layout := Layout (ty_size t) (ty_align t).

(** [struct TypeInfo] (untyped_vec/src/lib.rs:11-15); equality (17-21) compares layouts only. *)
Record type_info := TypeInfo { ti_layout : layout; ti_drop : option dropfn }.
Definition ti_size (t : type_info) : nat := l_size (ti_layout t).
Definition ti_eqb (a b : type_info) : bool := bool_decide (ti_layout a = ti_layout b).

(** ** Memory.  A pointer is either [NonNull::<u8>::dangling()] (address 1) or owns an
    allocation made with some alignment. *)
Inductive ptr := Dangling | Heap (align : nat) (mem : list cell).

(** Read [n] cells at byte offset [off]; [None] = outside the allocation. *)
Definition mem_read (p : ptr) (off n : nat) : option (list cell) :=
  match p with
  | Dangling => if decide (off = 0 ∧ n = 0) then Some [] else None
  | Heap _ m => if decide (off + n ≤ length m) then Some (take n (drop off m)) else None
  end.

Definition write_at (m : list cell) (off : nat) (bs : list cell) : list cell :=
  take off m ++ bs ++ drop (off + length bs) m.

(** Write the cells [bs] at byte offset [off]; [None] = outside the allocation. *)
Definition mem_write (p : ptr) (off : nat) (bs : list cell) : option ptr :=
  match p with
  | Dangling => if decide (off = 0 ∧ length bs = 0) then Some Dangling else None
  | Heap a m =>
      if decide (off + length bs ≤ length m) then Some (Heap a (write_at m off bs)) else None
  end.

(** [std::alloc::{alloc, realloc, dealloc}] with their safety preconditions: the size is
    non-zero and the layout passed is the one of the current allocation.  Allocation failure
    (an abort) is not modelled. *)
Definition heap_alloc (l : layout) : option ptr :=
  if decide (l_size l = 0) then None else Some (Heap (l_align l) (replicate (l_size l) None)).
Definition heap_realloc (p : ptr) (old : layout) (new_size : nat) : option ptr :=
  match p with
  | Dangling => None
  | Heap a m =>
      if decide (l_size old = length m ∧ l_align old = a ∧ new_size ≠ 0)
      then Some (Heap a (take new_size m ++ replicate (new_size - length m) None))
      else None
  end.
Definition heap_dealloc (p : ptr) (l : layout) : option () :=
  match p with
  | Dangling => None
  | Heap a m => if decide (l_size l = length m ∧ l_align l = a) then Some () else None
  end.

(** Is the start of this memory aligned to [align]?  The dangling pointer is address 1. *)
Definition ptr_aligned (p : ptr) (align : nat) : bool :=
  match p with
  | Dangling => bool_decide (align = 1)
  | Heap a _ => bool_decide (align ≠ 0 ∧ a mod align = 0)
  end.

(** [struct UntypedVec] (untyped_vec/src/lib.rs:31-36); [uv_cap] and [uv_len] are in bytes
    (elements for zero-sized types). *)
Record uvec := UVec { uv_ti : type_info; uv_data : ptr; uv_cap : nat; uv_len : nat }.
Definition uv_size (v : uvec) : nat := ti_size (uv_ti v).
Definition uv_align (v : uvec) : nat := l_align (ti_layout (uv_ti v)).

(** [UntypedVec::new_from_raw] (49-56) *)
Definition uv_new (ti : type_info) : uvec := UVec ti Dangling 0 0.
(** [UntypedVec::new_from_untyped_vec] (39-42) *)
Definition uv_new_from (from : uvec) : uvec := uv_new (uv_ti from).

Definition uv_set_data (p : ptr) (cap : nat) (v : uvec) : uvec := UVec (uv_ti v) p cap (uv_len v).
Definition uv_set_len (len : nat) (v : uvec) : uvec := UVec (uv_ti v) (uv_data v) (uv_cap v) len.

(** [UntypedVec::len] (62-69) *)
Definition uv_elems_len : M uvec nat :=
  let* v := gets id in
  if decide (uv_size v = 0) then ret (uv_len v)
  else
    do* massert (bool_decide (uv_len v mod uv_size v = 0)) RAssert in
    ret (uv_len v / uv_size v).

(** [UntypedVec::raw_len] (72-74), [is_empty] (76-78) *)
Definition uv_raw_len (v : uvec) : nat := uv_len v.
Definition uv_is_empty (v : uvec) : bool := bool_decide (uv_len v = 0).

(** [UntypedVec::realloc] (80-109).  The multiplication [size * 4] is not checked for
    overflow here: above 2^62 the layout check fails in a debug build as the overflow panic
    would; release-mode wrap-around of that product is not modelled.  A request that rounded up
    to the alignment exceeds isize::MAX cannot be satisfied by any allocator
    ([handle_alloc_error], line 103): it counts as [RCapacity] as well. *)
Definition uv_realloc : M uvec () :=
  let* v := gets id in
  if decide (uv_size v = 0) then panic RAssert
  else if decide (uv_cap v = 0) then
    let new_cap := uv_size v * 4 in
    let* lay := unwrap (layout_from_size_align new_cap (uv_align v)) RCapacity in
    let* p := or_ub (heap_alloc lay) in
    modify (uv_set_data p new_cap)
  else
    let new_cap := uv_cap v * 2 in
    do* massert (N.of_nat new_cap <? isize_max)%N RCapacity in
    let* old := unwrap (layout_from_size_align (uv_cap v) (uv_align v)) RCapacity in
    let* _new := unwrap (layout_from_size_align new_cap (uv_align v)) RCapacity in
    let* p := or_ub (heap_realloc (uv_data v) old new_cap) in
    modify (uv_set_data p new_cap).

(** [UntypedVec::push_raw] (119-143).  [src] is the memory readable from the source pointer;
    fewer than [size] cells there is undefined behaviour.  The null check (120) cannot fail:
    every caller passes a pointer derived from a reference or NonNull. *)
Definition uv_push_raw (src : list cell) : M uvec () :=
  let* v := gets id in
  if decide (uv_size v = 0) then modify (uv_set_len (uv_len v + 1))
  else
    do* (if decide (uv_cap v < uv_len v + uv_size v) then uv_realloc else ret ()) in
    let* v1 := gets id in
    if decide (length src < uv_size v1) then ub
    else
      let* p := or_ub (mem_write (uv_data v1) (uv_len v1) (take (uv_size v1) src)) in
      modify (λ v2, uv_set_len (uv_len v1 + uv_size v1) (uv_set_data p (uv_cap v1) v2)).

(** [UntypedVec::get_raw] / [get_mut_raw] (145-197): the byte offset of the element. *)
Definition uv_get_raw (element : nat) : M uvec (option nat) :=
  let* v := gets id in
  if decide (uv_len v = 0) then ret None
  else if decide (uv_size v = 0) then
    ret (if decide (element < uv_len v) then Some 0 else None)
  else
    do* massert (bool_decide (uv_len v mod uv_size v = 0)) RAssert in
    ret (if decide (element < uv_len v / uv_size v) then Some (element * uv_size v) else None).

Definition drop_event (f : option dropfn) (bytes : value) : list event :=
  match f with Some f => [EvDrop f bytes] | None => [] end.

(** [UntypedVec::pop] (200-224).  The second branch is also taken by a zero-sized empty
    vector, exactly as in the source. *)
Definition uv_pop : M uvec bool :=
  let* v := gets id in
  if decide (uv_size v = 0 ∧ 0 < uv_len v) then
    do* modify (uv_set_len (uv_len v - 1)) in
    do* emit (drop_event (ti_drop (uv_ti v)) []) in
    ret true
  else if decide (uv_size v ≤ uv_len v) then
    let len := uv_len v - uv_size v in
    do* modify (uv_set_len len) in
    let* bytes := or_ub (mem_read (uv_data v) len (uv_size v)) in
    do* emit (drop_event (ti_drop (uv_ti v)) bytes) in
    ret true
  else ret false.

(** [ptr::swap_nonoverlapping(a, b, n)] on two byte ranges of one allocation *)
Definition mem_swap (p : ptr) (a b n : nat) : option ptr :=
  if decide (a + n ≤ b ∨ b + n ≤ a) then
    match mem_read p a n, mem_read p b n with
    | Some x, Some y =>
        match mem_write p a y with Some p1 => mem_write p1 b x | None => None end
    | _, _ => None
    end
  else None.

(** Run a [uvec] computation on the first/second of a pair. *)
Definition on_fst {S T A} (m : M S A) : M (S * T) A := zoom (λ p, Some p.1) (λ x p, (x, p.2)) m.
Definition on_snd {S T A} (m : M T A) : M (S * T) A := zoom (λ p, Some p.2) (λ x p, (p.1, x)) m.

(** [UntypedVec::swap_move_element_to_other_vec] (229-273); state = (self, other). *)
Definition uv_swap_move (element : nat) : M (uvec * uvec) () :=
  let* '(v, o) := gets id in
  do* massert (ti_eqb (uv_ti v) (uv_ti o)) RAssert in
  do* massert (bool_decide (0 < uv_len v)) RAssert in
  do* massert (bool_decide (uv_size v = 0) || bool_decide (element < uv_len v / uv_size v)) RAssert in
  if decide (uv_size v = 0) then
    do* on_fst (modify (uv_set_len (uv_len v - 1))) in
    on_snd (modify (uv_set_len (uv_len o + 1)))
  else if decide (element = uv_len v / uv_size v - 1) then
    (* the source pointer stays inside self's allocation: everything from there is readable *)
    let* bytes := or_ub (mem_read (uv_data v) (element * uv_size v) (uv_size v)) in
    do* on_snd (uv_push_raw bytes) in
    on_fst (modify (uv_set_len (uv_len v - uv_size v)))
  else
    let to_swap := uv_len v - uv_size v in
    let* p := or_ub (mem_swap (uv_data v) (element * uv_size v) to_swap (uv_size v)) in
    do* on_fst (modify (uv_set_data p (uv_cap v))) in
    let* bytes := or_ub (mem_read p to_swap (uv_size v)) in
    do* on_snd (uv_push_raw bytes) in
    on_fst (modify (uv_set_len (uv_len v - uv_size v))).

(** [UntypedVec::swap_remove] (275-304) *)
Definition uv_swap_remove (element : nat) : M uvec () :=
  let* v := gets id in
  do* massert (bool_decide (0 < uv_len v)) RAssert in
  do* massert (bool_decide (uv_size v = 0) || bool_decide (element < uv_len v / uv_size v)) RAssert in
  if decide (uv_size v = 0 ∨ element = uv_len v / uv_size v - 1) then
    do* massert (bool_decide (element < uv_len v)) RAssert in
    do* uv_pop in ret ()
  else
    let to_swap := uv_len v - uv_size v in
    let* p := or_ub (mem_swap (uv_data v) (element * uv_size v) to_swap (uv_size v)) in
    do* modify (uv_set_data p (uv_cap v)) in
    do* uv_pop in ret ().

(** Cut a byte list into [n] chunks of [size] bytes. *)
Fixpoint chunks (n size : nat) (bs : list cell) : list value :=
  match n with O => [] | S n' => take size bs :: chunks n' size (drop size bs) end.

(** [UntypedVec::as_slice::<T>] / [as_slice_mut::<T>] (310-346): the elements of the slice.
    [from_raw_parts] requires an aligned pointer even for length 0. *)
Definition uv_as_slice (t : ty) : M uvec (list value) :=
  let* v := gets id in
  do* massert (bool_decide (ti_layout (uv_ti v) = layout_of t)) RAssert in
  if decide (uv_size v = 0) then panic RRemZero              (* line 312: x % 0 *)
  else
    do* massert (bool_decide (uv_len v mod uv_size v = 0)) RAssert in
    let slice_len := uv_len v / uv_size v in
    if ptr_aligned (uv_data v) (ty_align t) then
      let* bytes := or_ub (mem_read (uv_data v) 0 (slice_len * ty_size t)) in
      ret (chunks slice_len (ty_size t) bytes)
    else ub.

(** [while self.pop() {}] (366) with fuel *)
Fixpoint uv_pop_all (fuel : nat) : M uvec () :=
  match fuel with
  | O => ub
  | S fuel' => let* b := uv_pop in if b then uv_pop_all fuel' else ret ()
  end.

(** [Drop for UntypedVec] (363-377) *)
Definition uv_drop : M uvec () :=
  let* v := gets id in
  if decide (0 < uv_cap v) then
    do* uv_pop_all (S (S (uv_len v))) in
    let* v1 := gets id in
    let* lay := unwrap (layout_from_size_align (uv_cap v1) (uv_align v1)) RCapacity in
    or_ub (heap_dealloc (uv_data v1) lay)
  else ret ().

(** Dropping a local vector during unwinding or as part of a larger value: only the
    destructor calls matter; [None] = undefined behaviour (or a panic while dropping). *)
Definition uv_drop_events (v : uvec) : option (list event) :=
  match uv_drop v with Done _ _ ev => Some ev | _ => None end.
Fixpoint uv_drop_all (vs : list uvec) : option (list event) :=
  match vs with
  | [] => Some []
  | v :: vs' =>
      match uv_drop_events v, uv_drop_all vs' with
      | Some e1, Some e2 => Some (e1 ++ e2)
      | _, _ => None
      end
  end.
