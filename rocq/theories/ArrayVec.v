(** * Model of arche_tape/src/array_vec.rs and of AddRemoveCache (world.rs:28-61) *)
From Verif Require Export Base.

(** [struct ArrayVec<T, LEN>] (array_vec.rs:3-6): a fixed array of MaybeUninit slots.
    [LEN] is [length av_array]; [None] is an uninitialised slot. *)
Record array_vec (T : Type) := ArrayVec { av_array : list (option T); av_len : nat }.
Arguments ArrayVec {T} _ _.
Arguments av_array {T} _.
Arguments av_len {T} _.

(** [ArrayVec::new] (array_vec.rs:10-17); the assertion [LEN < isize::MAX] is a
    compile-time constant condition. *)
Definition av_new {T} (LEN : nat) : array_vec T := ArrayVec (replicate LEN None) 0.

(** Results of ArrayVec operations: a value, a panic, or undefined behaviour. *)
Inductive avres (A : Type) := AvOk (a : A) | AvPanic (r : reason) | AvUB.
Arguments AvOk {A} _.
Arguments AvPanic {A} _.
Arguments AvUB {A}.

(** [ArrayVec::push] (array_vec.rs:19-27); [false] is [Err(())], the value is then dropped
    by the caller. *)
Definition av_push {T} (v : array_vec T) (x : T) : bool * array_vec T :=
  if decide (av_len v < length (av_array v)) then
    (true, ArrayVec (<[av_len v := Some x]> (av_array v)) (av_len v + 1))
  else (false, v).

(** [core::ptr::copy(src, src+1, n)] on the slots (array_vec.rs:38-42): a memmove of the
    first [n] slots one place up.  [None]: source or destination leaves the array. *)
Definition shift_up {T} (slots : list T) (n : nat) : option (list T) :=
  match slots with
  | [] => None
  | x :: _ =>
      if decide (n + 1 ≤ length slots)
      then Some (x :: take n slots ++ drop (n + 1) slots)
      else None
  end.

(** [ArrayVec::push_start] (array_vec.rs:29-48).  Returns the element that was dropped in
    place, if any, and the new vector. *)
Definition av_push_start {T} (v : array_vec T) (x : T) : avres (option T * array_vec T) :=
  (* lines 30-36 *)
  let evict : avres (option T * nat) :=
    if decide (av_len v = length (av_array v)) then
      match last (take (av_len v) (av_array v)) with
      | None => AvPanic RUnwrap                        (* line 31, last_mut().unwrap() *)
      | Some None => AvUB                              (* dropping an uninitialised slot *)
      | Some (Some y) => AvOk (Some y, av_len v - 1)
      end
    else AvOk (None, av_len v) in
  match evict with
  | AvPanic r => AvPanic r
  | AvUB => AvUB
  | AvOk (dropped, len) =>
      match shift_up (av_array v) len with             (* lines 38-42 *)
      | None => AvUB
      | Some slots =>
          AvOk (dropped, ArrayVec (<[0 := Some x]> slots) (len + 1))   (* lines 44-47 *)
      end
  end.

(** [ArrayVec::pop] (array_vec.rs:50-58): note that it reads slot [len], not [len - 1]. *)
Definition av_pop {T} (v : array_vec T) : avres (option T * array_vec T) :=
  if decide (0 < av_len v) then
    match av_array v !! av_len v with
    | None => AvPanic RIndex
    | Some None => AvUB                                (* read of uninitialised memory as T *)
    | Some (Some y) => AvOk (Some y, ArrayVec (av_array v) (av_len v - 1))
    end
  else AvOk (None, v).

(** [ArrayVec::get] (array_vec.rs:60-67) *)
Definition av_get {T} (v : array_vec T) (i : nat) : avres (option T) :=
  if decide (i < av_len v) then
    match av_array v !! i with
    | None => AvPanic RIndex
    | Some None => AvUB
    | Some (Some y) => AvOk (Some y)
    end
  else AvOk None.

(** [ArrayVec::get_mut] (array_vec.rs:69-76) followed by an assignment through the reference;
    returns the value overwritten (dropped by the assignment), [None] if there is no such
    element. *)
Definition av_get_mut_set {T} (v : array_vec T) (i : nat) (x : T) : avres (option T * array_vec T) :=
  if decide (i < av_len v) then
    match av_array v !! i with
    | None => AvPanic RIndex
    | Some None => AvUB
    | Some (Some y) => AvOk (Some y, ArrayVec (<[i := Some x]> (av_array v)) (av_len v))
    end
  else AvOk (None, v).

(** [ArrayVec::as_slice] / [as_slice_mut] (array_vec.rs:82-92): reinterprets the first [len]
    slots as initialised values. *)
Definition av_as_slice {T} (v : array_vec T) : avres (list T) :=
  if decide (av_len v ≤ length (av_array v)) then
    match mapM id (take (av_len v) (av_array v)) with
    | Some l => AvOk l
    | None => AvUB
    end
  else AvPanic RIndex.

(** [Drop for ArrayVec] (array_vec.rs:95-104): the values dropped, in order. *)
Definition av_drop {T} (v : array_vec T) : avres (list T) := av_as_slice v.

(** ** AddRemoveCache (world.rs:28-61) *)
Definition CACHE_SIZE : nat := 4.
Record arcache := ARCache {
  rc_cache : array_vec (ecsid * nat);
  rc_lookup : gmap ecsid nat
}.

(** [AddRemoveCache::new] (world.rs:35-40) *)
Definition rc_new : arcache := ARCache (av_new CACHE_SIZE) ∅.

(** The scan of lines 43-47. *)
Fixpoint rc_scan (l : list (ecsid * nat)) (c : ecsid) : option nat :=
  match l with
  | [] => None
  | (i, idx) :: l' => if decide (i = c) then Some idx else rc_scan l' c
  end.

(** [AddRemoveCache::lookup_id] (world.rs:42-55) *)
Definition rc_lookup_id (c : ecsid) : M arcache (option nat) := λ s,
  match av_as_slice (rc_cache s) with
  | AvPanic r => Panicked r s []
  | AvUB => UB
  | AvOk l =>
      match rc_scan l c with
      | Some idx => Done (Some idx) s []
      | None =>
          match rc_lookup s !! c with
          | Some idx =>
              match av_push_start (rc_cache s) (c, idx) with
              | AvOk (_, cache') => Done (Some idx) (ARCache cache' (rc_lookup s)) []
              | AvPanic r => Panicked r s []
              | AvUB => UB
              end
          | None => Done None s []
          end
      end
  end.

(** [AddRemoveCache::insert_id] (world.rs:57-60) *)
Definition rc_insert_id (c : ecsid) (archetype : nat) : M arcache () := λ s,
  match av_push_start (rc_cache s) (c, archetype) with
  | AvOk (_, cache') => Done () (ARCache cache' (<[c := archetype]> (rc_lookup s))) []
  | AvPanic r => Panicked r s []
  | AvUB => UB
  end.
