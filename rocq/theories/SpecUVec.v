(** * Specification vocabulary for untyped vectors (C25-C29).
    Nothing here is used by the model. *)
From Verif Require Export UVec.

(** ** Histories on two vectors of the same element layout ([true] = the first one). *)
Inductive uvop :=
| UPush (b : bool) (x junk : value)      (* push_raw of x; junk = memory behind the source *)
| UPop (b : bool)
| USwapRemove (b : bool) (i : nat)
| UMove (b : bool) (i : nat).            (* swap_move_element_to_other_vec *)
Definition on_side {A} (b : bool) (m : M uvec A) : M (uvec * uvec) A :=
  if b then on_fst m else on_snd m.
Definition uv_step (o : uvop) : M (uvec * uvec) bool :=
  match o with
  | UPush b x junk => do* on_side b (uv_push_raw (x ++ junk)) in ret true
  | UPop b => on_side b uv_pop
  | USwapRemove b i => do* on_side b (uv_swap_remove i) in ret true
  | UMove b i =>
      do* (if b then uv_swap_move i
           else zoom (λ p, Some (p.2, p.1)) (λ q _, (q.2, q.1)) (uv_swap_move i)) in
      ret true
  end.
Fixpoint uv_run (h : list uvop) : M (uvec * uvec) (list bool) :=
  match h with
  | [] => ret []
  | o :: h' => let* r := uv_step o in let* rs := uv_run h' in ret (r :: rs)
  end.

(** ** The same operations on two lists.  [None]: outside the caller's contract (wrong size,
    index out of range, pop of an empty vector of zero-sized elements). *)
Definition list_swap_remove (i : nat) (l : list value) : option (value * list value) :=
  match l !! i, last l with
  | Some x, Some y =>
      Some (x, if decide (S i = length l) then take i l else <[i := y]> (take (length l - 1) l))
  | _, _ => None
  end.
Definition lpair : Type := list value * list value.
Definition lget (b : bool) (p : lpair) : list value := if b then p.1 else p.2.
Definition lset (b : bool) (l : list value) (p : lpair) : lpair := if b then (l, p.2) else (p.1, l).
Definition ldrop (d : option dropfn) (x : value) : list event :=
  match d with Some f => [EvDrop f x] | None => [] end.
(** [d b]: the destructor of vector [b]. *)
Definition lv_step (size : nat) (d : bool → option dropfn) (o : uvop) (p : lpair) :
    option (bool * lpair * list event) :=
  match o with
  | UPush b x _ =>
      if decide (length x = size) then Some (true, lset b (lget b p ++ [x]) p, []) else None
  | UPop b =>
      match last (lget b p) with
      | Some x => Some (true, lset b (take (length (lget b p) - 1) (lget b p)) p, ldrop (d b) x)
      | None => if decide (size = 0) then None else Some (false, p, [])
      end
  | USwapRemove b i =>
      match list_swap_remove i (lget b p) with
      | Some (x, l) => Some (true, lset b l p, ldrop (d b) x)
      | None => None
      end
  | UMove b i =>
      match list_swap_remove i (lget b p) with
      | Some (x, l) =>
          Some (true, lset (negb b) (lget (negb b) p ++ [x]) (lset b l p), [])
      | None => None
      end
  end.
Fixpoint lv_run (size : nat) (d : bool → option dropfn) (h : list uvop) (p : lpair) :
    option (list bool * lpair * list event) :=
  match h with
  | [] => Some ([], p, [])
  | o :: h' =>
      match lv_step size d o p with
      | None => None
      | Some (r, p1, e1) =>
          match lv_run size d h' p1 with
          | None => None
          | Some (rs, p2, e2) => Some (r :: rs, p2, e1 ++ e2)
          end
      end
  end.

(** What [len], [raw_len], [is_empty], [get_raw] and a read of one element at the returned
    address show. *)
Definition observes (v : uvec) (l : list value) : Prop :=
  uv_elems_len v = Done (length l) v [] ∧
  uv_raw_len v = (if decide (uv_size v = 0) then length l else length (concat l)) ∧
  uv_is_empty v = bool_decide (l = []) ∧
  ∀ i, match l !! i with
       | Some x => ∃ off, uv_get_raw i v = Done (Some off) v [] ∧
                          mem_read (uv_data v) off (uv_size v) = Some x
       | None => uv_get_raw i v = Done None v []
       end.

(** Calls that put an element into the first vector. *)
Definition feeds (o : uvop) : Prop :=
  match o with UPush b _ _ => b = true | UMove b _ => b = false | _ => False end.

(** ** Arbitrary use, panics caught: [None] = undefined behaviour at some point. *)
Definition push_sized (size : nat) (o : uvop) : Prop :=
  match o with UPush _ x _ => length x = size | _ => True end.
Fixpoint uv_catch_run (h : list uvop) (s : uvec * uvec) : option (uvec * uvec) :=
  match h with
  | [] => Some s
  | o :: h' =>
      match uv_step o s with
      | Done _ s' _ | Panicked _ s' _ => uv_catch_run h' s'
      | Deadlock | UB => None
      end
  end.
(** The recorded capacity is the size of the allocation, made with the element's alignment
    and a valid layout; the length lies inside it at an element boundary. *)
Definition alloc_ok (v : uvec) : Prop :=
  (uv_size v = 0 ∧ uv_data v = Dangling ∧ uv_cap v = 0) ∨
  (uv_size v ≠ 0 ∧ uv_data v = Dangling ∧ uv_cap v = 0 ∧ uv_len v = 0) ∨
  (uv_size v ≠ 0 ∧ ∃ m, uv_data v = Heap (uv_align v) m ∧ length m = uv_cap v ∧
     uv_len v ≤ uv_cap v ∧ uv_len v mod uv_size v = 0 ∧
     layout_from_size_align (uv_cap v) (uv_align v) = Some (Layout (uv_cap v) (uv_align v))).
