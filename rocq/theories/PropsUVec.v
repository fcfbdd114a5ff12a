(** * Properties of UntypedVec.
    Theorems only; proofs in ProofUVec.v and ProofUVecMore.v, non-vacuity witnesses in ExamplesUVec.v. *)
From Verif Require Import SpecUVec ProofUVecMore.

(** C25: every history of push_raw, pop, swap_remove and moves between two vectors of the same
    element layout (any size, also zero; any destructors) returns the same results, runs the
    same destructors in the same order, and leaves the same elements, as the same operations on
    two lists. *)
Theorem C25_vec_is_sequence : ∀ ti1 ti2 h rs l1 l2 ev, ti_layout ti1 = ti_layout ti2 →
  lv_run (ti_size ti1) (λ b, ti_drop (if b then ti1 else ti2)) h ([], []) = Some (rs, (l1, l2), ev) →
  match uv_run h (uv_new ti1, uv_new ti2) with
  | Done rs' s ev' => rs' = rs ∧ ev' = ev ∧ observes s.1 l1 ∧ observes s.2 l2
  | Panicked r _ _ => r = RCapacity
  | Deadlock | UB => False
  end.
Proof. exact uv_sequence. Qed.
Print Assumptions C25_vec_is_sequence.

(** C25: an index out of range is rejected by a panic and nothing changes (for moves: when the
    elements are not zero-sized). *)
Theorem C25_out_of_range_rejected : ∀ ti1 ti2 h rs l1 l2 ev i,
  ti_layout ti1 = ti_layout ti2 → length l1 ≤ i →
  lv_run (ti_size ti1) (λ b, ti_drop (if b then ti1 else ti2)) h ([], []) = Some (rs, (l1, l2), ev) →
  match uv_run h (uv_new ti1, uv_new ti2) with
  | Done _ s _ => (∃ r, uv_swap_remove i s.1 = Panicked r s.1 []) ∧
                  (ti_size ti1 ≠ 0 → ∃ r, uv_swap_move i s = Panicked r s [])
  | Panicked r _ _ => r = RCapacity
  | Deadlock | UB => False
  end.
Proof. exact uv_out_of_range_hist. Qed.
Print Assumptions C25_out_of_range_rejected.
(** C25: a move to a vector of another layout is rejected and nothing changes. *)
Theorem C25_other_layouts_rejected : ∀ i v o, ti_layout (uv_ti v) ≠ ti_layout (uv_ti o) →
  uv_swap_move i (v, o) = Panicked RAssert (v, o) [].
Proof. exact uv_swap_move_other. Qed.
Print Assumptions C25_other_layouts_rejected.

(** C26: whatever the caller does with two vectors of equal element size (pushing properly
    sized values, any indices, catching any panics), no access leaves an allocation and every
    realloc/dealloc gets the layout of the current allocation (otherwise the run would be [UB]
    and [uv_catch_run] would give [None]); the bookkeeping always describes the allocation, and
    dropping the vectors afterwards is fine too. *)
Theorem C26_no_undefined_behaviour : ∀ ti1 ti2 h,
  ti_size ti1 = ti_size ti2 → Forall (push_sized (ti_size ti1)) h →
  ∃ v1 v2, uv_catch_run h (uv_new ti1, uv_new ti2) = Some (v1, v2) ∧
    alloc_ok v1 ∧ alloc_ok v2 ∧
    (∃ v1' e, uv_drop v1 = Done () v1' e) ∧ (∃ v2' e, uv_drop v2 = Done () v2' e).
Proof. exact uv_no_ub. Qed.
Print Assumptions C26_no_undefined_behaviour.

(** C27: popping a vector that is empty at the end of any history returns false and changes
    nothing if the elements have a size; otherwise it returns true and runs the destructor. *)
Theorem C27_pop_empty : ∀ ti1 ti2 h rs l2 ev, ti_layout ti1 = ti_layout ti2 →
  lv_run (ti_size ti1) (λ b, ti_drop (if b then ti1 else ti2)) h ([], []) = Some (rs, ([], l2), ev) →
  match uv_run h (uv_new ti1, uv_new ti2) with
  | Done _ s _ => if decide (ti_size ti1 = 0) then uv_pop s.1 = Done true s.1 (ldrop (ti_drop ti1) [])
                  else uv_pop s.1 = Done false s.1 []
  | Panicked r _ _ => r = RCapacity
  | Deadlock | UB => False
  end.
Proof. exact uv_pop_empty_full. Qed.
Print Assumptions C27_pop_empty.

(** C27 is false for zero-sized elements: popping the new vector runs a destructor. *)
Theorem C27_pop_empty_refuted : ∃ ti v', ti_size ti = 0 ∧
  uv_elems_len (uv_new ti) = Done 0 (uv_new ti) [] ∧
  uv_pop (uv_new ti) = Done true v' [EvDrop (DropFn 3) []].
Proof. exact uv_pop_empty_wrong. Qed.
Print Assumptions C27_pop_empty_refuted.

(** C28: after any history, as_slice of the first vector panics for zero-sized types, gives a
    misaligned slice if the alignment is not 1 and nothing was ever put into the vector, and
    otherwise shows the elements. *)
Theorem C28_as_slice : ∀ ti1 ti2 h rs l1 l2 ev t,
  ti_layout ti1 = Layout (ty_size t) (ty_align t) → ti_layout ti2 = Layout (ty_size t) (ty_align t) → ty_align t ≠ 0 →
  lv_run (ty_size t) (λ b, ti_drop (if b then ti1 else ti2)) h ([], []) = Some (rs, (l1, l2), ev) →
  match uv_run h (uv_new ti1, uv_new ti2) with
  | Done _ s _ =>
      (ty_size t = 0 → uv_as_slice t s.1 = Panicked RRemZero s.1 []) ∧
      (ty_size t ≠ 0 → ty_align t = 1 ∨ Exists feeds h → uv_as_slice t s.1 = Done l1 s.1 []) ∧
      (ty_size t ≠ 0 → ty_align t ≠ 1 → ¬ Exists feeds h → uv_as_slice t s.1 = UB)
  | Panicked r _ _ => r = RCapacity
  | Deadlock | UB => False
  end.
Proof. exact uv_as_slice_full. Qed.
Print Assumptions C28_as_slice.

(** C28: a type of another size or alignment is refused. *)
Theorem C28_as_slice_other : ∀ t v, ti_layout (uv_ti v) ≠ Layout (ty_size t) (ty_align t) →
  uv_as_slice t v = Panicked RAssert v [].
Proof. exact uv_as_slice_other. Qed.
Print Assumptions C28_as_slice_other.

(** C28 is false for a zero-sized type: the call panics. *)
Theorem C28_as_slice_zst_refuted : ∃ t v r, ty_size t = 0 ∧
  uv_push_raw [] (uv_new (TypeInfo (Layout (ty_size t) (ty_align t)) None)) = Done () v [] ∧
  uv_as_slice t v = Panicked r v [].
Proof. exact uv_as_slice_zst_wrong. Qed.
Print Assumptions C28_as_slice_zst_refuted.
(** C28 is false for a new vector of an aligned type: a misaligned pointer. *)
Theorem C28_as_slice_unallocated_refuted : ∃ t, ty_size t = 4 ∧ ty_align t = 4 ∧
  uv_as_slice t (uv_new (TypeInfo (Layout (ty_size t) (ty_align t)) None)) = UB.
Proof. exact uv_as_slice_unallocated_wrong. Qed.
Print Assumptions C28_as_slice_unallocated_refuted.

(** C29: dropping the vector runs the destructor once per stored element, last element first,
    if the elements have a size, and never otherwise. *)
Theorem C29_drop_each_once : ∀ ti1 ti2 h rs l1 l2 ev, ti_layout ti1 = ti_layout ti2 →
  lv_run (ti_size ti1) (λ b, ti_drop (if b then ti1 else ti2)) h ([], []) = Some (rs, (l1, l2), ev) →
  match uv_run h (uv_new ti1, uv_new ti2) with
  | Done _ s _ => ∃ v', uv_drop s.1 =
      Done () v' (if decide (ti_size ti1 = 0) then [] else concat (ldrop (ti_drop ti1) <$> reverse l1))
  | Panicked r _ _ => r = RCapacity
  | Deadlock | UB => False
  end.
Proof. exact uv_drop_full. Qed.
Print Assumptions C29_drop_each_once.

(** C29 is false for zero-sized elements with a destructor: it never runs. *)
Theorem C29_drop_zst_refuted : ∃ ti v v', ti_drop ti = Some (DropFn 3) ∧
  uv_push_raw [] (uv_new ti) = Done () v [] ∧ uv_elems_len v = Done 1 v [] ∧
  uv_drop v = Done () v' [].
Proof. exact uv_drop_zst_wrong. Qed.
Print Assumptions C29_drop_zst_refuted.
