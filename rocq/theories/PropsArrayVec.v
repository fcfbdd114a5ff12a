(** * Properties of ArrayVec, the add/remove cache and index_twice_mut.
    Theorems only; proofs in ProofArrayVec.v, non-vacuity witnesses in ExamplesUVec.v. *)
From Verif Require Import SpecSmall World ProofArrayVec.

(** C23: any number of [push_start] calls on a vector of any capacity [n >= 1] succeeds; the
    contents are the last [n] values, most recent first; the k-th call evicts (drops) nothing
    while there is room and then exactly the oldest value. *)
Theorem C23_push_start_window : ∀ (T : Type) n (xs : list T), 0 < n →
  ∃ evicted v, av_pushes xs (av_new n) = AvOk (evicted, v) ∧
    length (av_array v) = n ∧ av_as_slice v = AvOk (take n (reverse xs)) ∧
    length evicted = length xs ∧
    ∀ k, k < length xs → evicted !! k = Some (if decide (k < n) then None else xs !! (k - n)).
Proof. exact @av_window. Qed.
Print Assumptions C23_push_start_window.

(** C23: any history of push, push_start and writes through get_mut behaves like the same
    history on a list of at most [n] values: the same values are refused, pushed out or
    overwritten, and as_slice, get (at every index) and drop show exactly that list. *)
Theorem C23_history : ∀ (T : Type) n (h : list (avop T)), 0 < n →
  ∃ v, av_run h (av_new n) = AvOk ((window_run n h []).1, v) ∧ length (av_array v) = n ∧
    av_as_slice v = AvOk (window_run n h []).2 ∧ av_drop v = AvOk (window_run n h []).2 ∧
    ∀ i, av_get v i = AvOk ((window_run n h []).2 !! i).
Proof. exact @av_history. Qed.
Print Assumptions C23_history.

(** C24 is false: [pop] after a single [push] reads an uninitialised slot. *)
Theorem C24_pop_refuted :
  ∃ (n : nat) (x : N), n = CACHE_SIZE ∧
    av_as_slice (av_push_all [x] (av_new n)) = AvOk [x] ∧
    ¬ ∃ v', av_pop (av_push_all [x] (av_new n)) = AvOk (Some x, v').
Proof. exact av_pop_once_wrong. Qed.
Print Assumptions C24_pop_refuted.

(** C24: in fact [pop] is wrong for every non-empty vector filled by [push]: undefined
    behaviour when it is not full, an index panic when it is. *)
Theorem C24_pop_never_correct : ∀ (T : Type) n (xs : list T), xs ≠ [] → length xs ≤ n →
  av_as_slice (av_push_all xs (av_new n)) = AvOk xs ∧
  av_pop (av_push_all xs (av_new n)) = if decide (length xs = n) then AvPanic RIndex else AvUB.
Proof. exact @av_pop_wrong. Qed.
Print Assumptions C24_pop_never_correct.

(** C22 (cache level): every history of lookups and insertions answers like a plain map. *)
Theorem C22_cache_is_map : ∀ h, ∃ s, rc_run h rc_new = Done (map_run h ∅) s [].
Proof. exact rc_run_map. Qed.
Print Assumptions C22_cache_is_map.

(** C50 *)
Theorem C50_index_twice : ∀ (A : Type) i j (l : list A) x y,
  index_twice i j l = Some (x, y) ↔ i ≠ j ∧ l !! i = Some x ∧ l !! j = Some y.
Proof. exact @index_twice_spec. Qed.
Print Assumptions C50_index_twice.
