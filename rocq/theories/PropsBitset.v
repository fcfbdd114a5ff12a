(** * Properties of bitset iteration and bit vectors.
    Theorems only; proofs in ProofBitset.v, non-vacuity witnesses in ExamplesSmall.v. *)
From Verif Require Import SpecSmall ProofBitset.

(** C15: after the first None every further call gives None (any number of calls). *)
Theorem C15_bitset_iterator_fused : ∀ iters bl n m outs,
  iters_wf iters →
  (∃ it', bi_run (n + m) (bi_new iters bl) = Some (outs, it')) →
  outs !! n = Some None → ∀ k, n ≤ k < n + m → outs !! k = Some None.
Proof. exact bitset_iter_fused. Qed.
Print Assumptions C15_bitset_iterator_fused.

(** C16: [n] calls of [next] produce the first [n] elements of the increasing list of the
    common bits below the bit length, followed by None for ever. *)
Theorem C16_bitset_iterator_exact : ∀ iters bl,
  iters ≠ [] → iters_wf iters →
  ∃ L, StronglySorted lt L ∧
    (∀ i, i ∈ L ↔ (N.of_nat i < bl)%N ∧ common_bit iters i) ∧
    ∀ n, ∃ it', bi_run n (bi_new iters bl) = Some (take n ((Some <$> L) ++ replicate n None), it').
Proof. exact bitset_iter_exact. Qed.
Print Assumptions C16_bitset_iterator_exact.

(** C17: every sequence of set and push calls succeeds, and [get_bit] observes exactly the
    list of booleans obtained by the same calls on a plain list (None out of range). *)
Theorem C17_bitvec_is_bool_list : ∀ h,
  ∃ b, bv_run h bv_new = Some b ∧
    bv_len b = length (foldl (λ l o, bools_step o l) [] h) ∧
    ∀ i, bv_get_bit b i = Some (foldl (λ l o, bools_step o l) [] h !! i).
Proof. exact bv_run_bools. Qed.
Print Assumptions C17_bitvec_is_bool_list.

(** C18: every sequence of table updates succeeds; a bit reads back the last value written to
    exactly that (component index, position), and components never written have no bits. *)
Theorem C18_table_frame : ∀ h,
  ∃ bs, bs_run h [] = Some bs ∧
    ∀ c j, bs_read bs c j = last_write h (uindex c) j.
Proof. exact bs_run_frame. Qed.
Print Assumptions C18_table_frame.

(** C18: one update leaves the whole bit vector of every other component index as it was. *)
Theorem C18_other_components_untouched : ∀ h bs c k v bs' d,
  bs_run h [] = Some bs → bs_set_bit bs c k v = Some bs' → uindex d ≠ uindex c →
  ∀ j, bs_read bs' d j = bs_read bs d j.
Proof. exact bs_set_bit_frame. Qed.
Print Assumptions C18_other_components_untouched.

(** C18: with set_bit and push_bit alike, the bit vector of a component index shows exactly the
    booleans obtained by the calls for that index on a plain list, also where it ends; a
    component has no bit vector iff no call was made for its index or a larger one. *)
Theorem C18_table_is_lists : ∀ h,
  ∃ bs, bs_steps h [] = Some bs ∧
    (∀ c, bs_get_bitvec bs c = None ↔ ∀ o, o ∈ h → uindex o.1 < uindex c) ∧
    ∀ c b, bs_get_bitvec bs c = Some b →
      ∀ j, bv_get_bit b j = Some (foldl (λ l o, bools_step o l) [] (ops_at (uindex c) h) !! j).
Proof. exact bs_steps_lists. Qed.
Print Assumptions C18_table_is_lists.
