(** * When allocations are refused.  Theorems only; proofs in ProofQuiet.v, ProofQuietWorld.v,
    ProofLimit.v and ProofLimitVec.v, non-vacuity witnesses in ExamplesLimit.v. *)
From Verif Require Import SpecUVec SpecLimit ProofLimit ProofLimitVec.

(** C52: as long as the values held by the world and those passed to the call take at most
    2^60 bytes, no call panics for lack of address space. *)
Theorem C52_call : ∀ s o, reachable s → sop_legal o s → sop_tame o s →
  (N.of_nat (bytes_held (ss_world s) + call_bytes o) <= byte_limit)%N →
  ∀ s' ev, sstep o s ≠ Panicked RCapacity s' ev.
Proof. exact sstep_quiet. Qed.
Print Assumptions C52_call.
(** C52: the same in terms of the values passed to all calls of a history. *)
Theorem C52_history : ∀ l s o, steps sess_new l s → sop_legal o s → sop_tame o s →
  (N.of_nat (sum_list_with passed_bytes (calls_of l) + call_bytes o) <= byte_limit)%N →
  ∀ s' ev, sstep o s ≠ Panicked RCapacity s' ev.
Proof. exact history_quiet. Qed.
Print Assumptions C52_history.
(** C52: a capacity beyond the address space is refused when no buffer is kept. *)
Theorem C52_refused : ∀ s cap meta bs fin, reachable s → w_reuse (ss_world s) = None →
  (isize_max < N.of_nat cap)%N →
  ∃ r s' ev, sstep (SWorld (OSpawn (Some cap) meta bs fin)) s = Panicked r s' ev ∧
    (r = RCapacity ∨ r = ROutOfIds).
Proof. exact capacity_refused. Qed.
Print Assumptions C52_refused.
(** C52: a vector on its own: a history that puts at most 2^60 bytes into two vectors never
    panics, so the first case of C25 is the one that occurs. *)
Theorem C52_vec : ∀ ti1 ti2 h rs l1 l2 ev, ti_layout ti1 = ti_layout ti2 → layout_wf (ti_layout ti1) →
  lv_run (ti_size ti1) (λ b, ti_drop (if b then ti1 else ti2)) h ([], []) = Some (rs, (l1, l2), ev) →
  (N.of_nat (length h * ti_size ti1) <= byte_limit)%N →
  ∃ s, uv_run h (uv_new ti1, uv_new ti2) = Done rs s ev ∧ observes s.1 l1 ∧ observes s.2 l2.
Proof. exact uv_history_quiet. Qed.
Print Assumptions C52_vec.
