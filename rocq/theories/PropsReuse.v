(** * Properties of the buffer of entity builders.  Theorems only; proofs in ProofReuse.v,
    ProofCapacity.v and ProofCapacityHist.v, non-vacuity witnesses in ExamplesReuse.v. *)
From Verif Require Import SpecReuse ProofCapacityHist.

(** C47: whatever buffer is kept for the next builder, whatever its contents, and whatever
    capacity is asked for, a call has the same answer or panic, the same destructor calls and
    leads to the same world. *)
Theorem C47_call : ∀ s r o o', reachable s → usable_buffer r → same_call o o' →
  sop_legal o s → sop_tame o s →
  same_outcome same_session (sstep o s) (sstep o' (Sess (set_reuse r (ss_world s)) (ss_open s))).
Proof. exact buffer_step. Qed.
Print Assumptions C47_call.
(** C47: changing the capacities in a history changes nothing that can be observed, unless an
    allocation becomes too large. *)
Theorem C47_history : ∀ l s os, steps sess_new l s → Forall2 same_call (l.*1.*1) os →
  (∃ l' s', steps sess_new l' s' ∧ l'.*1.*1 = os ∧ Forall2 same_entry l l' ∧ same_session s s') ∨
  (∃ l', exceeds l' os).
Proof. exact buffer_history. Qed.
Print Assumptions C47_history.
(** C47: what is kept for the next builder is nothing, or an empty list of components and a
    live allocation of the recorded size. *)
Theorem C47_kept : ∀ s, reachable s → usable_buffer (w_reuse (ss_world s)).
Proof. exact buffer_kept. Qed.
Print Assumptions C47_kept.
