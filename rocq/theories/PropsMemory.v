(** * Memory is neither leaked nor released twice.  Theorems only; proofs in ProofMemory.v,
    ProofMemWorld.v, ProofMemAdd.v and ProofMemHist.v, non-vacuity witnesses in
    ExamplesMemory.v. *)
From Verif Require Import SpecMemory ProofMemHist.

(** C53: executions recording their allocator calls are the executions. *)
Theorem C53_faithful : ∀ l s,
  (∀ lg, steps_t (sess_new, []) l (s, lg) → steps sess_new l s) ∧
  (steps sess_new l s → ∃ lg, steps_t (sess_new, []) l (s, lg)).
Proof. exact log_faithful. Qed.
Print Assumptions C53_faithful.
(** C53: after every history the live blocks are those the world points to, each once, and at
    most one more for every builder leaked with [mem::forget]. *)
Theorem C53_history : ∀ l s lg, steps_t (sess_new, []) l (s, lg) →
  ∃ L K, live [] lg = Some L ∧ L ≡ₚ owned (ss_world s) ++ K ∧
    length K ≤ leaked l ∧ Forall (λ b, l_align b = 1) K.
Proof. exact log_history. Qed.
Print Assumptions C53_history.
(** C53: every call makes allocator calls that are in order, also one that ends in a panic
    after which nothing is claimed about the world. *)
Theorem C53_call : ∀ l s lg o, steps_t (sess_new, []) l (s, lg) → sop_legal o s → sop_tame o s →
  match sstep_t o (s, lg) with
  | Done a (s', lg') ev => sstep o s = Done a s' ev ∧ is_Some (live [] lg')
  | Panicked r (s', lg') ev => sstep o s = Panicked r s' ev ∧ is_Some (live [] lg')
  | Deadlock => sstep o s = Deadlock
  | UB => False
  end.
Proof. exact log_call. Qed.
Print Assumptions C53_call.
(** C53: dropping the world releases everything but the buffers of leaked builders. *)
Theorem C53_drop : ∀ l s lg, steps_t (sess_new, []) l (s, lg) →
  ∃ ev ops K, world_drop (ss_world s) = Some ev ∧ world_drop_t (ss_world s) = Some (ev, ops) ∧
    live [] (lg ++ ops) = Some K ∧ length K ≤ leaked l ∧ Forall (λ b, l_align b = 1) K.
Proof. exact log_drop. Qed.
Print Assumptions C53_drop.
Theorem C53_drop_all : ∀ l s lg, steps_t (sess_new, []) l (s, lg) → leaked l = 0 →
  ∃ ev ops, world_drop_t (ss_world s) = Some (ev, ops) ∧ live [] (lg ++ ops) = Some [].
Proof. exact log_drop_all. Qed.
Print Assumptions C53_drop_all.
