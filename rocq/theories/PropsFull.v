(** * Running out of ids.
    Theorems only; proofs in ProofFull.v, non-vacuity witnesses in ExamplesFull.v. *)
From Verif Require Import SpecFull ProofFull.

(** C62: as long as the calls of the history ask for at most 2^32 ids in all, none is refused for lack of ids. *)
Theorem C62_history : ∀ l s o, steps sess_new l s → sop_legal o s → sop_tame o s →
  (N.of_nat (sum_list_with call_ids (calls_of l) + call_ids o) <= 2 ^ 32)%N →
  ∀ s' ev, sstep o s ≠ Panicked ROutOfIds s' ev.
Proof. exact history_ids. Qed.
Print Assumptions C62_history.
(** C62: whenever a call is refused for lack of ids, every one of the 2^32 indices belongs to a living entity. *)
Theorem C62_exhausted : ∀ s o s' ev, reachable s → sop_legal o s → sop_tame o s →
  sstep o s = Panicked ROutOfIds s' ev → no_index_left (ss_world s').
Proof. exact out_of_ids_none. Qed.
Print Assumptions C62_exhausted.
(** C62: and in such a world every [spawn] is refused, without changing any entity. *)
Theorem C62_spawn : ∀ w cap meta bs fin, reachable_world w → no_index_left w →
  ∃ w', step (OSpawn cap meta bs fin) w = Panicked ROutOfIds w' [] ∧ same_holds w w'.
Proof. exact none_spawn. Qed.
Print Assumptions C62_spawn.
(** C62: 2^32 times [spawn] gets there, each of them with an id. *)
Theorem C62_reached : ∃ l s, steps sess_new l s ∧ N.of_nat (length l) = (2 ^ 32)%N ∧
  Forall (λ o, o = SWorld (OSpawn None cm_unit [] BDrop)) (calls_of l) ∧
  (∀ x, x ∈ l → ∃ e, x.1.2 = ROk (SRet (RId e))) ∧ ss_open s = [] ∧ no_index_left (ss_world s).
Proof. exact fillable. Qed.
Print Assumptions C62_reached.
