(** * Concrete cases meeting the hypotheses of the theorems in PropsFull.
    These are tests and witnesses, not proofs of the properties. *)
From Verif Require Import ProofBase SpecFull ProofFull ExamplesBase ProofRefutedQuery ExamplesWorld ExamplesQuery ExamplesReuse.

(** The two calls of the history ask for six ids, the next for three. *)
Definition flop : sop := SWorld (OSpawn None cm_unit [BWith xA (x4 1); BWith xB (x2 10); BBuild] BDrop).
Definition fls : sess := rs None None.
Definition fltrace : list (sop * res * list event) := splay_trace (rops None None).
Example C62_history_case : reachable fls ∧ steps sess_new fltrace fls ∧ length fltrace = 2 ∧ sop_legal flop fls ∧ sop_tame flop fls ∧
  sum_list_with call_ids (calls_of fltrace) = 6 ∧ call_ids flop = 3 ∧
  (N.of_nat (sum_list_with call_ids (calls_of fltrace) + call_ids flop) <= 2 ^ 32)%N.
Proof. split_and!; try ydone. Qed.
(** There is a reachable world without indices, and a call that is refused there. *)
Example C62_exhausted_case : ∃ s s', reachable s ∧ Forall (λ q, q = None) (ss_open s) ∧ no_index_left (ss_world s) ∧
  sstep (SWorld (OSpawn None cm_unit [] BDrop)) s = Panicked ROutOfIds s' [].
Proof.
  destruct fillable as (l & s & Hst & _ & _ & _ & Ho & Hn). assert (Forall (λ q, q = None) (ss_open s)) as Ho' by (rewrite Ho; by constructor).
  assert (reachable s) as Hs. { by exists l. } destruct (none_spawn (ss_world s) None cm_unit [] BDrop) as (w' & E & _); [by exists s|done|].
  exists s, (Sess w' (ss_open s)). split; [done|]. split; [done|]. split; [done|]. by rewrite sworld_run E.
Qed.
