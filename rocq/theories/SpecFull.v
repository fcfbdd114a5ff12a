(** * When a world runs out of ids (C62) *)
From Verif Require Export SpecWorld.

(** Every index an id can have is that of a live id. *)
Definition no_index_left (w : world) : Prop :=
  ∀ k, (k < 2 ^ 32)%N → ∃ e, id_wf e ∧ id_idx e = k ∧ lives w e.
(** The most ids a call takes: one for the entity spawned, one for every type named. *)
Definition bop_ids (o : bop) : nat := match o with BWith _ _ => 1 | _ => 0 end.
Definition call_ids (o : sop) : nat :=
  match o with
  | SWorld (OSpawn _ _ bs _) => 1 + sum_list_with bop_ids bs
  | SWorld (OAdd _ _ _) | SWorld (ORemove _ _) | SWorld (ORegister _) => 1
  | _ => 0
  end.
