(** * How much memory a call may need: vocabulary of C52 *)
From Verif Require Export SpecLedger.

(** The bytes of all component values the world holds. *)
Definition bytes_held (w : world) : nat := length (concat (cells w).*2).
(** The bytes a call brings along: the values given, and the capacity asked for. *)
Definition bop_bytes (o : bop) : nat :=
  match o with BWith _ v | BWithDynData _ v => length v | _ => 0 end.
Definition call_bytes (o : sop) : nat :=
  match o with
  | SWorld (OSpawn cap _ bs _) => default 0 cap + sum_list_with bop_bytes bs
  | SWorld (OAdd _ _ v) | SWorld (OAddDynData _ _ v) => length v
  | _ => 0
  end.
(** An eighth of the address space. *)
Definition byte_limit : N := 2 ^ 60.
(** The bytes of the values named by a call. *)
Definition passed_bytes (o : sop) : nat :=
  match o with
  | SWorld (OSpawn _ _ bs _) => sum_list_with bop_bytes bs
  | SWorld (OAdd _ _ v) | SWorld (OAddDynData _ _ v) | SWorld (OWrite _ _ v) | SStore _ _ _ v => length v
  | _ => 0
  end.
