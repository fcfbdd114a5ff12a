(** * Vocabulary for C47: the buffer of an [EntityBuilder] cannot be observed *)
From Verif Require Import World Query History.

(** The same world except for the buffer kept for the next builder. *)
Definition same_but_buffer (w w' : world) : Prop :=
  w_archs w' = w_archs w ∧ w_bitset w' = w_bitset w ∧ w_entbits w' = w_entbits w ∧
  w_ents w' = w_ents w ∧ w_meta w' = w_meta w ∧ w_types w' = w_types w ∧
  w_lock_lookup w' = w_lock_lookup w ∧ w_locks w' = w_locks w.
(** ... and the same open queries. *)
Definition same_session (s s' : sess) : Prop :=
  same_but_buffer (ss_world s) (ss_world s') ∧ ss_open s' = ss_open s.

(** What may be kept for the next builder: nothing, or an emptied list of components and an
    allocation of [cap] bytes with unknown contents. *)
Definition usable_buffer (r : option (list ecsid * ptr * nat)) : Prop :=
  match r with
  | None => True
  | Some (ids, p, cap) =>
      ids = [] ∧ 0 < cap ∧ (N.of_nat cap <= isize_max)%N ∧ ∃ m, p = Heap 1 m ∧ length m = cap
  end.

(** The same call, [spawn] and [spawn_with_capacity n] being identified for all [n]. *)
Definition same_call (o o' : sop) : Prop :=
  match o, o' with
  | SWorld (OSpawn _ meta bs fin), SWorld (OSpawn _ meta' bs' fin') => meta' = meta ∧ bs' = bs ∧ fin' = fin
  | _, _ => o' = o
  end.

(** Two outcomes with the same answer or panic and the same destructor calls, in states
    related by [R]; nothing is said when one of them exceeds the size limit of allocations. *)
Definition same_outcome {S A} (R : S → S → Prop) (x y : outcome S A) : Prop :=
  match x, y with
  | Panicked RCapacity _ _, _ | _, Panicked RCapacity _ _ => True
  | Done a s ev, Done a' s' ev' => a' = a ∧ ev' = ev ∧ R s s'
  | Panicked r s ev, Panicked r' s' ev' => r' = r ∧ ev' = ev ∧ R s s'
  | Deadlock, Deadlock | UB, UB => True
  | _, _ => False
  end.

(** The same history: the same calls up to capacities, with the same answers, panics and
    destructor calls. *)
Definition same_entry (x y : sop * res * list event) : Prop :=
  same_call x.1.1 y.1.1 ∧ y.1.2 = x.1.2 ∧ y.2 = x.2.
(** The calls [os] exceed the size limit of allocations after the part [l] of the history. *)
Definition exceeds (l : list (sop * res * list event)) (os : list sop) : Prop :=
  ∃ o os' s s' ev, os = l.*1.*1 ++ o :: os' ∧ steps sess_new l s ∧ sstep o s = Panicked RCapacity s' ev.
