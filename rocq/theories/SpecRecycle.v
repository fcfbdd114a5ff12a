(** * Despawning and spawning in turn: vocabulary of C74 *)
From Verif Require Export SpecBenches SpecIds.

(** The id with the index of [e], [i] generations after it. *)
Definition later_id (e : ecsid) (i : nat) : ecsid := EcsId ((id_gen e + N.of_nat i) mod 2 ^ 32) (id_idx e).
(** One round: the entity is despawned, and a new one without components is spawned; the answers. *)
Definition recycle (e : ecsid) (i : nat) : list (sop * res) :=
  [(SWorld (ODespawn (later_id e i)), ROk (SRet (RBool true)));
   (SWorld (spawn_macro []), ROk (SRet (RId (later_id e (S i)))))].
(** Nothing can be said against despawning [e]; no type has or had an id with its index. *)
Definition expendable (w : world) (e : ecsid) : Prop :=
  id_wf e ∧ lives w e ∧ stored w e ∧ ¬ in_use w e ∧ ∀ t c, type_id w t c → id_idx c ≠ id_idx e.
(** Entities with another index than [e] are as before. *)
Definition others_same (w w' : world) (e : ecsid) : Prop :=
  same_types w w' ∧
  ∀ e0, id_wf e0 → id_idx e0 ≠ id_idx e → (lives w' e0 ↔ lives w e0) ∧ (stored w' e0 ↔ stored w e0) ∧
    ∀ c v, holds w' e0 c v ↔ holds w e0 c v.
