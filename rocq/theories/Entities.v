(** * Model of arche_tape/src/entities.rs *)
From Verif Require Export Base.

(** [EcsId::new] (entities.rs:65-67): both arguments are u32; the callers' [idx as u32]
    cast (entities.rs:114) is included here. *)
Definition id_new (index : nat) (generation : N) : ecsid :=
  EcsId generation (wrap32 (N.of_nat index)).

(** [EcsId::uindex] (entities.rs:61-63) *)
Definition uindex (e : ecsid) : nat := N.to_nat (id_idx e).

(** [EcsId::as_u64] (entities.rs:69-76) *)
Definition as_u64 (e : ecsid) : N := N.lor (N.shiftl (id_gen e) 32) (id_idx e).

(** [PartialEq for EcsId] (entities.rs:39-43) *)
Definition ecsid_eqb (a b : ecsid) : bool := (as_u64 a =? as_u64 b)%N.

(** the values of type u32 pairs: what an [EcsId] can hold in Rust *)
Definition id_wf (e : ecsid) : Prop :=
  (id_gen e < u32_modulus)%N ∧ (id_idx e < u32_modulus)%N.

(** [struct Entities] (entities.rs:79-84).  [despawned] is a Vec used as a stack; the model
    keeps it with the top of the stack (last element of the Vec) first. *)
Record entities := Entities {
  generations : list (bool * N);
  despawned : list nat
}.

(** [Entities::new] (entities.rs:87-92); capacities are not modelled. *)
Definition entities_new : entities := Entities [] [].

(** [Entities::spawn] (entities.rs:94-115) *)
Definition ents_spawn : M entities ecsid := λ s,
  let finish (s : entities) (idx : nat) : outcome entities ecsid :=
    (* lines 109-114 *)
    if (u32_max <? N.of_nat idx)%N then Panicked ROutOfIds s []
    else match generations s !! idx with
         | None => Panicked RIndex s []
         | Some (_, g) => Done (id_new idx g) s []
         end in
  match despawned s with
  | idx :: rest =>                                   (* lines 96-102 *)
      match (generations s !! idx : option (bool * N)) with
      | None => Panicked RIndex (Entities (generations s) rest) []
      | Some (alive, g) =>
          if alive then Panicked RSlotAlive (Entities (generations s) rest) []
          else finish (Entities (<[idx := (true, wrap32 (g + 1)%N)]> (generations s)) rest) idx
      end
  | [] =>                                            (* lines 103-106 *)
      finish (Entities (generations s ++ [(true, 0%N)]) []) (length (generations s))
  end.

(** [Entities::is_alive] (entities.rs:129-136); [None] is the panic at line 133. *)
Definition ents_is_alive (s : entities) (e : ecsid) : option bool :=
  match generations s !! uindex e with
  | None => None
  | Some (alive, g) => Some (alive && (id_gen e =? g)%N)
  end.

(** [Entities::despawn] (entities.rs:118-127) *)
Definition ents_despawn (e : ecsid) : M entities bool := λ s,
  match ents_is_alive s e with
  | None => Panicked RNoGeneration s []
  | Some false => Done false s []
  | Some true =>
      match generations s !! uindex e with
      | None => Panicked RIndex s []
      | Some (_, g) =>
          Done true
            (Entities (<[uindex e := (false, g)]> (generations s))
                      (uindex e :: despawned s)) []
      end
  end.
