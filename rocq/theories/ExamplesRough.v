(** * Concrete cases meeting the hypotheses of the theorems in PropsRough.
    These are tests and witnesses, not proofs of the properties. *)
From Verif Require Import ProofBase SpecWorld SpecQuery ExamplesBase ProofRefuted SpecRough ProofDropPanicRefuted ProofRoughRefuted.

Definition z2 (n : N) : value := [Some n; None].
(** The histories of the refutations, told by what was made, what is owed and what was passed. *)
Definition account (x : world * list event * list event) : list event * list event * list event := (x.1.2, owed x.1.1, x.2).
Example C58_case_rough : rough pbomb rw (rcalls pbomb rl).1.2 (rcalls pbomb rl).2 ∧
  account (rcalls pbomb rl) =
    ([EvDrop (DropOf zA) (z4 1)],
     [EvDrop (DropOf zA) (z4 1); EvDrop (DropOf zA) (z4 1); EvDrop (DropOf zA) (z4 1); EvDrop (DropOf zA) (z4 2);
      EvDrop (DropOf zB) (z2 10); EvDrop (DropOf zB) (z2 10); EvDrop (DropOf zB) (z2 10); EvDrop (DropOf zB) (z2 20);
      EvDrop (DropOf zB) (z2 10)],
     [EvDrop (DropOf zA) (z4 1); EvDrop (DropOf zB) (z2 10); EvDrop (DropOf zA) (z4 1); EvDrop (DropOf zB) (z2 10);
      EvDrop (DropOf zA) (z4 1); EvDrop (DropOf zB) (z2 10); EvDrop (DropOf zA) (z4 1); EvDrop (DropOf zB) (z2 10);
      EvDrop (DropOf zB) (z2 20); EvDrop (DropOf zA) (z4 2)]).
Proof. split; [apply rcalls_rough; vm_compute; reflexivity|vm_compute; reflexivity]. Qed.
(** [with] twice with the same type, four times: nothing is destroyed; three of the As passed are
    lost. *)
Example C58_case_plain : rough rcalm rw2 (rcalls rcalm rl2).1.2 (rcalls rcalm rl2).2 ∧
  account (rcalls rcalm rl2) =
    ([],
     [EvDrop (DropOf zA) (z4 1); EvDrop (DropOf zA) (z4 2); EvDrop (DropOf zA) (z4 3); EvDrop (DropOf zA) (z4 2);
      EvDrop (DropOf zA) (z4 2); EvDrop (DropOf zA) (z4 2); EvDrop (DropOf zB) (z2 10)],
     [EvDrop (DropOf zA) (z4 1); EvDrop (DropOf zB) (z2 10)] ++ concat (replicate 4 [EvDrop (DropOf zA) (z4 2); EvDrop (DropOf zA) (z4 3)])).
Proof. split; [apply rcalls_rough; vm_compute; reflexivity|vm_compute; reflexivity]. Qed.
(** A [despawn] cut short, and calls after it: those on the entities involved panic, too; others do
    their work. *)
Definition rl3 : list op :=
  [zspawn [BWith zA (z4 1); BWith zB (z2 10); BBuild]; zspawn [BWith zA (z4 2); BWith zB (z2 20); BBuild];
   ODespawn (zid 0); ODespawn (zid 0); ORemove (zid 3) zB; zspawn [BWith zB (z2 30); BBuild]; OAdd (zid 0) zB (z2 40); zspawn [BBuild]].
Definition rtold (n : nat) : option (option oret * option reason * list event) :=
  o ← rl3 !! n;
  match step_b pbomb o (rcalls pbomb (take n rl3)).1.1 with
  | Done r _ ev => Some (Some r, None, ev)
  | Panicked r _ ev => Some (None, Some r, ev)
  | _ => None
  end.
Example C58_case_after : rplays pbomb rl3 = true ∧
  rtold <$> seq 0 8 =
    [Some (Some (RId (zid 0)), None, []); Some (Some (RId (zid 3)), None, []);
     Some (None, Some RDestructor, [EvDrop (DropOf zA) (z4 1)]); Some (None, Some RAssert, []); Some (None, Some RAssert, []);
     Some (Some (RId (zid 4)), None, []); Some (None, Some RAssert, []); Some (Some (RId (zid 5)), None, [])] ∧
  is_alive (zid 0) (rcalls pbomb rl3).1.1 = Done true (rcalls pbomb rl3).1.1 [].
Proof. split; [|split]; vm_compute; reflexivity. Qed.
(** The half-removed A of entity 0 is a value that was not destroyed: that of another entity. *)
Example C58_case_pointer : get_component_mut (zid 0) (zid 1) rw = Done (Some (Loc 1 0 0)) rw [] ∧
  read_loc rw (Loc 1 0 0) 4 = Some (z4 1) ∧ w_types rw !! zA = Some (zid 1) ∧ is_alive (zid 1) rw = Done true rw [].
Proof. split; [|split; [|split]]; vm_compute; reflexivity. Qed.
(** Dropping it: one A panics, and the others go with it. *)
Example C58_case_drop : world_drop_b pbomb rw =
  Some (Fallen true [EvDrop (DropOf zA) (z4 2); EvDrop (DropOf zB) (z2 20); EvDrop (DropOf zB) (z2 10); EvDrop (DropOf zB) (z2 10);
    EvDrop (DropOf zB) (z2 10); EvDrop (DropOf zB) (z2 10)]).
Proof. vm_compute; reflexivity. Qed.
