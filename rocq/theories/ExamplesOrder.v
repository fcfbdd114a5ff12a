(** * Concrete cases meeting the hypotheses of the theorems in PropsOrder.
    These are tests and witnesses, not proofs of the properties. *)
From Verif Require Import SpecOrder ExamplesBase ProofRefuted.

(** C61: a world with a living id (0), a type (1) and a despawned id (2); 9 was never given out. *)
Definition ow : world := wplay [zspawn [BBuild]; ORegister zA; zspawn [BBuild]; ODespawn (zid 2)].
Example C61_case :
  reachable_world ow ∧ lives ow (zid 0) ∧ despawned ow (zid 2) ∧ unissued ow (zid 9) ∧
  checked_ids ow (ORemoveDyn (zid 0) (zid 2)) = [zid 0] ++ zid 2 :: [] ∧
  step (ORemoveDyn (zid 0) (zid 2)) ow = Done RUnit ow [] ∧
  step (ORemoveDyn (zid 2) (zid 9)) ow = Done RUnit ow [] ∧
  step (OWrite (zid 0) (zid 9) []) ow = Panicked RNoGeneration ow [] ∧
  step (OAddDyn (zid 0) (zid 2)) ow = Panicked RAssert ow [] ∧
  step (OAdd (zid 2) zB [None; None]) ow = Panicked RAssert ow [EvDrop (DropOf zB) [None; None]] ∧
  checked_ids ow (OHas (zid 9) zA) = [zid 9] ∧ step (OHas (zid 9) zA) ow = Panicked RNoGeneration ow [] ∧
  step (OHas (zid 9) zB) ow = Done (RBool false) ow [].
Proof. unfold despawned, unissued. split_and!; zdone. Qed.
Example C61_case_unregistered : ∀ c, ¬ type_id ow zB c.
Proof. intros c. by vm_compute. Qed.
