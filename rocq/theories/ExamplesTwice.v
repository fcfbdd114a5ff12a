(** * Concrete cases meeting the hypotheses of the theorem in PropsTwice.
    These are tests and witnesses, not proofs of the properties. *)
From Verif Require Import SpecTwice ExamplesBase ProofRefuted.

(** C32: the archetype exists: the row is copied, and the value destroyed twice. *)
Definition tw : world := wplay [zspawn [BWith zA (z4 1); BBuild]].
Definition tbs : list bop := [BWith zA (z4 2)].
Definition tw1 : world := outcome_world (step (zspawn (tbs ++ [BBuild])) tw).
Definition tw2 : world := outcome_world (step (zspawn (tbs ++ [BBuild; BBuild])) tw).
Definition tw3 : world := outcome_world (step (ODespawn (zid 2)) tw2).
Example C32_case_copied :
  reachable_world tw ∧ op_legal (zspawn (tbs ++ [BBuild])) tw ∧ op_tame (zspawn (tbs ++ [BBuild])) tw ∧
  step (zspawn (tbs ++ [BBuild])) tw = Done (RId (zid 2)) tw1 [] ∧
  step (zspawn (tbs ++ [BBuild; BBuild])) tw = Done (RId (zid 2)) tw2 [] ∧
  a_entities <$> w_archs tw1 = [[zid 1]; [zid 0; zid 2]] ∧ a_entities <$> w_archs tw2 = [[zid 1]; [zid 0; zid 2; zid 2]] ∧
  step (ODespawn (zid 2)) tw2 = Done (RBool true) tw3 [EvDrop (DropOf zA) (z4 2)] ∧
  a_entities <$> w_archs tw3 = [[zid 1]; [zid 0; zid 2]] ∧
  world_drop tw3 = Some [EvDrop (DropOf zA) (z4 2); EvDrop (DropOf zA) (z4 1)].
Proof. split_and!; zdone. Qed.
(** ... it does not: the second row is an empty one in archetype 0. *)
Definition uw1 : world := outcome_world (step (zspawn (tbs ++ [BBuild])) world_new).
Definition uw2 : world := outcome_world (step (zspawn (tbs ++ [BBuild; BBuild])) world_new).
Definition uw3 : world := outcome_world (step (ODespawn (zid 0)) uw2).
Example C32_case_empty :
  op_legal (zspawn (tbs ++ [BBuild])) world_new ∧ op_tame (zspawn (tbs ++ [BBuild])) world_new ∧
  step (zspawn (tbs ++ [BBuild])) world_new = Done (RId (zid 0)) uw1 [] ∧
  step (zspawn (tbs ++ [BBuild; BBuild])) world_new = Done (RId (zid 0)) uw2 [] ∧
  a_entities <$> w_archs uw1 = [[zid 1]; [zid 0]] ∧ a_entities <$> w_archs uw2 = [[zid 1; zid 0]; [zid 0]] ∧
  step (ODespawn (zid 0)) uw2 = Done (RBool true) uw3 [] ∧
  a_entities <$> w_archs uw3 = [[zid 1]; [zid 0]] ∧
  world_drop uw3 = Some [EvDrop (DropOf zA) (z4 2)].
Proof. split_and!; zdone. Qed.
