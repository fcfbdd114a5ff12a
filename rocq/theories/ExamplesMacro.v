(** * Concrete cases meeting the hypotheses of the theorems in PropsMacro.
    These are tests and witnesses, not proofs of the properties. *)
From Verif Require Import SpecMacro ExamplesBase ProofRefuted.

(** C63: [spawn!(&mut world, A, B)] in a world that knows A. *)
Definition mw : world := wplay [zspawn [BBuild]; ORegister zA].
Definition margs : list (ty * value) := [(zA, z4 7); (zB, [Some 1; None]%N)].
Example C63_case : reachable_world mw ∧ args_ok margs ∧ (N.of_nat (length (w_archs mw) + 1) <= u32_max)%N ∧
  ∃ w', step (spawn_macro margs) mw = Done (RId (zid 2)) w' [].
Proof.
  split; [zdone|]. split; [repeat constructor; by vm_compute|]. split; [by vm_compute|].
  exists (outcome_world (step (spawn_macro margs) mw)). zdone.
Qed.
(** A type given twice; no arguments at all; a type whose entity was despawned. *)
Example C63_case_twice : args_ok [(zA, z4 7); (zA, z4 8)] ∧
  ∃ w' ev, step (spawn_macro [(zA, z4 7); (zA, z4 8)]) mw = Panicked RDuplicate w' ev ∧ length ev = 2.
Proof. split; [repeat constructor; by vm_compute|]. eexists _, _. split; [by vm_compute|done]. Qed.
Example C63_case_empty : args_ok [] ∧ ∃ w', step (spawn_macro []) mw = Done (RId (zid 2)) w' [].
Proof. split; [constructor|]. exists (outcome_world (step (spawn_macro []) mw)). zdone. Qed.
Definition mwd : world := wplay [ORegister zA; ODespawn (zid 0)].
Example C63_case_dead : reachable_world mwd ∧ type_id mwd zA (zid 0) ∧
  ∃ w', step (spawn_macro [(zB, [Some 1; None]%N); (zA, z4 7)]) mwd = Panicked RDeadComponent w' [].
Proof. split; [zdone|]. split; [by vm_compute|]. eexists _. by vm_compute. Qed.
