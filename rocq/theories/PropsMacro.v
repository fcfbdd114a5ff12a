(** * [spawn!].
    Theorems only; proofs in ProofMacro.v, non-vacuity witnesses in ExamplesMacro.v. *)
From Verif Require Import SpecMacro ProofMacro.

(** C63: the macro returns a new entity with the given components and no others, and changes nothing else; or panics for one of these reasons. *)
Theorem C63_spawn_macro : ∀ w l, reachable_world w → args_ok l → (N.of_nat (length (w_archs w) + 1) <= u32_max)%N →
  match step (spawn_macro l) w with
  | Done r w' ev => ev = [] ∧ NoDup l.*1 ∧ ∃ e, r = RId e ∧ spawned_with w w' e l
  | Panicked r w' ev => r = RCapacity ∨ unharmed w w' ∧
      ((r = ROutOfIds ∧ no_index_left w') ∨
       ((r = RDuplicate ∨ r = RColumnLength) ∧ ¬ NoDup l.*1) ∨
       (r = RDeadComponent ∧ ∃ t c, t ∈ l.*1 ∧ type_id w t c ∧ ¬ lives w c))
  | _ => False
  end.
Proof. exact macro_view. Qed.
Print Assumptions C63_spawn_macro.
