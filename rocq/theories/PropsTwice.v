(** * What calling [build] a second time does, in every reachable world.
    Theorems only; proofs in ProofTwice.v, non-vacuity witnesses in ExamplesTwice.v. *)
From Verif Require Import SpecTwice ProofTwice.

(** C32: compared to the same calls with one [build], the second one adds a row for the entity:
    a bitwise copy of its row if the archetype existed before the call, and otherwise one without
    values in archetype 0.  The entity's despawn then removes only that row: the first one stays,
    now of a dead entity; the copied values were destroyed with the despawn, and dropping the
    world destroys them again. *)
Theorem C32_always : ∀ w cap meta bs fin e w1 ev1, reachable_world w →
  op_legal (OSpawn cap meta (bs ++ [BBuild]) fin) w → op_tame (OSpawn cap meta (bs ++ [BBuild]) fin) w →
  step (OSpawn cap meta (bs ++ [BBuild]) fin) w = Done (RId e) w1 ev1 →
  match step (OSpawn cap meta (bs ++ [BBuild; BBuild]) fin) w with
  | Done r w2 ev => r = RId e ∧ ev = [] ∧ ∃ k1 i1 k2 i2, placed w1 e k1 i1 ∧
      k2 = (if decide (k1 < length (w_archs w)) then k1 else 0) ∧ row_added w1 e k1 i1 k2 i2 w2 ∧
      same_lives w1 w2 ∧ same_types w1 w2 ∧
      ∃ w3 ev3 l, step (ODespawn e) w2 = Done (RBool true) w3 ev3 ∧ same_rows w1 w3 ∧
        (∀ e0, lives w3 e0 ↔ e0 ≠ e ∧ lives w1 e0) ∧ same_types w1 w3 ∧
        components w1 e l ∧ ev3 = (if decide (k2 = k1) then dropping_all w1 l else []) ∧
        world_drop w3 = world_drop w1
  | Panicked r _ _ => r = RCapacity
  | _ => False
  end.
Proof. exact built_twice_always. Qed.
Print Assumptions C32_always.
