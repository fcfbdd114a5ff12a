(** * What the get benches see: vocabulary of C72 *)
From Verif Require Export SpecIterBench GetBench.

(** The components of an entity spawned with [q.1], then given [q.2]. *)
Definition with_added (q : list (ty * value) * (ty * value)) : list (ty * value) := q.1 ++ [q.2].
(** As [roomy]; an entity may need an archetype when it is spawned and one when it gets the other component. *)
Definition roomy_adding (h : list (sop * res * list event)) (w : world) (qs : list (list (ty * value) * (ty * value))) : Prop :=
  (N.of_nat (sum_list_with call_ids (calls_of h) + sum_list_with macro_ids (with_added <$> qs)) <= 2 ^ 32)%N ∧
  (N.of_nat (sum_list_with passed_bytes (calls_of h) + sum_list_with macro_bytes (with_added <$> qs)) <= byte_limit)%N ∧
  (N.of_nat (Nat.max 1 (length (w_archs w)) + 2 * length qs) <= u32_max)%N.
(** An entity with the components [l] has all that is asked for. *)
Definition has_all (ps : list param) (l : list (ty * value)) : Prop := ∀ p t, p ∈ ps → param_ty p = Some t → t ∈ l.*1.
