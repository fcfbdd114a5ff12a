(** * Spawning many entities: vocabulary of C69 *)
From Verif Require Export SpecMacro SpecAddRounds.

(** The ids and bytes needed to spawn one entity with the components [l]: an id for it and one for
    each type. *)
Definition macro_ids (l : list (ty * value)) : nat := S (length l).
Definition macro_bytes (l : list (ty * value)) : nat := sum_list_with (λ p, length p.2) l.
(** No type named by [l] was registered and then its entity despawned. *)
Definition types_live (w : world) (l : list (ty * value)) : Prop := ∀ t c, t ∈ l.*1 → type_id w t c → lives w c.
(** After the calls of [h] there is room to spawn with the components [ls]; the archetype without
    components is made in any case. *)
Definition roomy (h : list (sop * res * list event)) (w : world) (ls : list (list (ty * value))) : Prop :=
  (N.of_nat (sum_list_with call_ids (calls_of h) + sum_list_with macro_ids ls) <= 2 ^ 32)%N ∧
  (N.of_nat (sum_list_with passed_bytes (calls_of h) + sum_list_with macro_bytes ls) <= byte_limit)%N ∧
  (N.of_nat (Nat.max 1 (length (w_archs w)) + length ls) <= u32_max)%N.
(** [w'] is [w] with new entities [es], one for each of [ls], that have these components. *)
Definition populated (w w' : world) (ls : list (list (ty * value))) (es : list ecsid) : Prop :=
  length es = length ls ∧ NoDup es ∧
  (∀ e, e ∈ es → id_wf e ∧ ¬ lives w e ∧ lives w' e ∧ stored w' e) ∧
  (∀ e c x, holds w' e c x ↔
    holds w e c x ∨ ∃ i l t, es !! i = Some e ∧ ls !! i = Some l ∧ (t, x) ∈ l ∧ type_id w' t c) ∧
  (∀ e, id_wf e → lives w' e ↔
    e ∈ es ∨ lives w e ∨ ∃ l t, l ∈ ls ∧ t ∈ l.*1 ∧ type_id w' t e ∧ ∀ c, ¬ type_id w t c) ∧
  (∀ t c, type_id w t c → type_id w' t c) ∧
  (∀ l t, l ∈ ls → t ∈ l.*1 → ∃ c, type_id w' t c ∧ lives w' c) ∧
  (∀ t c, (∀ l, l ∈ ls → t ∉ l.*1) → type_id w' t c ↔ type_id w t c).
(** Destroying the values of [l]; those without bytes need no destroying. *)
Definition drops_of (l : list (ty * value)) : list event :=
  l ≫= λ p, if decide (p.2 = []) then [] else [EvDrop (DropOf p.1) p.2].
