(** * What [spawn!] is for (C63) *)
From Verif Require Export SpecWorld SpecFull Macro.

(** The arguments of the macro are values of Rust types. *)
Definition args_ok (l : list (ty * value)) : Prop := Forall (λ p, ty_wf p.1 ∧ length p.2 = ty_size p.1) l.
(** [w'] is [w] with a new entity [e] that has the components [l] and no others; each type of [l]
    not known before became an entity too. *)
Definition spawned_with (w w' : world) (e : ecsid) (l : list (ty * value)) : Prop :=
  id_wf e ∧ ¬ lives w e ∧ lives w' e ∧ stored w' e ∧
  (∀ t v, (t, v) ∈ l → ∃ c, type_id w' t c ∧ lives w' c ∧ holds w' e c v) ∧
  (∀ c v, holds w' e c v → ∃ t, (t, v) ∈ l ∧ type_id w' t c) ∧
  (∀ e0 c v, e0 ≠ e → holds w' e0 c v ↔ holds w e0 c v) ∧
  (∀ e0, id_wf e0 → e0 ≠ e → lives w' e0 ↔ lives w e0 ∨ ∃ t, t ∈ l.*1 ∧ type_id w' t e0 ∧ ∀ c, ¬ type_id w t c) ∧
  (∀ t, t ∉ l.*1 → ∀ c, type_id w' t c ↔ type_id w t c) ∧ (∀ t c, type_id w t c → type_id w' t c).
