(** * What a loop over a query should do (C66) *)
From Verif Require Export SpecFlight ForEach.

(** What the loop sees for parameter [p] at entity [e]. *)
Definition sees (w : world) (e : ecsid) (p : param) (x : item) : Prop :=
  match param_ty p with
  | None => x = IEnt e
  | Some t => ∃ c v, type_id w t c ∧ holds w e c v ∧ x = IVal v
  end.
(** The value the loop gives to component [c] of [e], computed from what [e] had in [w]. *)
Definition new_value (w : world) (ps : list param) (g : list item → list (option value)) (e c : ecsid) (v : value) : Prop :=
  wants w ps e ∧ ∃ xs j t, Forall2 (sees w e) ps xs ∧ ps !! j = Some (PMut t) ∧ type_id w t c ∧ g xs !! j = Some (Some v).
(** [w'] is [w] after all matching entities were updated at once. *)
Definition all_updated (w w' : world) (ps : list param) (g : list item → list (option value)) : Prop :=
  same_lives w w' ∧ same_stored w w' ∧ same_types w w' ∧
  ∀ e c v, holds w' e c v ↔ new_value w ps g e c v ∨ (holds w e c v ∧ ∀ v', ¬ new_value w ps g e c v').
(** The loop writes only values of the right type through mutable references. *)
Definition writes_fit (ps : list param) (g : list item → list (option value)) : Prop :=
  ∀ xs j v, g xs !! j = Some (Some v) → ∃ t, ps !! j = Some (PMut t) ∧ length v = ty_size t.
(** No type is asked for mutably and once more. *)
Definition unshared (ps : list param) : Prop :=
  ∀ j j' t p, ps !! j = Some (PMut t) → ps !! j' = Some p → param_ty p = Some t → j = j'.
(** A history after which no query is open. *)
Definition closed_by (l : list (sop * res * list event)) (s : sess) : Prop :=
  steps sess_new l s ∧ no_forget l ∧ no_unwinding l ∧ Forall (λ q, q = None) (ss_open s).
