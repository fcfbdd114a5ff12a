(** * What a loop over a dynamic query should do (C67) *)
From Verif Require Export SpecForEach ForEachDyn.

(** What the loop sees for fetch [x] at entity [e]. *)
Definition reads (w : world) (e : ecsid) (x : fetch) (y : item) : Prop :=
  match fetch_id x with
  | None => y = IEnt e
  | Some c => ∃ v, holds w e c v ∧ y = IVal v
  end.
(** The value the loop gives to component [c] of [e], computed from what [e] had in [w]. *)
Definition new_row_value (w : world) (xs : list fetch) (g : list item → list (option value)) (e c : ecsid) (v : value) : Prop :=
  wanted w xs e ∧ ∃ ys j, Forall2 (reads w e) xs ys ∧ xs !! j = Some (FMut c) ∧ g ys !! j = Some (Some v).
(** [w'] is [w] after all matching entities were updated at once. *)
Definition all_rows_updated (w w' : world) (xs : list fetch) (g : list item → list (option value)) : Prop :=
  same_lives w w' ∧ same_stored w w' ∧ same_types w w' ∧
  ∀ e c v, holds w' e c v ↔ new_row_value w xs g e c v ∨ (holds w e c v ∧ ∀ v', ¬ new_row_value w xs g e c v').
(** The loop writes only values of the right size through mutable pointers. *)
Definition rows_fit (w : world) (xs : list fetch) (g : list item → list (option value)) : Prop :=
  ∀ ys j v, g ys !! j = Some (Some v) → ∃ c, xs !! j = Some (FMut c) ∧ value_fits w c v.
(** No component is asked for mutably and once more. *)
Definition unshared_ids (xs : list fetch) : Prop :=
  ∀ j j' c x, xs !! j = Some (FMut c) → xs !! j' = Some x → fetch_id x = Some c → j = j'.
(** The component could be a type of Rust, other than a type without size that has to be aligned (see C44). *)
Definition castable (w : world) (x : fetch) : Prop := ∀ c cm, fetch_id x = Some c → recorded w c cm →
  cm_size cm mod l_align (cm_layout cm) = 0 ∧ (cm_size cm ≠ 0 ∨ l_align (cm_layout cm) = 1).
