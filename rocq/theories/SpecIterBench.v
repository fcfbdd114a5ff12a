(** * What the iterating benches compute: vocabulary of C70 *)
From Verif Require Export SpecForEach SpecBenches.

(** What parameter [p] shows of an entity [e] with the components [l]; nothing if it has none of the type. *)
Definition item_seen (e : ecsid) (l : list (ty * value)) (p : param) : option item :=
  match param_ty p with
  | None => Some (IEnt e)
  | Some t => IVal <$> (list_to_map l : gmap ty value) !! t
  end.
(** What is written through the mutable reference to type [t], if there is one. *)
Fixpoint written (ps : list param) (us : list (option value)) (t : ty) : option value :=
  match ps, us with
  | PMut t' :: ps', u :: us' => if decide (t' = t) then u else written ps' us' t
  | _ :: ps', _ :: us' => written ps' us' t
  | _, _ => None
  end.
(** The components of [e] after the body [g] was called for it, if it matches. *)
Definition updated (ps : list param) (g : list item → list (option value)) (e : ecsid) (l : list (ty * value)) : list (ty * value) :=
  match mapM (item_seen e l) ps with
  | None => l
  | Some xs => (λ p, (p.1, default p.2 (written ps (g xs) p.1))) <$> l
  end.
(** The entities [es] have the components [ls], each its own, and no other entity has any. *)
Definition tabulates (w : world) (es : list ecsid) (ls : list (list (ty * value))) : Prop :=
  ∀ e c x, holds w e c x ↔ ∃ i l t, es !! i = Some e ∧ ls !! i = Some l ∧ (t, x) ∈ l ∧ type_id w t c.
(** Every type asked for is one of an entity that was spawned. *)
Definition all_named (ps : list param) (ls : list (list (ty * value))) : Prop :=
  ∀ p t, p ∈ ps → param_ty p = Some t → ∃ l, l ∈ ls ∧ t ∈ l.*1.
