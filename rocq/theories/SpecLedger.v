(** * Bookkeeping of component values: what a call takes over, destroys and loses. *)
From Verif Require Export SpecWorld.

(** The values held by the world, each with its component. *)
Definition cells (w : world) : list (ecsid * value) := (λ x, (x.1.2, x.2)) <$> held w.
(** One call: values taken over from the caller, values whose destructor (if any) ran, and
    values that are gone although no destructor ran.  [back]: destructor calls for values that
    were passed to the call but not taken over. *)
Record entry := Booked {
  took : list (ecsid * value);
  dropt : list (ecsid * value);
  lost : list (ecsid * value);
  back : list event
}.
Notation Entry a b c := (Booked a b c []).
(** What the call [o] with result [r] may put in the books; [w] is the world after the call. *)
Definition books (w : world) (o : sop) (r : res) (n : entry) : Prop :=
  match o, r with
  (* a builder passes its values on when it builds *)
  | SWorld (OSpawn _ _ bs _), ROk _ =>
      dropt n = [] ∧ lost n = [] ∧
      (BBuild ∈ bs → given w (bops_before bs) (took n)) ∧ (BBuild ∉ bs → took n = [])
  (* the new archetype is dropped with what it was given, see C29 for zero-sized values *)
  | SWorld (OSpawn _ _ bs _), RPanic RDuplicate =>
      given w (bops_before bs) (took n) ∧
      dropt n = filter (λ p, p.2 ≠ []) (took n) ∧ lost n = filter (λ p, p.2 = []) (took n)
  (* refused before or after it was built *)
  | SWorld (OSpawn _ _ bs _), RPanic _ =>
      dropt n = [] ∧ lost n = [] ∧ (took n = [] ∨ BBuild ∈ bs ∧ given w (bops_before bs) (took n))
  (* a type whose id was despawned is ignored *)
  | SWorld (OAdd _ t v), ROk _ =>
      dropt n = [] ∧ lost n = [] ∧
      ∃ c, type_id w t c ∧ ((lives w c ∧ took n = [(c, v)]) ∨ (¬ lives w c ∧ took n = []))
  | SWorld (OAddDynData e c v), ROk _ =>
      dropt n = [] ∧ lost n = [] ∧
      ((lives w e ∧ lives w c ∧ took n = [(c, v)]) ∨ ((¬ lives w e ∨ ¬ lives w c) ∧ took n = []))
  | SWorld (OAddDyn _ c), ROk _ => dropt n = [] ∧ lost n = [] ∧ took n = [(c, [])]
  (* overwriting does not destroy *)
  | SWorld (OWrite _ c v), ROk (SRet (RBool true)) =>
      dropt n = [] ∧ took n = [(c, v)] ∧ ∃ v0, lost n = [(c, v0)]
  | SStore _ _ _ v, ROk _ =>
      dropt n = [] ∧
      ((took n = [] ∧ lost n = []) ∨ ∃ c v0, took n = [(c, v)] ∧ lost n = [(c, v0)])
  | SWorld (ODespawn _), ROk (SRet (RBool true)) => took n = [] ∧ lost n = []
  | SWorld (ORemoveDyn _ c), ROk _ =>
      took n = [] ∧ lost n = [] ∧ (dropt n = [] ∨ ∃ v, dropt n = [(c, v)])
  | SWorld (ORemove _ t), ROk _ =>
      took n = [] ∧ lost n = [] ∧ (dropt n = [] ∨ ∃ c v, type_id w t c ∧ dropt n = [(c, v)])
  | _, _ => took n = [] ∧ dropt n = [] ∧ lost n = []
  end.
(** [add_component] destroys its value while unwinding if the entity is dead or if there is no id
    left for the type; otherwise a panic leaks the value. *)
Definition refund (w : world) (o : sop) (r : res) (x : list event) : Prop :=
  match o, r with
  | SWorld (OAdd e t v), RPanic p =>
      (¬ lives w e ∨ p = ROutOfIds → x = [EvDrop (DropOf t) v]) ∧ (lives w e → p ≠ ROutOfIds → x = [])
  | _, _ => x = []
  end.
(** No call of the history was refused because of a duplicate component. *)
Definition no_duplicate (l : list (sop * res * list event)) : Prop :=
  Forall (λ x, x.1.2 ≠ RPanic RDuplicate) l.
(** No call of the history overwrites a component. *)
Definition no_overwrite (l : list (sop * res * list event)) : Prop :=
  Forall (λ o, match o with SWorld (OWrite _ _ _) | SStore _ _ _ _ => False | _ => True end) (calls_of l).
(** The destructor calls of a history. *)
Definition events_of (l : list (sop * res * list event)) : list event := l ≫= snd.
(** One entry for each call of the history [l] from [s], with the destructors that ran. *)
Definition ledger (s : sess) (l : list (sop * res * list event)) (ns : list entry) : Prop :=
  length ns = length l ∧
  ∀ i o r ev n, l !! i = Some (o, r, ev) → ns !! i = Some n →
    ∃ si, steps s (take (S i) l) si ∧ books (ss_world si) o r n ∧ refund (ss_world si) o r (back n) ∧
      ev ≡ₚ dropping_all (ss_world si) (dropt n) ++ back n.
