(** * Destructors that panic: what ran, what is still owed.
    [bomb f v] says that the destructor [f] panics on the value [v]. *)
From Verif Require Export SpecUVec SpecLedger DropPanic.

Section bombs.
  Context (bomb : dropfn → value → bool).
  Definition goes_off (x : event) : bool := match x with EvDrop f v => bomb f v end.
  (** None of these destructor calls panics. *)
  Definition harmless (ev : list event) : Prop := Forall (λ x, goes_off x = false) ev.
  (** How many of them panic. *)
  Definition blasts (ev : list event) : nat := length (filter (λ x, goes_off x = true) ev).
  (** Of the destructor calls [all], only those up to the first that panics were made. *)
  Definition cut_off (all ev : list event) : Prop :=
    ∃ pre x post, all = pre ++ x :: post ∧ ev = pre ++ [x] ∧ harmless pre ∧ goes_off x = true.
  (** A call that makes at most one destructor call, as its last action. *)
  Definition explode {S A} (o : outcome S A) : outcome S A :=
    match o with
    | Done a s ev => if decide (harmless ev) then Done a s ev else Panicked RDestructor s ev
    | _ => o
    end.
End bombs.

(** The values in a column, read off its memory. *)
Definition vec_values (u : uvec) : list value :=
  if decide (uv_size u = 0) then replicate (uv_len u) []
  else (λ i, default [] (mem_read (uv_data u) (i * uv_size u) (uv_size u))) <$> seq 0 (uv_len u / uv_size u).
(** The destructor calls owed for a column; columns of zero-sized values forget them when they
    are dropped (C29). *)
Definition owed_vec (u : uvec) : list event := vec_values u ≫= ldrop (ti_drop (uv_ti u)).
Definition owed_vec_sized (u : uvec) : list event := if decide (uv_size u = 0) then [] else owed_vec u.
(** The columns of a world. *)
Definition all_cols (w : world) : list uvec := w_archs w ≫= λ a, (a_storages a).*2.
Definition owed (w : world) : list event := all_cols w ≫= owed_vec.
Definition owed_sized (w : world) : list event := all_cols w ≫= owed_vec_sized.
(** The destructor calls made while dropping a world. *)
Definition fall_events (x : fall) : list event := match x with Fallen _ ev | Aborted ev => ev end.
(** The last row of an archetype. *)
Definition last_of (w : world) (k : nat) (e : ecsid) : Prop :=
  ∃ a, w_archs w !! k = Some a ∧ last (a_entities a) = Some e.
(** Dropping the world [w] makes the destructor calls [fall_events x]: each value at most once.
    A destructor that panics costs the rest of its column; a second one, the rest of the world. *)
Definition falls (bomb : dropfn → value → bool) (w : world) (x : fall) : Prop :=
  match x with
  | Fallen false ev => harmless bomb ev ∧ ev ≡ₚ owed_sized w
  | Fallen true ev => blasts bomb ev = 1 ∧ ∃ u left, u ∈ all_cols w ∧ left ⊆+ owed_vec u ∧ ev ++ left ≡ₚ owed_sized w
  | Aborted ev => blasts bomb ev = 2 ∧ ev ⊆+ owed_sized w
  end.
(** A call on [e] was cut short by a destructor, after the destructor calls [ev].  What [w'] has
    of [w]: the same entities are alive; the destructor calls still owed are those not yet made;
    the entities keep their components, except [e] and the one in the last row of its archetype. *)
Record wrecked (w w' : world) (e : ecsid) (ev : list event) : Prop := {
  wk_lives : same_lives w w';
  wk_types : same_types w w';
  wk_owed : owed w ≡ₚ ev ++ owed w';
  wk_others : ∃ k i, placed w e k i ∧
    ∀ e0 c v, e0 ≠ e → ¬ last_of w k e0 → holds w' e0 c v ↔ holds w e0 c v
}.
(** Despawning [e] was cut short at column [n] of its archetype.  It is no longer listed there; the
    columns up to [n] fit the rows that remain, with the values these entities had; the columns
    after [n], and the other archetypes, are as they were. *)
Definition half_despawned (w w' : world) (e : ecsid) : Prop :=
  ∃ k row a b n, placed w e k row ∧ w_archs w !! k = Some a ∧ w_archs w' !! k = Some b ∧ n < length (a_storages a) ∧
    columns b = columns a ∧
    (∀ j d u, j ≤ n → a_storages b !! j = Some (d, u) → filled u (length (a_entities b)) ∧
       ∀ i e0, a_entities b !! i = Some e0 → ∃ v, mem_read (uv_data u) (i * uv_size u) (uv_size u) = Some v ∧ holds w e0 d v) ∧
    (∀ j, n < j → a_storages b !! j = a_storages a !! j) ∧
    (∀ k', k' ≠ k → w_archs w' !! k' = w_archs w !! k').
(** Removing [c] from [e] was cut short after its other values had moved: they lie in the columns
    of another archetype, past its rows.  The columns [e] came from have a value less than rows, and
    those of all other archetypes fit. *)
Definition spilled (w w' : world) (e c : ecsid) : Prop :=
  ∃ cur row a tar b, placed w e cur row ∧ tar ≠ cur ∧ w_archs w' !! cur = Some a ∧ w_archs w' !! tar = Some b ∧
    (∀ d u, (d, u) ∈ a_storages a → filled u (length (a_entities a) - 1)) ∧
    (∀ d u, (d, u) ∈ a_storages b → filled u (length (a_entities b) + 1)) ∧
    (∀ d v, (∃ u, (d, u) ∈ a_storages b ∧ mem_read (uv_data u) (length (a_entities b) * uv_size u) (uv_size u) = Some v) ↔
       d ≠ c ∧ holds w e d v) ∧
    (∀ k x d u, k ≠ cur → k ≠ tar → w_archs w' !! k = Some x → (d, u) ∈ a_storages x → filled u (length (a_entities x))).
(** [ob] is the outcome of a call with panicking destructors, [o] that of the same call had they
    returned.  The two agree, or [ob] stops at the first destructor that panics; [damage] holds of
    the world and the destructor calls at that point. *)
Definition cut_short {A} (bomb : dropfn → value → bool) (o ob : outcome world A) (damage : world → list event → Prop) : Prop :=
  match ob with
  | Done a w' ev => o = Done a w' ev ∧ harmless bomb ev
  | Panicked r w' ev =>
      (r ≠ RDestructor ∧ ev = [] ∧ o = Panicked r w' []) ∨
      (r = RDestructor ∧ (∃ a w2 ev0, o = Done a w2 ev0 ∧ cut_off bomb ev0 ev) ∧ damage w' ev)
  | _ => False
  end.
