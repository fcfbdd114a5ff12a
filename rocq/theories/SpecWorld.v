(** * What the world contains, said without the lookup structures of the code.
    Only the rows of the archetypes are consulted: neither the entity metadata, nor the
    component lookup maps, nor the bitsets, nor the archetype caches. *)
From Verif Require Export World Query History.

(** The archetype at position [k] lists [e] as the entity of its row [i]. *)
Definition placed (w : world) (e : ecsid) (k i : nat) : Prop :=
  ∃ a, w_archs w !! k = Some a ∧ a_entities a !! i = Some e.
(** Entity [e] has component [c], with value [v]: in a row of [e], the bytes of the column
    of [c] are [v]. *)
Definition holds (w : world) (e c : ecsid) (v : value) : Prop :=
  ∃ k i a j u, w_archs w !! k = Some a ∧ a_entities a !! i = Some e ∧
    a_storages a !! j = Some (c, u) ∧
    mem_read (uv_data u) (i * uv_size u) (uv_size u) = Some v.
Definition stored (w : world) (e : ecsid) : Prop := ∃ k i, placed w e k i.
Definition has (w : world) (e c : ecsid) : Prop := ∃ v, holds w e c v.
(** Liveness is what [World::is_alive] reports. *)
Definition lives (w : world) (e : ecsid) : Prop := is_alive e w = Done true w [].
(** No id with the index of [e] was handed out yet: [World::is_alive] panics. *)
Definition unissued (w : world) (e : ecsid) : Prop := is_alive e w = Panicked RNoGeneration w [].
(** [t] is registered under [c]. *)
Definition type_id (w : world) (t : ty) (c : ecsid) : Prop := w_types w !! t = Some c.

(** The components collected by a builder call, named as in the world [w]. *)
Definition gives (w : world) (o : bop) (c : ecsid) (v : value) : Prop :=
  match o with
  | BWith t v' => type_id w t c ∧ v = v'
  | BWithDyn c' => c = c' ∧ v = []
  | BWithDynData c' v' => c = c' ∧ v = v'
  | BBuild => False
  end.

(** *** Comparing a world before and after a call *)
Definition same_lives (w w' : world) : Prop := ∀ e, id_wf e → lives w' e ↔ lives w e.
Definition same_stored (w w' : world) : Prop := ∀ e, stored w' e ↔ stored w e.
Definition same_holds (w w' : world) : Prop := ∀ e c v, holds w' e c v ↔ holds w e c v.
Definition same_types (w w' : world) : Prop := ∀ t c, type_id w' t c ↔ type_id w t c.
Definition same_view (w w' : world) : Prop :=
  same_lives w w' ∧ same_stored w w' ∧ same_holds w w' ∧ same_types w w'.
(** [c] is the id of a type that was not registered in [w]. *)
Definition new_type (w w' : world) (c : ecsid) : Prop := ∃ t, type_id w' t c ∧ ∀ c', ¬ type_id w t c'.
(** Between [w] and [w'] nothing happened to the set of entities except that types were
    registered: each new type is a new entity. *)
Definition grown (w w' : world) : Prop :=
  (∀ e, id_wf e → lives w' e ↔ lives w e ∨ new_type w w' e) ∧
  (∀ e, new_type w w' e → ¬ lives w e) ∧
  (∀ e, stored w' e ↔ stored w e ∨ new_type w w' e) ∧
  (∀ t c, type_id w t c → type_id w' t c).
(** The only difference in the components: [e] has [c] with value [v] in [w'] ... *)
Definition sets (w w' : world) (e c : ecsid) (v : value) : Prop :=
  ∀ e0 c0 v0, holds w' e0 c0 v0 ↔ (e0 = e ∧ c0 = c ∧ v0 = v) ∨ (¬ (e0 = e ∧ c0 = c) ∧ holds w e0 c0 v0).
(** ... [e] does not have [c] in [w']. *)
Definition unsets (w w' : world) (e c : ecsid) : Prop :=
  ∀ e0 c0 v0, holds w' e0 c0 v0 ↔ ¬ (e0 = e ∧ c0 = c) ∧ holds w e0 c0 v0.
(** A column for [c] exists in some archetype, maybe without rows. *)
Definition in_use (w : world) (c : ecsid) : Prop :=
  ∃ k a j u, w_archs w !! k = Some a ∧ a_storages a !! j = Some (c, u).

(** *** Destructors *)
(** The destructor recorded for component [c]. *)
Definition dtor (w : world) (c : ecsid) : option dropfn :=
  match get_entity_meta c w with Done (Some m) _ _ => cm_drop (em_comp m) | _ => None end.
(** Dropping the value [v] of component [c] once. *)
Definition dropping (w : world) (c : ecsid) (v : value) : list event :=
  match dtor w c with Some f => [EvDrop f v] | None => [] end.
(** [l] lists the components of [e] with their values. *)
Definition components (w : world) (e : ecsid) (l : list (ecsid * value)) : Prop :=
  NoDup l.*1 ∧ ∀ c v, (c, v) ∈ l ↔ holds w e c v.
Definition dropping_all (w : world) (l : list (ecsid * value)) : list event := l ≫= λ p, dropping w p.1 p.2.

(** *** Why a call is refused *)
Definition add_rejected (w : world) (e c : ecsid) (r : reason) : Prop :=
  (r = RNoGeneration ∧ (unissued w e ∨ unissued w c)) ∨
  (r = RUnwrap ∧ lives w e ∧ lives w c ∧ (¬ stored w e ∨ ¬ stored w c)) ∨
  (r = RAssert ∧ has w e c).
Definition remove_rejected (w : world) (e c : ecsid) (r : reason) : Prop :=
  (r = RNoGeneration ∧ (unissued w e ∨ unissued w c)) ∨
  (r = RUnwrap ∧ lives w e ∧ lives w c ∧ ¬ stored w e) ∨
  (r = RAssert ∧ stored w e ∧ ¬ has w e c).
(** Types other than [t] keep their ids. *)
Definition other_types (w w' : world) (t : ty) : Prop := ∀ t' c, t' ≠ t → type_id w' t' c ↔ type_id w t' c.
(** A call on type [t] is refused before it gets at the component. *)
Definition type_rejected (w : world) (e : ecsid) (t : ty) (r : reason) : Prop :=
  (r = RNoGeneration ∧ unissued w e) ∨ (r = RAssert ∧ ¬ lives w e) ∨
  (r = ROutOfIds ∧ lives w e ∧ ∀ c, ¬ type_id w t c).

(** *** Spawning *)
(** Between [w] and [w'] the entity [e] came to life, and maybe types were registered. *)
Definition spawned (w w' : world) (e : ecsid) : Prop :=
  id_wf e ∧ ¬ lives w e ∧ (∀ t, ¬ type_id w' t e) ∧
  (∀ e0, id_wf e0 → lives w' e0 ↔ e0 = e ∨ lives w e0 ∨ new_type w w' e0) ∧
  (∀ e0, new_type w w' e0 → ¬ lives w e0) ∧
  (∀ t c, type_id w t c → type_id w' t c).
(** The components asked for by the builder calls [bs], with their values. *)
Definition given (w : world) (bs : list bop) (D : list (ecsid * value)) : Prop :=
  Forall2 (λ o p, gives w o p.1 p.2) bs D.
(** [e] got a row with the components [D] ... *)
Definition built_with (w w' : world) (e : ecsid) (D : list (ecsid * value)) : Prop :=
  (∀ e0, stored w' e0 ↔ e0 = e ∨ stored w e0 ∨ new_type w w' e0) ∧
  (∀ e0 c v, holds w' e0 c v ↔ (e0 = e ∧ (c, v) ∈ D) ∨ holds w e0 c v).
(** ... or none. *)
Definition not_built (w w' : world) (e : ecsid) : Prop :=
  ¬ stored w' e ∧ (∀ e0, stored w' e0 ↔ stored w e0 ∨ new_type w w' e0) ∧ same_holds w w'.
(** The column holds [n] values; lengths are in bytes, but those of zero-sized components count
    elements. *)
Definition filled (u : uvec) (n : nat) : Prop := uv_len u = n * Nat.max 1 (uv_size u).
(** [e] got a row, but no location; the components [D] were pushed up to one that is repeated, so
    that the columns of that archetype do not fit its rows.  Nothing else changed. *)
Definition half_built (w w' : world) (e : ecsid) (D : list (ecsid * value)) : Prop :=
  (∀ e0, stored w' e0 ↔ e0 = e ∨ stored w e0 ∨ new_type w w' e0) ∧
  (∀ e0 c v, e0 ≠ e → holds w' e0 c v ↔ holds w e0 c v) ∧
  get_entity_meta e w' = Done None w' [] ∧
  ∃ k rows a D1 c v D2, D = D1 ++ (c, v) :: D2 ∧ NoDup D1.*1 ∧ c ∈ D1.*1 ∧
    w_archs w' !! k = Some a ∧ a_entities a = rows ++ [e] ∧
    (∀ d, d ∈ D.*1 → d ∈ (a_storages a).*1) ∧
    (∀ d u, (d, u) ∈ a_storages a → filled u (length rows + length (filter (d =.) (D1.*1 ++ [c])))) ∧
    (∀ k' a' d u, k' ≠ k → w_archs w' !! k' = Some a' → (d, u) ∈ a_storages a' → filled u (length (a_entities a'))).
(** The component information recorded for [e]. *)
Definition recorded (w : world) (e : ecsid) (cm : component_meta) : Prop :=
  match get_entity_meta e w with Done (Some m) _ _ => em_comp m = cm | _ => False end.
(** Values of component [c] take up memory. *)
Definition sized (w : world) (c : ecsid) : Prop := ∃ cm, recorded w c cm ∧ cm_size cm ≠ 0.
(** Why a builder call is refused. *)
Definition data_rejected (w : world) (c : ecsid) (r : reason) : Prop :=
  (r = RNoGeneration ∧ unissued w c) ∨ (r = RDeadComponent ∧ (¬ lives w c ∨ ¬ stored w c)).
Definition bop_rejected (w : world) (o : bop) (r : reason) : Prop :=
  match o with
  | BWith t v => (r = ROutOfIds ∧ ∀ c, ¬ type_id w t c) ∨ ∃ c, type_id w t c ∧ data_rejected w c r
  | BWithDynData c v => data_rejected w c r
  | BWithDyn c =>
      (r = RNoGeneration ∧ unissued w c) ∨ (r = RUnwrap ∧ (¬ lives w c ∨ ¬ stored w c)) ∨ (r = RAssert ∧ sized w c)
  | BBuild => False
  end.
(** The destructors run for the values [l], those of zero-sized components excepted (C29). *)
Definition dropping_sized (w : world) (l : list (ecsid * value)) : list event :=
  dropping_all w (filter (λ p, p.2 ≠ []) l).

(** *** A consistent world *)
(** The set of components of an archetype is that of its columns. *)
Definition columns (a : archetype) : list ecsid := (a_storages a).*1.
Definition same_set (l l' : list ecsid) : Prop := ∀ c, c ∈ l ↔ c ∈ l'.
(** The recorded location of [e]. *)
Definition located (w : world) (e : ecsid) (k i : nat) : Prop :=
  match get_entity_meta e w with Done (Some m) _ _ => em_inst m = InstMeta k i | _ => False end.
Record consistent (w : world) : Prop := {
  co_once : ∀ e k i k' i', placed w e k i → placed w e k' i' → k = k' ∧ i = i';
  co_live : ∀ e, stored w e → lives w e;
  co_located : ∀ e k i, located w e k i ↔ placed w e k i;
  co_columns : ∀ k a c u, w_archs w !! k = Some a → (c, u) ∈ a_storages a →
    (* lengths are in bytes, but those of zero-sized components count elements *)
    uv_len u = length (a_entities a) * Nat.max 1 (uv_size u);
  co_nodup : ∀ k a, w_archs w !! k = Some a → NoDup (columns a);
  co_comps : ∀ c, in_use w c → lives w c ∧ stored w c
}.
(** No two archetypes have the same set of components. *)
Definition distinct_sets (w : world) : Prop :=
  ∀ k k' a a', w_archs w !! k = Some a → w_archs w !! k' = Some a' → same_set (columns a) (columns a') → k = k'.
(** Every entity of [w] is still alive in [w'], with the same components and values. *)
Definition unharmed (w w' : world) : Prop :=
  ∀ e, id_wf e → lives w e →
    lives w' e ∧ (stored w' e ↔ stored w e) ∧ ∀ c v, holds w' e c v ↔ holds w e c v.
(** The calls that the world must refuse, or that have nothing to do. *)
Definition refused (o : op) (w : world) : Prop :=
  match o with
  | ODespawn e => ¬ lives w e ∨ in_use w e
  | OAddDynData e c _ => ¬ lives w e ∨ ¬ lives w c ∨ has w e c
  | OAddDyn e c => ¬ lives w e ∨ ¬ lives w c ∨ has w e c ∨ sized w c
  | ORemoveDyn e c => ¬ lives w e ∨ ¬ lives w c ∨ ¬ has w e c
  | OAdd e t _ => ¬ lives w e ∨ ∃ c, type_id w t c ∧ (¬ lives w c ∨ has w e c)
  | ORemove e t => ¬ lives w e ∨ ∀ c, type_id w t c → ¬ has w e c
  | OWrite e c _ => ¬ lives w e ∨ ¬ lives w c ∨ ¬ has w e c
  | OHas _ _ | OIsAlive _ => True
  | OSpawn _ _ _ _ | ORegister _ => False
  end.
Definition op_type (o : op) : option ty :=
  match o with OAdd _ t _ | ORemove _ t | OHas _ t | ORegister t => Some t | _ => None end.
(** Nothing happened, except that the type named by the call may have been registered. *)
Definition nothing_but_type (o : op) (w w' : world) : Prop :=
  grown w w' ∧ same_holds w w' ∧ (∀ t c, op_type o ≠ Some t → type_id w' t c ↔ type_id w t c).

(** *** Calls that can affect component [c] of [e] *)
Definition kills (o : sop) (e : ecsid) : Prop := o = SWorld (ODespawn e).
(** ... by taking it away or overwriting it, *)
Definition takes (o : sop) (e c : ecsid) : Prop :=
  match o with
  | SWorld (ORemove e' _) => e' = e
  | SWorld (ORemoveDyn e' c') | SWorld (OWrite e' c' _) => e' = e ∧ c' = c
  | SStore _ _ _ _ => True
  | _ => False
  end.
(** ... by adding it. *)
Definition brings (o : sop) (e c : ecsid) : Prop :=
  match o with
  | SWorld (OAdd e' _ _) => e' = e
  | SWorld (OAddDyn e' c') | SWorld (OAddDynData e' c' _) => e' = e ∧ c' = c
  | _ => False
  end.
(** The calls of a history. *)
Definition calls_of (l : list (sop * res * list event)) : list sop := l.*1.*1.

(** *** Everything the world holds, as a list *)
Definition row_cells (a : archetype) (i : nat) (e : ecsid) : list (ecsid * ecsid * value) :=
  a_storages a ≫= λ s, match mem_read (uv_data s.2) (i * uv_size s.2) (uv_size s.2) with
                       | Some v => [(e, s.1, v)] | None => [] end.
Definition arch_cells (a : archetype) : list (ecsid * ecsid * value) :=
  mjoin (imap (row_cells a) (a_entities a)).
Definition held (w : world) : list (ecsid * ecsid * value) := w_archs w ≫= arch_cells.
