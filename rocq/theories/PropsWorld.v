(** * Properties of the calls on a world and of histories of calls.
    Theorems only; proofs in ProofWorld.v, ProofLaws.v, ProofConsist.v, ProofReject.v,
    ProofHistory.v, non-vacuity witnesses in ExamplesWorld.v. *)
From Verif Require Import SpecWorld ProofHistory ProofRefuted.

(** C04 *)
Theorem C04_despawn : ∀ w e, reachable_world w → id_wf e → op_tame (ODespawn e) w →
  match step (ODespawn e) w with
  | Done r w' ev =>
      (r = RBool true ∧ lives w e ∧ stored w e ∧ ¬ in_use w e ∧ ¬ lives w' e ∧
       (∀ e0, id_wf e0 → e0 ≠ e → lives w' e0 ↔ lives w e0) ∧
       (∀ e0, stored w' e0 ↔ e0 ≠ e ∧ stored w e0) ∧
       (∀ e0 c v, holds w' e0 c v ↔ e0 ≠ e ∧ holds w e0 c v) ∧ same_types w w' ∧
       ∃ l, components w e l ∧ ev = dropping_all w l) ∨
      (r = RBool false ∧ ¬ lives w e ∧ w' = w ∧ ev = [])
  | Panicked r w' ev => w' = w ∧ ev = [] ∧
      ((r = RNoGeneration ∧ unissued w e) ∨ (r = RComponentInUse ∧ lives w e ∧ in_use w e) ∨
       (r = RUnwrap ∧ lives w e ∧ ¬ stored w e))
  | _ => False
  end.
Proof. exact (λ w e H, despawn_view w e (reachable_world_ok w H)). Qed.
Print Assumptions C04_despawn.

(** C05, C33: a builder's life, whatever it is given and however it ends. *)
Theorem C05_spawn : ∀ w cap meta bs fin, reachable_world w →
  op_legal (OSpawn cap meta bs fin) w → op_tame (OSpawn cap meta bs fin) w →
  match step (OSpawn cap meta bs fin) w with
  | Done r w' ev => ev = [] ∧ ∃ e D, r = RId e ∧ spawned w w' e ∧ given w' (bops_before bs) D ∧
      ((BBuild ∈ bs ∧ NoDup D.*1 ∧ built_with w w' e D ∧ recorded w' e meta) ∨ (BBuild ∉ bs ∧ not_built w w' e))
  | Panicked r w' ev =>
      r = RCapacity ∨
      (r = RColumnLength ∧ ev = [] ∧ ∃ D, given w' (bops_before bs) D ∧ ¬ NoDup D.*1) ∨
      (r = ROutOfIds ∧ ev = [] ∧ grown w w' ∧ same_holds w w' ∧ same_types w w') ∨
      (∃ e, spawned w w' e ∧
        (((∃ o, o ∈ bs ∧ bop_rejected w' o r) ∧ ev = [] ∧ not_built w w' e) ∨
         (r = RDuplicate ∧ not_built w w' e ∧
            ∃ D, given w' (bops_before bs) D ∧ ¬ NoDup D.*1 ∧ ev ≡ₚ dropping_sized w' D) ∨
         ((∃ o, o ∈ bs ∧ bop_rejected w' o r) ∧ ev = [] ∧ BBuild ∈ bs ∧
            ∃ D, given w' (bops_before bs) D ∧ NoDup D.*1 ∧ built_with w w' e D ∧ recorded w' e meta)))
  | _ => False
  end.
Proof. exact (λ w cap meta bs fin H, spawn_view w cap meta bs fin (reachable_world_ok w H)). Qed.
Print Assumptions C05_spawn.

(** C05: after a successful build the new entity has exactly what was given. *)
Theorem C05_build_exact : ∀ w cap meta pre post fin r w' ev, reachable_world w →
  op_legal (OSpawn cap meta (pre ++ BBuild :: post) fin) w → op_tame (OSpawn cap meta (pre ++ BBuild :: post) fin) w →
  BBuild ∉ pre → step (OSpawn cap meta (pre ++ BBuild :: post) fin) w = Done r w' ev →
  ∃ e D, r = RId e ∧ ev = [] ∧ ¬ lives w e ∧ lives w' e ∧ stored w' e ∧ given w' pre D ∧
    (∀ c v, holds w' e c v ↔ (c, v) ∈ D) ∧ NoDup D.*1 ∧
    (∀ e0 c v, e0 ≠ e → holds w' e0 c v ↔ holds w e0 c v) ∧
    (∀ e0, id_wf e0 → e0 ≠ e → lives w' e0 ↔ lives w e0 ∨ new_type w w' e0).
Proof. exact build_exact. Qed.
Print Assumptions C05_build_exact.

(** C33 *)
Theorem C33_duplicates_rejected : ∀ w cap meta pre post fin r w' ev, reachable_world w →
  op_legal (OSpawn cap meta (pre ++ BBuild :: post) fin) w →
  op_tame (OSpawn cap meta (pre ++ BBuild :: post) fin) w → BBuild ∉ pre →
  step (OSpawn cap meta (pre ++ BBuild :: post) fin) w = Done r w' ev → ∃ D, given w' pre D ∧ NoDup D.*1.
Proof. exact (λ w cap meta pre post fin r w' ev H, duplicates_view w cap meta pre post fin r w' ev (reachable_world_ok w H)). Qed.
Print Assumptions C33_duplicates_rejected.

(** C06: the three ways of adding a component. *)
Theorem C06_add_dynamic : ∀ w e c v, reachable_world w →
  op_legal (OAddDynData e c v) w → op_tame (OAddDynData e c v) w →
  match step (OAddDynData e c v) w with
  | Done r w' ev => r = RUnit ∧ ev = [] ∧
      ((w' = w ∧ (¬ lives w e ∨ ¬ lives w c)) ∨
       (lives w e ∧ stored w e ∧ lives w c ∧ stored w c ∧ ¬ has w e c ∧
        same_lives w w' ∧ same_stored w w' ∧ same_types w w' ∧ sets w w' e c v))
  | Panicked r w' ev => r = RCapacity ∨ (ev = [] ∧ same_view w w' ∧ add_rejected w e c r)
  | _ => False
  end.
Proof. exact (λ w e c v H, add_dyn_view w e c v (reachable_world_ok w H)). Qed.
Print Assumptions C06_add_dynamic.
Theorem C06_add_typed : ∀ w e t v, reachable_world w → op_legal (OAdd e t v) w → op_tame (OAdd e t v) w →
  match step (OAdd e t v) w with
  | Done r w' ev => r = RUnit ∧ ev = [] ∧ lives w e ∧ grown w w' ∧ other_types w w' t ∧
      ∃ c, type_id w' t c ∧
        ((lives w' c ∧ stored w e ∧ ¬ has w e c ∧ sets w w' e c v) ∨
         (¬ lives w' c ∧ type_id w t c ∧ w' = w))
  | Panicked r w' ev =>
      r = RCapacity ∨
      (grown w w' ∧ same_holds w w' ∧ other_types w w' t ∧
        ((ev = [EvDrop (DropOf t) v] ∧ type_rejected w e t r ∧ (¬ lives w e → w' = w)) ∨
         (ev = [] ∧ lives w e ∧ ∃ c, type_id w' t c ∧ add_rejected w' e c r)))
  | _ => False
  end.
Proof. exact (λ w e t v H, add_typed_view w e t v (reachable_world_ok w H)). Qed.
Print Assumptions C06_add_typed.
Theorem C06_add_dataless : ∀ w e c, reachable_world w → op_legal (OAddDyn e c) w → op_tame (OAddDyn e c) w →
  match step (OAddDyn e c) w with
  | Done r w' ev => r = RUnit ∧ ev = [] ∧
      lives w e ∧ stored w e ∧ lives w c ∧ stored w c ∧ ¬ has w e c ∧
      same_lives w w' ∧ same_stored w w' ∧ same_types w w' ∧ sets w w' e c []
  | Panicked r w' ev =>
      r = RCapacity ∨ (ev = [] ∧ same_view w w' ∧
        ((r = RAssert ∧ (¬ lives w e ∨ ¬ lives w c)) ∨
         (r = RUnwrap ∧ lives w c ∧ ¬ stored w c) ∨
         (r = RAssert ∧ lives w c ∧ stored w c ∧ sized w c) ∨
         add_rejected w e c r))
  | _ => False
  end.
Proof. exact (λ w e c H, add_plain_view w e c (reachable_world_ok w H)). Qed.
Print Assumptions C06_add_dataless.

(** C07: the two ways of removing a component. *)
Theorem C07_remove_dynamic : ∀ w e c, reachable_world w → op_legal (ORemoveDyn e c) w → op_tame (ORemoveDyn e c) w →
  match step (ORemoveDyn e c) w with
  | Done r w' ev => r = RUnit ∧
      ((w' = w ∧ ev = [] ∧ (¬ lives w e ∨ ¬ lives w c)) ∨
       (lives w e ∧ stored w e ∧ lives w c ∧
        same_lives w w' ∧ same_stored w w' ∧ same_types w w' ∧ unsets w w' e c ∧
        ∃ v, holds w e c v ∧ ev = dropping w c v))
  | Panicked r w' ev => r = RCapacity ∨ (ev = [] ∧ w' = w ∧ remove_rejected w e c r)
  | _ => False
  end.
Proof. exact (λ w e c H, remove_dyn_view w e c (reachable_world_ok w H)). Qed.
Print Assumptions C07_remove_dynamic.
Theorem C07_remove_typed : ∀ w e t, reachable_world w → op_legal (ORemove e t) w → op_tame (ORemove e t) w →
  match step (ORemove e t) w with
  | Done r w' ev => r = RUnit ∧ lives w e ∧ grown w w' ∧ other_types w w' t ∧
      ∃ c, type_id w' t c ∧ type_id w t c ∧
        ((stored w e ∧ lives w c ∧ unsets w w' e c ∧ ∃ v, holds w e c v ∧ ev = dropping w c v) ∨
         (¬ lives w c ∧ w' = w ∧ ev = []))
  | Panicked r w' ev =>
      r = RCapacity ∨
      (ev = [] ∧ grown w w' ∧ same_holds w w' ∧ other_types w w' t ∧
        (type_rejected w e t r ∨ ∃ c, type_id w' t c ∧ remove_rejected w' e c r))
  | _ => False
  end.
Proof. exact (λ w e t H, remove_typed_view w e t (reachable_world_ok w H)). Qed.
Print Assumptions C07_remove_typed.

(** C08 *)
Theorem C08_add_remove_dynamic : ∀ w e c v r1 w1 ev1, reachable_world w →
  op_legal (OAddDynData e c v) w → op_tame (OAddDynData e c v) w → lives w e → lives w c →
  step (OAddDynData e c v) w = Done r1 w1 ev1 → op_tame (ORemoveDyn e c) w1 →
  match step (ORemoveDyn e c) w1 with
  | Done r2 w2 ev2 => same_view w w2 ∧ ev1 = [] ∧ ev2 = dropping w c v
  | Panicked r _ _ => r = RCapacity
  | _ => False
  end.
Proof. exact (λ w e c v r1 w1 ev1 H, add_remove_dyn w e c v r1 w1 ev1 (reachable_world_ok w H)). Qed.
Print Assumptions C08_add_remove_dynamic.
Theorem C08_add_remove_typed : ∀ w e t c v r1 w1 ev1, reachable_world w →
  op_legal (OAdd e t v) w → op_tame (OAdd e t v) w →
  step (OAdd e t v) w = Done r1 w1 ev1 → type_id w1 t c → lives w1 c → op_tame (ORemove e t) w1 →
  match step (ORemove e t) w1 with
  | Done r2 w2 ev2 => grown w w2 ∧ other_types w w2 t ∧ same_holds w w2 ∧ ev1 = [] ∧ ev2 = dropping w1 c v
  | Panicked r _ _ => r = RCapacity
  | _ => False
  end.
Proof. exact (λ w e t c v r1 w1 ev1 H, add_remove_typed w e t c v r1 w1 ev1 (reachable_world_ok w H)). Qed.
Print Assumptions C08_add_remove_typed.

(** C09 *)
Theorem C09_add_order_dynamic : ∀ w e c1 v1 c2 v2 r1 w1 ev1 r12 w12 ev12, reachable_world w →
  op_legal (OAddDynData e c1 v1) w → op_tame (OAddDynData e c1 v1) w →
  op_legal (OAddDynData e c2 v2) w → op_tame (OAddDynData e c2 v2) w1 →
  lives w e → lives w c1 → lives w c2 →
  step (OAddDynData e c1 v1) w = Done r1 w1 ev1 → step (OAddDynData e c2 v2) w1 = Done r12 w12 ev12 →
  c1 ≠ c2 ∧
  match step (OAddDynData e c2 v2) w with
  | Done _ w2 _ => op_tame (OAddDynData e c1 v1) w2 →
      match step (OAddDynData e c1 v1) w2 with
      | Done _ w21 _ => same_view w12 w21
      | Panicked r _ _ => r = RCapacity
      | _ => False
      end
  | Panicked r _ _ => r = RCapacity
  | _ => False
  end.
Proof. exact (λ w e c1 v1 c2 v2 r1 w1 ev1 r12 w12 ev12 H, add_add_dyn w e c1 v1 c2 v2 r1 w1 ev1 r12 w12 ev12 (reachable_world_ok w H)). Qed.
Print Assumptions C09_add_order_dynamic.
Theorem C09_add_order_typed : ∀ w e t1 c1 v1 t2 c2 v2 r1 w1 ev1 r12 w12 ev12, reachable_world w →
  op_legal (OAdd e t1 v1) w → op_tame (OAdd e t1 v1) w →
  op_legal (OAdd e t2 v2) w → op_tame (OAdd e t2 v2) w1 →
  type_id w t1 c1 → type_id w t2 c2 → lives w c1 → lives w c2 →
  step (OAdd e t1 v1) w = Done r1 w1 ev1 → step (OAdd e t2 v2) w1 = Done r12 w12 ev12 →
  t1 ≠ t2 ∧
  match step (OAdd e t2 v2) w with
  | Done _ w2 _ => op_tame (OAdd e t1 v1) w2 →
      match step (OAdd e t1 v1) w2 with
      | Done _ w21 _ => same_view w12 w21
      | Panicked r _ _ => r = RCapacity
      | _ => False
      end
  | Panicked r _ _ => r = RCapacity
  | _ => False
  end.
Proof. exact (λ w e t1 c1 v1 t2 c2 v2 r1 w1 ev1 r12 w12 ev12 H, add_add_typed w e t1 c1 v1 t2 c2 v2 r1 w1 ev1 r12 w12 ev12 (reachable_world_ok w H)). Qed.
Print Assumptions C09_add_order_typed.

(** C20, C21: in every state of every session. *)
Theorem C20_consistent : ∀ s, reachable s → consistent (ss_world s).
Proof. exact (λ s H, ok_consistent _ (sv_world _ (reachable_inv s H))). Qed.
Print Assumptions C20_consistent.
Theorem C21_distinct_archetypes : ∀ s, reachable s → distinct_sets (ss_world s).
Proof. exact (λ s H, ok_distinct _ (sv_world _ (reachable_inv s H))). Qed.
Print Assumptions C21_distinct_archetypes.

(** C22: what the cache answers is what the search answers. *)
Theorem C22_cache_transparent : ∀ s k a c j x ev, reachable s → w_archs (ss_world s) !! k = Some a → lives (ss_world s) c →
  rc_lookup_id c (a_cache a) = Done (Some j) x ev →
  (c ∉ columns a → find_plus_id (a_comp_ids a) c (ss_world s) = Done (Some j) (ss_world s) []) ∧
  (c ∈ columns a → find_minus_id (a_comp_ids a) c (ss_world s) = Done (Some j) (ss_world s) []) ∧
  ∃ a', w_archs (ss_world s) !! j = Some a' ∧
    ∀ d, d ∈ columns a' ↔ (d ≠ c ∧ d ∈ columns a) ∨ (d = c ∧ c ∉ columns a).
Proof. exact (λ s k a c j x ev H, cache_view _ k a c j x ev (sv_world _ (reachable_inv s H))). Qed.
Print Assumptions C22_cache_transparent.

(** C34 *)
Theorem C34_panic_leaves_consistent : ∀ o w r w' ev, reachable_world w → op_legal o w → op_tame o w →
  step o w = Panicked r w' ev → resumable r → consistent w' ∧ distinct_sets w' ∧ unharmed w w'.
Proof. exact panic_consistent. Qed.
Print Assumptions C34_panic_leaves_consistent.
(** C34: the one assertion that leaves the world inconsistent: a component repeated in a builder
    whose archetype exists.  What it leaves is always the same, and no other entity is harmed. *)
Theorem C34_torn : ∀ o w w' ev, reachable_world w → op_legal o w → op_tame o w →
  step o w = Panicked RColumnLength w' ev →
  ev = [] ∧ unharmed w w' ∧ distinct_sets w' ∧ ¬ consistent w' ∧
  ∃ cap meta bs fin e D, o = OSpawn cap meta bs fin ∧ spawned w w' e ∧ given w' (bops_before bs) D ∧ half_built w w' e D.
Proof. exact panic_torn. Qed.
Print Assumptions C34_torn.

(** C35: the value passed to [add_component] is destroyed if the entity is dead, and leaked otherwise. *)
Theorem C35_refused_calls_change_nothing : ∀ o w, reachable_world w → op_legal o w → op_tame o w → refused o w →
  match step o w with
  | Done r w' ev => ev = [] ∧ nothing_but_type o w w' ∧
      match o with ODespawn _ | OWrite _ _ _ => r = RBool false | _ => True end
  | Panicked r w' ev => r = RCapacity ∨ nothing_but_type o w w' ∧
      match o with
      | OAdd e t v => (¬ lives w e → ev = [EvDrop (DropOf t) v]) ∧ (lives w e → ev = [])
      | _ => ev = []
      end
  | _ => False
  end.
Proof. exact (λ o w H, refused_view o w (reachable_world_ok w H)). Qed.
Print Assumptions C35_refused_calls_change_nothing.

(** C36 *)
Theorem C36_types_stable : ∀ s l s', reachable s → steps s l s' →
  ∀ t c, type_id (ss_world s) t c → type_id (ss_world s') t c.
Proof. exact (λ s l s' H, steps_types s l s' (reachable_inv s H)). Qed.
Print Assumptions C36_types_stable.
Theorem C36_types_injective : ∀ s t t' c, reachable s → type_id (ss_world s) t c → type_id (ss_world s) t' c → t = t'.
Proof. exact (λ s t t' c H, types_inj _ t t' c (sv_world _ (reachable_inv s H))). Qed.
Print Assumptions C36_types_injective.
Theorem C36_register : ∀ w t r w' ev, reachable_world w → op_legal (ORegister t) w → op_tame (ORegister t) w →
  step (ORegister t) w = Done r w' ev →
  ∃ c, r = RId c ∧ type_id w' t c ∧ (lives w' c → stored w' c ∧ recorded w' c (CompMeta (Some (DropOf t)) (Layout (ty_size t) (ty_align t)))) ∧
    ((type_id w t c ∧ w' = w) ∨ ((∀ c', ¬ type_id w t c') ∧ lives w' c ∧ ¬ lives w c)) ∧
    grown w w' ∧ same_holds w w' ∧ other_types w w' t ∧ ev = [].
Proof. exact (λ w t r w' ev H, register_info w t r w' ev (reachable_world_ok w H)). Qed.
Print Assumptions C36_register.

(** C37 *)
Theorem C37_added_type_is_had : ∀ w e t c v r w' ev, reachable_world w →
  op_legal (OAdd e t v) w → op_tame (OAdd e t v) w →
  step (OAdd e t v) w = Done r w' ev → type_id w' t c → lives w' c →
  step (OHas e t) w' = Done (RBool true) w' [].
Proof. exact (λ w e t c v r w' ev H, add_has w e t c v r w' ev (reachable_world_ok w H)). Qed.
Print Assumptions C37_added_type_is_had.

(** C38, first half: [has_component] says which components are stored, also while queries are
    open. *)
Theorem C38_has_component : ∀ s e t, reachable s → let w := ss_world s in
  match step (OHas e t) w with
  | Done r w' ev => w' = w ∧ ev = [] ∧ ∃ b, r = RBool b ∧ (b = true ↔ ∃ c, type_id w t c ∧ has w e c)
  | Panicked r w' ev => w' = w ∧ ev = [] ∧ r = RNoGeneration ∧ unissued w e
  | _ => False
  end.
Proof. exact (λ s e t H, has_view (ss_world s) e t (sv_world _ (reachable_inv s H))). Qed.
Print Assumptions C38_has_component.

(** C39: a component in use is never despawned. *)
Theorem C39_component_in_use_stays : ∀ w e, reachable_world w → id_wf e → op_tame (ODespawn e) w → in_use w e →
  step (ODespawn e) w = Panicked RComponentInUse w [].
Proof. exact (λ w e H, in_use_despawn w e (reachable_world_ok w H)). Qed.
Print Assumptions C39_component_in_use_stays.

(** C45, C46: [get_component_mut_dynamic] and a write through it. *)
Theorem C45_write : ∀ w e c v, reachable_world w → op_legal (OWrite e c v) w →
  match step (OWrite e c v) w with
  | Done r w' ev => ev = [] ∧
      ((r = RBool false ∧ w' = w ∧ (¬ lives w e ∨ ¬ lives w c ∨ ¬ stored w e)) ∨
       (r = RBool true ∧ same_lives w w' ∧ same_stored w w' ∧ same_types w w' ∧ sets w w' e c v ∧
        ∃ v0, holds w e c v0 ∧ length v = length v0))
  | Panicked r w' ev => ev = [] ∧ w' = w ∧
      ((r = RNoGeneration ∧ (unissued w e ∨ unissued w c)) ∨
       (r = RIndex ∧ lives w e ∧ lives w c ∧ stored w e ∧ ¬ has w e c))
  | _ => False
  end.
Proof. exact (λ w e c v H, write_view w e c v (reachable_world_ok w H)). Qed.
Print Assumptions C45_write.

(** C45: the pointer returned by [get_component_mut_dynamic] points to the value of that
    component of that entity. *)
Theorem C45_read : ∀ w e c, reachable_world w →
  match get_component_mut e c w with
  | Done (Some l) w' ev => w' = w ∧ ev = [] ∧ ∃ v, holds w e c v ∧ read_loc w l (length v) = Some v
  | Done None w' ev => w' = w ∧ ev = [] ∧ (¬ lives w e ∨ ¬ lives w c ∨ ¬ stored w e)
  | Panicked r w' ev => w' = w ∧ ev = [] ∧
      ((r = RNoGeneration ∧ (unissued w e ∨ unissued w c)) ∨
       (r = RIndex ∧ lives w e ∧ lives w c ∧ stored w e ∧ ¬ has w e c))
  | _ => False
  end.
Proof. exact (λ w e c H, read_view w e c (reachable_world_ok w H)). Qed.
Print Assumptions C45_read.

(** C49 *)
Theorem C49_search_exact : ∀ w ids, reachable_world w → Forall (lives w) ids → NoDup ids →
  match find_archetype_dynamic ids w with
  | Done (Some k) w' ev => w' = w ∧ ev = [] ∧ ∃ a, w_archs w !! k = Some a ∧ same_set (columns a) ids
  | Done None w' ev => w' = w ∧ ev = [] ∧ ∀ k a, w_archs w !! k = Some a → ¬ same_set (columns a) ids
  | _ => False
  end.
Proof. exact (λ w ids H, find_view w ids (reachable_world_ok w H)). Qed.
Print Assumptions C49_search_exact.

(** C51: components and values survive every history that does not name them. *)
Theorem C51_persistence : ∀ s l s' e c, reachable s → steps s l s' → id_wf e →
  stored (ss_world s) e → (∀ o, o ∈ calls_of l → ¬ kills o e) →
  stored (ss_world s') e ∧
  (∀ v, holds (ss_world s) e c v → (∀ o, o ∈ calls_of l → ¬ takes o e c) → holds (ss_world s') e c v) ∧
  (¬ has (ss_world s) e c → (∀ o, o ∈ calls_of l → ¬ brings o e c) → ¬ has (ss_world s') e c).
Proof. exact (λ s l s' e c H, steps_stay s l s' e c (reachable_inv s H)). Qed.
Print Assumptions C51_persistence.

(** ** Expectations that the code does not meet: executions refuting them. *)
(** C31: a value given to a builder is neither stored nor dropped. *)
Theorem C31_no_leak_refuted : ∃ w bs t v r w' ev, reachable_world w ∧
  op_legal (OSpawn None (CompMeta None (Layout 0 1)) bs BDrop) w ∧ op_tame (OSpawn None (CompMeta None (Layout 0 1)) bs BDrop) w ∧ BWith t v ∈ bs ∧
  step (OSpawn None (CompMeta None (Layout 0 1)) bs BDrop) w = Done r w' ev ∧ ev = [] ∧ ∀ e c, ¬ holds w' e c v.
Proof. exact builder_leaks. Qed.
Print Assumptions C31_no_leak_refuted.
(** C31: it is so whenever [build] is not called. *)
Theorem C31_unbuilt_leaks : ∀ w cap meta bs fin r w' ev, reachable_world w →
  op_legal (OSpawn cap meta bs fin) w → op_tame (OSpawn cap meta bs fin) w → BBuild ∉ bs →
  step (OSpawn cap meta bs fin) w = Done r w' ev → same_holds w w' ∧ ev = [].
Proof. exact unbuilt_leaks. Qed.
Print Assumptions C31_unbuilt_leaks.
(** C32: after two builds the entity has two rows, and its despawn leaves one of them. *)
Theorem C32_build_twice_refuted : ∃ w bs e w' ev w'' ev', reachable_world w ∧
  op_legal (OSpawn None (CompMeta None (Layout 0 1)) bs BDrop) w ∧ bops_builds bs = 2 ∧
  step (OSpawn None (CompMeta None (Layout 0 1)) bs BDrop) w = Done (RId e) w' ev ∧
  (∃ k i k' i', placed w' e k i ∧ placed w' e k' i' ∧ (k, i) ≠ (k', i')) ∧
  step (ODespawn e) w' = Done (RBool true) w'' ev' ∧ ¬ lives w'' e ∧ stored w'' e.
Proof. exact built_twice. Qed.
Print Assumptions C32_build_twice_refuted.
(** C34: the one resumable panic after which the world is not consistent. *)
Theorem C34_all_panics_refuted : ∃ w o w' ev, reachable_world w ∧ op_legal o w ∧ op_tame o w ∧
  step o w = Panicked RColumnLength w' ev ∧ ¬ consistent w'.
Proof. exact uneven_columns. Qed.
Print Assumptions C34_all_panics_refuted.
(** C37: [add_component] returns, [has_component] is false, the value is gone. *)
Theorem C37_all_adds_refuted : ∃ w e t v w', reachable_world w ∧ op_legal (OAdd e t v) w ∧ op_tame (OAdd e t v) w ∧ stored w e ∧
  step (OAdd e t v) w = Done RUnit w' [] ∧ step (OHas e t) w' = Done (RBool false) w' [] ∧ ∀ e c, ¬ holds w' e c v.
Proof. exact add_without_has. Qed.
Print Assumptions C37_all_adds_refuted.
(** C39: a component that no entity has (any more) cannot be despawned. *)
Theorem C39_removed_everywhere_refuted : ∃ w c, reachable_world w ∧ id_wf c ∧ op_tame (ODespawn c) w ∧ lives w c ∧
  (∀ e, ¬ has w e c) ∧ step (ODespawn c) w = Panicked RComponentInUse w [].
Proof. exact in_use_forever. Qed.
Print Assumptions C39_removed_everywhere_refuted.
(** C46: it panics when the component is absent. *)
Theorem C46_none_when_absent_refuted : ∃ w e c v, reachable_world w ∧ op_legal (OWrite e c v) w ∧
  lives w e ∧ lives w c ∧ ¬ has w e c ∧ step (OWrite e c v) w = Panicked RIndex w [].
Proof. exact get_mut_panics. Qed.
Print Assumptions C46_none_when_absent_refuted.
