(** * Concrete cases meeting the hypotheses of the theorems in PropsDropPanic.
    These are tests and witnesses, not proofs of the properties. *)
From Verif Require Import ProofBase SpecWorld SpecQuery ExamplesBase ExamplesWorld SpecDropPanic ProofDropPanicRefuted.

Definition xbomb (f : dropfn) (v : value) : bool := bool_decide (f = DropOf xB).
(** What a call with panicking destructors does. *)
Definition effect_b {A} (o : outcome world A) : option (option reason * list event * list (ecsid * ecsid * value)) :=
  match o with
  | Done _ w ev => Some (None, ev, held w)
  | Panicked r w ev => Some (Some r, ev, held w)
  | _ => None
  end.
(** The destructor of B panics in the [despawn] of entity 0: its A was destroyed before. *)
Example C56_case_despawn : reachable_world xw ∧ op_legal (ODespawn (xid 0)) xw ∧ op_tame (ODespawn (xid 0)) xw ∧
  effect_b (despawn_b xbomb (xid 0) xw) =
    Some (Some RDestructor, [EvDrop (DropOf xA) (x4 1); EvDrop (DropOf xB) (x2 10)],
          [(xid 7, xcA, x4 3); (xid 7, xcB, x2 20); (xid 3, xcA, x4 2); (xid 3, xcZ, [])]) ∧
  effect_b (despawn_b xbomb (xid 3) xw) =
    Some (None, [EvDrop (DropOf xA) (x4 2); EvDrop (DropOf xZ) []],
          [(xid 0, xcA, x4 1); (xid 0, xcB, x2 10); (xid 7, xcA, x4 3); (xid 7, xcB, x2 20)]).
Proof. xcase. Qed.
Definition pw0 : world := pleft (despawn_b xbomb (xid 0) xw).
Example C56_case_again : effect_b (despawn_b xbomb (xid 0) pw0) = Some (Some RAssert, [], held pw0) ∧
  effect_b (despawn_b xbomb (xid 7) (pleft (despawn_b xbomb (xid 7) xw))) = Some (Some RIndex, [], held (pleft (despawn_b xbomb (xid 7) xw))).
Proof. xcase. Qed.
Example C56_case_remove : op_legal (ORemoveDyn (xid 7) xcB) xw ∧ op_tame (ORemoveDyn (xid 7) xcB) xw ∧
  effect_b (remove_component_dynamic_b xbomb (xid 7) xcB xw) =
    Some (Some RDestructor, [EvDrop (DropOf xB) (x2 20)], held xw) ∧
  effect_b (remove_component_dynamic_b xbomb (xid 7) xcA xw) =
    Some (None, [EvDrop (DropOf xA) (x4 3)],
          [(xid 0, xcA, x4 1); (xid 0, xcB, x2 10); (xid 3, xcA, x4 2); (xid 3, xcZ, []); (xid 7, xcB, x2 20)]) ∧
  effect_b (remove_component_dynamic_b xbomb (xid 7) xcZ xw) = Some (Some RAssert, [], held xw).
Proof. xcase. Qed.
(** Removing B from entity 7 was cut short: its A lies in a column of the new archetype 4, which has
    no rows; archetype 1 has two rows and one value in each column. *)
Definition pr : world := pleft (remove_component_dynamic_b xbomb (xid 7) xcB xw).
Example C56_case_spilled : a_entities <$> w_archs xw !! 1 = Some [xid 0; xid 7] ∧ columns <$> w_archs pr !! 1 = Some [xcA; xcB] ∧ columns <$> w_archs pr !! 4 = Some [xcA] ∧
  fill pr 1 = Some [(2, 1); (2, 1)] ∧ fill pr 4 = Some [(0, 1)] ∧
  ((λ a, (λ p : ecsid * uvec, vec_values p.2) <$> a_storages a) <$> w_archs pr !! 4) = Some [[x4 3]].
Proof. xcase. Qed.
(** The destructor of A panics: B, in the column after it, is still there, one value more than rows. *)
Definition pd : world := pleft (despawn_b (λ f _, bool_decide (f = DropOf xA)) (xid 0) xw).
Example C56_case_half : fill xw 1 = Some [(2, 2); (2, 2)] ∧ fill pd 1 = Some [(1, 1); (1, 2)].
Proof. xcase. Qed.
Example C56_case_remove_typed : op_legal (ORemove (xid 7) xB) xw ∧ op_tame (ORemove (xid 7) xB) xw ∧
  effect_b (remove_component_b xbomb (xid 7) xB xw) = Some (Some RDestructor, [EvDrop (DropOf xB) (x2 20)], held xw) ∧
  effect_b (remove_component_b xbomb (xid 8) xB xw) = Some (Some RAssert, [], held xw).
Proof. xcase. Qed.
(** Dropping the world: the first B panics and takes the other B with it; the As are destroyed. *)
Example C56_case_world_drop : world_drop_b xbomb xw =
    Some (Fallen true [EvDrop (DropOf xA) (x4 3); EvDrop (DropOf xA) (x4 1); EvDrop (DropOf xB) (x2 20); EvDrop (DropOf xA) (x4 2)]) ∧
  world_drop_b (λ _ _, true) xw = Some (Aborted [EvDrop (DropOf xA) (x4 3); EvDrop (DropOf xB) (x2 20)]) ∧
  world_drop_b xbomb pw0 = Some (Fallen true [EvDrop (DropOf xA) (x4 3); EvDrop (DropOf xB) (x2 20); EvDrop (DropOf xA) (x4 2)]).
Proof. xcase. Qed.
(** A vector of two values with a destructor. *)
Definition pv : uvec := UVec (TypeInfo (Layout 2 2) (Some (DropOf xB))) (Heap 2 (x2 1 ++ x2 2)) 4 4.
Example C56_case_vec : uv_pop_b xbomb pv = Panicked RDestructor (uv_set_len 2 pv) [EvDrop (DropOf xB) (x2 2)] ∧
  uv_drop pv = Done () (uv_set_len 0 pv) [EvDrop (DropOf xB) (x2 2); EvDrop (DropOf xB) (x2 1)] ∧
  uv_drop_b xbomb pv = Panicked RDestructor (uv_set_len 2 pv) [EvDrop (DropOf xB) (x2 2)] ∧
  uv_drop_b (λ _ _, false) pv = uv_drop pv.
Proof. xcase. Qed.
