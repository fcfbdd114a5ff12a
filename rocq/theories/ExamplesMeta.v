(** * Concrete cases meeting the hypotheses of the theorems in PropsMeta.
    These are tests and witnesses, not proofs of the properties. *)
From Verif Require Import ProofBase SpecWorld ExamplesBase ExamplesWorld.

Definition info (w : world) (e : ecsid) : option component_meta :=
  match get_entity_meta e w with Done (Some m) _ _ => Some (em_comp m) | _ => None end.
(** The world of ExamplesWorld.v: two Rust types, an entity usable as a two-byte component with a
    destructor of its own, a plain entity. *)
Example C54_case : reachable_world xw ∧
  holds xw (xid 0) xcA (x4 1) ∧ type_id xw xA xcA ∧ lives xw xcA ∧
  info xw xcA = Some (CompMeta (Some (DropOf xA)) (Layout 4 4)) ∧
  info xw xcB = Some (CompMeta (Some (DropOf xB)) (Layout 2 2)) ∧
  info xw (xid 6) = Some xmeta ∧ info xw (xid 0) = Some (CompMeta None (Layout 0 1)) ∧ info xw (xid 5) = None.
Proof. xcase. Qed.
Example C54_stable_case : (∃ l, steps xs l xs' ∧ calls_of l = xcalls) ∧
  Forall (λ o, ¬ kills o (xid 6)) xcalls ∧ info (ss_world xs) (xid 6) = Some xmeta ∧ info (ss_world xs') (xid 6) = Some xmeta ∧
  info (ss_world xs) (xid 0) ≠ None ∧ info (ss_world xs') (xid 0) = None.
Proof.
  split_and!.
  - assert (is_Some (play xcalls xs)) as [[rs s] E]; [apply (bool_decide_unpack _); vm_compute; exact I|].
    destruct (play_steps _ _ _ _ E) as (tr & H1 & H2). exists tr. unfold xs'. rewrite E. split; [exact H1|exact H2].
  - unfold xcalls, kills, xid. repeat constructor; intros H; simplify_eq/=.
  - xdone.
  - xdone.
  - intros H. vm_compute in H. discriminate H.
  - xdone.
Qed.
Example C54_layouts_case : cm_from_size_align 12 4 = Some (CompMeta None (Layout 12 4)) ∧
  cm_from_size_align 12 3 = None ∧ cm_from_size_align 12 0 = None ∧ layout_wf (Layout 12 4) ∧ ¬ layout_wf (Layout 12 3).
Proof. by vm_compute. Qed.
Example C54_plain_case : op_legal (OSpawn None cm_unit [BBuild] BDrop) xw ∧ op_tame (OSpawn None cm_unit [BBuild] BDrop) xw ∧ BBuild ∈ [BBuild] ∧
  effect (step (OSpawn None cm_unit [BBuild] BDrop) xw) = Some (inl (RId (xid 9)), [], held xw).
Proof. split_and!; [xdone|xdone|by left|xdone]. Qed.
