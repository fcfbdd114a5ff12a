(** * Concrete cases meeting the hypotheses of the theorems in PropsWorld.
    These are tests and witnesses, not proofs of the properties. *)
From Verif Require Import ProofBase SpecWorld ExamplesBase.

(** A four-byte type, a two-byte type, a zero-sized type; all have a destructor. *)
Definition xA : ty := Ty 1 4 4.
Definition xB : ty := Ty 2 2 2.
Definition xZ : ty := Ty 3 0 1.
Definition x4 (n : N) : value := [Some n; Some n; Some n; None].
Definition x2 (n : N) : value := [Some n; Some (n + 1)%N].
Definition xid (n : N) : ecsid := EcsId 0 n.
Definition xmeta : component_meta := CompMeta (Some (DropFn 7)) (Layout 2 2).
Definition spawn_ (bs : list bop) : op := OSpawn None cm_unit bs BDrop.
(** Entity 0 with A and B; entity 3 with Z and A; a never-built entity 5; entity 6, usable as
    a two-byte component; entities 7 and 8 with A and B; 8 is despawned; entity 9 = new 8. *)
Definition xops : list op :=
  [spawn_ [BWith xA (x4 1); BWith xB (x2 10); BBuild];
   OSpawn (Some 9) cm_unit [BWith xZ []; BWith xA (x4 2); BBuild] BDrop;
   spawn_ [];
   OSpawn None xmeta [BBuild] BForget;
   spawn_ [BWith xB (x2 20); BWith xA (x4 3); BBuild];
   spawn_ [BWith xB (x2 30); BWith xA (x4 4); BBuild];
   OAdd (xid 0) xZ []; ORemove (xid 0) xZ;
   ODespawn (xid 8);
   spawn_ [BBuild; BWith xA (x4 9)];
   OAdd (xid 0) xA (x4 0)].
Definition xw : world := wplay xops.
Lemma xw_reachable : reachable_world xw.
Proof. apply wplay_reachable. by vm_compute. Qed.
Definition xcA := xid 1. Definition xcB := xid 2. Definition xcZ := xid 4.


Ltac xdone :=
  lazymatch goal with
  | |- reachable_world xw => exact xw_reachable
  | |- reachable_world _ => apply wplay_reachable; vm_compute; reflexivity
  | |- op_legal _ _ => apply op_legal_b_ok; vm_compute; reflexivity
  | |- op_tame _ _ => apply op_tame_b_ok; vm_compute; reflexivity
  | |- id_wf _ => apply id_wf_b_ok; vm_compute; reflexivity
  | |- _ = _ => vm_compute; reflexivity
  | |- ?P => apply (bool_decide_unpack P); vm_compute; exact I
  end.
Ltac xcase := split_and!; xdone.
(** What a call does: what it returns, the destructors run, what the world holds then. *)
Definition effect (o : outcome world oret) : option ((oret + reason) * list event * list (ecsid * ecsid * value)) :=
  match o with
  | Done r w ev => Some (inl r, ev, held w)
  | Panicked r w ev => Some (inr r, ev, held w)
  | _ => None
  end.

Example xw_contents : held xw =
  [(xid 0, xcA, x4 1); (xid 0, xcB, x2 10); (xid 7, xcA, x4 3); (xid 7, xcB, x2 20); (xid 3, xcA, x4 2); (xid 3, xcZ, [])].
Proof. xdone. Qed.

Example C04_case : reachable_world xw ∧ id_wf (xid 0) ∧ op_tame (ODespawn (xid 0)) xw ∧
  effect (step (ODespawn (xid 0)) xw) =
    Some (inl (RBool true), [EvDrop (DropOf xA) (x4 1); EvDrop (DropOf xB) (x2 10)],
          [(xid 7, xcA, x4 3); (xid 7, xcB, x2 20); (xid 3, xcA, x4 2); (xid 3, xcZ, [])]) ∧
  step (ODespawn (xid 8)) xw = Done (RBool false) xw [] ∧
  step (ODespawn (xid 5)) xw = Panicked RUnwrap xw [] ∧ step (ODespawn (xid 50)) xw = Panicked RNoGeneration xw [].
Proof. xcase. Qed.
Definition xbs : list bop := [BWith xB (x2 40); BWithDynData (xid 6) (x2 50); BWith xA (x4 6); BWithDyn (xid 7)].
Example C05_case : reachable_world xw ∧ op_legal (spawn_ (xbs ++ [BBuild; BWithDyn (xid 0)])) xw ∧
  op_tame (spawn_ (xbs ++ [BBuild; BWithDyn (xid 0)])) xw ∧ bops_before (xbs ++ [BBuild; BWithDyn (xid 0)]) = xbs ∧
  effect (step (spawn_ (xbs ++ [BBuild; BWithDyn (xid 0)])) xw) =
    Some (inl (RId (xid 9)), [],
          held xw ++ [(xid 9, xcA, x4 6); (xid 9, xcB, x2 40); (xid 9, xid 6, x2 50); (xid 9, xid 7, [])]).
Proof. xcase. Qed.
Definition panics (o : outcome world oret) : option reason := match o with Panicked r _ _ => Some r | _ => None end.
(** The same component twice, where the archetype is found and where it is created. *)
Definition xdup1 : list bop := [BWith xA (x4 7); BWith xZ []; BWith xA (x4 8)].
Definition xdup2 : list bop := [BWithDynData (xid 6) (x2 7); BWithDynData (xid 6) (x2 8)].
Example C33_case :
  op_legal (spawn_ (xdup1 ++ [BBuild])) xw ∧ op_tame (spawn_ (xdup1 ++ [BBuild])) xw ∧
  panics (step (spawn_ (xdup1 ++ [BBuild])) xw) = Some RColumnLength ∧
  op_legal (spawn_ (xdup2 ++ [BBuild])) xw ∧ op_tame (spawn_ (xdup2 ++ [BBuild])) xw ∧
  effect (step (spawn_ (xdup2 ++ [BBuild])) xw) =
    Some (inr RDuplicate, [EvDrop (DropFn 7) (x2 7); EvDrop (DropFn 7) (x2 8)], held xw).
Proof. xcase. Qed.
Definition after (o : outcome world oret) : world := match o with Done _ w _ | Panicked _ w _ => w | _ => world_new end.
(** Adding: the new value is there, the others are not touched; a second time it is refused. *)
Example C06_case : op_legal (OAddDynData (xid 7) (xid 6) (x2 60)) xw ∧ op_tame (OAddDynData (xid 7) (xid 6) (x2 60)) xw ∧
  effect (step (OAddDynData (xid 7) (xid 6) (x2 60)) xw) =
    Some (inl RUnit, [],
      [(xid 0, xcA, x4 1); (xid 0, xcB, x2 10); (xid 3, xcA, x4 2); (xid 3, xcZ, []);
       (xid 7, xcA, x4 3); (xid 7, xcB, x2 20); (xid 7, xid 6, x2 60)]) ∧
  op_legal (OAdd (xid 7) xZ []) xw ∧ op_tame (OAdd (xid 7) xZ []) xw ∧
  effect (step (OAdd (xid 7) xZ []) xw) =
    Some (inl RUnit, [],
      [(xid 0, xcA, x4 1); (xid 0, xcB, x2 10); (xid 3, xcA, x4 2); (xid 3, xcZ, []);
       (xid 7, xcA, x4 3); (xid 7, xcB, x2 20); (xid 7, xcZ, [])]) ∧
  op_legal (OAddDyn (xid 7) (xid 3)) xw ∧ op_tame (OAddDyn (xid 7) (xid 3)) xw ∧
  effect (step (OAddDyn (xid 7) (xid 3)) xw) =
    Some (inl RUnit, [],
      [(xid 0, xcA, x4 1); (xid 0, xcB, x2 10); (xid 3, xcA, x4 2); (xid 3, xcZ, []);
       (xid 7, xcA, x4 3); (xid 7, xcB, x2 20); (xid 7, xid 3, [])]) ∧
  step (OAdd (xid 7) xA (x4 5)) xw = Panicked RAssert xw [] ∧
  step (OAddDyn (xid 7) (xid 6)) xw = Panicked RAssert xw [] ∧
  (* a dead entity: the value is destroyed while unwinding *)
  ¬ lives xw (xid 8) ∧ op_legal (OAdd (xid 8) xA (x4 5)) xw ∧
  step (OAdd (xid 8) xA (x4 5)) xw = Panicked RAssert xw [EvDrop (DropOf xA) (x4 5)].
Proof. xcase. Qed.
Example C07_case : op_legal (ORemove (xid 7) xA) xw ∧ op_tame (ORemove (xid 7) xA) xw ∧
  effect (step (ORemove (xid 7) xA) xw) =
    Some (inl RUnit, [EvDrop (DropOf xA) (x4 3)],
      [(xid 0, xcA, x4 1); (xid 0, xcB, x2 10); (xid 3, xcA, x4 2); (xid 3, xcZ, []); (xid 7, xcB, x2 20)]) ∧
  op_legal (ORemoveDyn (xid 0) xcB) xw ∧ op_tame (ORemoveDyn (xid 0) xcB) xw ∧
  effect (step (ORemoveDyn (xid 0) xcB) xw) =
    Some (inl RUnit, [EvDrop (DropOf xB) (x2 10)],
      [(xid 7, xcA, x4 3); (xid 7, xcB, x2 20); (xid 3, xcA, x4 2); (xid 3, xcZ, []); (xid 0, xcA, x4 1)]) ∧
  step (ORemove (xid 7) xZ) xw = Panicked RAssert xw [].
Proof. xcase. Qed.
Definition xadd6 : op := OAddDynData (xid 7) (xid 6) (x2 60).
Definition xadd7 : op := OAddDynData (xid 7) (xid 7) [].
(** The entity moves to a new archetype and back; its row is not where it was. *)
Example C08_case : op_legal xadd6 xw ∧ op_tame xadd6 xw ∧ lives xw (xid 7) ∧ lives xw (xid 6) ∧
  op_tame (ORemoveDyn (xid 7) (xid 6)) (after (step xadd6 xw)) ∧
  effect (step (ORemoveDyn (xid 7) (xid 6)) (after (step xadd6 xw))) =
    Some (inl RUnit, [EvDrop (DropFn 7) (x2 60)], held xw) ∧
  op_legal (OAdd (xid 0) xZ []) xw ∧ op_tame (OAdd (xid 0) xZ []) xw ∧
  type_id (after (step (OAdd (xid 0) xZ []) xw)) xZ xcZ ∧ lives (after (step (OAdd (xid 0) xZ []) xw)) xcZ ∧
  op_tame (ORemove (xid 0) xZ) (after (step (OAdd (xid 0) xZ []) xw)) ∧
  effect (step (ORemove (xid 0) xZ) (after (step (OAdd (xid 0) xZ []) xw))) =
    Some (inl RUnit, [EvDrop (DropOf xZ) []],
      [(xid 7, xcA, x4 3); (xid 7, xcB, x2 20); (xid 0, xcA, x4 1); (xid 0, xcB, x2 10); (xid 3, xcA, x4 2); (xid 3, xcZ, [])]).
Proof. xcase. Qed.
Example C09_case : op_legal xadd6 xw ∧ op_tame xadd6 xw ∧ op_legal xadd7 xw ∧ op_tame xadd7 (after (step xadd6 xw)) ∧
  lives xw (xid 7) ∧ lives xw (xid 6) ∧
  op_tame xadd6 (after (step xadd7 xw)) ∧
  held (after (step xadd7 (after (step xadd6 xw)))) =
    [(xid 0, xcA, x4 1); (xid 0, xcB, x2 10); (xid 3, xcA, x4 2); (xid 3, xcZ, []);
     (xid 7, xcA, x4 3); (xid 7, xcB, x2 20); (xid 7, xid 6, x2 60); (xid 7, xid 7, [])] ∧
  held (after (step xadd6 (after (step xadd7 xw)))) =
    [(xid 0, xcA, x4 1); (xid 0, xcB, x2 10); (xid 3, xcA, x4 2); (xid 3, xcZ, []);
     (xid 7, xcA, x4 3); (xid 7, xcB, x2 20); (xid 7, xid 6, x2 60); (xid 7, xid 7, [])].
Proof. xcase. Qed.
Definition yw : world := wplay (take 3 xops).
Example C09_typed_case : reachable_world yw ∧ op_legal (OAdd (xid 1) xB (x2 1)) yw ∧ op_tame (OAdd (xid 1) xB (x2 1)) yw ∧
  op_legal (OAdd (xid 1) xA (x4 2)) yw ∧ op_tame (OAdd (xid 1) xA (x4 2)) (after (step (OAdd (xid 1) xB (x2 1)) yw)) ∧
  type_id yw xB xcB ∧ type_id yw xA xcA ∧ lives yw xcB ∧ lives yw xcA ∧
  effect (step (OAdd (xid 1) xA (x4 2)) (after (step (OAdd (xid 1) xB (x2 1)) yw))) =
    Some (inl RUnit, [], [(xid 0, xcA, x4 1); (xid 0, xcB, x2 10); (xid 1, xcA, x4 2); (xid 1, xcB, x2 1);
                          (xid 3, xcA, x4 2); (xid 3, xcZ, [])]).
Proof. xcase. Qed.
Definition layout_of (w : world) : list (list ecsid * list ecsid) := map (λ a, (columns a, a_entities a)) (w_archs w).
Example C20_case : reachable_world xw ∧ layout_of xw =
  [([], [xid 1; xid 2; xid 4; xid 6; EcsId 1 8]); ([xcA; xcB], [xid 0; xid 7]); ([xcA; xcZ], [xid 3]); ([xcA; xcB; xcZ], [])].
Proof. xcase. Qed.
(** Archetype 1 has cached that adding Z leads to archetype 3, archetype 3 that removing Z leads to 1. *)
Definition cached (w : world) (k : nat) (c : ecsid) : option nat :=
  a ← w_archs w !! k; match rc_lookup_id c (a_cache a) with Done o _ _ => o | _ => None end.
Example C22_case : reachable_world xw ∧ cached xw 1 xcZ = Some 3 ∧ cached xw 3 xcZ = Some 1 ∧ lives xw xcZ.
Proof. xcase. Qed.
(** A panic between the two halves of [build] that does not spoil the world; the id stays reserved. *)
Example C34_case : op_legal (spawn_ [BWith xA (x4 7); BWithDyn (xid 8); BBuild]) xw ∧
  op_tame (spawn_ [BWith xA (x4 7); BWithDyn (xid 8); BBuild]) xw ∧ resumable RUnwrap ∧
  effect (step (spawn_ [BWith xA (x4 7); BWithDyn (xid 8); BBuild]) xw) = Some (inr RUnwrap, [], held xw) ∧
  resumable RDuplicate ∧ panics (step (spawn_ (xdup2 ++ [BBuild])) xw) = Some RDuplicate.
Proof. split_and!; try xdone; by vm_compute. Qed.
(** The two columns of the archetype of [A] and [B]: three rows, four and two values. *)
Definition xtear : op := spawn_ [BWith xA (x4 7); BWith xA (x4 8); BBuild].
Definition fill (w : world) (k : nat) : option (list (nat * nat)) :=
  (λ a, (λ p : ecsid * uvec, (length (a_entities a), uv_len p.2 / Nat.max 1 (uv_size p.2))) <$> a_storages a) <$> w_archs w !! k.
Example C34_case_torn : op_legal xtear xw ∧ op_tame xtear xw ∧ panics (step xtear xw) = Some RColumnLength ∧
  columns <$> w_archs xw !! 1 = Some [xcA; xcB] ∧ fill xw 1 = Some [(2, 2); (2, 2)] ∧ fill (after (step xtear xw)) 1 = Some [(3, 4); (3, 2)].
Proof. xcase. Qed.
Example C35_case : refused (OAdd (xid 0) xA (x4 0)) xw ∧ op_legal (OAdd (xid 0) xA (x4 0)) xw ∧ op_tame (OAdd (xid 0) xA (x4 0)) xw ∧
  refused (ODespawn (xid 1)) xw ∧ id_wf (xid 1) ∧ op_tame (ODespawn (xid 1)) xw ∧
  refused (ORemove (xid 7) (Ty 9 2 2)) xw ∧ panics (step (ORemove (xid 7) (Ty 9 2 2)) xw) = Some RAssert ∧
  type_id (after (step (ORemove (xid 7) (Ty 9 2 2)) xw)) (Ty 9 2 2) (xid 9) ∧
  refused (OAdd (xid 8) xA (x4 0)) xw ∧ op_tame (OAdd (xid 8) xA (x4 0)) xw.
Proof.
  split_and!; try xdone.
  - right. exists (xid 1). split; [xdone|right; xdone].
  - right. intros c H. assert (w_types xw !! Ty 9 2 2 = None) as Hn by (vm_compute; reflexivity).
    unfold type_id in H. rewrite Hn in H. discriminate H.
  - left. xdone.
Qed.
Example C36_case : type_id yw xA xcA ∧ type_id xw xA xcA ∧ type_id xw xB xcB ∧ xA ≠ xB ∧
  op_legal (ORegister (Ty 9 2 2)) xw ∧ op_tame (ORegister (Ty 9 2 2)) xw ∧
  effect (step (ORegister (Ty 9 2 2)) xw) = Some (inl (RId (xid 9)), [], held xw) ∧
  step (ORegister xA) xw = Done (RId xcA) xw [].
Proof. xcase. Qed.
Example C37_case : op_legal (OAdd (xid 7) xZ []) xw ∧ op_tame (OAdd (xid 7) xZ []) xw ∧
  type_id (after (step (OAdd (xid 7) xZ []) xw)) xZ xcZ ∧ lives (after (step (OAdd (xid 7) xZ []) xw)) xcZ ∧
  step (OHas (xid 7) xZ) xw = Done (RBool false) xw [].
Proof. xcase. Qed.
Example C38_case : step (OHas (xid 7) xB) xw = Done (RBool true) xw [] ∧ has xw (xid 7) xcB ∧
  step (OHas (xid 3) xB) xw = Done (RBool false) xw [] ∧ ¬ has xw (xid 3) xcB.
Proof. xcase. Qed.
Example C39_case : id_wf xcZ ∧ op_tame (ODespawn xcZ) xw ∧ in_use xw xcZ.
Proof. xcase. Qed.
Example C45_case : op_legal (OWrite (xid 7) xcA (x4 70)) xw ∧
  effect (step (OWrite (xid 7) xcA (x4 70)) xw) =
    Some (inl (RBool true), [],
      [(xid 0, xcA, x4 1); (xid 0, xcB, x2 10); (xid 7, xcA, x4 70); (xid 7, xcB, x2 20); (xid 3, xcA, x4 2); (xid 3, xcZ, [])]).
Proof. xcase. Qed.
Example C45_read_case : reachable_world xw ∧ holds xw (xid 7) xcB (x2 20) ∧
  match get_component_mut (xid 7) xcB xw with Done (Some l) _ _ => read_loc xw l 2 | _ => None end = Some (x2 20).
Proof. xcase. Qed.
Example C49_case : lives xw xcA ∧ lives xw xcZ ∧ find_archetype_dynamic [xcZ; xcA] xw = Done (Some 2) xw [] ∧
  lives xw xcB ∧ find_archetype_dynamic [xcZ; xcB] xw = Done None xw [].
Proof. xcase. Qed.
(** A history around entity 3 that neither kills it nor takes A from it nor adds B to it:
    its row changes, a query is opened and closed, a call panics. *)
Definition xcalls : list sop :=
  [SWorld (OAddDyn (xid 3) (xid 6)); SWorld (OAddDynData (xid 3) (xid 6) (x2 1)); SWorld (ORemoveDyn (xid 3) xcZ); SWorld (ODespawn (xid 0));
   SWorld (spawn_ [BWith xB (x2 3); BBuild]); SOpenDyn [FImmut xcA]; SDrop 0 false; SWorld (OAddDyn (xid 3) (xid 50)); SWorld (ODespawn (xid 7))].
Definition sess_of (o : option (list (res * list event) * sess)) : sess := match o with Some p => p.2 | None => sess_new end.
Definition xs : sess := sess_of (play (SWorld <$> xops) sess_new).
Definition xs' : sess := sess_of (play xcalls xs).
Example C51_case : reachable xs ∧ (∃ l, steps xs l xs' ∧ calls_of l = xcalls) ∧ stored (ss_world xs) (xid 3) ∧
  holds (ss_world xs) (xid 3) xcA (x4 2) ∧ ¬ has (ss_world xs) (xid 3) xcB ∧
  Forall (λ o, ¬ kills o (xid 3) ∧ ¬ takes o (xid 3) xcA ∧ ¬ brings o (xid 3) xcB) xcalls ∧
  held (ss_world xs') = [(xid 3, xcA, x4 2); (xid 3, xid 6, x2 1); (EcsId 1 0, xcB, x2 3)].
Proof.
  split_and!.
  - assert (is_Some (play (SWorld <$> xops) sess_new)) as [[rs s] E]; [apply (bool_decide_unpack _); vm_compute; exact I|].
    unfold xs. rewrite E. exact (play_reachable _ _ _ E).
  - assert (is_Some (play xcalls xs)) as [[rs s] E]; [apply (bool_decide_unpack _); vm_compute; exact I|].
    destruct (play_steps _ _ _ _ E) as (tr & H1 & H2). exists tr. unfold xs'. rewrite E. split; [exact H1|exact H2].
  - xdone.
  - xdone.
  - xdone.
  - unfold xcalls, kills, takes, brings, xid, xcA, xcB, xcZ. repeat constructor; intros H; simplify_eq/=; naive_solver.
  - xdone.
Qed.
