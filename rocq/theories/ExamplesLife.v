(** * Concrete cases meeting the hypotheses of the theorems in PropsLife.
    These are tests and witnesses, not proofs of the properties. *)
From Verif Require Import ProofBase SpecLedger SpecQuery ExamplesBase ProofRefutedQuery ExamplesWorld ExamplesQuery.

(** A history with every kind of entry: two builders, an unbuilt one, a component added and
    removed, one added to a despawned component (leaked by the caller, never taken over), a
    duplicate, an overwrite, a despawn. *)
Definition vops : list sop := SWorld <$>
  [spawn_ [BWith xA (x4 1); BWith xB (x2 10); BBuild];      (* 0; A = 1, B = 2 *)
   spawn_ [BWith xA (x4 2); BWith xZ []; BBuild];           (* 3; Z = 4 *)
   spawn_ [BWith xB (x2 20)];                               (* 5, unbuilt *)
   OSpawn None xmeta [BBuild] BDrop;                        (* 6 *)
   OAddDynData (xid 0) (xid 6) (x2 30);
   ORemove (xid 0) xB;
   OAddDynData (xid 0) (xid 40) (x2 31);                    (* refused *)
   OAdd (xid 3) xB (x2 40);
   ODespawn (xid 0)].
Definition vs : sess := splay vops.
Definition no_duplicate_b (l : list (sop * res * list event)) : bool :=
  forallb (λ x, match x.1.2 with RPanic RDuplicate => false | _ => true end) l.
Lemma no_duplicate_b_ok l : no_duplicate_b l = true → no_duplicate l.
Proof.
  rewrite /no_duplicate_b forallb_forall. intros H. apply Forall_forall. intros x Hx%elem_of_list_In E. specialize (H _ Hx). by rewrite E in H.
Qed.
Definition no_overwrite_b (l : list (sop * res * list event)) : bool :=
  forallb (λ o, match o with SWorld (OWrite _ _ _) | SStore _ _ _ _ => false | _ => true end) (calls_of l).
Lemma no_overwrite_b_ok l : no_overwrite_b l = true → no_overwrite l.
Proof.
  rewrite /no_overwrite_b forallb_forall. intros H. apply Forall_forall. intros o Ho%elem_of_list_In. specialize (H _ Ho). destruct o as [[]| | | | |]; done.
Qed.
Ltac vdone :=
  lazymatch goal with
  | |- steps sess_new _ _ => apply splay_steps; vm_compute; reflexivity
  | |- no_duplicate _ => apply no_duplicate_b_ok; vm_compute; reflexivity
  | |- no_overwrite _ => apply no_overwrite_b_ok; vm_compute; reflexivity
  | |- _ => ydone
  end.
Example C30_case : steps sess_new (splay_trace vops) vs ∧ no_duplicate (splay_trace vops) ∧ no_overwrite (splay_trace vops) ∧
  length (splay_trace vops) = 9 ∧
  (* the values taken over are 1, 10, 2, (), 30 and 40 *)
  events_of (splay_trace vops) =
    [EvDrop (DropOf xB) (x2 10); EvDrop (DropOf xA) (x4 1); EvDrop (DropFn 7) (x2 30)] ∧
  cells (ss_world vs) = [(xcA, x4 2); (xcB, x2 40); (xcZ, [])] ∧
  world_drop (ss_world vs) = Some [EvDrop (DropOf xA) (x4 2); EvDrop (DropOf xB) (x2 40)].
Proof. split_and!; vdone. Qed.
(** A duplicate: two values of two bytes are dropped with the archetype, a zero-sized one is not. *)
Example C30_case_duplicate :
  let s := splay (vops ++ [SWorld (spawn_ [BWithDynData (xid 6) (x2 50); BWith xZ []; BWithDynData (xid 6) (x2 51); BBuild])]) in
  cells (ss_world s) = cells (ss_world vs) ∧
  drop 9 (splay_trace (vops ++ [SWorld (spawn_ [BWithDynData (xid 6) (x2 50); BWith xZ []; BWithDynData (xid 6) (x2 51); BBuild])])) =
  [(SWorld (spawn_ [BWithDynData (xid 6) (x2 50); BWith xZ []; BWithDynData (xid 6) (x2 51); BBuild]), RPanic RDuplicate,
    [EvDrop (DropFn 7) (x2 50); EvDrop (DropFn 7) (x2 51)])].
Proof. split_and!; vdone. Qed.
(** A value handed to a despawned entity is destroyed at once. *)
Example C30_case_back :
  drop 9 (splay_trace (vops ++ [SWorld (OAdd (xid 0) xA (x4 50))])) =
  [(SWorld (OAdd (xid 0) xA (x4 50)), RPanic RAssert, [EvDrop (DropOf xA) (x4 50)])].
Proof. vdone. Qed.
Example C30_case_drop : reachable_world xw ∧
  world_drop xw = Some [EvDrop (DropOf xA) (x4 3); EvDrop (DropOf xA) (x4 1); EvDrop (DropOf xB) (x2 20); EvDrop (DropOf xB) (x2 10); EvDrop (DropOf xA) (x4 2)].
Proof. xcase. Qed.
(** C48: a session with open queries, and what can be done next. *)
Example C48_case : reachable ys ∧ sop_legal (SOpenDyn [FImmut xcB]) ys ∧ sop_tame (SOpenDyn [FImmut xcB]) ys ∧
  ss_open ys !! 0 = Some (Some (QDyn (yd 0))) ∧ ss_open ys !! 2 = Some (Some (QStat (yq 2))) ∧
  (length <$> world_drop yw) = Some 5.
Proof. split_and!; vdone. Qed.
