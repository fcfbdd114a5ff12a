(** * Concrete cases meeting the hypotheses of the theorems in PropsQuery.
    These are tests and witnesses, not proofs of the properties. *)
From Verif Require Import ProofBase SpecWorld SpecQuery ExamplesBase ProofRefutedQuery ExamplesWorld ProofQueryLaws.

(** The history made by [play]. *)
Definition trace (l : list sop) (rs : list (res * list event)) : list (sop * res * list event) := zip_with (λ o r, (o, r.1, r.2)) l rs.
Lemma play_trace l s rs s' : play l s = Some (rs, s') → steps s (trace l rs) s'.
Proof.
  revert s rs. induction l as [|o l IH]; intros s rs H; cbn in H.
  { simplify_eq. constructor. }
  destruct (sop_legal_b o s && sop_tame_b o s) eqn:E; [|done]. apply andb_true_iff in E as [El%sop_legal_b_ok Et%sop_tame_b_ok].
  destruct (sstep o s) as [r s1 ev|r s1 ev| |] eqn:Ex; [| |done..].
  - destruct (play l s1) as [[rs1 s2]|] eqn:Ep; [|done]. cbn in H. simplify_eq. pose proof (IH _ _ Ep) as Htr.
    change (trace (o :: l) ((ROk r, ev) :: rs1)) with ([(o, ROk r, ev)] ++ trace l rs1).
    eapply steps_app; [|done]. apply (steps_done s [] s); [constructor|done..].
  - destruct (resumable_b r) eqn:Er; [|done]. destruct (play l s1) as [[rs1 s2]|] eqn:Ep; [|done]. cbn in H. simplify_eq.
    pose proof (IH _ _ Ep) as Htr. change (trace (o :: l) ((RPanic r, ev) :: rs1)) with ([(o, RPanic r, ev)] ++ trace l rs1).
    eapply steps_app; [|done]. apply (steps_panic s [] s); [constructor|done..|]. by destruct r.
Qed.
Definition splay_trace (l : list sop) : list (sop * res * list event) := match play l sess_new with Some (rs, _) => trace l rs | None => [] end.
Lemma splay_steps l : splays l = true → steps sess_new (splay_trace l) (splay l).
Proof. rewrite /splays /splay /splay_trace. destruct (play l sess_new) as [[rs s]|] eqn:E; [|done]. intros _. by apply play_trace. Qed.
Definition no_panic_b (l : list (sop * res * list event)) : bool :=
  forallb (λ x, match x with (SWorld _, RPanic _, _) => false | _ => true end) l.
Lemma no_panic_b_ok l : no_panic_b l = true → no_panic l.
Proof. rewrite /no_panic_b forallb_forall. intros H o r ev Hin%elem_of_list_In. by specialize (H _ Hin). Qed.
Definition no_forget_b (l : list (sop * res * list event)) : bool := forallb (λ o, match o with SForget _ => false | _ => true end) (calls_of l).
Lemma no_forget_b_ok l : no_forget_b l = true → no_forget l.
Proof. rewrite /no_forget_b forallb_forall. intros H i Hin%elem_of_list_In. by specialize (H _ Hin). Qed.
Definition no_unwinding_b (l : list (sop * res * list event)) : bool :=
  forallb (λ x, match x with (SDrop _ true, _, _) | (SOpenDyn _, RPanic _, _) | (SOpenStat _, RPanic _, _) => false | _ => true end) l.
Lemma no_unwinding_b_ok l : no_unwinding_b l = true → no_unwinding l.
Proof.
  rewrite /no_unwinding_b forallb_forall. intros H. split.
  - intros i Hin. rewrite /calls_of -list_fmap_compose in Hin. apply elem_of_list_fmap in Hin as ([[o r] ev] & Ho & Hin%elem_of_list_In).
    cbn in Ho. subst o. by specialize (H _ Hin).
  - intros o r ev Hin%elem_of_list_In. specialize (H _ Hin). destruct o; intros Hx; by (destruct Hx || discriminate H).
Qed.

Ltac ydone :=
  lazymatch goal with
  | |- steps sess_new _ _ => apply splay_steps; vm_compute; reflexivity
  | |- no_panic _ => apply no_panic_b_ok; vm_compute; reflexivity
  | |- no_forget _ => apply no_forget_b_ok; vm_compute; reflexivity
  | |- no_unwinding _ => apply no_unwinding_b_ok; vm_compute; reflexivity
  | |- _ => qdone
  end.

(** The world of ExamplesWorld (without its last, rejected, call) with seven queries open: entities with the component A for
    writing, entities of all archetypes, the static queries [(EcsIds, &B)] and [(&Z,)], one over
    a component nobody has and one over a type that was never registered. *)
Definition yC : ty := Ty 8 1 1.
Definition yops : list sop := (SWorld <$> take 10 xops) ++
  [SOpenDyn [FEcsId; FMut xcA]; SOpenDyn [FEcsId]; SOpenStat [PEcsIds; PRef xB]; SOpenStat [PRef xZ];
   SOpenDyn [FImmut xcB; FImmut (xid 6)]; SOpenStat [PMut yC; PRef xB]; SOpenDyn []].
Definition ys : sess := splay yops.
Definition yw : world := ss_world ys.
Definition answers {A} (o : outcome world A) : option A := match o with Done x _ [] => Some x | _ => None end.
Definition yd (i : nat) : dquery := dyn_of ys i.
Definition yq (i : nat) : squery := static_of ys i.
Lemma not_left_over_quiet fs : ¬ left_over (ss_world ys) fs.
Proof. apply (no_left_over (splay_trace yops)); ydone. Qed.

Example ys_open : reachable ys ∧ length (ss_open ys) = 7 ∧ held yw = held xw ∧
  ss_open ys !! 0 = Some (Some (QDyn (yd 0))) ∧ ss_open ys !! 1 = Some (Some (QDyn (yd 1))) ∧ ss_open ys !! 2 = Some (Some (QStat (yq 2))) ∧
  ss_open ys !! 3 = Some (Some (QStat (yq 3))) ∧ ss_open ys !! 4 = Some (Some (QDyn (yd 4))) ∧ ss_open ys !! 5 = Some (Some (QStat (yq 5))) ∧
  ss_open ys !! 6 = Some (Some (QDyn (yd 6))).
Proof. split_and!; ydone. Qed.

(** Three entities have A; the rows point to their ids and to their four bytes. *)
Example C10_case : ¬ left_over (ss_world ys) (dq_fetches (yd 0)) ∧ dq_fetches (yd 0) = [FEcsId; FMut xcA] ∧
  answers (iter_dyn (yd 0) 5 yw) = Some [Some [PEnt 1 0; PCol 1 0 0]; Some [PEnt 1 8; PCol 1 0 4]; Some [PEnt 2 0; PCol 2 0 0]; None; None] ∧
  deref_ent yw (PEnt 1 8) = Some (xid 7) ∧ deref_val yw (PCol 1 0 4) 4 = Some (x4 3) ∧
  answers (iter_dyn (yd 6) 2 yw) = Some [None; None].
Proof. split_and!; [apply not_left_over_quiet|ydone..]. Qed.
(** Every built entity, of all archetypes, also of the emptied ones. *)
Definition row_ids (w : world) (r : option (list qptr)) : list ecsid := omap (deref_ent w) (default [] r).
Example C10_case_ids : option_map (map (row_ids yw)) (answers (iter_dyn (yd 1) 9 yw)) =
  Some [[xid 1]; [xid 2]; [xid 4]; [xid 6]; [EcsId 1 8]; [xid 0]; [xid 7]; [xid 3]; []].
Proof. ydone. Qed.
Example C11_case : sq_params (yq 2) = [PEcsIds; PRef xB] ∧ types_in_use (ss_world ys) (sq_params (yq 2)) ∧
  answers (iter_static (yq 2) 3 yw) =
    Some [Some [(PEnt 1 0, IEnt (xid 0)); (PCol 1 1 0, IVal (x2 10))]; Some [(PEnt 1 8, IEnt (xid 7)); (PCol 1 1 2, IVal (x2 20))]; None].
Proof.
  split_and!; [ydone| |ydone]. intros p t Hp Ht. vm_compute in Hp. apply elem_of_cons in Hp as [->|Hp]; [done|]. apply elem_of_list_singleton in Hp as ->.
  injection Ht as <-. exists xcB. split; ydone.
Qed.
Example C12_case :
  answers (sq_get (yq 2) (xid 7) yw) = Some (Some [(PEnt 1 8, IEnt (xid 7)); (PCol 1 1 2, IVal (x2 20))]) ∧
  answers (sq_get (yq 2) (xid 3) yw) = Some None ∧ answers (sq_get (yq 3) (xid 3) yw) = Some (Some [(PCol 2 1 0, IVal [])]) ∧
  answers (sq_get (yq 2) (xid 8) yw) = Some None ∧ sq_get (yq 2) (xid 30) yw = Panicked RNoGeneration yw [].
Proof. split_and!; ydone. Qed.
Example C13_case : answers (iter_cols (yd 0) 3 yw) = Some [Some [(PEnt 1 0, 2); (PCol 1 0 0, 2)]; Some [(PEnt 2 0, 1); (PCol 2 0 0, 1)]; Some [(PEnt 3 0, 0); (PCol 3 0 0, 0)]] ∧
  column_rows yw (dq_fetches (yd 0)) [(PEnt 1 0, 2); (PCol 1 0 0, 2)] = [[PEnt 1 0; PCol 1 0 0]; [PEnt 1 8; PCol 1 0 4]].
Proof. split_and!; ydone. Qed.
Example C14_case : steps sess_new (splay_trace yops) ys ∧ no_panic (splay_trace yops) ∧ length (splay_trace yops) = 17 ∧
  dq_fetches (yd 4) = [FImmut xcB; FImmut (xid 6)] ∧ ¬ in_use (ss_world ys) (xid 6) ∧ answers (iter_dyn (yd 4) 2 yw) = Some [None; None] ∧
  sq_params (yq 5) = [PMut yC; PRef xB] ∧ w_types (ss_world ys) !! yC = None ∧ answers (iter_static (yq 5) 2 yw) = Some [None; None].
Proof. split_and!; ydone. Qed.
Example C38_case_get : param_ty <$> sq_params (yq 3) = [Some xZ] ∧
  answers (sq_get (yq 3) (xid 3) yw) = Some (Some [(PCol 2 1 0, IVal [])]) ∧ step (OHas (xid 3) xZ) yw = Done (RBool true) yw [] ∧
  answers (sq_get (yq 3) (xid 7) yw) = Some None ∧ step (OHas (xid 7) xZ) yw = Done (RBool false) yw [].
Proof. split_and!; ydone. Qed.

(** Opening more queries in this session, which is without leaked or unwound guards. *)
Definition opened (o : outcome sess sret) : option nat := match o with Done (SHandle i) _ [] => Some i | _ => None end.
Example C40_case : steps sess_new (splay_trace yops) ys ∧ no_forget (splay_trace yops) ∧ no_unwinding (splay_trace yops) ∧
  open_fetches ys = [FEcsId; FMut xcA; FEcsId; FEcsId; FImmut xcB; FImmut xcZ; FImmut xcB; FImmut (xid 6)] ∧
  opened (sstep (SOpenDyn [FImmut xcB; FMut xcZ]) ys) = None ∧ opened (sstep (SOpenDyn [FImmut xcB; FImmut xcZ]) ys) = Some 7 ∧
  sstep (SOpenStat [PRef xA]) ys = Deadlock ∧ sstep (SOpenDyn [FImmut xcA]) ys = Deadlock ∧
  opened (sstep (SOpenStat [PRef xB; PEcsIds]) ys) = Some 7.
Proof. split_and!; ydone. Qed.
(** Dropping a query while unwinding poisons its locks. *)
Example C40_case_poisoned : let s := splay (yops ++ [SDrop 0 true]) in
  reachable s ∧ sstep (SOpenDyn [FImmut xcA]) s = Panicked RPoisoned s [] ∧ opened (sstep (SOpenDyn [FImmut xcB]) s) = Some 7.
Proof. split_and!; ydone. Qed.
Example C42_case : let s' := splay (yops ++ [SOpenDyn [FImmut xcB; FImmut xcZ; FEcsId]]) in
  reachable s' ∧ opens (SOpenDyn [FImmut xcB; FImmut xcZ; FEcsId]) ∧ map rw_readers (w_locks (ss_world s')) = [0; 3; 2] ∧ map rw_readers (w_locks (ss_world ys)) = [0; 2; 1] ∧
  sstep (SDrop 7 false) s' = Done SNothing (Sess (ss_world ys) (ss_open ys ++ [None])) [].
Proof. split_and!; [ydone|exact I|ydone..]. Qed.
(** A leaked query keeps its locks. *)
Example C41_case : let s := splay ((SWorld <$> xops) ++ [SOpenDyn [FMut xcA]; SForget 0; SOpenDyn [FMut xcB; FImmut xcZ]]) in
  reachable s ∧ open_fetches s = [FMut xcB; FImmut xcZ] ∧ sstep (SOpenDyn [FImmut xcA]) s = Deadlock ∧ sstep (SOpenStat [PMut xB]) s = Deadlock.
Proof. split_and!; ydone. Qed.

Example C43_case : open_row ys 0 [FEcsId; FMut xcA] 1 [PEnt 1 8; PCol 1 0 4] ∧ open_row ys 0 [FEcsId; FMut xcA] 2 [PEnt 2 0; PCol 2 0 0] ∧
  open_row ys 2 [FEcsId; FImmut xcB] 1 [PEnt 1 8; PCol 1 1 2] ∧ recorded (ss_world ys) xcA (cm_from_generic xA) ∧
  ptr_extent yw (PCol 1 0 4) = Some 16 ∧ fetch_size yw (FMut xcA) = 4 ∧ col_aligned yw (PCol 1 0 4) 4 = true.
Proof.
  split_and!; [exists (QDyn (yd 0))|exists (QDyn (yd 0))|exists (QStat (yq 2))|ydone..]; split_and!; ydone.
Qed.
(** A query for A and a zero-sized type aligned to 2 bytes, over entities with both, with A only and
    with both but despawned. *)
Definition uops : list sop := SWorld <$> [spawn_ [BWith xA (x4 1); BWith zZ2 []; BBuild]; spawn_ [BWith xA (x4 2); BBuild]].
Definition uopen (l : list sop) : sess := match sstep (SOpenStat [PMut xA; PRef zZ2]) (splay l) with Done _ s _ => s | _ => sess_new end.
Example C44_case : let s' := uopen uops in let q := static_of s' 0 in
  reachable (splay uops) ∧ sstep (SOpenStat [PMut xA; PRef zZ2]) (splay uops) = Done (SHandle 0) s' [] ∧
  ss_open s' !! 0 = Some (Some (QStat q)) ∧ sq_get q (xid 0) (ss_world s') = UB ∧ iter_static q 1 (ss_world s') = UB ∧
  answers (sq_get q (xid 3) (ss_world s')) = Some None ∧ ents_is_alive (w_ents (ss_world s')) (xid 3) = Some true.
Proof. split_and!; ydone. Qed.
Example C44_case_untame : ¬ Forall (λ p, ∀ t, param_ty p = Some t → ty_size t ≠ 0 ∨ ty_align t = 1) [PMut xA; PRef zZ2].
Proof. intros [_ [H _]%Forall_cons]%Forall_cons. by destruct (H zZ2 eq_refl). Qed.
Example C44_case_wants : wants (ss_world (uopen uops)) [PMut xA; PRef zZ2] (xid 0).
Proof.
  split; [ydone|]. intros p t [->|[->|Hp]%elem_of_cons]%elem_of_cons Ht; [| |by apply elem_of_nil in Hp]; injection Ht as <-.
  - exists (xid 1). split; [ydone|]. exists (x4 1). ydone.
  - exists (xid 2). split; [ydone|]. exists []. ydone.
Qed.
Example C44_case_none : let l := uops ++ [SWorld (ODespawn (xid 0))] in let q := static_of (uopen l) 0 in
  reachable (splay l) ∧ sstep (SOpenStat [PMut xA; PRef zZ2]) (splay l) = Done (SHandle 0) (uopen l) [] ∧
  ss_open (uopen l) !! 0 = Some (Some (QStat q)) ∧ answers (iter_static q 2 (ss_world (uopen l))) = Some [None; None].
Proof. split_and!; ydone. Qed.
(** Nothing but the written component of the row's entity changes. *)
Definition swrites (o : outcome sess sret) : option (list (ecsid * ecsid * value)) :=
  match o with Done SNothing s [] => Some (held (ss_world s)) | _ => None end.
Example C45_case_store : sop_legal (SStore 0 1 1 (x4 70)) ys ∧ swrites (sstep (SStore 0 1 1 (x4 70)) ys) =
    Some [(xid 0, xcA, x4 1); (xid 0, xcB, x2 10); (xid 7, xcA, x4 70); (xid 7, xcB, x2 20); (xid 3, xcA, x4 2); (xid 3, xcZ, [])].
Proof. split_and!; ydone. Qed.
