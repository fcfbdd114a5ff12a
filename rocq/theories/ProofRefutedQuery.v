(** * Executions refuting some expectations about queries (C10, C14, C40, C43, C44) *)
From Verif Require Import ProofBase SpecWorld ProofKnown ExamplesBase ProofRefuted.

(** The session after the calls [l]. *)
Definition splay (l : list sop) : sess := match play l sess_new with Some (_, s) => s | None => sess_new end.
Definition splays (l : list sop) : bool := match play l sess_new with Some _ => true | None => false end.
Lemma splay_reachable l : splays l = true → reachable (splay l).
Proof. rewrite /splays /splay. destruct (play l sess_new) as [[rs s]|] eqn:E; [|done]. intros _. by eapply play_reachable. Qed.
Ltac qdone :=
  lazymatch goal with
  | |- reachable _ => apply splay_reachable; vm_compute; reflexivity
  | |- sop_legal _ _ => apply sop_legal_b_ok; vm_compute; reflexivity
  | |- sop_tame _ _ => apply sop_tame_b_ok; vm_compute; reflexivity
  | |- layout_wf _ => apply layout_wf_b_ok; vm_compute; reflexivity
  | |- recorded _ _ _ => vm_compute; reflexivity
  | |- _ => zdone
  end.

Definition dyn_of (s : sess) (i : nat) : dquery :=
  match ss_open s !! i with Some (Some (QDyn q)) => q | _ => DQuery [] [] false end.
Definition static_of (s : sess) (i : nat) : squery :=
  match ss_open s !! i with Some (Some (QStat q)) => q | _ => SQuery [] [] None end.

(** C10: a query that fetches nothing shows no entity, not even one empty row for each. *)
Lemma no_fetches_no_rows : ∃ s i q e, reachable s ∧ ss_open s !! i = Some (Some (QDyn q)) ∧ wanted (ss_world s) (dq_fetches q) e ∧
  iter_dyn q 1 (ss_world s) = Done [None] (ss_world s) [].
Proof.
  set (s := splay [SWorld (zspawn [BWith zA (z4 1); BBuild]); SOpenDyn []]).
  exists s, 0, (dyn_of s 0), (zid 0). split_and!; [qdone..| |qdone]. split; [qdone|]. intros f c Hf. vm_compute in Hf. by apply elem_of_nil in Hf.
Qed.
(** C14: a lock made by a [build] that panicked. *)
Lemma left_over_panics : ∃ s i q c, reachable s ∧ ss_open s !! i = Some (Some (QDyn q)) ∧ dq_fetches q = [FImmut c] ∧
  (∀ e, ¬ has (ss_world s) e c) ∧ iter_dyn q 1 (ss_world s) = Panicked RUnwrap (ss_world s) [].
Proof.
  set (s := splay [SWorld (zspawn [BWith zA (z4 1); BWith zA (z4 2); BBuild]); SOpenDyn [FImmut (zid 1)]]).
  exists s, 0, (dyn_of s 0), (zid 1). split_and!; [qdone..| |qdone].
  intros e [v Hv%held_holds]. vm_compute in Hv. by apply elem_of_nil in Hv.
Qed.
(** C40: the type is registered, but not in use; a dynamic query over the same component is
    created and yields nothing. *)
Lemma unused_type_panics : ∃ s t c s' s'' q, reachable s ∧ sop_legal (SOpenStat [PRef t]) s ∧ sop_tame (SOpenStat [PRef t]) s ∧
  type_id (ss_world s) t c ∧ lives (ss_world s) c ∧ sstep (SOpenStat [PRef t]) s = Panicked RIndex s' [] ∧
  sstep (SOpenDyn [FImmut c]) s = Done (SHandle 0) s'' [] ∧ ss_open s'' !! 0 = Some (Some (QDyn q)) ∧
  iter_dyn q 1 (ss_world s'') = Done [None] (ss_world s'') [].
Proof.
  set (s := splay [SWorld (ORegister zA)]). set (s'' := splay [SWorld (ORegister zA); SOpenDyn [FImmut (zid 0)]]).
  exists s, zA, (zid 0), s, s'', (dyn_of s'' 0). split_and!; qdone.
Qed.
(** C40: creating the query [(&mut A, &B)] where only [A] is in use panics with the write guard
    held, which poisons the lock: no query over [A] can be created any more. *)
Lemma unused_type_poisons : ∃ s t t' s' s'', reachable s ∧ types_in_use (ss_world s) [PRef t] ∧
  sstep (SOpenStat [PMut t; PRef t']) s = Panicked RIndex s' [] ∧ reachable s' ∧ ss_open s' = [] ∧
  types_in_use (ss_world s') [PRef t] ∧ sstep (SOpenStat [PRef t]) s' = Panicked RPoisoned s'' [].
Proof.
  set (l := [SWorld (zspawn [BWith zA (z4 1); BBuild]); SWorld (ORegister zB)]).
  set (s := splay l). set (s' := splay (l ++ [SOpenStat [PMut zA; PRef zB]])).
  assert (∀ w, type_id w zA (zid 1) → in_use w (zid 1) → types_in_use w [PRef zA]) as Hu.
  { intros w H1 H2 p t ->%elem_of_list_singleton [= <-]. by exists (zid 1). }
  exists s, zA, zB, s', s'. split_and!; [qdone|apply Hu; qdone|qdone|qdone|qdone|apply Hu; qdone|qdone].
Qed.
(** C43: a component whose size is not a multiple of its alignment. *)
Definition meta64 : component_meta := CompMeta None (Layout 6 4).
Lemma second_misaligned : ∃ s i fs n ps j c cm p, reachable s ∧ open_row s i fs n ps ∧ fs !! j = Some (FMut c) ∧ ps !! j = Some p ∧
  recorded (ss_world s) c cm ∧ layout_wf (cm_layout cm) ∧ col_aligned (ss_world s) p (l_align (cm_layout cm)) = false.
Proof.
  set (c := zid 0).
  set (s := splay [SWorld (OSpawn None meta64 [BBuild] BDrop);
                   SWorld (zspawn [BWithDynData c (replicate 6 (Some 1%N)); BBuild]);
                   SWorld (zspawn [BWithDynData c (replicate 6 (Some 2%N)); BBuild]);
                   SOpenDyn [FMut c]]).
  exists s, 0, [FMut c], 1, [PCol 1 0 6], 0, c, meta64, (PCol 1 0 6).
  split_and!; [qdone| |qdone..].
  exists (QDyn (dyn_of s 0)). split_and!; qdone.
Qed.
(** C44: a component type without size, but aligned to 2 bytes. *)
Definition zZ2 : ty := Ty 9 0 2.
Lemma misaligned_unit : ∃ s t s' q, reachable s ∧ ty_wf t ∧ ty_size t = 0 ∧
  sstep (SOpenStat [PRef t]) s = Done (SHandle 0) s' [] ∧ ss_open s' !! 0 = Some (Some (QStat q)) ∧
  iter_static q 1 (ss_world s') = UB.
Proof.
  set (s := splay [SWorld (zspawn [BWith zZ2 []; BBuild])]).
  set (s' := match sstep (SOpenStat [PRef zZ2]) s with Done _ s' _ => s' | _ => s end).
  exists s, zZ2, s', (static_of s' 0). split_and!; [qdone|by apply ty_wf_b_ok|qdone..].
Qed.
