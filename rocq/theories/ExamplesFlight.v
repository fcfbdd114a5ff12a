(** * Concrete cases meeting the hypotheses of the theorems in PropsFlight.
    These are tests and witnesses, not proofs of the properties. *)
From Verif Require Import ProofBase SpecFlight ExamplesBase ProofRefutedQuery ExamplesWorld ExamplesQuery ProofFlightHist.

Definition fop_legal_b (o : fop) (f : fsess) : bool :=
  match o with
  | FCall o => sop_legal_b o (fs_sess f)
  | FGet _ e => id_wf_b e
  | FStore i n j r v => sop_legal_b (SStore i n j v) (fs_sess f)
  | _ => true
  end.
Lemma fop_legal_b_ok o f : fop_legal_b o f = true → fop_legal o f.
Proof.
  destruct o as [o|i|i|i|i e|i|i n j r v]; cbn [fop_legal_b fop_legal]; [apply sop_legal_b_ok|done..|apply id_wf_b_ok|done|].
  apply (sop_legal_b_ok (SStore i n j v)).
Qed.
Definition fop_tame_b (o : fop) (f : fsess) : bool := match o with FCall o => sop_tame_b o (fs_sess f) | _ => true end.
Lemma fop_tame_b_ok o f : fop_tame_b o f = true → fop_tame o f.
Proof. destruct o; cbn; auto using sop_tame_b_ok. Qed.
Fixpoint fplay (l : list fop) (f : fsess) : option (list (fop * fres * list event) * fsess) :=
  match l with
  | [] => Some ([], f)
  | o :: l' =>
      if fop_legal_b o f && fop_tame_b o f then
        match fstep o f with
        | Done r f' ev => '(rs, f2) ← fplay l' f'; Some ((o, FOk r, ev) :: rs, f2)
        | Panicked r f' ev => if resumable_b r then '(rs, f2) ← fplay l' f'; Some ((o, FPanic r, ev) :: rs, f2) else None
        | _ => None
        end
      else None
  end.
Lemma fplay_steps l f0 l0 f rs f' : fsteps f0 l0 f → fplay l f = Some (rs, f') → fsteps f0 (l0 ++ rs) f'.
Proof.
  revert f l0 rs. induction l as [|o l IH]; intros f l0 rs H0 H; cbn in H; [simplify_eq; by rewrite app_nil_r|].
  destruct (fop_legal_b o f && fop_tame_b o f) eqn:E; [|done]. apply andb_true_iff in E as [El%fop_legal_b_ok Et%fop_tame_b_ok].
  destruct (fstep o f) as [r f1 ev|r f1 ev| |] eqn:Ex; [| |done..].
  - destruct (fplay l f1) as [[rs1 s2]|] eqn:Ep; [|done]. cbn in H. simplify_eq. rewrite (cons_middle _ l0) app_assoc. eapply IH; [|done]. by eapply fsteps_done.
  - destruct (resumable_b r) eqn:Er; [|done]. destruct (fplay l f1) as [[rs1 s2]|] eqn:Ep; [|done]. cbn in H. simplify_eq.
    rewrite (cons_middle _ l0) app_assoc. eapply IH; [|done]. eapply fsteps_panic; [done..|]. by destruct r.
Qed.
Definition fplays (l : list fop) : bool := match fplay l fsess_new with Some _ => true | None => false end.
Definition fplayed (l : list fop) : fsess := match fplay l fsess_new with Some (_, f) => f | None => fsess_new end.
Definition ftrace (l : list fop) : list (fop * fres * list event) := match fplay l fsess_new with Some (rs, _) => rs | None => [] end.
Definition fanswers (l : list fop) : list fres := (ftrace l).*1.*2.
Lemma fplayed_steps l : fplays l = true → fsteps fsess_new (ftrace l) (fplayed l).
Proof. rewrite /fplays /fplayed /ftrace. destruct (fplay l fsess_new) as [[rs f]|] eqn:E; [|done]. intros _. by apply (fplay_steps l _ [] fsess_new); [constructor|]. Qed.
Lemma fplay_reachable l : fplays l = true → freachable (fplayed l).
Proof. intros H. exists (ftrace l). by apply fplayed_steps. Qed.

(** The session of ExamplesQuery.  The iterator of query 0 (entities with A, for writing) yields
    two of its three rows; between them, a query is opened and dropped, the iterators of the
    static query 2 and the columns of query 1 advance, [has_component] is called, and the A of the
    entity of the first row is overwritten. *)
Definition fops : list fop := (FCall <$> yops) ++
  [FIter 0; FNext 0; FIter 2; FCall (SOpenDyn [FImmut xcB]); FNext 2; FColumns 1; FStore 0 0 1 0 (x4 70); FNext 1;
   FCall (SWorld (OHas (xid 3) xZ)); FCall (SDrop 7 false); FNext 0; FNext 1].
Definition ff : fsess := fplayed fops.
Example C55_case : freachable ff ∧
  drop 17 (fanswers fops) =
    [FOk FNothing; FOk (FRow (Some [PEnt 1 0; PCol 1 0 0])); FOk FNothing; FOk (FRet (SHandle 7));
     FOk (FRef (Some [(PEnt 1 0, IEnt (xid 0)); (PCol 1 1 0, IVal (x2 10))])); FOk FNothing; FOk FNothing;
     FOk (FCol (Some [(PEnt 0 0, 5)])); FOk (FRet (SRet (RBool true))); FOk (FRet SNothing);
     FOk (FRow (Some [PEnt 1 8; PCol 1 0 4])); FOk (FCol (Some [(PEnt 1 0, 2)]))] ∧
  (∃ it, fs_iters ff !! 0 = Some (FlRows it [Some [PEnt 1 0; PCol 1 0 0]; Some [PEnt 1 8; PCol 1 0 4]])) ∧
  (∃ it, fs_iters ff !! 1 = Some (FlCols it [Some [(PEnt 0 0, 5)]; Some [(PEnt 1 0, 2)]])) ∧
  (∃ it, fs_iters ff !! 2 = Some (FlRefs it [Some [PEnt 1 0; PCol 1 1 0]])) ∧
  ss_open (fs_sess ff) !! 0 = Some (Some (QDyn (yd 0))) ∧ ss_open (fs_sess ff) !! 2 = Some (Some (QStat (yq 2))).
Proof.
  split; [apply fplay_reachable; vm_compute; reflexivity|]. split; [vm_compute; reflexivity|].
  split_and!; try (eexists; vm_compute; reflexivity); vm_compute; reflexivity.
Qed.
(** The conditions of C55_rows, C55_cols and C55_refs hold of it. *)
Example C55_case_next : dq_fetches (yd 0) = [FEcsId; FMut xcA] ∧ dq_fetches (yd 1) = [FEcsId] ∧ sq_params (yq 2) = [PEcsIds; PRef xB] ∧
  ¬ left_over (ss_world (fs_sess ff)) [FEcsId; FMut xcA] ∧ ¬ left_over (ss_world (fs_sess ff)) [FEcsId] ∧
  types_in_use (ss_world (fs_sess ff)) (sq_params (yq 2)).
Proof.
  split; [ydone|]. split; [ydone|]. split; [ydone|]. split; [|split].
  - intros [_ Hn]. apply Hn. intros g c [->|[->|[]%elem_of_nil]%elem_of_cons]%elem_of_cons Hc; [done|]. injection Hc as <-. ydone.
  - intros [_ Hn]. apply Hn. intros g c [->|[]%elem_of_nil]%elem_of_cons Hc; done.
  - intros p t Hp Ht. vm_compute in Hp. apply elem_of_cons in Hp as [->|Hp]; [done|]. apply elem_of_list_singleton in Hp as ->.
    injection Ht as <-. exists xcB. split; ydone.
Qed.
(** Rows in the hands of the caller, and a write through one of them. *)
Definition fwrites (o : outcome fsess fret) : option (list (ecsid * ecsid * value)) :=
  match o with Done FNothing f [] => Some (held (ss_world (fs_sess f))) | _ => None end.
Example C55_case_rows : held_row ff 0 0 0 [FEcsId; FMut xcA] [PEnt 1 0; PCol 1 0 0] ∧ held_row ff 0 1 0 [FEcsId; FMut xcA] [PEnt 1 8; PCol 1 0 4] ∧
  held_row ff 2 0 0 [FEcsId; FImmut xcB] [PEnt 1 0; PCol 1 1 0] ∧ held_row ff 1 1 1 [FEcsId] [PEnt 1 8] ∧
  fop_legal (FStore 0 1 1 0 (x4 80)) ff ∧
  held (ss_world (fs_sess ff)) = [(xid 0, xcA, x4 70); (xid 0, xcB, x2 10); (xid 7, xcA, x4 3); (xid 7, xcB, x2 20); (xid 3, xcA, x4 2); (xid 3, xcZ, [])] ∧
  fwrites (fstep (FStore 0 1 1 0 (x4 80)) ff) =
    Some [(xid 0, xcA, x4 70); (xid 0, xcB, x2 10); (xid 7, xcA, x4 80); (xid 7, xcB, x2 20); (xid 3, xcA, x4 2); (xid 3, xcZ, [])].
Proof.
  split; [eexists _, _; split; [vm_compute; reflexivity|]; split; [vm_compute; reflexivity|]; split; [vm_compute; reflexivity|]; by split|].
  split; [eexists _, _; split; [vm_compute; reflexivity|]; split; [vm_compute; reflexivity|]; split; [vm_compute; reflexivity|]; by split|].
  split; [eexists _, _; split; [vm_compute; reflexivity|]; split; [vm_compute; reflexivity|]; split; [vm_compute; reflexivity|]; by split|].
  split; [eexists _, _; split; [vm_compute; reflexivity|]; split; [vm_compute; reflexivity|]; split; [vm_compute; reflexivity|]; eexists; split; vm_compute; reflexivity|].
  split; [apply fop_legal_b_ok; vm_compute; reflexivity|]. split; vm_compute; reflexivity.
Qed.
(** No call on the world panicked in it. *)
Definition fquiet (l : list (fop * fres * list event)) : bool :=
  forallb (λ x, match x with (FCall (SWorld _), FPanic _, _) => false | _ => true end) l.
Lemma fquiet_ok l o r ev : fquiet l = true → (FCall (SWorld o), FPanic r, ev) ∉ l.
Proof. rewrite /fquiet forallb_forall. intros H Hin%elem_of_list_In. by specialize (H _ Hin). Qed.
Example C55_case_history : fsteps fsess_new (ftrace fops) ff ∧ (∀ o r ev, (FCall (SWorld o), FPanic r, ev) ∉ ftrace fops) ∧ length (ftrace fops) = 29.
Proof.
  split; [apply fplayed_steps; vm_compute; reflexivity|]. split; [|vm_compute; reflexivity].
  intros o r ev. apply fquiet_ok. vm_compute. reflexivity.
Qed.
