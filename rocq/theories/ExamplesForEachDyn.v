(** * Concrete cases meeting the hypotheses of the theorems in PropsForEachDyn.
    These are tests and witnesses, not proofs of the properties. *)
From Verif Require Import ProofBase SpecForEachDyn ExamplesBase ProofRefutedQuery ExamplesWorld ExamplesQuery ProofFlightHist ExamplesForEach.

Lemma castable_b w x : match fetch_id x with
  | None => True
  | Some c => match get_entity_meta c w with
      | Done (Some m) _ _ => (cm_size (em_comp m) mod l_align (cm_layout (em_comp m)) =? 0) && negb (cm_size (em_comp m) =? 0) = true
      | _ => True end
  end → castable w x.
Proof.
  intros H c cm Hc Hr. rewrite Hc in H. rewrite /recorded in Hr. destruct (get_entity_meta c w) as [[m|] s ev|r s ev| |]; [|done..]. subst cm.
  apply andb_true_iff in H as [H1%Nat.eqb_eq H2%negb_true_iff%Nat.eqb_neq]. split; [done|by left].
Qed.
(** The world of ExamplesForEach; there A is component 1 and B is component 2. *)
Definition fexs : list fetch := [FEcsId; FMut (xid 1); FImmut (xid 2)].
Lemma fex_fits : rows_fit (ss_world fes) fexs feg.
Proof.
  intros xs j v. rewrite /feg. destruct xs as [|? [|? [|[?|[|x [|y [|]]]] [|]]]]; try (by rewrite lookup_nil).
  destruct j as [|[|j]]; cbn; [done| |by rewrite lookup_nil]. intros [= <-]. exists (xid 1). split; [done|].
  intros s m E. assert (match get_entity_meta (xid 1) (ss_world fes) with Done (Some m) _ _ => cm_size (em_comp m) = 4 | _ => False end) as H by (by vm_compute).
  by rewrite E in H.
Qed.
Lemma fexs_unshared : unshared_ids fexs.
Proof. intros [|[|[|j]]] [|[|[|j']]] t p; cbn; rewrite ?lookup_nil; try done; intros [= <-] [= <-]; done. Qed.
Lemma fex_in_use : all_in_use (ss_world fes) fexs.
Proof.
  intros p c Hp Hc. rewrite /fexs !elem_of_cons elem_of_nil in Hp. destruct Hp as [->|[->|[->|[]]]]; [done|..]; injection Hc as <-;
    apply in_use_iff; vm_compute; by repeat constructor.
Qed.
Lemma fex_castable : Forall (castable (ss_world fes)) fexs.
Proof.
  repeat (apply Forall_cons; split; [apply castable_b; by vm_compute|]). constructor.
Qed.
(** C67: the hypotheses of [C67_run] and [C67_runs], and what the loop does. *)
Example C67_case_run : Forall fetch_wf fexs ∧ fexs ≠ [] ∧ unshared_ids fexs ∧ closed_by (splay_trace feops) fes ∧
  all_in_use (ss_world fes) fexs ∧ Forall (castable (ss_world fes)) fexs ∧ rows_fit (ss_world fes) fexs feg ∧
  match run_dynamic fexs feg 4 (FSess fes ∅) with
  | Done n f ev => n = 3 ∧ ev = [] ∧ ss_open (fs_sess f) = [None] ∧
      held (ss_world (fs_sess f)) = [(xid 0, xid 1, x2 2 ++ x2 2); (xid 0, xid 2, x2 2); (xid 4, xid 1, x2 2 ++ x2 2); (xid 4, xid 2, x2 2);
        (xid 5, xid 1, x2 5 ++ x2 5); (xid 5, xid 2, x2 5); (xid 3, xid 1, x4 3)]
  | _ => False
  end.
Proof.
  split; [|split; [done|split; [apply fexs_unshared|split; [apply fes_closed|split; [apply fex_in_use|split; [apply fex_castable|split; [apply fex_fits|vm_compute; done]]]]]]].
  apply Forall_forall. intros p Hp. rewrite /fexs !elem_of_cons elem_of_nil in Hp. destruct Hp as [->|[->|[->|[]]]]; intros c [= <-]; by vm_compute.
Qed.
(** C67: the hypotheses of [C67_for_each]. *)
Definition fd1 : sess := match sstep (SOpenDyn fexs) fes with Done _ s _ => s | _ => sess_new end.
Example C67_case : freachable (FSess fd1 ∅) ∧
  match ss_open fd1 !! 0 with Some (Some (QDyn q)) => dq_fetches q = fexs | _ => False end ∧
  all_in_use (ss_world fd1) fexs ∧ Forall (castable (ss_world fd1)) fexs ∧ rows_fit (ss_world fd1) fexs feg.
Proof.
  split; [|split; [by vm_compute|split; [|split]]].
  - apply reachable_freachable. assert (fd1 = splay (feops ++ [SOpenDyn fexs])) as -> by (by vm_compute). eexists. apply splay_steps. by vm_compute.
  - intros p c Hp Hc. rewrite /fexs !elem_of_cons elem_of_nil in Hp. destruct Hp as [->|[->|[->|[]]]]; [done|..]; injection Hc as <-;
      apply in_use_iff; vm_compute; by repeat constructor.
  - repeat (apply Forall_cons; split; [apply castable_b; by vm_compute|]). constructor.
  - intros xs j v. rewrite /feg. destruct xs as [|? [|? [|[?|[|x [|y [|]]]] [|]]]]; try (by rewrite lookup_nil).
    destruct j as [|[|j]]; cbn; [done| |by rewrite lookup_nil]. intros [= <-]. exists (xid 1). split; [done|].
    intros s m E. assert (match get_entity_meta (xid 1) (ss_world fd1) with Done (Some m) _ _ => cm_size (em_comp m) = 4 | _ => False end) as H by (by vm_compute).
    by rewrite E in H.
Qed.
(** C67: the hypotheses of [C67_nothing]: entity 0 is no entity's component. *)
Definition fd2 : sess := match sstep (SOpenDyn [FMut (xid 0)]) fes with Done _ s _ => s | _ => sess_new end.
Example C67_case_nothing : freachable (FSess fd2 ∅) ∧
  match ss_open fd2 !! 0 with Some (Some (QDyn q)) => dq_fetches q = [FMut (xid 0)] | _ => False end ∧
  ¬ all_in_use (ss_world fd2) [FMut (xid 0)] ∧ ¬ left_over (ss_world fd2) [FMut (xid 0)] ∧
  match for_each_row [FMut (xid 0)] (λ _, [Some [None]]) 0 1 (FSess fd2 ∅) with Done n f ev => n = 0 ∧ ev = [] ∧ fs_iters f !! 0 = None | _ => False end.
Proof.
  split; [|split; [by vm_compute|split; [|split; [|by vm_compute]]]].
  - apply reachable_freachable. assert (fd2 = splay (feops ++ [SOpenDyn [FMut (xid 0)]])) as -> by (by vm_compute). eexists. apply splay_steps. by vm_compute.
  - intros H. assert (in_use (ss_world fd2) (xid 0)) as Hu by (eapply H; [by apply elem_of_list_singleton|done]).
    apply in_use_iff in Hu. revert Hu. by apply (bool_decide_unpack (_ ∉ _)); vm_compute.
  - intros [H _]. assert (known (ss_world fd2) (xid 0)) as [x Hx] by (eapply H; [by apply elem_of_list_singleton|done]). revert Hx. by vm_compute.
Qed.
