(** * Concrete cases meeting the hypotheses of the theorems in PropsForEach.
    These are tests and witnesses, not proofs of the properties. *)
From Verif Require Import ProofBase SpecForEach ExamplesBase ProofRefutedQuery ExamplesWorld ExamplesQuery ProofFlightHist.

(** Three entities with A and B, two of them alike, and one with A only. *)
Definition feops : list sop := SWorld <$>
  [spawn_ [BWith xA (x4 1); BWith xB (x2 2); BBuild]; spawn_ [BWith xA (x4 3); BBuild];
   spawn_ [BWith xA (x4 1); BWith xB (x2 2); BBuild]; spawn_ [BWith xA (x4 1); BWith xB (x2 5); BBuild]].
Definition fes : sess := splay feops.
Definition feps : list param := [PEcsIds; PMut xA; PRef xB].
(** The body copies B twice into A. *)
Definition feg (xs : list item) : list (option value) :=
  match xs with [_; _; IVal [x; y]] => [None; Some [x; y; x; y]] | _ => [] end.
Lemma feg_fits : writes_fit feps feg.
Proof.
  intros xs j v. rewrite /feg. destruct xs as [|? [|? [|[?|[|x [|y [|]]]] [|]]]]; try (by rewrite lookup_nil). 
  destruct j as [|[|j]]; cbn; [done| |by rewrite lookup_nil]. intros [= <-]. by exists xA.
Qed.
Lemma feps_unshared : unshared feps.
Proof.
  intros [|[|[|j]]] [|[|[|j']]] t p; cbn; rewrite ?lookup_nil; try done; intros [= <-] [= <-]; done.
Qed.
Lemma fes_closed : closed_by (splay_trace feops) fes.
Proof.
  split; [apply splay_steps; by vm_compute|]. split; [apply no_forget_b_ok; by vm_compute|]. split; [apply no_unwinding_b_ok; by vm_compute|].
  replace (ss_open fes) with (@nil (option oquery)) by (by vm_compute). constructor.
Qed.
Lemma fes_in_use : types_in_use (ss_world fes) feps.
Proof.
  intros p t Hp Ht. rewrite /feps !elem_of_cons elem_of_nil in Hp. destruct Hp as [->|[->|[->|[]]]]; [done|..]; injection Ht as <-.
  - exists (xid 1). split; [by vm_compute|]. apply in_use_iff. vm_compute. by repeat constructor.
  - exists (xid 2). split; [by vm_compute|]. apply in_use_iff. vm_compute. by repeat constructor.
Qed.
(** C66: the hypotheses of [C66_run] and [C66_runs], and what the loop does. *)
Example C66_case_run : Forall param_wf feps ∧ Forall param_tame feps ∧ feps ≠ [] ∧ unshared feps ∧ writes_fit feps feg ∧
  closed_by (splay_trace feops) fes ∧ types_in_use (ss_world fes) feps ∧
  match run_query feps feg 4 (FSess fes ∅) with
  | Done n f ev => n = 3 ∧ ev = [] ∧ ss_open (fs_sess f) = [None] ∧
      held (ss_world fes) = [(xid 0, xid 1, x4 1); (xid 0, xid 2, x2 2); (xid 4, xid 1, x4 1); (xid 4, xid 2, x2 2);
        (xid 5, xid 1, x4 1); (xid 5, xid 2, x2 5); (xid 3, xid 1, x4 3)] ∧
      held (ss_world (fs_sess f)) = [(xid 0, xid 1, x2 2 ++ x2 2); (xid 0, xid 2, x2 2); (xid 4, xid 1, x2 2 ++ x2 2); (xid 4, xid 2, x2 2);
        (xid 5, xid 1, x2 5 ++ x2 5); (xid 5, xid 2, x2 5); (xid 3, xid 1, x4 3)]
  | _ => False
  end.
Proof.
  split; [apply Forall_forall; intros p Hp; rewrite /feps !elem_of_cons elem_of_nil in Hp; destruct Hp as [->|[->|[->|[]]]]; [done|apply ty_wf_b_ok; by vm_compute..]|].
  split; [apply Forall_forall; intros p Hp; rewrite /feps !elem_of_cons elem_of_nil in Hp; destruct Hp as [->|[->|[->|[]]]]; [done|by intros t [= <-]; left..]|].
  split; [done|]. split; [apply feps_unshared|]. split; [apply feg_fits|]. split; [apply fes_closed|]. split; [apply fes_in_use|]. vm_compute. done.
Qed.
(** With too little fuel the model has no answer. *)
Example C66_case_fuel : match run_query feps feg 3 (FSess fes ∅) with UB => True | _ => False end.
Proof. vm_compute. done. Qed.
(** C66: the hypotheses of [C66_for_each]. *)
Definition fe1 : sess := match sstep (SOpenStat feps) fes with Done _ s _ => s | _ => sess_new end.
Example C66_case : freachable (FSess fe1 ∅) ∧
  match ss_open fe1 !! 0 with
  | Some (Some (QStat q)) => sq_params q = feps
  | _ => False
  end ∧ types_in_use (ss_world fe1) feps ∧ writes_fit feps feg.
Proof.
  split; [|split; [by vm_compute|split; [|apply feg_fits]]].
  - apply reachable_freachable. assert (fe1 = splay (feops ++ [SOpenStat feps])) as -> by (by vm_compute).
    eexists. apply splay_steps. by vm_compute.
  - intros p t Hp Ht. destruct (fes_in_use p t Hp Ht) as (c & Hc & (k & a & j & u & Ha & Hj)). exists c. split.
    + revert Hc. rewrite /type_id. by assert (w_types (ss_world fe1) = w_types (ss_world fes)) as -> by (by vm_compute).
    + exists k, a, j, u. split; [|done]. revert Ha. by assert (w_archs (ss_world fe1) = w_archs (ss_world fes)) as -> by (by vm_compute).
Qed.
(** C66: the hypotheses of [C66_nothing]: a type that was never registered. *)
Definition fe2 : sess := match sstep (SOpenStat [PMut yC]) fes with Done _ s _ => s | _ => sess_new end.
Example C66_case_nothing : freachable (FSess fe2 ∅) ∧
  match ss_open fe2 !! 0 with Some (Some (QStat q)) => sq_params q = [PMut yC] | _ => False end ∧
  unregistered (ss_world fe2) [PMut yC] ∧
  match for_each (λ _, [Some [None]]) 0 1 (FSess fe2 ∅) with Done n f ev => n = 0 ∧ ev = [] ∧ fs_iters f !! 0 = None | _ => False end.
Proof.
  split; [|split; [by vm_compute|split; [|by vm_compute]]].
  - apply reachable_freachable. assert (fe2 = splay (feops ++ [SOpenStat [PMut yC]])) as -> by (by vm_compute).
    eexists. apply splay_steps. by vm_compute.
  - exists (PMut yC), yC. split; [by apply elem_of_list_singleton|]. split; [done|]. intros c. by vm_compute.
Qed.
