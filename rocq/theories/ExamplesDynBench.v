(** * Concrete cases meeting the hypotheses of the theorems in PropsDynBench.
    These are tests and witnesses, not proofs of the properties. *)
From Verif Require Import ProofBase SpecDynBench ExamplesBase ProofRefutedQuery ExamplesWorld ExamplesQuery ProofFlightHist ExamplesForEach ExamplesForEachDyn.

Lemma fits_b w p : match get_entity_meta p.1 w with
  | Done (Some m) _ _ => (length p.2 =? cm_size (em_comp m)) && bool_decide (id_wf p.1) = true
  | _ => False
  end → fits_in w p.
Proof.
  destruct (get_entity_meta p.1 w) as [[m|] s ev|r s ev| |] eqn:E; [|done..]. intros [H1%Nat.eqb_eq H2%bool_decide_eq_true]%andb_true_iff.
  split; [done|]. exists (em_comp m). split; [|done]. by rewrite /recorded E.
Qed.
(** The world of ExamplesForEach; there A is component 1 and B is component 2. *)
Definition dbps : list (component_meta * list (ecsid * value)) :=
  [(cm_unit, [(xid 2, x2 7); (xid 1, x4 8)]); (CompMeta (Some (DropFn 9)) (Layout 4 2), []); (cm_unit, [(xid 2, x2 6)])].
(** C71: the hypotheses of [C71_spawns], and what is there afterwards. *)
Example C71_case_spawns : steps sess_new (splay_trace feops) fes ∧ Forall (λ q, q = None) (ss_open fes) ∧
  Forall (λ p, layout_wf (cm_layout p.1) ∧ Forall (fits_in (ss_world fes)) p.2 ∧ NoDup p.2.*1) dbps ∧
  dyn_roomy (splay_trace feops) (ss_world fes) dbps ∧
  match spawn_dynamics dbps fes with
  | Done es s ev => es = [xid 6; xid 7; xid 8] ∧ ev = [] ∧
      filter (λ p, p.1.1 ∈ es) (held (ss_world s)) = [(xid 6, xid 1, x4 8); (xid 6, xid 2, x2 7); (xid 8, xid 2, x2 6)] ∧
      recorded (ss_world s) (xid 7) (CompMeta (Some (DropFn 9)) (Layout 4 2))
  | _ => False
  end.
Proof.
  destruct fes_closed as (H1 & _ & _ & H2). split; [done|]. split; [done|]. split; [|split; [split; [|split]; by vm_compute|by vm_compute]].
  repeat (apply Forall_cons; split); [..|by apply Forall_nil]; (split; [by vm_compute|]); (split; [|by apply (bool_decide_unpack (NoDup _)); vm_compute]);
    repeat (apply Forall_cons; split); try (by apply Forall_nil); apply fits_b; by vm_compute.
Qed.

(** Components with a destructor and without, and entities of two kinds; the body copies part of the
    second component into the first. *)
Definition dbcms : list component_meta := [CompMeta (Some (DropFn 9)) (Layout 4 4); CompMeta None (Layout 2 2)].
Definition dbls (cs : list ecsid) : list (list (ecsid * value)) :=
  match cs with [a; b] => [[(a, x4 1); (b, x2 5)]; [(b, x2 6)]; [(b, x2 7); (a, x4 2)]] | _ => [] end.
Definition dbxs (cs : list ecsid) : list fetch := match cs with [a; b] => [FMut a; FEcsId; FImmut b] | _ => [] end.
Definition dbg (ys : list item) : list (option value) :=
  match ys with [IVal [p; q; r; s]; _; IVal [x; y]] => [Some [r; s; x; y]; None; None] | _ => [] end.
Lemma db_sensible cs : NoDup cs → length cs = length dbcms → sensible dbcms cs (dbls cs) (dbxs cs) dbg.
Proof.
  destruct cs as [|a [|b [|]]]; [done..| |done]. intros Hnd _. assert (a ≠ b) as Hab. { apply NoDup_cons in Hnd as [H _]. rewrite elem_of_list_singleton in H. done. }
  assert (made_as [a; b] dbcms a (CompMeta (Some (DropFn 9)) (Layout 4 4))) as Ha by (by exists 0).
  assert (made_as [a; b] dbcms b (CompMeta None (Layout 2 2))) as Hb by (by exists 1).
  split.
  { assert (∀ l : list (ecsid * value), NoDup l.*1 → Forall (λ p, (p.1 = a ∧ length p.2 = 4) ∨ (p.1 = b ∧ length p.2 = 2)) l →
      NoDup l.*1 ∧ ∀ c v, (c, v) ∈ l → ∃ cm, made_as [a; b] dbcms c cm ∧ length v = cm_size cm) as Hl.
    { intros l H1 H2. split; [done|]. intros c v Hin. destruct (proj1 (Forall_forall _ _) H2 _ Hin) as [[H3 H4]|[H3 H4]]; cbn in H3, H4; subst c; eexists; split; done. }
    assert (NoDup [b; a]) as Hnd'. { apply NoDup_cons. rewrite elem_of_list_singleton. split; [done|apply NoDup_singleton]. }
    cbn [dbls]. repeat (apply Forall_cons; split); [..|by apply Forall_nil]; apply Hl; try done; try (apply NoDup_singleton);
      repeat (apply Forall_cons; split); try (by apply Forall_nil); auto. }
  split; [done|]. split. { intros [|[|[|j]]] [|[|[|j']]] c x; cbn; rewrite ?lookup_nil; try done; intros [= <-] [= <-]; intros [= ?]; done. }
  split. { intros x c Hx Hc. cbn [dbxs] in Hx. rewrite !elem_of_cons elem_of_nil in Hx. destruct Hx as [->|[->|[->|[]]]]; [|done|]; injection Hc as <-.
    - split; [exists [(a, x4 1); (b, x2 5)]; split; left|]. eexists. split; [exact Ha|]. split; [done|by left].
    - split; [exists [(b, x2 6)]; split; [right; left|left]|]. eexists. split; [exact Hb|]. split; [done|by left]. }
  split. { intros ys j v. rewrite /dbg. destruct ys as [|[?|[|p [|q [|r [|s [|]]]]]] [|? [|[?|[|x [|y [|]]]] [|]]]]; try (by rewrite lookup_nil).
    destruct j as [|[|[|j]]]; cbn; [|done|done|by rewrite lookup_nil]. intros [= <-]. exists a. eexists. split; [done|]. split; [exact Ha|done]. }
  split; by vm_compute.
Qed.
(** C71: the hypotheses of [C71_dyn_bench], and what three runs give. *)
Example C71_case : Forall (λ cm, layout_wf (cm_layout cm)) dbcms ∧ (N.of_nat (length dbcms) + 1 <= u32_max)%N ∧
  (∀ cs, NoDup cs → length cs = length dbcms → sensible dbcms cs (dbls cs) (dbxs cs) dbg) ∧
  match dyn_bench dbcms dbls dbxs dbg 4 1 (FSess sess_new ∅), dyn_bench dbcms dbls dbxs dbg 4 3 (FSess sess_new ∅) with
  | Done (cs, es) f ev, Done (cs', es') f' ev' => cs = [xid 0; xid 1] ∧ es = [xid 2; xid 3; xid 4] ∧ cs' = cs ∧ es' = es ∧ ev = [] ∧ ev' = [] ∧
      zip_with (λ e, Nat.iter 3 (row_updated (dbxs cs) dbg e)) es (dbls cs) =
        [[(xid 0, x2 5 ++ x2 5); (xid 1, x2 5)]; [(xid 1, x2 6)]; [(xid 1, x2 7); (xid 0, x2 7 ++ x2 7)]] ∧
      held (ss_world (fs_sess f)) = [(xid 2, xid 0, drop 2 (x4 1) ++ x2 5); (xid 2, xid 1, x2 5); (xid 4, xid 0, drop 2 (x4 2) ++ x2 7); (xid 4, xid 1, x2 7); (xid 3, xid 1, x2 6)] ∧
      held (ss_world (fs_sess f')) = [(xid 2, xid 0, x2 5 ++ x2 5); (xid 2, xid 1, x2 5); (xid 4, xid 0, x2 7 ++ x2 7); (xid 4, xid 1, x2 7); (xid 3, xid 1, x2 6)] ∧
      world_drop (ss_world (fs_sess f')) = Some [EvDrop (DropFn 9) (x2 7 ++ x2 7); EvDrop (DropFn 9) (x2 5 ++ x2 5)]
  | _, _ => False
  end.
Proof.
  split; [repeat (apply Forall_cons; split); [..|by apply Forall_nil]; by vm_compute|]. split; [by vm_compute|]. split; [apply db_sensible|]. by vm_compute.
Qed.
