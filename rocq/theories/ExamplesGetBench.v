(** * Concrete cases meeting the hypotheses of the theorems in PropsGetBench.
    These are tests and witnesses, not proofs of the properties. *)
From Verif Require Import ProofBase SpecGetBench ExamplesBase ProofRefuted ExamplesAddRounds ExamplesBenches ExamplesIterBench ExamplesWorld ExamplesQuery ProofFlightHist ExamplesForEach.

Definition gbps : list param := [PMut zA; PEcsIds].
Lemma gbps_ok : Forall param_wf gbps ∧ Forall param_tame gbps ∧ unshared gbps.
Proof.
  split; [repeat (apply Forall_cons; split); [..|by apply Forall_nil]; zdone|].
  split; [repeat (apply Forall_cons; split); [..|by apply Forall_nil]; intros t [= <-]; by left|].
  intros [|[|j]] [|[|j']] t p; cbn; rewrite ?lookup_nil; try done; intros [= <-] [= <-]; done.
Qed.
Lemma gbps_has l : zA ∈ l.*1 → has_all gbps l.
Proof. intros H p t Hp Ht. rewrite /gbps !elem_of_cons elem_of_nil in Hp. destruct Hp as [->|[->|[]]]; [|done]. by injection Ht as <-. Qed.
Ltac gb_args := repeat (apply Forall_cons; split); [..|by apply Forall_nil]; (split; [repeat (apply Forall_cons; split); [..|by apply Forall_nil]; split; zdone|]);
  (split; [by apply (bool_decide_unpack (NoDup _)); vm_compute|]).

(** C72: three entities in two archetypes, two runs. *)
Definition gbls : list (list (ty * value)) := [[(zA, z4 1); (zB, z2)]; [(zA, z4 2)]; [(zB, z2); (zA, z4 3)]].
Example C72_case_get : gbls ≠ [] ∧ Forall (λ l, args_ok l ∧ NoDup l.*1 ∧ has_all gbps l) gbls ∧ Forall param_wf gbps ∧ Forall param_tame gbps ∧ unshared gbps ∧ roomy [] world_new gbls ∧
  match get_bench gbls gbps 2 sess_new with
  | Done (es, xss) s ev => es = [zid 0; zid 3; zid 4] ∧ ev = [] ∧
      xss = replicate 2 [[IVal (z4 1); IEnt (zid 0)]; [IVal (z4 2); IEnt (zid 3)]; [IVal (z4 3); IEnt (zid 4)]]
  | _ => False
  end.
Proof.
  destruct gbps_ok as (H1 & H2 & H3). split; [done|]. split; [gb_args; apply gbps_has; rewrite /= !elem_of_cons; auto|].
  split; [done|]. split; [done|]. split; [done|]. split; [split; [|split]; by vm_compute|]. by vm_compute.
Qed.
(** C72: the hypotheses of [C72_gets], and what is seen. *)
Example C72_case_gets : Forall param_wf feps ∧ Forall param_tame feps ∧ unshared feps ∧ closed_by (splay_trace feops) fes ∧ ¬ not_in_use (ss_world fes) feps ∧
  Forall (λ e, id_wf e ∧ lives (ss_world fes) e ∧ wants (ss_world fes) feps e) [xid 5; xid 0; xid 5] ∧
  match get_run feps [xid 5; xid 0; xid 5] fes with
  | Done xs s ev => ev = [] ∧ xs = [[IEnt (xid 5); IVal (x4 1); IVal (x2 5)]; [IEnt (xid 0); IVal (x4 1); IVal (x2 2)]; [IEnt (xid 5); IVal (x4 1); IVal (x2 5)]]
  | _ => False
  end.
Proof.
  destruct C66_case_run as (H1 & H2 & _ & H3 & _ & H4 & H5 & _). split; [done|]. split; [done|]. split; [done|]. split; [done|].
  split. { intros (p & t & c & Hp & Ht & Hc & Hn). destruct (H5 p t Hp Ht) as (c' & Hc' & Hi). rewrite /type_id in Hc, Hc'. rewrite Hc in Hc'. injection Hc' as <-. exact (Hn Hi). }
  split; [|by vm_compute].
  assert (∀ e a b, id_wf e → lives (ss_world fes) e → stored (ss_world fes) e → (e, xid 1, a) ∈ held (ss_world fes) → (e, xid 2, b) ∈ held (ss_world fes) →
    id_wf e ∧ lives (ss_world fes) e ∧ wants (ss_world fes) feps e) as H.
  { intros e a b E1 E2 E3 E4%held_holds E5%held_holds. split; [done|]. split; [done|]. split; [done|]. intros p t Hp Ht. rewrite /feps !elem_of_cons elem_of_nil in Hp.
    destruct Hp as [->|[->|[->|[]]]]; [done|..]; injection Ht as <-; [exists (xid 1)|exists (xid 2)]; (split; [by vm_compute|by eexists]). }
  assert (id_wf (xid 5) ∧ lives (ss_world fes) (xid 5) ∧ wants (ss_world fes) feps (xid 5)) as H6.
  { apply (H (xid 5) (x4 1) (x2 5)); [by vm_compute..|ydone| |]; apply (bool_decide_unpack (_ ∈ _)); by vm_compute. }
  repeat (apply Forall_cons; split); [done| |done|by apply Forall_nil].
  apply (H (xid 0) (x4 1) (x2 2)); [by vm_compute..|ydone| |]; apply (bool_decide_unpack (_ ∈ _)); by vm_compute.
Qed.
(** C72: the other component is added after the entity was spawned. *)
Definition gbqs : list (list (ty * value) * (ty * value)) := [([(zB, z2)], (zA, z4 1)); ([], (zA, z4 2)); ([(zB, z2)], (zA, z4 3))].
Example C72_case_padded : gbqs ≠ [] ∧ Forall (λ q, args_ok (with_added q) ∧ NoDup (with_added q).*1 ∧ has_all gbps (with_added q)) gbqs ∧
  Forall param_wf gbps ∧ Forall param_tame gbps ∧ unshared gbps ∧ roomy_adding [] world_new gbqs ∧
  match padded_get_bench gbqs gbps 2 sess_new with
  | Done (es, xss) s ev => es = [zid 0; zid 3; zid 4] ∧ ev = [] ∧
      xss = replicate 2 [[IVal (z4 1); IEnt (zid 0)]; [IVal (z4 2); IEnt (zid 3)]; [IVal (z4 3); IEnt (zid 4)]] ∧
      held (ss_world s) = [(zid 0, zid 1, z2); (zid 0, zid 2, z4 1); (zid 4, zid 1, z2); (zid 4, zid 2, z4 3); (zid 3, zid 2, z4 2)]
  | _ => False
  end.
Proof.
  destruct gbps_ok as (H1 & H2 & H3). split; [done|]. split; [gb_args; apply gbps_has; rewrite /= ?elem_of_cons; auto|].
  split; [done|]. split; [done|]. split; [done|]. split; [split; [|split]; by vm_compute|]. vm_compute. done.
Qed.
(** C72: the hypotheses of [C72_adding] in a world where something is. *)
Example C72_case_adding : steps sess_new bnh bns ∧ Forall (λ q, q = None) (ss_open bns) ∧
  Forall (λ q, args_ok (with_added q) ∧ NoDup (with_added q).*1 ∧ types_live (ss_world bns) (with_added q)) gbqs ∧ roomy_adding bnh (ss_world bns) gbqs ∧
  match spawn_adding gbqs bns with Done es s ev => es = [zid 2; zid 4; zid 5] ∧ ev = [] | _ => False end.
Proof.
  destruct C69_case_spawns as (H1 & H2 & _). split; [done|]. split; [done|]. split.
  { assert (∀ l t, t ∈ l.*1 → Forall (λ p : ty * value, p.1 = zA ∨ p.1 = zB) l → t = zA ∨ t = zB) as Hz.
    { intros l t (p & -> & Hp)%elem_of_list_fmap H. by apply (proj1 (Forall_forall _ _) H). }
    assert (∀ l, Forall (λ p : ty * value, p.1 = zA ∨ p.1 = zB) l → types_live (ss_world bns) l) as Hl.
    { intros l H t c Ht Hc. destruct (Hz l t Ht H) as [-> | ->]; vm_compute in Hc; [|done]. injection Hc as <-. by vm_compute. }
    gb_args; apply Hl; repeat (apply Forall_cons; split); try apply Forall_nil; auto. }
  split; [split; [|split]; by vm_compute|]. by vm_compute.
Qed.
(** C72: the hypotheses of [C72_padded_get_10000]. *)
Example C72_case_10000 : let l := [(zB, z2)] in args_ok (l ++ [(zA, z4 1)]) ∧ NoDup (l ++ [(zA, z4 1)]).*1 ∧ length l ≤ 26 ∧ macro_bytes (l ++ [(zA, z4 1)]) ≤ 2000 ∧ param_tame (PMut zA).
Proof.
  split; [repeat (apply Forall_cons; split); [..|by apply Forall_nil]; split; zdone|]. split; [by apply (bool_decide_unpack (NoDup _)); vm_compute|].
  split; [cbn; lia|]. split; [apply Nat.leb_le; by vm_compute|]. intros t [= <-]. by left.
Qed.
(** C72: an open query; entity 7 has what it asks for, entity 3 has not, index 30 is not handed out. *)
Example C72_case_lookups : reachable ys ∧ ss_open ys !! 2 = Some (Some (QStat (yq 2))) ∧
  match get_each (yq 2) [xid 7; xid 7] ys with Done xs _ _ => xs = [[IEnt (xid 7); IVal (x2 20)]; [IEnt (xid 7); IVal (x2 20)]] | _ => False end ∧
  match get_each (yq 2) [xid 7; xid 3; xid 30] ys with Panicked r _ _ => r = RUnwrap | _ => False end ∧
  match get_each (yq 2) [xid 7; xid 30; xid 3] ys with Panicked r _ _ => r = RNoGeneration | _ => False end.
Proof. split; [ydone|]. split; [ydone|]. split; [by vm_compute|]. split; by vm_compute. Qed.
