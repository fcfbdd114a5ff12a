(** * Concrete cases meeting the hypotheses of the theorems in PropsIterBench.
    These are tests and witnesses, not proofs of the properties. *)
From Verif Require Import ProofBase IterBench SpecIterBench ExamplesBase ProofRefuted ExamplesAddRounds ExamplesBenches.

Definition ibps : list param := [PMut zA; PRef zB].
(** The body shifts B into A. *)
Definition ibg (xs : list item) : list (option value) :=
  match xs with [IVal [a; b; c; d]; IVal [x; y]] => [Some [c; d; x; y]; None] | _ => [] end.
Lemma ibg_fits : writes_fit ibps ibg.
Proof.
  intros xs j v. rewrite /ibg. destruct xs as [|[?|[|a [|b [|c [|d [|]]]]]] [|[?|[|x [|y [|]]]] [|]]]; try (by rewrite lookup_nil).
  destruct j as [|[|j]]; cbn; [|done|by rewrite lookup_nil]. intros [= <-]. by exists zA.
Qed.
Lemma ibps_unshared : unshared ibps.
Proof. intros [|[|j]] [|[|j']] t p; cbn; rewrite ?lookup_nil; try done; intros [= <-] [= <-]; done. Qed.
(** C70: three entities of two kinds, three runs. *)
Example C70_case : Forall (λ l, args_ok l ∧ NoDup l.*1) bnls ∧ Forall param_wf ibps ∧ Forall param_tame ibps ∧ ibps ≠ [] ∧ unshared ibps ∧ writes_fit ibps ibg ∧
  all_named ibps bnls ∧ roomy [] world_new bnls ∧
  zip_with (λ e, Nat.iter 1 (updated ibps ibg e)) [zid 0; zid 3; zid 4] bnls =
    [[(zA, drop 2 (z4 1) ++ z2); (zB, z2)]; [(zB, z2)]; [(zA, drop 2 (z4 2) ++ z2); (zB, z2)]] ∧
  zip_with (λ e, Nat.iter 3 (updated ibps ibg e)) [zid 0; zid 3; zid 4] bnls =
    [[(zA, z2 ++ z2); (zB, z2)]; [(zB, z2)]; [(zA, z2 ++ z2); (zB, z2)]] ∧
  match iter_bench bnls ibps ibg 4 3 (FSess sess_new ∅) with
  | Done es f ev => es = [zid 0; zid 3; zid 4] ∧ ev = [] ∧
      held (ss_world (fs_sess f)) = [(zid 0, zid 1, z2 ++ z2); (zid 0, zid 2, z2); (zid 4, zid 1, z2 ++ z2); (zid 4, zid 2, z2); (zid 3, zid 2, z2)]
  | _ => False
  end.
Proof.
  split; [repeat (apply Forall_cons; split); [..|by apply Forall_nil]; (split; [repeat (apply Forall_cons; split); [..|by apply Forall_nil]; split; zdone|by apply (bool_decide_unpack (NoDup _)); vm_compute])|].
  split; [repeat (apply Forall_cons; split); [..|by apply Forall_nil]; zdone|].
  split; [repeat (apply Forall_cons; split); [..|by apply Forall_nil]; intros t [= <-]; by left|].
  split; [done|]. split; [apply ibps_unshared|]. split; [apply ibg_fits|].
  split. { intros p t Hp Ht. exists [(zA, z4 1); (zB, z2)]. split; [by left|]. rewrite /ibps !elem_of_cons elem_of_nil in Hp. destruct Hp as [->|[->|[]]]; injection Ht as <-; [by left|right; by left]. }
  split; [split; [|split]; by vm_compute|]. split; [by vm_compute|]. split; [by vm_compute|]. by vm_compute.
Qed.
(** C70: the hypotheses of [C70_iter_10000]. *)
Example C70_case_10000 : let l := [(zA, z4 1); (zB, z2)] in args_ok l ∧ NoDup l.*1 ∧ length l ≤ 8 ∧ macro_bytes l ≤ 2000 ∧ ∀ p t, p ∈ ibps → param_ty p = Some t → t ∈ l.*1.
Proof.
  split; [repeat (apply Forall_cons; split); [..|by apply Forall_nil]; split; zdone|]. split; [by apply (bool_decide_unpack (NoDup _)); vm_compute|].
  split; [cbn; lia|]. split; [apply Nat.leb_le; by vm_compute|]. intros p t Hp Ht. rewrite /ibps !elem_of_cons elem_of_nil in Hp. destruct Hp as [->|[->|[]]]; injection Ht as <-; [by left|right; by left].
Qed.
