(** * Concrete cases meeting the hypotheses of the theorems in PropsInsertBench.
    These are tests and witnesses, not proofs of the properties. *)
From Verif Require Import ProofBase SpecInsertBench ExamplesBase ProofRefuted ExamplesAddRounds ExamplesBenches.

(** C73: entities of two kinds. *)
Example C73_case : bnls ≠ [] ∧ Forall (λ l, args_ok l ∧ NoDup l.*1) bnls ∧ roomy [] world_new bnls ∧ size (type_sets bnls) = 3 ∧
  match spawn_all bnls sess_new with
  | Done es s ev => kinds (ss_world s) = [[]; [zid 1; zid 2]; [zid 2]]
  | _ => False
  end ∧
  match insert_runs bnls 2 () with
  | Done _ _ ev => ev = concat (replicate 2 [EvDrop (DropOf zA) (z4 2); EvDrop (DropOf zA) (z4 1); EvDrop (DropOf zB) z2; EvDrop (DropOf zB) z2; EvDrop (DropOf zB) z2])
  | _ => False
  end.
Proof.
  split; [done|]. split; [repeat (apply Forall_cons; split); [..|by apply Forall_nil]; (split; [repeat (apply Forall_cons; split); [..|by apply Forall_nil]; split; zdone|by apply (bool_decide_unpack (NoDup _)); vm_compute])|].
  split; [split; [|split]; by vm_compute|]. split; [by vm_compute|]. split; by vm_compute.
Qed.
(** C73: the hypotheses of [C73_kinds] in a world that has archetypes, and what is made. *)
Example C73_case_kinds : steps sess_new bnh bns ∧ Forall (λ q, q = None) (ss_open bns) ∧
  Forall (λ l, args_ok l ∧ NoDup l.*1 ∧ types_live (ss_world bns) l) bnls ∧ roomy bnh (ss_world bns) bnls ∧
  match spawn_all bnls bns with
  | Done es s ev => kinds (ss_world s) = kinds (ss_world bns) ++ [[zid 1; zid 3]; [zid 3]]
  | _ => False
  end.
Proof. destruct C69_case_spawns as (H1 & H2 & H3 & H4 & _). split; [done|]. split; [done|]. split; [done|]. split; [done|]. by vm_compute. Qed.
(** C73: the hypotheses of [C73_frag_insert] with two markers and the 384 entities each of the code. *)
Definition inC : ty := Ty 3 0 1.
Definition inD : ty := Ty 4 0 1.
Example C73_case_frag : let l := [(zA, z4 1); (zB, z2)] in let ts := [(inC, []); (inD, [])] in ts ≠ [] ∧ Forall (λ x, args_ok (l ++ [x])) ts ∧ NoDup (l ++ ts).*1 ∧
  (N.of_nat (384 * length ts) <= 10000)%N ∧ length l ≤ 8 ∧ Forall (λ x, macro_bytes (l ++ [x]) ≤ 2000) ts.
Proof.
  split; [done|]. split; [apply Forall_cons; split; [|apply Forall_cons; split; [|by apply Forall_nil]]; (apply Forall_cons; split; [|apply Forall_cons; split; [|apply Forall_cons; split; [|by apply Forall_nil]]]; split; zdone)|].
  split; [by apply (bool_decide_unpack (NoDup _)); vm_compute|]. split; [by vm_compute|]. split; [cbn; lia|]. repeat (apply Forall_cons; split); [..|by apply Forall_nil]; apply Nat.leb_le; by vm_compute.
Qed.
