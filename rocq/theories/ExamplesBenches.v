(** * Concrete cases meeting the hypotheses of the theorems in PropsBenches.
    These are tests and witnesses, not proofs of the properties. *)
From Verif Require Import Benches SpecBenches ExamplesBase ProofRefuted ExamplesAddRounds.

(** C69: three entities of two kinds, in a world that knows one of the types already. *)
Definition bnls : list (list (ty * value)) := [[(zA, z4 1); (zB, z2)]; [(zB, z2)]; [(zA, z4 2); (zB, z2)]].
Definition bno : sop := SWorld (spawn_macro [(zA, z4 7)]).
Definition bns : sess := match sstep bno sess_new with Done _ s _ => s | _ => sess_new end.
Definition bnh : list (sop * res * list event) := [(bno, ROk (SRet (RId (zid 0))), [])].
Example C69_case_spawns : steps sess_new bnh bns ∧ Forall (λ q, q = None) (ss_open bns) ∧
  Forall (λ l, args_ok l ∧ NoDup l.*1 ∧ types_live (ss_world bns) l) bnls ∧ roomy bnh (ss_world bns) bnls ∧
  match spawn_all bnls bns with
  | Done es s ev => es = [zid 2; zid 4; zid 5] ∧ ev = [] ∧ kinds (ss_world s) = [[]; [zid 1]; [zid 1; zid 3]; [zid 3]]
  | _ => False
  end.
Proof.
  split; [|split; [|split; [|split]]].
  - apply (steps_done sess_new [] sess_new bno (SRet (RId (zid 0))) bns []); [constructor|apply sop_legal_b_ok; by vm_compute|apply op_tame_b_ok; by vm_compute|by vm_compute].
  - by vm_compute.
  - assert (∀ l t, t ∈ l.*1 → Forall (λ p : ty * value, p.1 = zA ∨ p.1 = zB) l → t = zA ∨ t = zB) as Hz.
    { intros l t (p & -> & Hp)%elem_of_list_fmap H. by apply (proj1 (Forall_forall _ _) H). }
    assert (∀ l, Forall (λ p : ty * value, p.1 = zA ∨ p.1 = zB) l → types_live (ss_world bns) l) as Hl.
    { intros l H t c Ht Hc. destruct (Hz l t Ht H) as [-> | ->]; vm_compute in Hc; [|done]. injection Hc as <-. by vm_compute. }
    repeat (apply Forall_cons; split); [..|by apply Forall_nil]; (split; [repeat (apply Forall_cons; split); [..|by apply Forall_nil]; split; zdone|split; [by apply (bool_decide_unpack (NoDup _)); vm_compute|]]);
      apply Hl; repeat (apply Forall_cons; split); try apply Forall_nil; auto.
  - split; [|split]; by vm_compute.
  - by vm_compute.
Qed.
(** C69: two entities, three rounds. *)
Example C69_case_add_remove : args_ok [(zA, z4 1)] ∧ NoDup [(zA, z4 1)].*1 ∧ ty_wf zB ∧ length z2 = ty_size zB ∧ zB ∉ [(zA, z4 1)].*1 ∧
  (N.of_nat (2 * macro_ids [(zA, z4 1)]) < 2 ^ 32)%N ∧ (N.of_nat (2 * (macro_bytes [(zA, z4 1)] + ty_size zB)) <= byte_limit)%N ∧ (N.of_nat (S (2 * 2)) < u32_max)%N ∧
  match add_remove_bench [(zA, z4 1)] zB z2 2 3 sess_new with
  | Done es s ev => es = [zid 0; zid 2] ∧ ev = replicate 6 (EvDrop (DropOf zB) z2) ∧ kinds (ss_world s) = [[]; [zid 1]; [zid 1; zid 3]] ∧
      world_drop (ss_world s) = Some (replicate 2 (EvDrop (DropOf zA) (z4 1)))
  | _ => False
  end.
Proof.
  split; [apply Forall_singleton; split; zdone|]. split; [apply NoDup_singleton|]. split; [zdone|]. split; [done|]. split; [by intros ?%elem_of_list_singleton|].
  split; [by vm_compute|]. split; [by vm_compute|]. split; by vm_compute.
Qed.
(** A type named twice: the first spawn is refused. *)
Example C69_case_twice : match spawn_all [[(zB, z2); (zB, z2)]] sess_new with Panicked r _ _ => r = RDuplicate | _ => False end.
Proof. by vm_compute. Qed.
