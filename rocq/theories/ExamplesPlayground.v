(** * Concrete cases meeting the hypotheses of the theorems in PropsPlayground.
    These are tests and witnesses, not proofs of the properties. *)
From Verif Require Import ProofBase Playground SpecLimit ExamplesBase ProofRefuted ExamplesWorld ExamplesQuery SpecForEach ExamplesAddRounds ExamplesBenches.

(** C65: three entities, two rounds. *)
Example C65_case : ty_wf zA ∧ (ty_size zA ≠ 0 ∨ ty_align zA = 1) ∧ length (z4 7) = ty_size zA ∧
  (N.of_nat (2 * 3) <= 2 ^ 32)%N ∧ (N.of_nat (3 * ty_size zA) <= byte_limit)%N ∧
  match playground zA (z4 7) 3 2 sess_new with
  | Done es s ev => es = [zid 0; zid 2; zid 3] ∧ ss_open s = [None; None] ∧ ev = [] ∧
      world_drop (ss_world s) = Some (replicate 3 (EvDrop (DropOf zA) (z4 7)))
  | _ => False
  end.
Proof. split; [zdone|]. split; [by left|]. split; [done|]. split; [by vm_compute|]. split; [by vm_compute|]. vm_compute. done. Qed.
(** The same program with an entity that lost its component: the unwrap panics. *)
Example C65_case_none :
  match pg_spawn zA (z4 7) 2 sess_new with
  | Done es s ev => es = [zid 0; zid 2] ∧
      match (let* _ := sstep (SWorld (ORemove (zid 2) zA)) in pg_round zA es) s with Panicked r _ _ => r = RUnwrap | _ => False end
  | _ => False
  end.
Proof. vm_compute. done. Qed.
(** C65: an open query; entity 7 has what it asks for, entity 3 has not, index 30 is not handed out. *)
Example C65_case_lookups : reachable ys ∧ ss_open ys !! 2 = Some (Some (QStat (yq 2))) ∧
  match pg_gets (yq 2) [xid 7; xid 7] ys with Done _ _ _ => True | _ => False end ∧
  match pg_gets (yq 2) [xid 7; xid 3; xid 30] ys with Panicked r _ _ => r = RUnwrap | _ => False end ∧
  match pg_gets (yq 2) [xid 7; xid 30; xid 3] ys with Panicked r _ _ => r = RNoGeneration | _ => False end.
Proof. split; [ydone|]. split; [ydone|]. split; [by vm_compute|]. split; by vm_compute. Qed.
(** C65: after one spawn, rounds with the entity, and with the entity of its component, which lacks the component. *)
Example C65_case_rounds : ty_wf zA ∧ param_tame (PMut zA) ∧ closed_by bnh bns ∧ ¬ not_in_use (ss_world bns) [PMut zA] ∧
  Forall (λ e, id_wf e ∧ lives (ss_world bns) e) [zid 0; zid 1] ∧
  match pg_rounds zA 3 [zid 0; zid 0] bns with Done _ _ _ => True | _ => False end ∧
  match pg_rounds zA 3 [zid 0; zid 1] bns with Panicked r _ _ => r = RUnwrap | _ => False end.
Proof.
  split; [zdone|]. split; [intros t [= <-]; by left|]. split.
  { pose proof C69_case_spawns as (H1 & H2 & _). split; [exact H1|]. split; [intros i H%elem_of_list_singleton; discriminate H|]. split; [|exact H2].
    split; [intros i H%elem_of_list_singleton; discriminate H|]. intros o r ev H%elem_of_list_singleton. discriminate H. }
  split. { intros (p & t & c & Hp%elem_of_list_singleton & Ht & Hc & Hn). subst p. injection Ht as <-. vm_compute in Hc. injection Hc as <-. apply Hn.
    exists 1. do 3 eexists. split; [by vm_compute|]. instantiate (2 := 0). by vm_compute. }
  split; [repeat (apply Forall_cons; split); [split; by vm_compute..|apply Forall_nil; exact I]|]. split; by vm_compute.
Qed.
