(** * Concrete cases meeting the hypotheses of the theorems in PropsRecycle.
    These are tests and witnesses, not proofs of the properties. *)
From Verif Require Import ProofBase SpecRecycle ExamplesBase ProofRefuted ExamplesAddRounds ExamplesBenches.

Lemma in_use_kinds w c : in_use w c → c ∈ mjoin (kinds w).
Proof.
  intros (k & a & j & u & Ha & Hj). apply elem_of_list_join. exists (columns a). split.
  - apply elem_of_list_fmap. exists (c, u). split; [done|]. by eapply elem_of_list_lookup_2.
  - apply elem_of_list_fmap. exists a. split; [done|]. by eapply elem_of_list_lookup_2.
Qed.
(** C74: an entity with a component is replaced twice; the second replacement has generation 2. *)
Example C74_case : steps sess_new bnh bns ∧ Forall (λ q, q = None) (ss_open bns) ∧ expendable (ss_world bns) (zid 0) ∧
  (N.of_nat (sum_list_with passed_bytes (calls_of bnh)) <= byte_limit)%N ∧ (N.of_nat (length (w_archs (ss_world bns)) + 1) <= u32_max)%N ∧
  holds (ss_world bns) (zid 0) (zid 1) (z4 7) ∧ later_id (zid 0) 2 = EcsId 2 0 ∧
  match play (seq 0 2 ≫= recycle (zid 0)).*1 bns with
  | Some (rs, s) => rs.*1 = (seq 0 2 ≫= recycle (zid 0)).*2 ∧ lives (ss_world s) (EcsId 2 0) ∧ ¬ lives (ss_world s) (zid 0) ∧
      a_entities <$> w_archs (ss_world s) = [[zid 1; EcsId 2 0]; []]
  | None => False
  end.
Proof.
  pose proof C69_case_spawns as (H1 & H2 & _). split; [exact H1|]. split; [exact H2|]. clear H1 H2. split.
  { split; [by vm_compute|]. split; [by vm_compute|]. split.
    - exists 1, 0. eexists. split; by vm_compute.
    - split.
      + intros H%in_use_kinds. revert H. apply (bool_decide_unpack (¬ _)). by vm_compute.
      + intros t c Hc. assert (c = zid 1) as ->; [|by vm_compute]. destruct (decide (t = zA)) as [->|Hne]; [vm_compute in Hc; by injection Hc as <-|].
        assert (w_types (ss_world bns) = {[zA := zid 1]}) as Ht by by vm_compute. rewrite /type_id Ht lookup_singleton_ne in Hc; done. }
  split; [by vm_compute|]. split; [by vm_compute|]. split.
  { exists 1, 0. do 3 eexists. split; [by vm_compute|]. split; [by vm_compute|]. split; [by instantiate (2 := 0); vm_compute|]. by vm_compute. }
  split; [by vm_compute|]. vm_compute. split; [reflexivity|]. split; [reflexivity|]. split; [discriminate|reflexivity].
Qed.
(** Index 0 names no type; the id of a type is not expendable: the premise on types is needed. *)
Example C74_case_type : ¬ expendable (ss_world bns) (zid 1).
Proof. intros (_ & _ & _ & _ & H). apply (H zA (zid 1)); by vm_compute. Qed.
