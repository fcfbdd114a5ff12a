(** * Concrete cases meeting the hypotheses of the theorems in PropsAddRounds.
    These are tests and witnesses, not proofs of the properties. *)
From Verif Require Import AddRounds SpecAddRounds ExamplesBase ProofRefuted.

(** Two entities with a component of type [zA], one without components. *)
Definition arcalls : list op := [zspawn [BWith zA (z4 1); BBuild]; zspawn [BBuild]; zspawn [BWith zA (z4 2); BBuild]].
Definition z2 : value := [Some 9%N; Some 9%N].
Definition arw : world := wplay arcalls.
Definition ares : list ecsid := [zid 0; zid 2; zid 3].
Lemma arw_reachable : reachable_world arw.
Proof. apply wplay_reachable. by vm_compute. Qed.

(** C68: the first removal finds no archetype for its set, the second one does. *)
Example C68_case_made : reachable_world arw ∧ op_legal (OAdd (zid 0) zB z2) arw ∧ op_tame (OAdd (zid 0) zB z2) arw ∧
  moves (OAdd (zid 0) zB z2) = Some (zid 0) ∧ kinds arw = [[]; [zid 1]] ∧
  match step (OAdd (zid 0) zB z2) arw with
  | Done _ w _ => kinds w = [[]; [zid 1]; [zid 1; zid 4]] ∧
      match step (OAdd (zid 3) zB z2) w with Done _ w' _ => kinds w' = kinds w | _ => False end
  | _ => False
  end.
Proof.
  split; [apply arw_reachable|]. split; [apply op_legal_b_ok; by vm_compute|]. split; [apply op_tame_b_ok; by vm_compute|].
  split; [done|]. split; [by vm_compute|]. by vm_compute.
Qed.
(** C68: spawning in an empty world makes two archetypes: types are entities without components. *)
Example C68_case_only : reachable_world world_new ∧ op_legal (zspawn [BWith zA (z4 1); BBuild]) world_new ∧ op_tame (zspawn [BWith zA (z4 1); BBuild]) world_new ∧
  match step (zspawn [BWith zA (z4 1); BBuild]) world_new with
  | Done r w _ => subject (zspawn [BWith zA (z4 1); BBuild]) r = Some (zid 0) ∧ kinds w = [[]; [zid 1]] ∧
      match step (zspawn [BWith zA (z4 2); BBuild]) w with Done _ w' _ => kinds w' = kinds w | _ => False end
  | _ => False
  end.
Proof.
  split; [apply (wplay_reachable []); by vm_compute|]. split; [apply op_legal_b_ok; by vm_compute|]. split; [apply op_tame_b_ok; by vm_compute|]. by vm_compute.
Qed.
(** C68: three entities of two kinds. *)
Example C68_case_rounds : (∃ s, reachable s ∧ Forall (λ q, q = None) (ss_open s) ∧ ss_world s = arw) ∧ ty_wf zB ∧ length z2 = ty_size zB ∧
  without arw zB ares ∧ usable arw zB ∧ spacious arw zB (length ares) ∧
  match add_remove_rounds zB z2 2 ares (Sess arw []) with
  | Done _ s ev => ev = replicate 6 (EvDrop (DropOf zB) z2) ∧ kinds (ss_world s) = [[]; [zid 1]; [zid 1; zid 4]; [zid 4]]
  | _ => False
  end.
Proof.
  split. { destruct arw_reachable as (s & H1 & H2 & H3). exists s. split; [exact H1|]. split; [exact H3|exact H2]. }
  split; [zdone|]. split; [done|]. split; [|split; [|split]].
  - split; [by apply (bool_decide_unpack (NoDup _)); vm_compute|]. intros e He. split.
    { by repeat (apply elem_of_cons in He as [->|He]; [apply id_wf_b_ok; by vm_compute|]); apply elem_of_nil in He. }
    split. { by repeat (apply elem_of_cons in He as [->|He]; [apply (bool_decide_unpack (lives _ _)); by vm_compute|]); apply elem_of_nil in He. }
    split. { by repeat (apply elem_of_cons in He as [->|He]; [apply (bool_decide_unpack (stored _ _)); by vm_compute|]); apply elem_of_nil in He. }
    intros c Hc. by vm_compute in Hc.
  - right. split. { intros c Hc. by vm_compute in Hc. }
    intros H. destruct (H 7%N) as ([g i] & _ & Hi & Hl); [done|]. cbn in Hi. subst i. by vm_compute in Hl.
  - split; by vm_compute.
  - by vm_compute.
Qed.
(** An entity named twice: the second add is refused. *)
Example C68_case_twice :
  match add_remove_round zB z2 [zid 0; zid 0] (Sess arw []) with Panicked r _ _ => r = RAssert | _ => False end.
Proof. by vm_compute. Qed.
