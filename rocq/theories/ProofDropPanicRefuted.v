(** * Executions in which a destructor panics (C56) *)
From Verif Require Import ProofBase SpecWorld SpecQuery ProofKnown ExamplesBase ProofRefuted ProofRefutedQuery SpecDropPanic.

(** Two entities with A and B; the destructor of A panics. *)
Definition pw : world := wplay [zspawn [BWith zA (z4 1); BWith zB [Some 10%N; None]; BBuild]; zspawn [BWith zA (z4 2); BWith zB [Some 20%N; None]; BBuild]].
Definition pbomb (f : dropfn) (v : value) : bool := bool_decide (f = DropOf zA).
Definition pleft {A} (o : outcome world A) : world := match o with Done _ w _ | Panicked _ w _ => w | _ => world_new end.

Definition pw1 : world := pleft (remove_component_dynamic_b pbomb (zid 3) (zid 1) pw).
Definition pq : dquery := match dq_new [FEcsId; FImmut (zid 1)] pw1 with Done q _ _ => q | _ => DQuery [] [] false end.
Definition pw2 : world := pleft (dq_new [FEcsId; FImmut (zid 1)] pw1).
Definition pitems : list (option (list qptr)) := match iter_dyn pq 3 pw2 with Done x _ _ => x | _ => [] end.
Lemma despawn_bystander_refuted :
  ∃ bomb w e e0 c v w1 ev, reachable_world w ∧ op_legal (ODespawn e) w ∧ op_tame (ODespawn e) w ∧
    despawn_b bomb e w = Panicked RDestructor w1 ev ∧ e0 ≠ e ∧ stored w1 e0 ∧
    holds w1 e0 c v ∧ ¬ holds w e0 c v ∧ holds w e c v.
Proof.
  exists pbomb, pw, (zid 0), (zid 3), (zid 2), [Some 10%N; None], (pleft (despawn_b pbomb (zid 0) pw)), [EvDrop (DropOf zA) (z4 1)].
  assert (holds (pleft (despawn_b pbomb (zid 0) pw)) (zid 3) (zid 2) [Some 10%N; None]) as Hh by zdone.
  split; [zdone|]. split; [zdone|]. split; [zdone|]. split; [zdone|]. split; [zdone|].
  split; [|split; [exact Hh|split; zdone]].
  destruct Hh as (k & i & a & j & u & H1 & H2 & _). exists k, i, a. exact (conj H1 H2).
Qed.
Lemma despawn_alias_refuted :
  ∃ bomb w e e0 c v w1 ev l, reachable_world w ∧ op_legal (ODespawn e) w ∧ op_tame (ODespawn e) w ∧
    despawn_b bomb e w = Panicked RDestructor w1 ev ∧ e0 ≠ e ∧
    get_component_mut e c w1 = Done (Some l) w1 [] ∧ read_loc w1 l (length v) = Some v ∧
    ¬ holds w e c v ∧ holds w e0 c v ∧ holds w1 e0 c v.
Proof.
  exists pbomb, pw, (zid 0), (zid 3), (zid 1), (z4 2), (pleft (despawn_b pbomb (zid 0) pw)), [EvDrop (DropOf zA) (z4 1)], (Loc 1 0 0).
  do 9 (split; [zdone|]). zdone.
Qed.
Lemma remove_dropped_refuted :
  ∃ bomb w e c f v w1 q w2 n items p p', reachable_world w ∧ op_legal (ORemoveDyn e c) w ∧ op_tame (ORemoveDyn e c) w ∧
    (∀ e0 c0, holds w e0 c0 v → e0 = e ∧ c0 = c) ∧
    remove_component_dynamic_b bomb e c w = Panicked RDestructor w1 [EvDrop f v] ∧
    dq_new [FEcsId; FImmut c] w1 = Done q w2 [] ∧ iter_dyn q n w2 = Done items w2 [] ∧
    Some [p; p'] ∈ items ∧ deref_ent w2 p = Some e ∧ deref_val w2 p' (length v) = Some v.
Proof.
  exists pbomb, pw, (zid 3), (zid 1), (DropOf zA), (z4 2), pw1, pq, pw2, 3, pitems, (PEnt 1 8), (PCol 1 0 4).
  do 3 (split; [zdone|]). split.
  { intros e0 c0 Hh%held_holds. revert Hh. assert (Forall (λ x, x.2 = z4 2 → x.1.1 = zid 3 ∧ x.1.2 = zid 1) (held pw)) as Hf by zdone.
    rewrite Forall_forall in Hf. intros Hh. by apply (Hf _ Hh). }
  split; [zdone|]. split; [zdone|]. split; [zdone|]. split; [|split; zdone].
  assert (pitems = [Some [PEnt 1 0; PCol 1 0 0]; Some [PEnt 1 8; PCol 1 0 4]; None]) as -> by zdone. right. left.
Qed.
