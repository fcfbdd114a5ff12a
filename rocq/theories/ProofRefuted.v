(** * Executions refuting some expectations (C31, C32, C34, C37, C39, C46) *)
From Verif Require Import ProofBase SpecWorld ProofHistory ExamplesBase.

Definition zA : ty := Ty 1 4 4.
Definition zB : ty := Ty 2 2 2.
Definition z4 (n : N) : value := [Some n; Some n; Some n; Some n].
Definition zid (n : N) : ecsid := EcsId 0 n.
Definition zspawn (bs : list bop) : op := OSpawn None cm_unit bs BDrop.

Ltac zdone :=
  lazymatch goal with
  | |- reachable_world _ => apply wplay_reachable; vm_compute; reflexivity
  | |- op_legal _ _ => apply op_legal_b_ok; vm_compute; reflexivity
  | |- op_tame _ _ => apply op_tame_b_ok; vm_compute; reflexivity
  | |- id_wf _ => apply id_wf_b_ok; vm_compute; reflexivity
  | |- _ = _ => vm_compute; reflexivity
  | |- BWith _ _ ∈ _ => apply elem_of_list_here
  | |- ?P => apply (bool_decide_unpack P); vm_compute; exact I
  end.

(** The final world of a step, and what it returned. *)
Definition outcome_world (o : outcome world oret) : world :=
  match o with Done _ w _ | Panicked _ w _ => w | _ => world_new end.
Lemma held_none w v : forallb (λ p, negb (bool_decide (p.2 = v))) (held w) = true → ∀ e c, ¬ holds w e c v.
Proof.
  rewrite forallb_forall. intros H e c Hh. apply held_holds in Hh. specialize (H (e, c, v)). rewrite -elem_of_list_In in H.
  specialize (H Hh). cbn in H. by rewrite bool_decide_true in H.
Qed.

(** C31: a builder that is dropped without [build]. *)
Lemma builder_leaks : ∃ w bs t v r w' ev, reachable_world w ∧
  op_legal (OSpawn None cm_unit bs BDrop) w ∧ op_tame (OSpawn None cm_unit bs BDrop) w ∧ BWith t v ∈ bs ∧
  step (OSpawn None cm_unit bs BDrop) w = Done r w' ev ∧ ev = [] ∧ ∀ e c, ¬ holds w' e c v.
Proof.
  set (w := wplay [ORegister zA]). set (bs := [BWith zA (z4 1)]).
  exists w, bs, zA, (z4 1), (RId (zid 1)), (outcome_world (step (OSpawn None cm_unit bs BDrop) w)), [].
  split_and!; [zdone..|apply held_none; by vm_compute].
Qed.

(** C32: [build] called twice. *)
Lemma built_twice : ∃ w bs e w' ev w'' ev', reachable_world w ∧ op_legal (OSpawn None cm_unit bs BDrop) w ∧ bops_builds bs = 2 ∧
  step (OSpawn None cm_unit bs BDrop) w = Done (RId e) w' ev ∧
  (∃ k i k' i', placed w' e k i ∧ placed w' e k' i' ∧ (k, i) ≠ (k', i')) ∧
  step (ODespawn e) w' = Done (RBool true) w'' ev' ∧ ¬ lives w'' e ∧ stored w'' e.
Proof.
  set (w := wplay [zspawn [BWith zA (z4 1); BBuild]]). set (bs := [BWith zA (z4 2); BBuild; BBuild]).
  set (w' := outcome_world (step (OSpawn None cm_unit bs BDrop) w)). set (w'' := outcome_world (step (ODespawn (zid 2)) w')).
  exists w, bs, (zid 2), w', [], w'', [EvDrop (DropOf zA) (z4 2)]. split_and!; [zdone..| |zdone|zdone|zdone].
  exists 1, 1, 1, 2. split_and!; zdone.
Qed.

(** C30: ... its value is dropped twice. *)
Lemma dropped_twice : ∃ w t v e w' w'' ev, reachable_world w ∧
  op_legal (OSpawn None cm_unit [BWith t v; BBuild; BBuild] BDrop) w ∧
  EvDrop (DropOf t) v ∉ default [] (world_drop w) ∧
  step (OSpawn None cm_unit [BWith t v; BBuild; BBuild] BDrop) w = Done (RId e) w' [] ∧
  step (ODespawn e) w' = Done (RBool true) w'' [EvDrop (DropOf t) v] ∧
  world_drop w'' = Some ev ∧ EvDrop (DropOf t) v ∈ ev.
Proof.
  set (w := wplay [zspawn [BWith zA (z4 1); BBuild]]). set (o := OSpawn None cm_unit [BWith zA (z4 2); BBuild; BBuild] BDrop).
  set (w' := outcome_world (step o w)). set (w'' := outcome_world (step (ODespawn (zid 2)) w')).
  exists w, zA, (z4 2), (zid 2), w', w'', (default [] (world_drop w'')). split_and!; zdone.
Qed.

(** C34: the duplicate-component panic of [build] on an existing archetype. *)
Lemma uneven_columns : ∃ w o w' ev, reachable_world w ∧ op_legal o w ∧ op_tame o w ∧
  step o w = Panicked RColumnLength w' ev ∧ ¬ consistent w'.
Proof.
  set (w := wplay [zspawn [BWith zA (z4 1); BWith zB [None; None]; BBuild]]).
  set (o := zspawn [BWith zA (z4 2); BWith zA (z4 3); BBuild]). set (w' := outcome_world (step o w)).
  exists w, o, w', []. split_and!; [zdone..|].
  intros H. destruct (w_archs w' !! 1) as [a|] eqn:Ha; [|by vm_compute in Ha].
  destruct (a_storages a) as [|[c u] l] eqn:Hs; [vm_compute in Ha; by injection Ha as <-|].
  pose proof (co_columns _ H 1 a c u Ha) as Hx. rewrite Hs in Hx. specialize (Hx (elem_of_list_here _ _)).
  vm_compute in Ha. injection Ha as <-. cbn in Hs. injection Hs as <- <- <-. by vm_compute in Hx.
Qed.

(** C37: the id of the type was despawned while it was not in use. *)
Lemma add_without_has : ∃ w e t v w', reachable_world w ∧ op_legal (OAdd e t v) w ∧ op_tame (OAdd e t v) w ∧ stored w e ∧
  step (OAdd e t v) w = Done RUnit w' [] ∧ step (OHas e t) w' = Done (RBool false) w' [] ∧ ∀ e c, ¬ holds w' e c v.
Proof.
  set (w := wplay [ORegister zA; zspawn [BBuild]; ODespawn (zid 0)]).
  exists w, (zid 1), zA, (z4 1), (outcome_world (step (OAdd (zid 1) zA (z4 1)) w)).
  split_and!; [zdone..|apply held_none; by vm_compute].
Qed.

(** C39: no entity has the component any more. *)
Lemma in_use_forever : ∃ w c, reachable_world w ∧ id_wf c ∧ op_tame (ODespawn c) w ∧ lives w c ∧ (∀ e, ¬ has w e c) ∧
  step (ODespawn c) w = Panicked RComponentInUse w [].
Proof.
  set (w := wplay [zspawn [BWith zA (z4 1); BBuild]; ODespawn (zid 0)]).
  exists w, (zid 1). split_and!; [zdone..| |zdone].
  intros e [v Hv%held_holds]. vm_compute in Hv. by apply elem_of_nil in Hv.
Qed.

(** C46: both ids are alive, the entity lacks the component. *)
Lemma get_mut_panics : ∃ w e c v, reachable_world w ∧ op_legal (OWrite e c v) w ∧ lives w e ∧ lives w c ∧ ¬ has w e c ∧
  step (OWrite e c v) w = Panicked RIndex w [].
Proof.
  set (w := wplay [zspawn [BWith zA (z4 1); BBuild]; zspawn [BBuild]]).
  exists w, (zid 2), (zid 1), (z4 1). split_and!; zdone.
Qed.
