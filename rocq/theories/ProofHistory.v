(** * Histories: what the calls on queries do to the world, and what survives a sequence of
    calls. *)
From Verif Require Import ProofBase SpecSmall World History ProofEntities ProofBitset ProofArrayVec ProofUVec.
From Verif Require Export ProofReject.

Definition only_locks (w w' : world) : Prop := ∃ ls, w' = set_locks ls w ∧ length ls = length (w_locks w).
Lemma only_locks_refl w : only_locks w w.
Proof. exists (w_locks w). split; [|done]. by destruct w. Qed.
Lemma only_locks_view w w' : only_locks w w' → same_view w w'.
Proof.
  intros (ls & -> & _). split_and!; [|done..]. intros e _. by rewrite !lives_alive.
Qed.
Lemma only_locks_frame w w' : only_locks w w' → sframe w w'.
Proof. intros (ls & -> & _). constructor; [done|by intros ??|done]. Qed.

(** A write through an open query. *)
Definition stores (o : sop) (s : sess) (w' : world) : Prop :=
  ∃ i n j v q fs e c, o = SStore i n j v ∧ ss_open s !! i = Some (Some q) ∧ oq_fetches (ss_world s) q = Some fs ∧
    fs !! j = Some (FMut c) ∧ keeps (ss_world s) w' ∧
    same_lives (ss_world s) w' ∧ same_stored (ss_world s) w' ∧ same_types (ss_world s) w' ∧ sets (ss_world s) w' e c v ∧
    ∃ v0, holds (ss_world s) e c v0 ∧ length v = length v0.

Lemma query_view o s : sinv s → sop_legal o s → sop_tame o s → (∀ o', o ≠ SWorld o') →
  match sstep o s with
  | Done r s' ev => ev = [] ∧ (only_locks (ss_world s) (ss_world s') ∨ stores o s (ss_world s'))
  | Panicked r s' ev => r = RCapacity ∨ ev = [] ∧ only_locks (ss_world s) (ss_world s')
  | Deadlock => opens o
  | UB => False
  end.
Proof.
  intros Hs Hleg Htame Ho. destruct o as [o|fs|ps|i u|i|i n j v]; cbn [sstep]; [by destruct (Ho o)|..].
  - rewrite /open_query {1}/bind in_sworld_run {1}/bind.
    destruct (sv_locks _ Hs) as [F HF].
    pose proof (dq_new_run (ss_world s) _ fs (λ c i, sinv_lock_lt s c i Hs) HF) as H.
    destruct (dq_new fs (ss_world s)) as [q w' ev|r w' ev| |] eqn:Hrun; [| |done..]; cbn.
    + destruct H as (-> & _ & _ & _ & _ & _ & _ & Hls). split; [done|]. by left.
    + destruct H as (-> & _ & _ & Hls). by right.
  - rewrite /open_query {1}/bind in_sworld_run {1}/bind.
    destruct (sv_locks _ Hs) as [F HF].
    pose proof (sq_new_run (ss_world s) _ ps (λ c i, sinv_lock_lt s c i Hs) HF) as H.
    destruct (sq_new ps (ss_world s)) as [q w' ev|r w' ev| |] eqn:Hrun; [| |done..]; cbn.
    + destruct H as (-> & _ & _ & _ & _ & _ & Hls). split; [done|]. by left.
    + destruct H as (-> & _ & _ & Hls). by right.
  - rewrite (bind_done_nil _ _ s s s eq_refl). destruct (ss_open s !! i) as [[q|]|] eqn:Hi; cbn; (split; [done|left]); [|apply only_locks_refl..].
    exact (release_all_locks u (oq_guards q) (ss_world s)).
  - cbn. split; [done|left]. apply only_locks_refl.
  - rewrite (bind_done_nil _ _ s s s eq_refl).
    destruct (ss_open s !! i) as [[q|]|] eqn:Hi; [|cbn; split; [done|left]; apply only_locks_refl..].
    destruct (Hleg _ Hi) as (fs & c & Hfs & Hj & Hv). pose proof (sv_world _ Hs) as Hok.
    pose proof (query_item_run _ q n Hok (sv_open _ Hs _ _ Hi)) as H. rewrite /wp in H.
    rewrite {1}/bind in_sworld_run. destruct (query_item q n (ss_world s)) as [o w' ev|r w' ev| |]; [| |done..].
    + destruct H as (-> & -> & Ho'). rewrite sess_eta. destruct o as [ps|]; [|cbn; split; [done|left]; apply only_locks_refl]. cbn [mbind option_bind].
      destruct (ps !! j) as [q0|] eqn:Hq0; [|cbn; split; [done|left]; apply only_locks_refl]. destruct (Ho' _ eq_refl) as (fs' & p & Hfs' & Hg & ->).
      rewrite Hfs in Hfs'. injection Hfs' as <-. destruct Hok as [[R Hw] Hroom].
      destruct (ptr_store_run _ _ _ _ _ _ _ _ Hw Hg Hj Hv Hq0) as (e & w' & He & Hrun & Hd).
      rewrite /bind in_sworld_run Hrun. cbn. split; [done|right]. pose proof Hd as (Hk & _).
      destruct (write_done_view _ _ _ _ _ _ Hw Hd) as (H1 & H2 & H3 & H4 & H5). eexists i, n, j, v, q, fs, e, c. by split_and!.
    + destruct H as [->|(-> & -> & _)]; [by left|]. right. rewrite sess_eta. split; [done|]. apply only_locks_refl.
Qed.

(** *** One call of a session *)
Lemma sworld_run o s :
  sstep (SWorld o) s = match step o (ss_world s) with
                       | Done a w ev => Done (SRet a) (Sess w (ss_open s)) ev
                       | Panicked r w ev => Panicked r (Sess w (ss_open s)) ev
                       | Deadlock => Deadlock | UB => UB end.
Proof. cbn [sstep]. rewrite /bind in_sworld_run. destruct (step o (ss_world s)); cbn; try done. by rewrite app_nil_r. Qed.
(** The call returned or its panic was caught, as in [steps]. *)
Definition goes (o : sop) (s : sess) (r : res) (s' : sess) (ev : list event) : Prop :=
  sop_legal o s ∧ sop_tame o s ∧
  match r with ROk a => sstep o s = Done a s' ev | RPanic x => sstep o s = Panicked x s' ev ∧ resumable x end.
Lemma steps_goes (P : sess → list (sop * res * list event) → sess → Prop) :
  (∀ s, P s [] s) →
  (∀ s0 l s1 o r s2 ev, steps s0 l s1 → P s0 l s1 → goes o s1 r s2 ev → P s0 (l ++ [(o, r, ev)]) s2) →
  ∀ s0 l s, steps s0 l s → P s0 l s.
Proof.
  intros H0 H1. induction 1 as [|s0 l s1 o r s2 ev Hst IH Hleg Htame Hrun|s0 l s1 o r s2 ev Hst IH Hleg Htame Hrun Hres]; [done|..].
  - by eapply (H1 _ _ _ o (ROk r)).
  - by eapply (H1 _ _ _ o (RPanic r)).
Qed.
Lemma goes_inv o s r s' ev : sinv s → goes o s r s' ev → sinv s'.
Proof.
  intros Hs (Hl & Ht & H). pose proof (sstep_inv o s Hs Hl Ht) as Hi. destruct r as [a|x].
  - by rewrite H in Hi.
  - destruct H as [H Hr]. rewrite H in Hi. by apply Hi.
Qed.
(** A call on a session is a call on the world or on a query. *)
Definition wgoes (o : op) (w : world) (r : oret + reason) (w' : world) (ev : list event) : Prop :=
  op_legal o w ∧ op_tame o w ∧
  match r with inl a => step o w = Done a w' ev | inr x => step o w = Panicked x w' ev ∧ resumable x end.
Lemma goes_world o s r s' ev : sinv s → goes o s r s' ev →
  (∃ o' r', o = SWorld o' ∧ wgoes o' (ss_world s) r' (ss_world s') ev ∧ r = match r' with inl a => ROk (SRet a) | inr x => RPanic x end) ∨
  (ev = [] ∧ (only_locks (ss_world s) (ss_world s') ∨ stores o s (ss_world s'))).
Proof.
  intros Hs (Hl & Ht & H). destruct o as [o'| | | | |] eqn:Ho.
  { left. rewrite sworld_run in H. destruct Hl as [Hl _]. cbn [sop_tame] in Ht. exists o'. destruct r as [a|x].
    - destruct (step o' (ss_world s)) as [a0 w' ev'|x0 w' ev'| |] eqn:E; simplify_eq. by exists (inl a0).
    - destruct H as [H Hr]. destruct (step o' (ss_world s)) as [a0 w' ev'|x0 w' ev'| |] eqn:E; simplify_eq. by exists (inr x). }
  all: right; rewrite -Ho in H Hl Ht |- *; pose proof (query_view o s Hs Hl Ht) as Hv; destruct r as [a|x];
    [rewrite H in Hv; apply Hv; by rewrite Ho|
     destruct H as [H [Hr _]]; rewrite H in Hv; destruct Hv as [?|[? ?]]; [by rewrite Ho|done|by auto]].
Qed.
Lemma stores_frame o s w' : stores o s w' → sframe (ss_world s) w'.
Proof. intros (? & ? & ? & ? & ? & ? & ? & ? & _ & _ & _ & _ & Hk & _). by apply keeps_frame. Qed.
Lemma wgoes_frame o w r w' ev : WOk w → wgoes o w r w' ev → sframe w w'.
Proof.
  intros Hw (Hl & Ht & E). pose proof (step_frame o w (proj1 Hw) Hl Ht) as H. rewrite /wp in H.
  destruct r as [a|x].
  - by rewrite E in H.
  - destruct E as (E & Hx1 & Hx2). rewrite E in H. destruct H as [?|H]; [done|]. by apply H.
Qed.
Lemma goes_frame o s r s' ev : sinv s → goes o s r s' ev → sframe (ss_world s) (ss_world s').
Proof.
  intros Hs H. destruct (goes_world _ _ _ _ _ Hs H) as [(o' & r' & _ & H' & _)|(_ & [H'|H'])].
  - eapply wgoes_frame; [apply Hs|done].
  - by apply only_locks_frame.
  - by eapply stores_frame.
Qed.

(** *** Types keep their ids for ever (C36) *)
Lemma steps_types s l s' : sinv s → steps s l s' → ∀ t c, type_id (ss_world s) t c → type_id (ss_world s') t c.
Proof.
  intros Hs Hst. revert Hs. revert s l s' Hst. apply (steps_goes (λ s l s', sinv s → ∀ t c, type_id (ss_world s) t c → type_id (ss_world s') t c)); [done|].
  intros s0 l s1 o r s2 ev Hst IH Hg H0 t c Htc. pose proof (steps_inv _ _ _ H0 Hst) as H1.
  apply (sf_types _ _ (goes_frame _ _ _ _ _ H1 Hg)). by apply IH.
Qed.

(** *** What the other calls leave alone *)
Lemma stays w w' e c (o : op) r ev : WOk w → wgoes o w r w' ev → id_wf e → stored w e → o ≠ ODespawn e →
  stored w' e ∧
  (∀ v, holds w e c v → ¬ takes (SWorld o) e c → holds w' e c v) ∧
  (¬ has w e c → ¬ brings (SWorld o) e c → ¬ has w' e c).
Proof.
  intros Hw Hg Hwf Hse Hne.
  assert (lives w e) as Hle by by apply (co_live _ (ok_consistent _ Hw)).
  assert (unharmed w w' → stored w' e ∧
    (∀ v, holds w e c v → ¬ takes (SWorld o) e c → holds w' e c v) ∧
    (¬ has w e c → ¬ brings (SWorld o) e c → ¬ has w' e c)) as Hun.
  { intros Hu. destruct (Hu e Hwf Hle) as (_ & H1 & H2). split_and!; [by apply H1|by intros v Hv _; apply H2|].
    intros Hn _ [v Hv]. apply Hn. exists v. by apply H2. }
  destruct Hg as (Hl & Ht & E). destruct r as [a|x]; last first.
  { destruct E as (E & Hr). apply Hun. by eapply panic_view. }
  destruct o as [cap meta bs fin|e1|e1 t v1|e1 t|e1 c1|e1 c1 v1|e1 c1|t|e1 c1 v1|e1 t|e1].
  - apply Hun. pose proof (spawn_view w cap meta bs fin Hw Hl Ht) as H. rewrite E in H.
    destruct H as (-> & e1 & D & -> & Hsp & HD & [(_ & _ & H & _)|(_ & H)]); [by eapply built_unharmed|by eapply not_built_unharmed].
  - pose proof (despawn_view w e1 Hw Hl Ht) as H. rewrite E in H.
    destruct H as [(-> & _ & _ & _ & _ & H1 & H2 & H3 & _)|(_ & _ & -> & _)]; [|apply Hun, unharmed_refl].
    assert (e ≠ e1) as Hne1 by by intros ->. split_and!; [by apply H2|by intros v Hv _; apply H3|].
    intros Hn _ [v [_ Hv]%H3]. apply Hn. by exists v.
  - pose proof (add_typed_view w e1 t v1 Hw Hl Ht) as H. rewrite E in H.
    destruct H as (-> & -> & Hle1 & (G1 & G2 & G3 & G4) & Ho & c1 & Htc & [(_ & _ & Hn & H)|(_ & _ & ->)]); [|apply Hun, unharmed_refl].
    split_and!; [apply G3; by left| |].
    + intros v Hv _. apply H. right. split; [|done]. intros [-> ->]. apply Hn. by exists v.
    + intros Hn1 Hb [v [(-> & _)|[_ Hv]]%H]; [by destruct Hb; cbn|]. apply Hn1. by exists v.
  - pose proof (remove_typed_view w e1 t Hw Hl Ht) as H. rewrite E in H.
    destruct H as (-> & Hle1 & (G1 & G2 & G3 & G4) & Ho & c1 & Htc & _ & [(_ & _ & H & _)|(_ & -> & _)]); [|apply Hun, unharmed_refl].
    split_and!; [apply G3; by left| |].
    + intros v Hv Hb. apply H. split; [|done]. intros [-> _]. by destruct Hb; cbn.
    + intros Hn _ [v [_ Hv]%H]. apply Hn. by exists v.
  - pose proof (add_plain_view w e1 c1 Hw Hl Ht) as H. rewrite E in H.
    destruct H as (-> & -> & _ & _ & _ & _ & Hn & _ & G & _ & H). split_and!; [by apply G| |].
    + intros v Hv _. apply H. right. split; [|done]. intros [-> ->]. apply Hn. by exists v.
    + intros Hn1 Hb [v [(-> & -> & _)|[_ Hv]]%H]; [by destruct Hb; cbn|]. apply Hn1. by exists v.
  - pose proof (add_dyn_view w e1 c1 v1 Hw Hl Ht) as H. rewrite E in H.
    destruct H as (-> & -> & [(-> & _)|(_ & _ & _ & _ & Hn & _ & G & _ & H)]); [apply Hun, unharmed_refl|]. split_and!; [by apply G| |].
    + intros v Hv _. apply H. right. split; [|done]. intros [-> ->]. apply Hn. by exists v.
    + intros Hn1 Hb [v [(-> & -> & _)|[_ Hv]]%H]; [by destruct Hb; cbn|]. apply Hn1. by exists v.
  - pose proof (remove_dyn_view w e1 c1 Hw Hl Ht) as H. rewrite E in H.
    destruct H as (-> & [(-> & _)|(_ & _ & _ & _ & G & _ & H & _)]); [apply Hun, unharmed_refl|]. split_and!; [by apply G| |].
    + intros v Hv Hb. apply H. split; [|done]. intros [-> ->]. by destruct Hb; cbn.
    + intros Hn _ [v [_ Hv]%H]. apply Hn. by exists v.
  - pose proof (register_view w t Hw Hl) as H. rewrite E in H. destruct H as (_ & H1 & H2 & _). apply Hun. by apply grown_unharmed.
  - pose proof (write_view w e1 c1 v1 Hw Hl) as H. rewrite E in H.
    destruct H as (-> & [(_ & -> & _)|(_ & _ & G & _ & H & v0 & Hv0 & _)]); [apply Hun, unharmed_refl|]. split_and!; [by apply G| |].
    + intros v Hv Hb. apply H. right. split; [|done]. intros [-> ->]. by destruct Hb; cbn.
    + intros Hn1 _ [v [(-> & -> & _)|[_ Hv]]%H]; apply Hn1; [by exists v0|by exists v].
  - pose proof (has_view w e1 t Hw) as H. rewrite E in H. destruct H as (-> & _). apply Hun, unharmed_refl.
  - apply Hun. cbn [step] in E. rewrite /bind in E. pose proof (is_alive_cases w e1) as H.
    destruct (is_alive e1 w) as [b w1 ev1|r1 w1 ev1| |]; [| |done..]; [|done].
    destruct H as (-> & _). cbn in E. simplify_eq. apply unharmed_refl.
Qed.

Lemma goes_stays o s r s' ev e c : sinv s → goes o s r s' ev → id_wf e → stored (ss_world s) e → ¬ kills o e →
  stored (ss_world s') e ∧
  (∀ v, holds (ss_world s) e c v → ¬ takes o e c → holds (ss_world s') e c v) ∧
  (¬ has (ss_world s) e c → ¬ brings o e c → ¬ has (ss_world s') e c).
Proof.
  intros Hs Hg Hwf Hse Hk. destruct (goes_world _ _ _ _ _ Hs Hg) as [(o' & r' & -> & H & _)|(_ & [H|H])].
  - eapply stays; [apply Hs|done..|]. intros ->. by apply Hk.
  - destruct (only_locks_view _ _ H) as (H1 & H2 & H3 & H4). split_and!; [by apply H2|by intros v Hv _; apply H3|].
    intros Hn _ [v Hv%H3]. apply Hn. by exists v.
  - destruct H as (i & n & j & v & q & fs & e1 & c1 & -> & _ & _ & _ & _ & _ & H2 & _ & H4 & v0 & Hv0 & _).
    split_and!; [by apply H2|by intros v1 _ Hb; destruct Hb|].
    intros Hn _ [v1 [(-> & -> & _)|[_ Hv]]%H4]; apply Hn; [by exists v0|by exists v1].
Qed.
Lemma steps_stay s l s' e c : sinv s → steps s l s' → id_wf e → stored (ss_world s) e → (∀ o, o ∈ calls_of l → ¬ kills o e) →
  stored (ss_world s') e ∧
  (∀ v, holds (ss_world s) e c v → (∀ o, o ∈ calls_of l → ¬ takes o e c) → holds (ss_world s') e c v) ∧
  (¬ has (ss_world s) e c → (∀ o, o ∈ calls_of l → ¬ brings o e c) → ¬ has (ss_world s') e c).
Proof.
  intros Hs Hst Hwf. revert s l s' Hst Hs. apply (steps_goes (λ s l s', sinv s → stored (ss_world s) e → (∀ o, o ∈ calls_of l → ¬ kills o e) →
    stored (ss_world s') e ∧
    (∀ v, holds (ss_world s) e c v → (∀ o, o ∈ calls_of l → ¬ takes o e c) → holds (ss_world s') e c v) ∧
    (¬ has (ss_world s) e c → (∀ o, o ∈ calls_of l → ¬ brings o e c) → ¬ has (ss_world s') e c))).
  { intros s _ Hse _. by split_and!. }
  intros s0 l s1 o r s2 ev Hst IH Hg H0 Hse Hk. pose proof (steps_inv _ _ _ H0 Hst) as H1.
  assert (calls_of (l ++ [(o, r, ev)]) = calls_of l ++ [o]) as Hl by by rewrite /calls_of !fmap_app.
  rewrite Hl in Hk. destruct IH as (I1 & I2 & I3); [done..|by intros; apply Hk, elem_of_app; left|].
  destruct (goes_stays _ _ _ _ _ e c H1 Hg Hwf I1) as (J1 & J2 & J3); [apply Hk, elem_of_app; right; apply elem_of_list_here|].
  rewrite Hl. split_and!; [done|..].
  - intros v Hv Ht. apply J2; [|apply Ht, elem_of_app; right; apply elem_of_list_here]. apply I2; [done|]. intros; apply Ht, elem_of_app; by left.
  - intros Hn Hb. apply J3; [|apply Hb, elem_of_app; right; apply elem_of_list_here]. apply I3; [done|]. intros; apply Hb, elem_of_app; by left.
Qed.

(** *** Duplicates (C33), registration (C36), components in use (C39) *)
Lemma duplicates_view w cap meta pre post fin r w' ev : WOk w → op_legal (OSpawn cap meta (pre ++ BBuild :: post) fin) w →
  op_tame (OSpawn cap meta (pre ++ BBuild :: post) fin) w → BBuild ∉ pre →
  step (OSpawn cap meta (pre ++ BBuild :: post) fin) w = Done r w' ev → ∃ D, given w' pre D ∧ NoDup D.*1.
Proof.
  intros Hw Hl Ht Hpre E. pose proof (spawn_view w cap meta _ fin Hw Hl Ht) as H. rewrite E in H.
  destruct H as (_ & e & D & _ & _ & HD & [(_ & Hn & _)|(Hb & _)]).
  - rewrite (bops_before_app _ _ Hpre) in HD. eauto.
  - destruct Hb. apply elem_of_app. right. apply elem_of_list_here.
Qed.
Lemma register_info w t r w' ev : WOk w → op_legal (ORegister t) w → op_tame (ORegister t) w → step (ORegister t) w = Done r w' ev →
  ∃ c, r = RId c ∧ type_id w' t c ∧ (lives w' c → stored w' c ∧ recorded w' c (cm_from_generic t)) ∧
    ((type_id w t c ∧ w' = w) ∨ ((∀ c', ¬ type_id w t c') ∧ lives w' c ∧ ¬ lives w c)) ∧
    grown w w' ∧ same_holds w w' ∧ other_types w w' t ∧ ev = [].
Proof.
  intros Hw Hl Ht E. destruct (step_done_ok _ _ _ _ _ Hw Hl Ht E) as [Hw1 _].
  pose proof (register_view w t Hw Hl) as H. rewrite E in H. destruct H as (-> & Hg & Hh & Ho & c & -> & Htc & H).
  exists c. split_and!; [done..| | |done|done|done|done].
  - intros Hlc. by apply (typed_stored w' t c).
  - destruct H as [H|(H1 & H2 & H3 & H4)]; auto.
Qed.
Lemma in_use_despawn w e : WOk w → id_wf e → op_tame (ODespawn e) w → in_use w e → step (ODespawn e) w = Panicked RComponentInUse w [].
Proof.
  intros Hw He Ht Hu. pose proof (despawn_view w e Hw He Ht) as H.
  destruct (co_comps _ (ok_consistent _ Hw) _ Hu) as [Hl Hse].
  destruct (step (ODespawn e) w) as [r w' ev|r w' ev| |]; [| |done..].
  - destruct H as [(_ & _ & _ & ? & _)|(_ & ? & _)]; done.
  - destruct H as (-> & -> & [(_ & ?%unissued_lives)|[(-> & _)|(_ & _ & ?)]]); done.
Qed.
Lemma build_exact w cap meta pre post fin r w' ev : reachable_world w →
  op_legal (OSpawn cap meta (pre ++ BBuild :: post) fin) w → op_tame (OSpawn cap meta (pre ++ BBuild :: post) fin) w →
  BBuild ∉ pre → step (OSpawn cap meta (pre ++ BBuild :: post) fin) w = Done r w' ev →
  ∃ e D, r = RId e ∧ ev = [] ∧ ¬ lives w e ∧ lives w' e ∧ stored w' e ∧ given w' pre D ∧
    (∀ c v, holds w' e c v ↔ (c, v) ∈ D) ∧ NoDup D.*1 ∧
    (∀ e0 c v, e0 ≠ e → holds w' e0 c v ↔ holds w e0 c v) ∧
    (∀ e0, id_wf e0 → e0 ≠ e → lives w' e0 ↔ lives w e0 ∨ new_type w w' e0).
Proof.
  intros Hw%reachable_world_ok Hl Ht Hpre E. pose proof (spawn_view w cap meta _ fin Hw Hl Ht) as H. rewrite E in H.
  destruct H as (-> & e & D & -> & (S1 & S2 & S3 & S4 & S5 & S6) & HD & [(_ & Hn & (B1 & B2) & _)|(Hb & _)]).
  - rewrite (bops_before_app _ _ Hpre) in HD. exists e, D.
    assert (∀ c v, ¬ holds w e c v) as Hnh.
    { intros c v (k & i & a & j & u & Ha & He & _). apply S2, (co_live _ (ok_consistent _ Hw)). by exists k, i, a. }
    split_and!; [done|done|done|apply S4; auto|apply B1; auto|done| |done| |].
    + intros c v. rewrite B2. naive_solver.
    + intros e0 c v Hne. rewrite B2. naive_solver.
    + intros e0 Hwf Hne. rewrite S4 //. naive_solver.
  - destruct Hb. apply elem_of_app. right. apply elem_of_list_here.
Qed.
Lemma panic_consistent o w r w' ev : reachable_world w → op_legal o w → op_tame o w →
  step o w = Panicked r w' ev → resumable r → consistent w' ∧ distinct_sets w' ∧ unharmed w w'.
Proof.
  intros Hw%reachable_world_ok Hl Ht E Hr. destruct (panic_view _ _ _ _ _ Hw Hl Ht E Hr) as [H1 H2].
  split_and!; [by apply ok_consistent|by apply ok_distinct|done].
Qed.
Lemma panic_torn o w w' ev : reachable_world w → op_legal o w → op_tame o w → step o w = Panicked RColumnLength w' ev →
  ev = [] ∧ unharmed w w' ∧ distinct_sets w' ∧ ¬ consistent w' ∧
  ∃ cap meta bs fin e D, o = OSpawn cap meta bs fin ∧ spawned w w' e ∧ given w' (bops_before bs) D ∧ half_built w w' e D.
Proof. intros Hw%reachable_world_ok. by apply torn_view'. Qed.

(** *** The list of everything held *)
Lemma row_cells_elem a i e e0 c v : (e0, c, v) ∈ row_cells a i e ↔
  e0 = e ∧ ∃ j u, a_storages a !! j = Some (c, u) ∧ mem_read (uv_data u) (i * uv_size u) (uv_size u) = Some v.
Proof.
  rewrite /row_cells elem_of_list_bind. split.
  - intros ([c' u] & Hx & [j Hj]%elem_of_list_lookup_1). cbn in Hx.
    destruct (mem_read (uv_data u) (i * uv_size u) (uv_size u)) as [v'|] eqn:Hm; [|by apply elem_of_nil in Hx].
    apply elem_of_list_singleton in Hx. simplify_eq. eauto.
  - intros (-> & j & u & Hj & Hm). exists (c, u). cbn. rewrite Hm. split; [by apply elem_of_list_singleton|by eapply elem_of_list_lookup_2].
Qed.
Lemma held_holds w e c v : (e, c, v) ∈ held w ↔ holds w e c v.
Proof.
  rewrite /held elem_of_list_bind. split.
  - intros (a & Hx & [k Hk]%elem_of_list_lookup_1). apply elem_of_list_join in Hx as (l & Hx & Hl).
    apply elem_of_list_lookup_1 in Hl as [i Hi]. rewrite list_lookup_imap in Hi. apply fmap_Some in Hi as (e1 & He & ->).
    apply row_cells_elem in Hx as (-> & j & u & Hj & Hm). by exists k, i, a, j, u.
  - intros (k & i & a & j & u & Hk & He & Hj & Hm). exists a. split; [|by eapply elem_of_list_lookup_2].
    apply elem_of_list_join. exists (row_cells a i e). split; [apply row_cells_elem; eauto|].
    eapply (elem_of_list_lookup_2 _ i). rewrite list_lookup_imap He. done.
Qed.

Lemma unbuilt_leaks w cap meta bs fin r w' ev : reachable_world w →
  op_legal (OSpawn cap meta bs fin) w → op_tame (OSpawn cap meta bs fin) w → BBuild ∉ bs →
  step (OSpawn cap meta bs fin) w = Done r w' ev → same_holds w w' ∧ ev = [].
Proof.
  intros Hw%reachable_world_ok Hl Ht Hb E. pose proof (spawn_view w cap meta bs fin Hw Hl Ht) as H. rewrite E in H.
  destruct H as (-> & e & D & -> & _ & _ & [(? & _)|(_ & _ & _ & H)]); done.
Qed.
