(** * Spawning, registering types, and the life of a builder *)
From Verif Require Import ProofBase SpecSmall World History ProofEntities ProofBitset ProofArrayVec ProofUVec.
From Verif Require Export ProofBuild.

(** ** How the world grows when types are registered *)
Definition fresh_type (w w' : world) (c : ecsid) : Prop :=
  ∃ t, w_types w !! t = None ∧ w_types w' !! t = Some c.
Record grow (w w' : world) : Prop := {
  gr_alive : ∀ c, alive (w_ents w) c → alive (w_ents w') c;
  gr_alive_inv : ∀ c, id_wf c → alive (w_ents w') c → alive (w_ents w) c ∨ fresh_type w w' c;
  gr_fresh : ∀ c, fresh_type w w' c → alive (w_ents w') c ∧ ¬ alive (w_ents w) c;
  gr_meta : ∀ c, alive (w_ents w) c → meta_at w' (uindex c) = meta_at w (uindex c);
  gr_types : ∀ t c, w_types w !! t = Some c → w_types w' !! t = Some c;
  gr_locks : ∀ c i, w_lock_lookup w !! c = Some i → w_lock_lookup w' !! c = Some i ∧ w_locks w' !! i = w_locks w !! i;
  gr_ids : ∀ k L, arch_ids w !! k = Some L → arch_ids w' !! k = Some L;
  gr_len : length (w_archs w') ≤ Nat.max 1 (length (w_archs w))
}.
Lemma fresh_type_same w w' c : w_types w' = w_types w → ¬ fresh_type w w' c.
Proof. intros E (t & H1 & H2). congruence. Qed.
Lemma grow_refl w : grow w w.
Proof.
  constructor; try done; try lia; try naive_solver. intros c H. by apply fresh_type_same in H.
Qed.
Lemma grow_trans w1 w2 w3 : grow w1 w2 → grow w2 w3 → grow w1 w3.
Proof.
  intros [A1 A2 A3 A4 A5 A6 A7 A8] [B1 B2 B3 B4 B5 B6 B7 B8].
  assert (∀ c, fresh_type w1 w2 c → fresh_type w1 w3 c) as F1. { intros c (t & ? & ?). exists t. eauto. }
  assert (∀ c, fresh_type w2 w3 c → fresh_type w1 w3 c) as F2.
  { intros c (t & H1 & H2). exists t. split; [|done]. destruct (w_types w1 !! t) as [c'|] eqn:E; [|done].
    apply A5 in E. congruence. }
  constructor.
  - eauto.
  - intros c Hc H3. destruct (B2 c Hc H3) as [H2|H2]; [|eauto]. destruct (A2 c Hc H2); eauto.
  - intros c (t & H1 & H3). destruct (w_types w2 !! t) as [c'|] eqn:E.
    + pose proof (B5 _ _ E) as E'. rewrite E' in H3. injection H3 as ->. destruct (A3 c) as [? ?]; [by exists t|]. eauto.
    + destruct (B3 c) as [? ?]; [by exists t|]. naive_solver.
  - intros c Hc. rewrite B4; eauto.
  - eauto.
  - intros c i Hc. destruct (A6 c i Hc) as [Hc2 E]. destruct (B6 c i Hc2) as [? E2]. split; [done|congruence].
  - eauto.
  - lia.
Qed.
Lemma grow_reuse w w' r : grow w w' → grow w (set_reuse r w').
Proof. intros H. constructor; apply H. Qed.
Lemma grow_reuse_l w w' r : grow (set_reuse r w) w' → grow w w'.
Proof. intros H. constructor; apply H. Qed.
Lemma grow_room n w w' : grow w w' → (N.of_nat n < u32_max)%N → room n w → room n w'.
Proof. intros H Hn. rewrite /room. pose proof (gr_len _ _ H). lia. Qed.
Lemma grow_comp w w' c : grow w w' → alive (w_ents w) c → comp_of w' c = comp_of w c.
Proof. intros H Hc. by rewrite /comp_of (gr_meta _ _ H). Qed.
Lemma grow_pending w w' b D : grow w w' → pending w b D → pending w' b D.
Proof.
  intros Hg [P1 P2 P3 P4]. constructor; [done..|]. intros c v Hcv. destruct (P4 c v Hcv) as (Hal & cm & Hcm & Hl).
  split; [by apply Hg|]. exists cm. by rewrite (grow_comp _ _ _ Hg).
Qed.
Definition grow_rows (w w' : world) (R R' : list (list row)) : Prop :=
  ∀ e m, rowof R' e m ↔ (m = ∅ ∧ fresh_type w w' e) ∨ rowof R e m.
Lemma grow_rows_refl w R : grow_rows w w R R.
Proof. intros e m. split; [by right|]. intros [[_ H]|?]; [by apply fresh_type_same in H|done]. Qed.
Lemma grow_rows_trans w1 w2 w3 R1 R2 R3 : grow w1 w2 → grow w2 w3 →
  grow_rows w1 w2 R1 R2 → grow_rows w2 w3 R2 R3 → grow_rows w1 w3 R1 R3.
Proof.
  intros G1 G2 H1 H2 e m. rewrite H2 H1. split.
  - intros [[-> (t & E1 & E2)]|[[-> (t & E1 & E2)]|?]]; [| |by right]; left; (split; [done|]); exists t.
    + split; [|done]. destruct (w_types w1 !! t) as [c|] eqn:E; [|done]. apply (gr_types _ _ G1) in E. congruence.
    + split; [done|]. by apply (gr_types _ _ G2).
  - intros [[-> (t & E1 & E2)]|?]; [|by auto]. destruct (w_types w2 !! t) as [c|] eqn:E.
    + right. left. split; [done|]. pose proof (gr_types _ _ G2 _ _ E) as E'. rewrite E' in E2. injection E2 as ->. by exists t.
    + left. split; [done|]. by exists t.
Qed.

(** ** Recording the component metadata of an entity, and a type *)
Lemma winv_set_comp w R e em cm : winv w R → alive (w_ents w) e → meta_at w (uindex e) = Some em →
  (∀ k L, arch_ids w !! k = Some L → e ∉ L) → (∀ t, w_types w !! t ≠ Some e) → layout_wf (cm_layout cm) →
  let w' := set_meta (<[uindex e := Some (EntMeta (em_inst em) cm)]> (w_meta w)) w in
  winv w' R ∧ ∀ i, meta_at w' i = if decide (i = uindex e) then Some (EntMeta (em_inst em) cm) else meta_at w i.
Proof.
  intros Hw Hal Hem Hnc Hnt Hlay w'.
  assert (∀ i, meta_at w' i = if decide (i = uindex e) then Some (EntMeta (em_inst em) cm) else meta_at w i) as HM.
  { intros i. exact (meta_at_insert w (uindex e) _ i (meta_at_lt _ _ _ Hem)). }
  split; [|done].
  assert (∀ c, alive (w_ents w) c → c ≠ e → comp_of w' c = comp_of w c) as Hco.
  { intros c Hc Hne. rewrite /comp_of HM decide_False //. intros Hu. apply Hne. by eapply alive_inj. }
  assert (∀ i, em_inst <$> meta_at w' i = em_inst <$> meta_at w i) as Hin.
  { intros i. rewrite HM. case_decide as E; [|done]. by rewrite E Hem. }
  apply (winv_rows_change w R w'); try done.
  - apply (wi_ents _ _ Hw).
  - intros k a Ha. split; [by eapply wi_shape|by eapply wi_cache].
  - intros k a rs Ha Hrs. destruct (wi_rows _ _ Hw _ _ _ Ha Hrs) as [A1 A2 A3]. constructor; [done| |done].
    intros c v Hcv. destruct (A2 c v Hcv) as (cm' & Hcm' & ? & ?). exists cm'. split_and!; [|done..].
    assert (c ∈ a_comp_ids a) as Hc. { rewrite -(as_storages _ (wi_shape _ _ Hw _ _ Ha)). apply elem_of_list_fmap. by exists (c, v). }
    assert (arch_ids w !! k = Some (a_comp_ids a)) as HL by (apply arch_ids_lookup; eauto).
    rewrite Hco //; [by eapply wi_comps|]. intros ->. by apply (Hnc _ _ HL).
  - intros k L c HL Hc. destruct (wi_comps _ _ Hw _ _ _ HL Hc) as (? & ? & _). split; [done|]. rewrite Hco //.
    intros ->. by apply (Hnc _ _ HL).
  - intros k i rs e0 m Hrs Hi. rewrite Hin. exact (wi_row _ _ Hw _ _ _ _ _ Hrs Hi).
  - intros i em0 H0. assert (em_inst <$> meta_at w i = Some (em_inst em0)) as (em1 & H1 & ->)%fmap_Some by by rewrite -Hin H0.
    by apply (wi_meta _ _ Hw).
  - intros i em0. rewrite HM. case_decide; [by intros [= <-]|]. apply (wi_layout _ _ Hw).
  - intros t c Ht. destruct (wi_types _ _ Hw _ _ Ht) as (_ & _ & b & g & Hg & Hb). exists b, g. split; [done|].
    destruct b; [|done]. intros Eg. rewrite Hco; [by apply Hb| |].
    + apply alive_iff. by rewrite Hg Eg.
    + intros ->. by apply (Hnt t).
Qed.
Lemma winv_set_type w R t c : winv w R → ty_wf t → id_wf c → alive (w_ents w) c →
  comp_of w c = Some (cm_from_generic t) → (∀ t', w_types w !! t' ≠ Some c) →
  winv (set_types (<[t := c]> (w_types w)) w) R.
Proof.
  intros Hw Ht Hc Hal Hcm Hnt. constructor; try apply Hw.
  - intros t' c'. cbn [w_types set_types]. rewrite lookup_insert_Some. intros [[<- <-]|[_ H]]; [|by apply (wi_types _ _ Hw)].
    split_and!; [done|done|]. exists true, (id_gen c). split; [by apply alive_iff|done].
  - intros t1 t2 c'. cbn [w_types set_types]. rewrite !lookup_insert_Some. intros [[<- <-]|[_ H]] [[<- E]|[_ H']]; try done.
    + by destruct (Hnt t2).
    + rewrite E in Hnt. by destruct (Hnt t1).
    + by eapply (wi_types_inj _ _ Hw).
Qed.

(** ** Making a builder *)
Definition fresh_builder (e : ecsid) (cm : component_meta) (b : builder) : Prop :=
  bbuf b ∧ eb_entity b = e ∧ eb_meta b = cm ∧ ∀ w, pending w b [].
Lemma fresh_builder_intro p cap e cm : buffer_ok p cap → fresh_builder e cm (Builder p cap 0 [] e cm 0).
Proof.
  intros H. split_and!; [|done..|]. { split; [done|]. simpl. lia. }
  intros w. constructor; [done..|]. intros c v Hc. by apply elem_of_nil in Hc.
Qed.
Lemma builder_new_spec w R e cm : winv w R →
  ∃ b r, builder_new e cm w = Done b (set_reuse r w) [] ∧ fresh_builder e cm b ∧ reuse_ok r.
Proof.
  intros Hw. rewrite /builder_new (bind_done_nil _ _ w (w_reuse w) w eq_refl).
  pose proof (wi_reuse _ _ Hw) as Hr. destruct (w_reuse w) as [[[ids p] cap]|] eqn:E.
  - destruct Hr as (-> & Hc & Hb). rewrite (bind_done_nil _ _ w () (set_reuse None w) eq_refl).
    eexists _, None. split_and!; [done| |done]. by apply fresh_builder_intro.
  - eexists _, None. split_and!; [rewrite -E; by destruct w| |done]. apply fresh_builder_intro. by left.
Qed.
Lemma builder_with_capacity_spec w R e cm n : winv w R →
  wp (builder_with_capacity e cm n) w
     (λ b w' ev, ev = [] ∧ fresh_builder e cm b ∧ ∃ r, w' = set_reuse r w ∧ reuse_ok r) no_panic.
Proof.
  intros Hw. rewrite /builder_with_capacity. apply wp_bind, wp_gets.
  assert (wp (builder_new e cm) w (λ b w' ev, [] ++ ev = [] ∧ fresh_builder e cm b ∧ ∃ r, w' = set_reuse r w ∧ reuse_ok r)
    (λ r s'' e', no_panic r s'' ([] ++ e'))) as Hnew.
  { destruct (builder_new_spec w R e cm Hw) as (b & r & Hrun & Hb & Hr). rewrite /wp Hrun. split_and!; [done..|eauto]. }
  destruct (w_reuse w) as [u|] eqn:E; [done|]. case_decide as Hn; [done|].
  apply wp_bind. apply wp_unwrap_cap. intros l Hl. pose proof (layout_ok_eq _ _ Hl) as ->.
  apply wp_bind. rewrite /heap_alloc /= decide_False //. apply (wp_or_ub _ (Heap 1 (replicate n None))); [done|]. apply wp_ret.
  split_and!; [done| |].
  - apply fresh_builder_intro. right. split_and!; [done|done|]. eexists. split; [done|]. by rewrite replicate_length.
  - exists None. split; [rewrite -E; by destruct w|done].
Qed.

(** ** A new id *)
Lemma wp_spawn_id w R (Q : post world ecsid) (P : ppost world) : winv w R →
  (∀ e w', winv w' R → w' = set_ents (w_ents w') w → id_wf e → alive (w_ents w') e → ¬ alive (w_ents w) e →
     meta_at w (uindex e) = None → (∀ c, alive (w_ents w) c → alive (w_ents w') c ∧ uindex c ≠ uindex e) →
     (∀ c, alive (w_ents w') c → c = e ∨ alive (w_ents w) c) →
     (∀ t, w_types w !! t ≠ Some e) → Q e w' []) →
  (∀ w', winv w' R → w' = set_ents (w_ents w') w → (∀ c, alive (w_ents w) c → alive (w_ents w') c) →
     (∀ c, id_wf c → alive (w_ents w') c → alive (w_ents w) c) → P ROutOfIds w' []) →
  wp (in_ents ents_spawn) w Q P.
Proof.
  intros Hw HQ HP. rewrite /in_ents. eapply wp_zoom; [done|]. rewrite /wp.
  destruct (ents_spawn_total _ (wi_ents _ _ Hw)) as [(e & s' & Hs)|(s' & Hs)]; rewrite Hs.
  - destruct (winv_spawn _ _ _ _ _ Hw Hs) as (H1 & _ & H2 & H3 & H4 & H5 & H6 & H7 & H8). by apply HQ.
  - right. destruct (winv_spawn_panic _ _ _ _ _ Hw Hs) as (H1 & _ & _ & H2). apply HP; [done|done| |].
    + intros c Hc. destruct (ents_spawn_panic _ _ _ _ (wi_ents _ _ Hw) Hs) as (_ & _ & _ & _ & Hg).
      apply alive_iff. apply alive_iff in Hc. simpl. rewrite Hg. by apply lookup_app_l_Some.
    + intros c Hc. by apply H2.
Qed.

Lemma set_ents_eq (w w' : world) : w' = set_ents (w_ents w') w →
  w_archs w' = w_archs w ∧ w_meta w' = w_meta w ∧ w_types w' = w_types w ∧ w_lock_lookup w' = w_lock_lookup w ∧
  w_locks w' = w_locks w ∧ w_reuse w' = w_reuse w ∧ w_bitset w' = w_bitset w ∧ w_entbits w' = w_entbits w.
Proof. intros ->. done. Qed.

(** [self.spawn().build()] *)
Record spawned (w w' : world) (e : ecsid) : Prop := {
  sp_wf : id_wf e;
  sp_alive : alive (w_ents w') e;
  sp_new : ¬ alive (w_ents w) e;
  sp_old : ∀ c, alive (w_ents w) c → alive (w_ents w') c ∧ uindex c ≠ uindex e;
  sp_inv : ∀ c, alive (w_ents w') c → c = e ∨ alive (w_ents w) c;
  sp_types : ∀ t, w_types w !! t ≠ Some e
}.
Lemma spawn_empty_spec w R : winv w R → room 0 w →
  wp spawn_empty w
     (λ e w' ev, ev = [] ∧ spawned w w' e ∧ w_types w' = w_types w ∧ comp_of w' e = Some cm_unit ∧
        (∀ i, i ≠ uindex e → meta_at w' i = meta_at w i) ∧
        (∀ c i, w_lock_lookup w !! c = Some i → w_lock_lookup w' !! c = Some i ∧ w_locks w' !! i = w_locks w !! i) ∧
        (∀ k L, arch_ids w !! k = Some L → arch_ids w' !! k = Some L) ∧
        (∀ k L, arch_ids w' !! k = Some L → e ∉ L) ∧
        length (w_archs w') ≤ Nat.max 1 (length (w_archs w)) ∧
        ∃ R', winv w' R' ∧ ∀ e0 m0, rowof R' e0 m0 ↔ (e0 = e ∧ m0 = ∅) ∨ rowof R e0 m0)
     (λ r w' ev, r = ROutOfIds ∧ ev = [] ∧ winv w' R ∧ w' = set_ents (w_ents w') w ∧
        (∀ c, alive (w_ents w) c → alive (w_ents w') c) ∧ (∀ c, id_wf c → alive (w_ents w') c → alive (w_ents w) c)).
Proof.
  intros Hw Hroom. rewrite /spawn_empty. apply wp_bind, (wp_spawn_id w R); [done| |].
  2:{ intros w' Hw' E H1 H2. split_and!; done. }
  intros e w1 Hw1 E1 Hwf Hal Hnal Hnone Hold Hinv Hnt.
  destruct (set_ents_eq _ _ E1) as (Ea & Em & Et & Ell & Elk & Ere & Ebs & Eeb).
  assert (∀ i, meta_at w1 i = meta_at w i) as Hma by (intros i; by rewrite /meta_at Em).
  assert (arch_ids w1 = arch_ids w) as Hai by by rewrite /arch_ids Ea.
  destruct (builder_new_spec w1 R e cm_unit Hw1) as (b & r & Hrun & (Hb & Hbe & Hbm & Hbp) & Hr).
  apply wp_bind. rewrite {1}/wp Hrun. set (w2 := set_reuse r w1).
  assert (winv w2 R) as Hw2 by by apply winv_reuse.
  apply wp_with_builder; [done|apply bsafe_build|].
  eapply wp_mono.
  - apply (build_spec w2 R b []); try done.
    + rewrite /room. simpl. by rewrite Ea.
    + by rewrite Hbe.
    + rewrite Hbe. etrans; [apply Hma|done].
    + by rewrite Hbm.
  - intros id [b3 w3] ev (-> & -> & _ & [K1 K2 K3 K4 K5 K6 K7 K8] & Hnew & R' & Hw3 & Hrows) r3 Hr3. cbn [snd] in *.
    rewrite Hbe in K2 K3 Hrows |- *. rewrite Hbm in K3.
    assert (winv (set_reuse r3 w3) R') as Hw3'. { apply winv_reuse; [done|]. apply Hr3. apply (wi_reuse _ _ Hw3). }
    assert (∀ k L, arch_ids w3 !! k = Some L → arch_ids w !! k = Some L ∨ L = []) as Hnew'.
    { intros k L HL. destruct (Hnew k L HL) as [H|H]; [left; by rewrite -Hai|]. right.
      destruct L as [|c L]; [done|]. exfalso. destruct (H c) as [Hx _]. specialize (Hx ltac:(left)). by apply elem_of_nil in Hx. }
    split_and!; [done| |by rewrite -Et|exact K3| | | | | |].
    + constructor; try done; cbn [w_ents set_reuse]; by rewrite K1.
    + intros i Hi. rewrite -Hma. by apply K2.
    + intros c i Hc. destruct (K6 c i) as [H1 H2]; [simpl; by rewrite Ell|]. split; [done|]. simpl in *. by rewrite H2 Elk.
    + intros k L HL. apply K7. by rewrite -Hai in HL.
    + intros k L HL He. destruct (Hnew' k L HL) as [HL'| ->]; [|by apply elem_of_nil in He].
      apply Hnal. by apply (wi_comps _ _ Hw _ _ _ HL' He).
    + change (length (w_archs w3) ≤ Nat.max 1 (length (w_archs w))).
      destruct (decide (length (w_archs w3) ≤ Nat.max 1 (length (w_archs w)))) as [|Hgt]; [done|]. exfalso.
      destruct (lookup_lt_is_Some_2 (arch_ids w3) (length (w_archs w))) as [L HL]; [rewrite arch_ids_length; lia|].
      destruct (find_zero _ _ Hw3) as (a0 & _ & _ & H0); [lia|].
      destruct (Hnew' _ _ HL) as [HL'| ->].
      * apply lookup_lt_Some in HL'. rewrite arch_ids_length in HL'. lia.
      * pose proof (wi_distinct _ _ Hw3 _ _ _ HL H0). simpl in K8. rewrite Ea in K8. lia.
    + exists R'. split; [done|]. intros e0 m0. rewrite Hrows. done.
  - intros r3 s ev [Hn _]. destruct Hn. constructor.
Qed.

(** ** [get_or_create_type_id_ecsid] *)
Lemma get_or_create_spec w R t : winv w R → room 0 w → ty_wf t →
  wp (get_or_create_type t) w
     (λ c w' ev, ev = [] ∧ grow w w' ∧ w_types w' !! t = Some c ∧
        (∀ t', t' ≠ t → w_types w' !! t' = w_types w !! t') ∧
        (w_types w !! t ≠ None → w' = w) ∧ (w_types w !! t = None → alive (w_ents w') c ∧ comp_of w' c = Some (cm_from_generic t)) ∧
        id_wf c ∧ ∃ R', winv w' R' ∧ grow_rows w w' R R')
     (λ r w' ev, r = ROutOfIds ∧ ev = [] ∧ grow w w' ∧ w_types w' = w_types w ∧ winv w' R ∧ w_types w !! t = None).
Proof.
  intros Hw Hroom Ht. rewrite /get_or_create_type. apply wp_bind, wp_gets.
  destruct (w_types w !! t) as [c|] eqn:Etc.
  { apply wp_ret. destruct (wi_types _ _ Hw _ _ Etc) as (_ & ? & _). split_and!; [done|apply grow_refl|done..|].
    exists R. split; [done|]. apply grow_rows_refl. }
  apply wp_bind. eapply wp_mono; [by apply (spawn_empty_spec w R)| |].
  2:{ intros r w' ev (-> & -> & Hw' & E & H1 & H2). destruct (set_ents_eq _ _ E) as (Ea & Em & Et & Ell & Elk & Ere & Ebs & Eeb).
      split_and!; try done. constructor.
      - done.
      - intros c Hc Hl. left. by apply H2.
      - intros c Hf. by apply fresh_type_same in Hf.
      - intros c Hc. by rewrite /meta_at Em.
      - by rewrite Et.
      - by rewrite Ell Elk.
      - by rewrite /arch_ids Ea.
      - rewrite Ea. lia. }
  intros e w1 ev (-> & Hsp & Et & Hcm & Hmeta & Hlk & Hids & Hun & Hlen & R' & Hw1 & Hrows).
  rewrite /comp_of in Hcm. apply fmap_Some in Hcm as (em & Hem & _).
  pose proof (proj1 (meta_at_some _ _ _) Hem) as Hem'.
  apply wp_bind, wp_gets. apply wp_bind. rewrite Hem'. apply (wp_unwrap_some _ (Some em)); [done|].
  apply wp_bind, (wp_unwrap_some _ em); [done|]. apply wp_bind, wp_modify.
  destruct (winv_set_comp w1 R' e em (cm_from_generic t)) as [Hw2 HM]; [done|apply Hsp|done|done| | |].
  { rewrite Et. apply Hsp. } { apply Ht. }
  set (w2 := set_meta _ w1) in *. apply wp_bind, wp_modify. apply wp_ret.
  assert (winv (set_types (<[t := e]> (w_types w2)) w2) R') as Hw3.
  { apply winv_set_type; [done|done|apply Hsp|apply Hsp| |].
    - rewrite /comp_of HM decide_True //.
    - change (w_types w2) with (w_types w1). rewrite Et. apply Hsp. }
  set (w3 := set_types _ w2) in *.
  assert (∀ t' c, w_types w3 !! t' = Some c ↔ (t' = t ∧ c = e) ∨ w_types w !! t' = Some c) as HT.
  { intros t' c. rewrite /w3 /= Et lookup_insert_Some. split; [naive_solver|]. intros [[-> ->]|H]; [by left|].
    right. split; [|done]. intros ->. congruence. }
  assert (∀ c, fresh_type w w3 c ↔ c = e) as HF.
  { intros c. split.
    - intros (t' & H1 & H2). apply HT in H2 as [[_ ->]|H2]; [done|congruence].
    - intros ->. exists t. split; [done|]. apply HT. by left. }
  split_and!; [done| |by apply HT; left| |done| |apply Hsp|].
  - constructor.
    + intros c Hc. by apply (sp_old _ _ _ Hsp).
    + intros c _ Hc. rewrite HF. destruct (sp_inv _ _ _ Hsp c Hc); auto.
    + intros c ->%HF. split; apply Hsp.
    + intros c Hc. destruct (sp_old _ _ _ Hsp c Hc) as [_ Hne]. etrans; [apply HM|]. rewrite decide_False //. by apply Hmeta.
    + intros t' c Hc. apply HT. by right.
    + exact Hlk.
    + exact Hids.
    + exact Hlen.
  - intros t' Hne. rewrite /w3 /= lookup_insert_ne // Et //.
  - intros _. split; [apply Hsp|]. change (comp_of w3 e) with (comp_of w2 e). rewrite /comp_of HM decide_True //.
  - exists R'. split; [done|]. intros e0 m0. rewrite Hrows HF. naive_solver.
Qed.

(** ** One builder call before [build] *)
Definition bop_entry (w : world) (o : bop) : option (ecsid * value) :=
  match o with
  | BWith t v => (λ c, (c, v)) <$> w_types w !! t
  | BWithDyn c => Some (c, [])
  | BWithDynData c v => Some (c, v)
  | BBuild => None
  end.
Lemma value_fits_comp w c v cm : alive (w_ents w) c → comp_of w c = Some cm → value_fits w c v → length v = cm_size cm.
Proof.
  intros Hal Hcm Hf. rewrite /comp_of in Hcm. apply fmap_Some in Hcm as (em & Hem & ->). eapply Hf.
  by rewrite get_entity_meta_alive // Hem.
Qed.
Lemma type_comp w R t c cm : winv w R → w_types w !! t = Some c → alive (w_ents w) c → comp_of w c = Some cm → cm = cm_from_generic t.
Proof.
  intros Hw Ht Hal%alive_iff Hcm. destruct (wi_types _ _ Hw _ _ Ht) as (_ & _ & b & g & Hg & Hb). rewrite Hal in Hg.
  injection Hg as <- <-. rewrite Hb // in Hcm. congruence.
Qed.
Definition no_comp (w : world) (c : ecsid) : Prop :=
  ents_is_alive (w_ents w) c = Some false ∨ (alive (w_ents w) c ∧ comp_of w c = None).
Definition data_bad (w : world) (c : ecsid) (r : reason) : Prop :=
  (r = RNoGeneration ∧ ents_is_alive (w_ents w) c = None) ∨ (r = RDeadComponent ∧ no_comp w c).
(** Why the builder call [o] panics. *)
Definition bop_bad (w : world) (r : reason) (o : bop) : Prop :=
  match o with
  | BWith t v => (r = ROutOfIds ∧ w_types w !! t = None) ∨ ∃ c, w_types w !! t = Some c ∧ data_bad w c r
  | BWithDynData c v => data_bad w c r
  | BWithDyn c =>
      (r = RNoGeneration ∧ ents_is_alive (w_ents w) c = None) ∨ (r = RUnwrap ∧ no_comp w c) ∨
      (r = RAssert ∧ alive (w_ents w) c ∧ ∃ cm, comp_of w c = Some cm ∧ cm_size cm ≠ 0)
  | BBuild => False
  end.
Definition bops_bad (w : world) (r : reason) (bs : list bop) : Prop := ∃ o, o ∈ bs ∧ bop_bad w r o.
Definition bop_reason (r : reason) : Prop :=
  r ∈ [ROutOfIds; RDeadComponent; RNoGeneration; RUnwrap; RAssert].
Lemma bops_bad_reason w r bs : bops_bad w r bs → bop_reason r.
Proof.
  intros (o & _ & H). rewrite /bop_reason. destruct o; cbn in H; [..|done]; rewrite /data_bad in H; set_solver.
Qed.
Lemma bops_bad_cons w r o bs : bops_bad w r bs → bops_bad w r (o :: bs).
Proof. intros (o' & H1 & H2). exists o'. split; [by right|done]. Qed.

Lemma bop_spec w R b o : winv w R → room 0 w → bbuf b → bop_legal o (b, w) → o ≠ BBuild →
  wp (run_bop o) (b, w)
     (λ _ s ev, ev = [] ∧ bbuf s.1 ∧ same_target b s.1 ∧ grow w s.2 ∧ (∃ R', winv s.2 R' ∧ grow_rows w s.2 R R') ∧
        ∃ d, bop_entry s.2 o = Some d ∧ ∀ D, pending w b D → pending s.2 s.1 (D ++ [d]))
     (λ r s ev, ev = [] ∧ bop_bad s.2 r o ∧ grow w s.2 ∧ ∃ R', winv s.2 R' ∧ grow_rows w s.2 R R').
Proof.
  intros Hw Hroom Hb Hleg Hnb. destruct o as [t v|c|c v|]; [| | |done]; cbn [run_bop bop_legal snd] in *.
  - destruct Hleg as [Ht Hv]. rewrite /builder_with. apply wp_bind, wp_in_world.
    eapply wp_mono; [by apply (get_or_create_spec w R)| |].
    2:{ intros r w' ev (-> & -> & Hg & Et & Hw' & Hnt). split_and!; [done| |done|].
        - left. split; [done|]. cbn [snd]. by rewrite Et.
        - exists R. split; [done|]. intros e m. split; [by right|]. intros [[_ H]|?]; [by apply fresh_type_same in H|done]. }
    intros c w' ev (-> & Hg & Htc & _ & _ & _ & Hc & R' & Hw' & HR').
    pose proof (with_data_run b w' c v Hb) as H. rewrite /wp.
    destruct (builder_with_data c v (b, w')) as [[] [b1 w1] ev|r [b1 w1] ev| |]; cbn [fst snd].
    + destruct H as (-> & -> & Hb1 & Hst & Hal & cm & Hcm & Hpend). split_and!; [done..|eauto|].
      exists (c, v). cbn [bop_entry]. rewrite Htc. split; [done|]. intros D HD.
      rewrite (type_comp _ _ _ _ _ Hw' Htc Hal Hcm) in Hpend.
      change (cm_size (cm_from_generic t)) with (ty_size t) in Hpend. rewrite -Hv firstn_all in Hpend.
      apply Hpend. by eapply grow_pending.
    + destruct H as (-> & -> & Hb1 & Hr). destruct Hr as [->|Hr]; [by left|]. right. split_and!; [done| |done|eauto].
      right. exists c. done.
    + done.
    + destruct H as (cm & Hal & Hcm & Hlt). rewrite (type_comp _ _ _ _ _ Hw' Htc Hal Hcm) in Hlt.
      change (cm_size (cm_from_generic t)) with (ty_size t) in Hlt. lia.
  - pose proof (with_dynamic_run b w c Hb) as H. rewrite /wp.
    destruct (builder_with_dynamic c (b, w)) as [[] [b1 w1] ev|r [b1 w1] ev| |]; cbn [fst snd]; [| |done..].
    + destruct H as (-> & -> & Hb1 & Hst & Hal & cm & Hcm & Hz & Hpend). split_and!; [done..|apply grow_refl| |].
      * exists R. split; [done|]. apply grow_rows_refl.
      * exists (c, []). split; [done|]. done.
    + destruct H as (-> & -> & -> & Hr). right. split_and!; [done| |apply grow_refl|].
      * done.
      * exists R. split; [done|]. apply grow_rows_refl.
  - destruct Hleg as [_ Hf]. pose proof (with_data_run b w c v Hb) as H. rewrite /wp.
    destruct (builder_with_data c v (b, w)) as [[] [b1 w1] ev|r [b1 w1] ev| |]; cbn [fst snd].
    + destruct H as (-> & -> & Hb1 & Hst & Hal & cm & Hcm & Hpend). split_and!; [done..|apply grow_refl| |].
      * exists R. split; [done|]. apply grow_rows_refl.
      * exists (c, v). split; [done|]. intros D HD. rewrite -(value_fits_comp _ _ _ _ Hal Hcm Hf) firstn_all in Hpend. by apply Hpend.
    + destruct H as (-> & -> & Hb1 & Hr). destruct Hr as [->|Hr]; [by left|]. right. split_and!; [done| |apply grow_refl|].
      * done.
      * exists R. split; [done|]. apply grow_rows_refl.
    + done.
    + destruct H as (cm & Hal & Hcm & Hlt). rewrite (value_fits_comp _ _ _ _ Hal Hcm Hf) in Hlt. lia.
Qed.

(** ** The life of a builder *)
Definition dropped_pending (w : world) (D : list (ecsid * value)) (ev : list event) : Prop :=
  ev ≡ₚ pending_drops w D ∧
  ∀ c v, (c, v) ∈ D → alive (w_ents w) c ∧ ∃ cm, comp_of w c = Some cm ∧ length v = cm_size cm.
Record sgrow (w w' : world) (e : ecsid) : Prop := {
  sg_self : id_wf e ∧ alive (w_ents w') e ∧ ¬ alive (w_ents w) e;
  sg_notype : ∀ t, w_types w' !! t ≠ Some e;
  sg_alive : ∀ c, alive (w_ents w) c → alive (w_ents w') c;
  sg_alive_inv : ∀ c, id_wf c → alive (w_ents w') c → c = e ∨ alive (w_ents w) c ∨ fresh_type w w' c;
  sg_fresh : ∀ c, fresh_type w w' c → alive (w_ents w') c ∧ ¬ alive (w_ents w) c;
  sg_meta : ∀ c, alive (w_ents w) c → meta_at w' (uindex c) = meta_at w (uindex c);
  sg_types : ∀ t c, w_types w !! t = Some c → w_types w' !! t = Some c;
  sg_locks : ∀ c i, w_lock_lookup w !! c = Some i → w_lock_lookup w' !! c = Some i ∧ w_locks w' !! i = w_locks w !! i;
  sg_ids : ∀ k L, arch_ids w !! k = Some L → arch_ids w' !! k = Some L
}.
Lemma sgrow_grow w w1 w2 e : sgrow w w1 e → grow w1 w2 → sgrow w w2 e.
Proof.
  intros [A0 A0' A1 A2 A3 A4 A5 A6 A7] [B1 B2 B3 B4 B5 B6 B7 B8].
  assert (∀ c, fresh_type w w1 c → fresh_type w w2 c) as F1. { intros c (t & ? & ?). exists t. eauto. }
  assert (∀ c, fresh_type w1 w2 c → fresh_type w w2 c) as F2.
  { intros c (t & H1 & H2). exists t. split; [|done]. destruct (w_types w !! t) as [c'|] eqn:E; [|done].
    apply A5 in E. congruence. }
  constructor.
  - destruct A0 as (? & ? & ?). eauto.
  - intros t Ht. destruct (w_types w1 !! t) as [c|] eqn:E.
    + pose proof (B5 _ _ E) as E'. rewrite E' in Ht. injection Ht as ->. by apply (A0' t).
    + destruct (B3 e) as [_ Hn]; [by exists t|]. apply Hn, A0.
  - eauto.
  - intros c Hc H2. destruct (B2 c Hc H2) as [H1|H1]; [|eauto]. destruct (A2 c Hc H1) as [?|[?|?]]; eauto.
  - intros c (t & H1 & H3). destruct (w_types w1 !! t) as [c'|] eqn:E.
    + pose proof (B5 _ _ E) as E'. rewrite E' in H3. injection H3 as ->. destruct (A3 c) as [? ?]; [by exists t|]. eauto.
    + destruct (B3 c) as [? ?]; [by exists t|]. naive_solver.
  - intros c Hc. rewrite B4; eauto.
  - eauto.
  - intros c i Hc. destruct (A6 c i Hc) as [Hc2 E]. destruct (B6 c i Hc2) as [? E2]. split; [done|congruence].
  - eauto.
Qed.
Lemma sgrow_same w w1 w2 e : sgrow w w1 e → w_ents w2 = w_ents w1 → w_types w2 = w_types w1 →
  (∀ c, alive (w_ents w) c → meta_at w2 (uindex c) = meta_at w1 (uindex c)) →
  (∀ c i, w_lock_lookup w1 !! c = Some i → w_lock_lookup w2 !! c = Some i ∧ w_locks w2 !! i = w_locks w1 !! i) →
  (∀ k L, arch_ids w1 !! k = Some L → arch_ids w2 !! k = Some L) → sgrow w w2 e.
Proof.
  intros [A0 A0' A1 A2 A3 A4 A5 A6 A7] E1 E2 E3 E4 E5.
  assert (∀ c, fresh_type w w2 c ↔ fresh_type w w1 c) as F. { intros c. rewrite /fresh_type. by setoid_rewrite E2. }
  constructor; rewrite ?E1 ?E2; try done.
  - intros c Hc H. rewrite F. by apply A2.
  - intros c Hc. apply A3, F, Hc.
  - intros c Hc. rewrite E3 //. by apply A4.
  - intros c i Hc. destruct (A6 c i Hc) as [Hc2 E]. destruct (E4 c i Hc2) as [? E']. split; [done|congruence].
  - eauto.
Qed.
(** [e] has no row (yet), or the row of the collected components. *)
Definition spawn_rows (w w' : world) (R R' : list (list row)) (e : ecsid) (om : option (gmap ecsid value)) : Prop :=
  ∀ e0 m0, rowof R' e0 m0 ↔ (e0 = e ∧ om = Some m0) ∨ (m0 = ∅ ∧ fresh_type w w' e0) ∨ rowof R e0 m0.
Lemma spawn_rows_grow w w1 w2 R R1 R2 e om : sgrow w w1 e → grow w1 w2 → spawn_rows w w1 R R1 e om →
  grow_rows w1 w2 R1 R2 → spawn_rows w w2 R R2 e om.
Proof.
  intros G1 G2 H1 H2 e0 m0. rewrite H2 H1. split.
  - intros [[-> (t & E1 & E2)]|[?|[[-> (t & E1 & E2)]|?]]]; [|by left| |by right; right]; right; left; (split; [done|]); exists t.
    + split; [|done]. destruct (w_types w !! t) as [c|] eqn:E; [|done]. apply (sg_types _ _ _ G1) in E. congruence.
    + split; [done|]. by apply (gr_types _ _ G2).
  - intros [?|[[-> (t & E1 & E2)]|?]]; [by auto| |by auto]. destruct (w_types w1 !! t) as [c|] eqn:E.
    + right. right. left. split; [done|]. pose proof (gr_types _ _ G2 _ _ E) as E'. rewrite E' in E2. injection E2 as ->. by exists t.
    + left. split; [done|]. by exists t.
Qed.

(** After [build], the calls only register types. *)
Lemma bops_after w R b bs : winv w R → room 0 w → bbuf b → bops_legal bs (b, w) → bops_builds bs = 0 →
  wp (run_bops bs) (b, w)
     (λ _ s ev, ev = [] ∧ grow w s.2 ∧ ∃ R', winv s.2 R' ∧ grow_rows w s.2 R R')
     (λ r s ev, ev = [] ∧ bops_bad s.2 r bs ∧ grow w s.2 ∧ ∃ R', winv s.2 R' ∧ grow_rows w s.2 R R').
Proof.
  revert w R b. induction bs as [|o bs IH]; intros w R b Hw Hroom Hb Hleg Hn; cbn [run_bops].
  { apply wp_ret. split_and!; [done|apply grow_refl|]. exists R. split; [done|]. apply grow_rows_refl. }
  destruct Hleg as [Ho Hleg].
  assert (o ≠ BBuild ∧ bops_builds bs = 0) as [Hnb Hn'] by by destruct o.
  apply wp_bind. eapply wp_mono; [apply wp_and_run; by apply (bop_spec w R)| |].
  2:{ intros r s ev (-> & Hr & H). split_and!; [done|by exists o; split; [left|]|apply H..]. }
  intros [] [b1 w1] ev [(-> & Hb1 & Hst & Hg & (R1 & Hw1 & HR1) & _) Hrun]. cbn [fst snd] in *. rewrite Hrun in Hleg.
  eapply wp_mono; [apply (IH w1 R1 b1); try done; by eapply grow_room| |].
  - intros [] [b2 w2] ev (-> & Hg2 & R2 & Hw2 & HR2). cbn [fst snd] in *. split_and!; [done|by eapply grow_trans|].
    exists R2. split; [done|]. by eapply grow_rows_trans.
  - intros r [b2 w2] ev (-> & Hr & Hg2 & R2 & Hw2 & HR2). cbn [fst snd] in *. split_and!; [done|by apply bops_bad_cons|by eapply grow_trans|].
    exists R2. split; [done|]. by eapply grow_rows_trans.
Qed.

Lemma bop_entry_grow w w' o d : (∀ t c, w_types w !! t = Some c → w_types w' !! t = Some c) → bop_entry w o = Some d → bop_entry w' o = Some d.
Proof. intros Hg. destruct o as [t v| | |]; try done. simpl. intros (c & Hc & ->)%fmap_Some. by rewrite (Hg _ _ Hc). Qed.

Definition types_ext (w w' : world) : Prop := ∀ t c, w_types w !! t = Some c → w_types w' !! t = Some c.
(** The collected components, resolved in the final world. *)
Definition entries (w : world) (bs : list bop) : option (list (ecsid * value)) := mapM (bop_entry w) (bops_before bs).
(** [e] was built with the components [D]. *)
Definition built (w0 : world) (R0 : list (list row)) (e : ecsid) (cm : component_meta) (D : list (ecsid * value)) (w : world) (R : list (list row)) : Prop :=
  NoDup D.*1 ∧ spawn_rows w0 w R0 R e (Some (list_to_map D)) ∧ comp_of w e = Some cm ∧
  length (w_archs w) ≤ S (Nat.max 1 (length (w_archs w0))) ∧
  (∀ k L, arch_ids w !! k = Some L → k < length (w_archs w0) ∨ L = [] ∨ ∀ c, c ∈ L ↔ c ∈ D.*1).
Definition unbuilt (w0 : world) (R0 : list (list row)) (e : ecsid) (w : world) (R : list (list row)) : Prop :=
  spawn_rows w0 w R0 R e None ∧ meta_at w (uindex e) = None ∧ length (w_archs w) ≤ Nat.max 1 (length (w_archs w0)).

Lemma few_archs w R n k L : winv w R → length (w_archs w) ≤ Nat.max 1 n → arch_ids w !! k = Some L → k < n ∨ L = [].
Proof.
  intros Hw Hl Hk. pose proof (lookup_lt_Some _ _ _ Hk) as Hlt. rewrite arch_ids_length in Hlt.
  destruct (decide (k < n)) as [|Hn]; [by left|right]. assert (k = 0) as -> by lia. by eapply (wi_zero _ _ Hw).
Qed.
Lemma grow_archs w w' R' k L : grow w w' → winv w' R' → arch_ids w' !! k = Some L → arch_ids w !! k = Some L ∨ L = [].
Proof.
  intros Hg Hw' Hk. destruct (few_archs _ _ _ _ _ Hw' (gr_len _ _ Hg) Hk) as [Hlt|]; [left|by right].
  rewrite -arch_ids_length in Hlt. apply lookup_lt_is_Some in Hlt as [L' HL']. pose proof (gr_ids _ _ Hg _ _ HL'). congruence.
Qed.

(** [e] could not be built with the components [D], because one of them is repeated. *)
Definition tears (w0 : world) (R0 : list (list row)) (e : ecsid) (D : list (ecsid * value)) (w : world) : Prop :=
  ∃ w1 R1, sgrow w0 w1 e ∧ winv w1 R1 ∧ unbuilt w0 R0 e w1 R1 ∧ torn w1 R1 e D w.
Lemma tears_nodup w0 R0 e D w : tears w0 R0 e D w → ¬ NoDup D.*1.
Proof. intros (w1 & R1 & _ & _ & _ & H). by eapply torn_nodup. Qed.

Lemma wp_ignore {S A} (m : M S A) s (Q : post S A) (P : ppost S) :
  wp m s Q P → wp (do* m in ret ()) s (λ _ s' ev, ∃ a, Q a s' ev) P.
Proof. intros H. apply wp_bind. eapply wp_mono; [exact H| |done]. intros a s' ev Ha. apply wp_ret. rewrite app_nil_r. eauto. Qed.
Lemma bops_spec w0 R0 e bs : ∀ w R b D,
  winv w R → sgrow w0 w e → unbuilt w0 R0 e w R → room 1 w →
  bbuf b → pending w b D → eb_entity b = e → layout_wf (cm_layout (eb_meta b)) →
  bops_legal bs (b, w) → bops_builds bs ≤ 1 →
  wp (run_bops bs) (b, w)
     (λ _ s ev, ev = [] ∧ sgrow w0 s.2 e ∧ types_ext w s.2 ∧
        ∃ R' D2, winv s.2 R' ∧ entries s.2 bs = Some D2 ∧
          if decide (bops_builds bs = 0) then unbuilt w0 R0 e s.2 R' else built w0 R0 e (eb_meta b) (D ++ D2) s.2 R')
     (λ r s ev, types_ext w s.2 ∧
        ((r = RColumnLength ∧ ev = [] ∧ ∃ D2, entries s.2 bs = Some D2 ∧ tears w0 R0 e (D ++ D2) s.2) ∨
         (sgrow w0 s.2 e ∧ ∃ R', winv s.2 R' ∧
            ((bops_bad s.2 r bs ∧ ev = [] ∧ unbuilt w0 R0 e s.2 R') ∨
             (r = RDuplicate ∧ unbuilt w0 R0 e s.2 R' ∧ ∃ D2, entries s.2 bs = Some D2 ∧ ¬ NoDup (D ++ D2).*1 ∧
                dropped_pending s.2 (D ++ D2) ev) ∨
             (bops_bad s.2 r bs ∧ ev = [] ∧ bops_builds bs ≠ 0 ∧ ∃ D2, entries s.2 bs = Some D2 ∧ built w0 R0 e (eb_meta b) (D ++ D2) s.2 R'))))).
Proof.
  induction bs as [|o bs IH]; intros w R b D Hw Hsg (Hun & Hnone & Hlen0) Hroom Hb Hp He Hlay Hleg Hn; cbn [run_bops].
  { apply wp_ret. split_and!; [done|done|by intros ? ?|]. exists R, []. split_and!; done. }
  assert (room 0 w) as Hroom0 by (rewrite /room in Hroom |- *; lia).
  destruct Hleg as [Ho Hleg]. apply wp_bind. assert (o = BBuild ∨ o ≠ BBuild) as [->|Hnb] by (destruct o; auto).
  - (* build *)
    assert (bops_builds bs = 0) as Hn' by (simpl in Hn; lia).
    eapply wp_mono.
    { apply wp_and_run, wp_ignore. apply (build_spec w R b D); try done.
      - rewrite He. apply Hsg.
      - by rewrite He. }
    2:{ intros r [b1 w1] ev [Hnd Hr]. cbn [snd] in *. destruct Hr as [(-> & -> & Htn)|(-> & Hs & Hw1 & Hev)].
        - rewrite He in Htn. split.
          + by rewrite /types_ext (torn_types _ _ _ _ _ Htn).
          + left. split_and!; [done..|]. exists []. rewrite app_nil_r. split; [done|]. by exists w, R.
        - pose proof Hs as (S1 & S2 & S3 & S4 & S5 & S6 & S7 & S8). split; [by rewrite /types_ext S6|]. right. split.
          { eapply sgrow_same; [exact Hsg|done|done| |exact S8|].
            - intros c _. by rewrite /meta_at S5.
            - by rewrite /arch_ids S1. }
          exists R. split; [done|]. right. left.
          assert (∀ i, meta_at w1 i = meta_at w i) as Hma by (intros i; by rewrite /meta_at S5).
          split_and!; [done| |].
          + split; [|by rewrite Hma S1]. intros e0 m0. rewrite Hun /fresh_type. by setoid_rewrite S6.
          + assert (∀ c, comp_of w1 c = comp_of w c) as Hc by (intros c; by rewrite /comp_of Hma).
            exists []. split_and!; [done|by rewrite app_nil_r|]. rewrite app_nil_r. split.
            * rewrite Hev /pending_drops. apply reflexive_eq. f_equal. apply list_fmap_ext. intros i x _. by rewrite Hc.
            * intros c v Hin. rewrite Hc S4. by apply (pe_comp _ _ _ Hp). }
    intros [] [b1 w1] ev [(id & -> & Hid & Hnd & Hbk & Hnew & R1 & Hw1 & HR1) Hrun]. cbn [fst snd] in *. rewrite Hrun in Hleg.
    rewrite He in Hbk HR1. destruct Hbk as [K1 K2 K3 K4 K5 K6 K7 K8].
    assert (sgrow w0 w1 e) as Hsg1.
    { eapply sgrow_same; [exact Hsg|done|done| |done|done]. intros c Hc. apply K2. intros Hu.
      destruct (sg_self _ _ _ Hsg) as (_ & Hal & Hnal). apply Hnal.
      by rewrite -(alive_inj _ _ _ (sg_alive _ _ _ Hsg _ Hc) Hal Hu). }
    assert (built w0 R0 e (eb_meta b) D w1 R1) as Hbuilt.
    { split; [done|]. split; [|split; [done|split; [lia|]]].
      - intros e0 m0. rewrite HR1 Hun /fresh_type. setoid_rewrite K4. naive_solver.
      - intros k L HkL. destruct (Hnew k L HkL) as [HkL'|?]; [|by right; right]. destruct (few_archs _ _ _ _ _ Hw Hlen0 HkL'); auto. }
    assert (room 0 w1) as Hroom1 by (rewrite /room in Hroom |- *; lia).
    assert (bbuf b1) as Hb1.
    { pose proof (bsafe_bop BBuild b w Hb) as Hx. by rewrite Hrun in Hx. }
    assert (∀ w2 R2, grow w1 w2 → winv w2 R2 → grow_rows w1 w2 R1 R2 → built w0 R0 e (eb_meta b) D w2 R2) as Hbgrow.
    { intros w2 R2 Hg Hw2 HR2. destruct Hbuilt as (B1 & B2 & B3 & B4 & B5). pose proof (gr_len _ _ Hg) as Hl.
      split; [done|]. split; [by eapply spawn_rows_grow|]. split; [|split; [lia|]].
      - rewrite (grow_comp _ _ _ Hg) //. apply Hsg1.
      - intros k L HkL. destruct (grow_archs _ _ _ _ _ Hg Hw2 HkL) as [HkL'| ->]; [by apply B5|by right; left]. }
    eapply wp_mono; [by apply (bops_after w1 R1 b1 bs)| |].
    + intros [] [b2 w2] ev (-> & Hg & R2 & Hw2 & HR2). cbn [fst snd] in *. split_and!; [done|by eapply sgrow_grow| |].
      * intros t c Ht. apply (gr_types _ _ Hg). by rewrite K4.
      * exists R2, []. split_and!; [done|done|]. rewrite app_nil_r. by apply Hbgrow.
    + intros r [b2 w2] ev (-> & Hr & Hg & R2 & Hw2 & HR2). cbn [fst snd] in *. split.
      * intros t c Ht. apply (gr_types _ _ Hg). by rewrite K4.
      * right. split; [by eapply sgrow_grow|]. exists R2. split; [done|]. right. right. split_and!; [by apply bops_bad_cons|done|cbn; lia|].
        exists []. split; [done|]. rewrite app_nil_r. by apply Hbgrow.
  - (* one more component *)
    assert (bops_builds (o :: bs) = bops_builds bs) as Hn' by by destruct o.
    assert (bops_before (o :: bs) = o :: bops_before bs) as Hbef by by destruct o.
    assert (∀ w1 R1, grow w w1 → grow_rows w w1 R R1 → unbuilt w0 R0 e w1 R1) as Hugrow.
    { intros w1 R1 Hg HR1. pose proof (gr_len _ _ Hg) as Hl. split_and!; [by eapply spawn_rows_grow| |lia].
      rewrite (gr_meta _ _ Hg) //. apply Hsg. }
    eapply wp_mono; [apply wp_and_run; by apply (bop_spec w R)| |].
    2:{ intros r [b1 w1] ev (-> & Hr & Hg & R1 & Hw1 & HR1). cbn [fst snd] in *. split; [exact (gr_types _ _ Hg)|]. right.
        split; [by eapply sgrow_grow|]. exists R1. split; [done|]. left. split; [by exists o; split; [left|]|]. split; [done|]. by eapply Hugrow. }
    intros [] [b1 w1] ev [(-> & Hb1 & [Ht1 Ht2] & Hg & (R1 & Hw1 & HR1) & d & Hd & Hpd) Hrun]. cbn [fst snd] in *. rewrite Hrun in Hleg.
    assert (∀ w2 D2, types_ext w1 w2 → entries w2 bs = Some D2 → entries w2 (o :: bs) = Some (d :: D2)) as Hent.
    { intros w2 D2 Hx HD2. rewrite /entries Hbef /=. rewrite (bop_entry_grow _ _ _ _ Hx Hd) /=. rewrite /entries in HD2. by rewrite HD2. }
    assert (∀ w2, types_ext w1 w2 → types_ext w w2) as Hx. { intros w2 H t c Htc. by apply H, (gr_types _ _ Hg). }
    eapply wp_mono.
    { apply (IH w1 R1 b1 (D ++ [d])); try done.
      - by eapply sgrow_grow.
      - by eapply Hugrow.
      - by eapply grow_room.
      - by apply Hpd.
      - by rewrite Ht1.
      - by rewrite Ht2.
      - by rewrite -Hn'. }
    + intros [] [b2 w2] ev (-> & Hsg2 & Hx2 & R2 & D2 & Hw2 & HD2 & Hcase). cbn [fst snd] in *. rewrite Hn'. split_and!; [done|done|by apply Hx|].
      exists R2, (d :: D2). split_and!; [done|by apply Hent|]. rewrite -app_assoc Ht2 in Hcase. exact Hcase.
    + intros r [b2 w2] ev (Hx2 & Hr). cbn [fst snd] in *. split; [by apply Hx|].
      destruct Hr as [(-> & -> & D2 & HD2 & Hnd)|(Hsg2 & R2 & Hw2 & Hr)].
      * left. split_and!; [done..|]. exists (d :: D2). split; [by apply Hent|]. by rewrite -app_assoc in Hnd.
      * right. split; [done|]. exists R2. split; [done|]. destruct Hr as [(Hr & ? & ?)|[(-> & Hu & D2 & HD2 & Hnd & Hev)|(Hr & -> & Hbs & D2 & HD2 & Hbt)]].
        -- left. split; [by apply bops_bad_cons|done].
        -- right. left. split_and!; [done| |]. { done. } exists (d :: D2). rewrite -app_assoc in Hnd Hev. split_and!; [by apply Hent|done|done].
        -- right. right. split_and!; [by apply bops_bad_cons|done|by rewrite Hn'|]. exists (d :: D2). split; [by apply Hent|]. rewrite -app_assoc Ht2 in Hbt. done.
Qed.

(** ** [World::spawn] .. the end of the builder *)
Lemma wp_forget_builder {A} b (m : M bw A) w (Q : post world A) (P : ppost world) :
  bbuf b → bsafe m →
  wp m (b, w) (λ a s ev, Q a s.2 ev)
     (λ x s ev, ∀ r, (reuse_ok (w_reuse s.2) → reuse_ok r) → P x (set_reuse r s.2) ev) →
  wp (forget_builder b m) w Q P.
Proof.
  intros Hb Hs. rewrite /wp /forget_builder /with_builder. specialize (Hs b w Hb).
  destruct (m (b, w)) as [a [b' w'] ev|x [b' w'] ev| |]; [| |done..]; simpl in *; [done|].
  destruct (builder_drop_run b' w' Hs) as (r & -> & Hr). intros [->|HP]; [by left|]. right. rewrite app_nil_r. by apply HP.
Qed.

(** What may be left behind when the builder ends or panics. *)
Definition spawn_done (w : world) (R : list (list row)) (meta : component_meta) (bs : list bop) (e : ecsid) (w' : world) : Prop :=
  sgrow w w' e ∧ ∃ R' D, winv w' R' ∧ entries w' bs = Some D ∧
    if decide (bops_builds bs = 0) then unbuilt w R e w' R' else built w R e meta D w' R'.
Definition spawn_panic (w : world) (R : list (list row)) (meta : component_meta) (bs : list bop) (r : reason) (w' : world) (ev : list event) : Prop :=
  (r = ROutOfIds ∧ ev = [] ∧ grow w w' ∧ w_types w' = w_types w ∧ winv w' R) ∨
  (r = RColumnLength ∧ ev = [] ∧ ∃ e D, entries w' bs = Some D ∧ tears w R e D w') ∨
  (∃ e R', sgrow w w' e ∧ winv w' R' ∧
     ((bops_bad w' r bs ∧ ev = [] ∧ unbuilt w R e w' R') ∨
      (r = RDuplicate ∧ unbuilt w R e w' R' ∧ ∃ D, entries w' bs = Some D ∧ ¬ NoDup D.*1 ∧ dropped_pending w' D ev) ∨
      (bops_bad w' r bs ∧ ev = [] ∧ bops_builds bs ≠ 0 ∧ ∃ D, entries w' bs = Some D ∧ built w R e meta D w' R'))).

Lemma spawn_done_reuse w R meta bs e w' r : spawn_done w R meta bs e w' →
  (reuse_ok (w_reuse w') → reuse_ok r) → spawn_done w R meta bs e (set_reuse r w').
Proof.
  intros (Hsg & R' & D & Hw' & HD & Hx) Hr. split; [by eapply sgrow_same|].
  exists R', D. split_and!; [|done|done]. apply winv_reuse; [done|]. apply Hr, (wi_reuse _ _ Hw').
Qed.
Lemma spawn_panic_reuse w R meta bs x w' ev r : spawn_panic w R meta bs x w' ev →
  (reuse_ok (w_reuse w') → reuse_ok r) → spawn_panic w R meta bs x (set_reuse r w') ev.
Proof.
  intros [(-> & -> & Hg & Ht & Hw')|[H|(e & R' & Hsg & Hw' & Hx)]] Hr.
  - left. split_and!; [done|done|by apply grow_reuse|done|]. apply winv_reuse; [done|]. apply Hr, (wi_reuse _ _ Hw').
  - right; left. destruct H as (-> & -> & e & D & HD & w1 & R1 & H1 & H2 & H3 & H4). split_and!; [done..|]. exists e, D. split; [done|].
    exists w1, R1. split_and!; [done..|]. by apply torn_reuse.
  - right; right. exists e, R'. split_and!; [by eapply sgrow_same| |done]. apply winv_reuse; [done|]. apply Hr, (wi_reuse _ _ Hw').
Qed.

Lemma spawn_builder_spec w R cap meta : winv w R →
  wp (spawn_builder cap meta) w
     (λ b w' ev, ev = [] ∧ winv w' R ∧ sgrow w w' (eb_entity b) ∧ unbuilt w R (eb_entity b) w' R ∧
        w_archs w' = w_archs w ∧ w_types w' = w_types w ∧ fresh_builder (eb_entity b) meta b)
     (λ r w' ev, r = ROutOfIds ∧ ev = [] ∧ grow w w' ∧ w_types w' = w_types w ∧ winv w' R).
Proof.
  intros Hw. rewrite /spawn_builder. apply wp_bind, (wp_spawn_id w R); [done| |].
  2:{ intros w' Hw' E H1 H2. destruct (set_ents_eq _ _ E) as (Ea & Em & Et & Ell & Elk & Ere & Ebs & Eeb).
      split_and!; try done. constructor.
      - done.
      - intros c Hc Hl. left. by apply H2.
      - intros c Hf. by apply fresh_type_same in Hf.
      - intros c Hc. by rewrite /meta_at Em.
      - by rewrite Et.
      - by rewrite Ell Elk.
      - by rewrite /arch_ids Ea.
      - rewrite Ea. lia. }
  intros e w1 Hw1 E1 Hwf Hal Hnal Hnone Hold Hinv Hnt.
  destruct (set_ents_eq _ _ E1) as (Ea & Em & Et & Ell & Elk & Ere & Ebs & Eeb).
  assert (∀ b r, fresh_builder e meta b → reuse_ok r →
    ([] : list event) ++ [] = [] ∧ winv (set_reuse r w1) R ∧ sgrow w (set_reuse r w1) (eb_entity b) ∧ unbuilt w R (eb_entity b) (set_reuse r w1) R ∧
        w_archs (set_reuse r w1) = w_archs w ∧ w_types (set_reuse r w1) = w_types w ∧ fresh_builder (eb_entity b) meta b) as Hpost.
  { intros b r Hb Hr. pose proof Hb as (_ & -> & _). split_and!; [done| | | |done|done|done].
    - by apply winv_reuse.
    - constructor; simpl.
      + done.
      + by rewrite Et.
      + intros c Hc. by apply Hold.
      + intros c _ Hc. destruct (Hinv c Hc); auto.
      + intros c Hf. by apply fresh_type_same in Hf.
      + intros c Hc. by rewrite /meta_at /= Em.
      + by rewrite Et.
      + by rewrite Ell Elk.
      + by rewrite /arch_ids /= Ea.
    - split_and!; [| |rewrite /= Ea; lia].
      + intros e0 m0. split; [by auto|]. intros [[_ ?]|[[_ Hf]|?]]; [done|by apply fresh_type_same in Hf|done].
      + by rewrite /meta_at /= Em. }
  destruct cap as [n|].
  - eapply wp_mono; [by apply (builder_with_capacity_spec w1 R)| |done].
    intros b w2 ev (-> & Hb & r & -> & Hr). by apply Hpost.
  - destruct (builder_new_spec w1 R e meta Hw1) as (b & r & Hrun & Hb & Hr). rewrite {1}/wp Hrun. by apply Hpost.
Qed.

Lemma spawn_program_spec w R cap meta bs fin : winv w R → room 1 w → layout_wf (cm_layout meta) →
  (match spawn_builder cap meta w with Done b w' _ => bops_legal bs (b, w') | _ => True end) →
  bops_builds bs ≤ 1 →
  wp (spawn_program cap meta bs fin) w
     (λ e w' ev, ev = [] ∧ spawn_done w R meta bs e w') (spawn_panic w R meta bs).
Proof.
  intros Hw Hroom Hlay Hleg Hn. rewrite /spawn_program. apply wp_bind.
  eapply wp_mono; [apply wp_and_run; by apply (spawn_builder_spec w R)| |].
  2:{ intros r w' ev Hx. left. done. }
  intros b w1 ev [(-> & Hw1 & Hsg & Hun & Ea & Et & Hb & _ & Hbm & Hbp) Hrun]. rewrite Hrun in Hleg.
  assert (wp (run_bops bs) (b, w1)
    (λ _ s ev, ev = [] ∧ spawn_done w R meta bs (eb_entity b) s.2)
    (λ x s ev, spawn_panic w R meta bs x s.2 ev)) as Hrunbops.
  { eapply wp_mono.
    - apply (bops_spec w R (eb_entity b) bs w1 R b []); try done.
      + by rewrite /room Ea.
      + by rewrite Hbm.
    - intros [] [b2 w2] ev (-> & Hsg2 & Hx & R2 & D2 & Hw2 & HD2 & Hcase). cbn [fst snd] in *. rewrite Hbm in Hcase.
      split; [done|]. split; [done|]. by exists R2, D2.
    - intros x [b2 w2] ev (Hx & Hr). cbn [fst snd] in *. rewrite Hbm in Hr.
      destruct Hr as [(-> & -> & D2 & HD2 & Htr)|(Hsg2 & R2 & Hw2 & Hr)].
      { right; left. split_and!; [done..|]. by exists (eb_entity b), D2. }
      right; right. by exists (eb_entity b), R2. }
  apply wp_bind. destruct fin.
  - eapply wp_with_builder; [done|apply bsafe_bops|]. eapply wp_mono; [exact Hrunbops| |].
    + intros [] s ev [-> Hd] r Hr. apply wp_ret. split; [done|]. by apply spawn_done_reuse.
    + intros x s ev Hp r Hr. by apply spawn_panic_reuse.
  - eapply wp_forget_builder; [done|apply bsafe_bops|]. eapply wp_mono; [exact Hrunbops| |].
    + intros [] s ev [-> Hd]. by apply wp_ret.
    + intros x s ev Hp r Hr. by apply spawn_panic_reuse.
Qed.
