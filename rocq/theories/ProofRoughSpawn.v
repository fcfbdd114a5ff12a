(** * Rough histories: ids, registered types and builders *)
From Verif Require Import ProofBase SpecSmall World Query History ProofEntities ProofBitset ProofArrayVec ProofUVec.
From Verif Require Export ProofRoughBuild.

(** ** A new id *)
Lemma rinv_ents w s' :
  rinv w → ents_wf s' →
  (∀ i g, generations (w_ents w) !! i = Some (true, g) → generations s' !! i = Some (true, g)) →
  (∀ i g, generations (w_ents w) !! i = Some (false, g) →
     generations s' !! i = Some (false, g) ∨ generations s' !! i = Some (true, wrap32 (g + 1))) →
  gm grw w [] (set_ents s' w) [].
Proof.
  intros Hw Hwf Ht Hf.
  assert (∀ e, alive (w_ents w) e → alive s' e) as Hal.
  { intros e He%alive_iff. apply alive_iff. by apply Ht. }
  split; [|split].
  - eapply (rinv_change w); try done.
    + apply (ri_reuse _ Hw).
    + intros k a Ha. split_and!; [by eapply ri_shape|by eapply (ri_cols _ Hw)|by eapply (ri_cache _ Hw)].
    + intros k L c HL Hc. by eapply Hal, (ri_comps _ Hw).
    + intros i em Hem. split; [|by eapply (ri_layout _ Hw)]. destruct (ri_meta _ Hw _ _ Hem) as [g Hg]. exists g. by apply Ht.
    + intros t c Htc. destruct (ri_types _ Hw _ _ Htc) as (_ & _ & b & g & Hg & Hb). destruct b.
      * exists true, g. split; [by apply Ht|done].
      * destruct (Hf _ _ Hg) as [Hg'|Hg']; eexists _, _; (split; [exact Hg'|]); simpl; done.
  - constructor; try done. by left.
  - intros x. change (owed (set_ents s' w)) with (owed w). rewrite !cnt_nil. lia.
Qed.
Record newid (w w' : world) (e : ecsid) : Prop := {
  ni_eq : w' = set_ents (w_ents w') w;
  ni_wf : id_wf e;
  ni_alive : alive (w_ents w') e;
  ni_new : ¬ alive (w_ents w) e;
  ni_none : meta_at w (uindex e) = None;
  ni_old : ∀ c, alive (w_ents w) c → uindex c ≠ uindex e;
  ni_types : ∀ t, w_types w !! t ≠ Some e
}.
Lemma spawn_id_r w : rinv w → gp grw (in_ents ents_spawn) w [] (λ e w', newid w w' e).
Proof.
  intros Hw. rewrite /gp /rp /in_ents /zoom.
  destruct (ents_spawn_total _ (ri_ents _ Hw)) as [(e & s' & Hs)|(s' & Hs)]; rewrite Hs.
  - destruct (ents_spawn_spec _ _ _ _ (ri_ents _ Hw) Hs) as (Hwf & Hid & _ & Hnew & Hold & Hslot).
    assert (∀ i g, generations (w_ents w) !! i = Some (true, g) → i ≠ uindex e) as Hne.
    { intros i g Hi ->. rewrite Hi in Hslot. by destruct Hslot. }
    split.
    + apply rinv_ents; [done|done| |].
      * intros i g Hi. rewrite Hold //. by eapply Hne.
      * intros i g Hi. destruct (decide (i = uindex e)) as [->|]; [|left; by rewrite Hold].
        right. rewrite Hnew. rewrite Hi in Hslot. destruct Hslot as (_ & -> & _). done.
    + constructor; try done.
      * by apply alive_iff.
      * intros H%alive_iff. by eapply Hne.
      * destruct (meta_at w (uindex e)) as [em|] eqn:E; [|done]. destruct (ri_meta _ Hw _ _ E) as [g Hg]. by destruct (Hne _ _ Hg).
      * intros c Hc%alive_iff. by eapply Hne.
      * intros t Ht. destruct (ri_types _ Hw _ _ Ht) as (_ & _ & b & g & Hg & Hb). rewrite Hg in Hslot.
        destruct Hslot as (-> & E & _). simpl in Hb. by rewrite E in Hb.
  - destruct (ents_spawn_panic _ _ _ _ (ri_ents _ Hw) Hs) as (_ & _ & Hd & Hlen & Hg).
    assert (∀ i x, generations (w_ents w) !! i = Some x → generations s' !! i = Some x) as Hold.
    { intros i x Hi. rewrite Hg. by apply lookup_app_l_Some. }
    apply rinv_ents; [done| |by intros; apply Hold|by intros; left; apply Hold].
    destruct (ri_ents _ Hw) as (H1 & H2 & H3). rewrite /ents_wf Hd. split_and!; [done| |].
    + intros i Hi. destruct (H2 i Hi) as (? & g & ?). split; [done|]. exists g. by apply Hold.
    + intros i a g. rewrite Hg lookup_app_Some. intros [Hi|[_ Hi]]; [by eapply H3|].
      apply list_lookup_singleton_Some in Hi as [_ [= <- <-]]. done.
Qed.

(** ** The builder's buffer *)
Lemma builder_new_r w e cm : rinv w →
  ∃ b r, builder_new e cm w = Done b (set_reuse r w) [] ∧ fresh_builder e cm b ∧ reuse_ok r.
Proof.
  intros Hw. rewrite /builder_new (bind_done_nil _ _ w (w_reuse w) w eq_refl).
  pose proof (ri_reuse _ Hw) as Hr. rewrite /reuse_r in Hr. destruct (w_reuse w) as [[[ids p] cap]|] eqn:E.
  - destruct Hr as (-> & Hc & Hb). rewrite (bind_done_nil _ _ w () (set_reuse None w) eq_refl).
    eexists _, None. split_and!; [done| |done]. by apply fresh_builder_intro.
  - eexists _, None. split_and!; [rewrite -E; by destruct w| |done]. apply fresh_builder_intro. by left.
Qed.
Lemma reuse_gm w r : rinv w → reuse_ok r → gm grw w [] (set_reuse r w) [].
Proof.
  intros Hw Hr. split; [by apply rinv_reuse|]. split; [apply grw_reuse|]. intros x. change (owed (set_reuse r w)) with (owed w). rewrite !cnt_nil. lia.
Qed.
Lemma gp_builder_new w e cm : rinv w →
  gp grw (builder_new e cm) w [] (λ b w', fresh_builder e cm b ∧ ∃ r, w' = set_reuse r w).
Proof.
  intros Hw. destruct (builder_new_r w e cm Hw) as (b & r & Hrun & Hb & Hr). rewrite /gp /rp Hrun. split; [by apply reuse_gm|eauto].
Qed.
Lemma gp_builder_with_capacity w e cm n : rinv w →
  gp grw (builder_with_capacity e cm n) w [] (λ b w', fresh_builder e cm b ∧ ∃ r, w' = set_reuse r w).
Proof.
  intros Hw. rewrite /builder_with_capacity. eapply gp_step; [done|].
  destruct (w_reuse w) as [u|] eqn:E; [by apply gp_builder_new|]. case_decide as Hn; [by apply gp_builder_new|].
  apply gp_unwrap; [apply _|done|]. intros l Hl. pose proof (layout_ok_eq _ _ Hl) as ->.
  rewrite /heap_alloc /= decide_False //. eapply gp_step; [done|]. apply gp_ret; [apply _|done|].
  split; [|exists None; rewrite -E; by destruct w].
  apply fresh_builder_intro. right. split_and!; [done|done|]. eexists. split; [done|]. by rewrite replicate_length.
Qed.
Lemma rp_with_builder {A} b (m : M bw A) w (Q : post world A) (P : ppost world) :
  bbuf b → bsafe m →
  rp m (b, w)
     (λ a s ev, ∀ r, (reuse_ok (w_reuse s.2) → reuse_ok r) → Q a (set_reuse r s.2) ev)
     (λ x s ev, ∀ r, (reuse_ok (w_reuse s.2) → reuse_ok r) → P x (set_reuse r s.2) ev) →
  rp (with_builder b m) w Q P.
Proof.
  intros Hb Hs. rewrite /rp /with_builder. specialize (Hs b w Hb).
  destruct (m (b, w)) as [a [b' w'] ev|x [b' w'] ev| |]; [| |done..]; simpl in *.
  - destruct (builder_drop_run b' w' Hs) as (r & -> & Hr). intros HQ. rewrite app_nil_r. by apply HQ.
  - destruct (builder_drop_run b' w' Hs) as (r & -> & Hr). intros HP. rewrite app_nil_r. by apply HP.
Qed.
Lemma rp_forget_builder {A} b (m : M bw A) w (Q : post world A) (P : ppost world) :
  bbuf b → bsafe m →
  rp m (b, w)
     (λ a s ev, Q a s.2 ev)
     (λ x s ev, ∀ r, (reuse_ok (w_reuse s.2) → reuse_ok r) → P x (set_reuse r s.2) ev) →
  rp (forget_builder b m) w Q P.
Proof.
  intros Hb Hs. rewrite /rp /forget_builder /with_builder. specialize (Hs b w Hb).
  destruct (m (b, w)) as [a [b' w'] ev|x [b' w'] ev| |]; [done| |done..]; simpl in *.
  destruct (builder_drop_run b' w' Hs) as (r & -> & Hr). intros HP. rewrite app_nil_r. by apply HP.
Qed.
Lemma gm_reuse w G w' ev r : gm grw w G w' ev → (reuse_ok (w_reuse w') → reuse_ok r) → gm grw w G (set_reuse r w') ev.
Proof.
  intros (H1 & H2 & H3) Hr. split; [apply rinv_reuse; [done|]; apply Hr, (ri_reuse _ H1)|]. split; [etrans; [done|apply grw_reuse]|done].
Qed.

(** ** [self.spawn().build()] *)
Record spawned_r (w w' : world) (e : ecsid) : Prop := {
  sr_wf : id_wf e;
  sr_alive : alive (w_ents w') e;
  sr_new : ¬ alive (w_ents w) e;
  sr_old : ∀ c, alive (w_ents w) c → uindex c ≠ uindex e;
  sr_types : w_types w' = w_types w;
  sr_fresh : ∀ t, w_types w !! t ≠ Some e;
  sr_meta : ∀ i, i ≠ uindex e → meta_at w i = None → meta_at w' i = None;
  sr_some : is_Some (meta_at w' (uindex e));
  sr_len : length (w_archs w') ≤ Nat.max 1 (length (w_archs w));
  sr_ids : ∀ k L, arch_ids w' !! k = Some L → e ∉ L
}.

Lemma spawn_empty_r w : rinv w → room 0 w → gp grw spawn_empty w [] (λ e w', spawned_r w w' e).
Proof.
  intros Hw Hroom. rewrite /spawn_empty. eapply gp_then; [apply _|by apply spawn_id_r|].
  intros e w1 Hw1 X1 Hn. eapply gp_then; [apply _|by apply gp_builder_new|].
  intros b w2 Hw2 X2 ((Hb & Hbe & Hbm & Hbp) & r & E2).
  destruct (set_ents_eq _ _ (ni_eq _ _ _ Hn)) as (Ea & Em & Et & _).
  assert (∀ i, meta_at w2 i = meta_at w i) as Hma by (intros i; by rewrite E2 /meta_at /= Em).
  assert (w_types w2 = w_types w) as Et2 by by rewrite E2.
  assert (w_ents w2 = w_ents w1) as Ee2 by by rewrite E2.
  assert (w_archs w2 = w_archs w) as Ea2 by by rewrite E2.
  apply rp_with_builder; [done|apply bsafe_build|].
  eapply rp_mono; [apply (build_r w2 b [])|..]; try done.
  - by rewrite /room Ea2.
  - rewrite Hbe Ee2. apply Hn.
  - rewrite Hbe Hma. apply Hn.
  - rewrite Hbe Et2. apply Hn.
  - by rewrite Hbm.
  - intros id [b3 w3] ev (Hg & -> & HB) r3 Hr3. cbn [snd] in *. split; [by apply gm_reuse|].
    rewrite Hbe in HB |- *. destruct HB as [B1 B2 B3 B4 B5 B6 B7]. constructor; cbn [set_reuse w_ents w_types w_archs].
    + apply Hn.
    + rewrite B1 Ee2. apply Hn.
    + apply Hn.
    + apply Hn.
    + by rewrite B2.
    + apply Hn.
    + intros i Hi Hnone. apply B3; [done|]. by rewrite Hma.
    + exact B4.
    + rewrite -Ea2. by apply B7.
    + exact B5.
  - intros x [b3 w3] ev Hg r3 Hr3. cbn [snd] in *. by apply gm_reuse.
Qed.

(** ** [get_or_create_type_id_ecsid] *)
Lemma type_comp_r w t c cm : rinv w → w_types w !! t = Some c → alive (w_ents w) c → comp_of w c = Some cm → cm = cm_from_generic t.
Proof.
  intros Hw Ht Hal Hcm. destruct (ri_types _ Hw _ _ Ht) as (_ & _ & b & g & Hg & Hb).
  apply alive_iff in Hal. rewrite Hal in Hg. injection Hg as <- <-. by apply Hb.
Qed.
Record typed_r (w w' : world) (t : ty) (c : ecsid) : Prop := {
  tr_type : w_types w' !! t = Some c;
  tr_len : length (w_archs w') ≤ Nat.max 1 (length (w_archs w));
  tr_meta : ∀ c0, alive (w_ents w) c0 → meta_at w (uindex c0) = None → meta_at w' (uindex c0) = None
}.
Lemma set_comp_r w e em cm : rinv w → alive (w_ents w) e → meta_at w (uindex e) = Some em → (∀ k L, arch_ids w !! k = Some L → e ∉ L) →
  (∀ t, w_types w !! t ≠ Some e) → layout_wf (cm_layout cm) →
  let w' := set_meta (<[uindex e := Some (EntMeta (em_inst em) cm)]> (w_meta w)) w in
  rinv w' ∧ ∀ i, meta_at w' i = if decide (i = uindex e) then Some (EntMeta (em_inst em) cm) else meta_at w i.
Proof.
  intros Hw He Hem Hu Hty Hlay w'.
  assert (uindex e < length (w_meta w)) as Hlt. { apply meta_at_some in Hem. by eapply lookup_lt_Some. }
  assert (∀ i, meta_at w' i = if decide (i = uindex e) then Some (EntMeta (em_inst em) cm) else meta_at w i) as Hm.
  { intros i. apply (meta_at_insert w (uindex e) _ i Hlt). }
  split; [|done]. eapply (rinv_change w); try done.
  - apply (ri_reuse _ Hw).
  - apply (ri_ents _ Hw).
  - intros k a Ha. split_and!; [by eapply ri_shape| |by eapply (ri_cache _ Hw)].
    eapply (arch_cols_ext (comp_of w)); [|by eapply (ri_cols _ Hw)].
    rewrite (as_storages _ (ri_shape _ Hw _ _ Ha)). intros c Hc. rewrite /comp_of Hm decide_False //.
    eapply (other_index w e c k (a_comp_ids a)); try done. apply arch_ids_lookup. eauto.
  - apply (ri_comps _ Hw).
  - intros i em0. rewrite Hm. case_decide as E.
    + intros [= <-]. split; [rewrite E; by eapply (ri_meta _ Hw)|]. split; [done|]. by eapply (ri_layout _ Hw).
    + intros Hem0. split; [by eapply (ri_meta _ Hw)|by eapply (ri_layout _ Hw)].
  - intros t d Ht. destruct (ri_types _ Hw _ _ Ht) as (_ & _ & b & g & Hg & Hb). exists b, g. split; [done|]. destruct b; [|done].
    intros E cm0. rewrite /comp_of Hm. case_decide as Ed; [|by apply Hb]. exfalso. apply (Hty t). rewrite Ht. f_equal.
    eapply (alive_inj (w_ents w)); [|done|done]. apply alive_iff. rewrite Hg E. done.
Qed.
Lemma set_type_r w t e : rinv w → ty_wf t → id_wf e → alive (w_ents w) e → comp_of w e = Some (cm_from_generic t) →
  (∀ t', w_types w !! t' ≠ Some e) → rinv (set_types (<[t := e]> (w_types w)) w).
Proof.
  intros Hw Ht He Hal Hcm Hty. constructor; try apply Hw.
  - intros t' c. cbn [w_types set_types]. intros [[<- <-]|[_ H]]%lookup_insert_Some; [|by apply (ri_types _ Hw)].
    split; [done|]. split; [done|]. exists true, (id_gen e). split; [by apply alive_iff|]. intros _ cm H.
    change (comp_of w e = Some cm) in H. congruence.
  - intros t1 t2 c. cbn [w_types set_types]. intros [[<- <-]|[_ H1]]%lookup_insert_Some [[<- E]|[_ H2]]%lookup_insert_Some.
    + done.
    + by destruct (Hty t2).
    + subst c. by destruct (Hty t1).
    + by eapply (ri_types_inj _ Hw).
Qed.
Lemma get_or_create_r w t : rinv w → room 0 w → ty_wf t →
  gp grw (get_or_create_type t) w [] (λ c w', typed_r w w' t c).
Proof.
  intros Hw Hroom Ht. rewrite /get_or_create_type. eapply gp_step; [done|].
  destruct (w_types w !! t) as [c|] eqn:Etc.
  { apply gp_ret; [apply _|done|]. constructor; [done|lia|done]. }
  eapply rp_bind'; [by apply spawn_empty_r|done|].
  intros e w1 ev [(Hw1 & X1 & A1) Hsp]. cbn beta in Hsp. destruct (sr_some _ _ _ Hsp) as [em Hem].
  pose proof (proj1 (meta_at_some _ _ _) Hem) as Hem'.
  eapply rp_step; [done|]. rewrite Hem'. eapply rp_step; [done|]. eapply rp_step; [done|].
  destruct (set_comp_r w1 e em (cm_from_generic t)) as [Hw2 HM]; [done|apply Hsp|done|apply Hsp| |apply Ht|].
  { rewrite (sr_types _ _ _ Hsp). apply Hsp. }
  set (w2 := set_meta _ w1) in *.
  assert (rinv (set_types (<[t := e]> (w_types w2)) w2)) as Hw3.
  { apply set_type_r; [done|done|apply Hsp|apply Hsp| |].
    - rewrite /comp_of HM decide_True //.
    - change (w_types w2) with (w_types w1). rewrite (sr_types _ _ _ Hsp). apply Hsp. }
  set (w3 := set_types _ w2) in *.
  eapply rp_step; [done|]. eapply rp_step; [done|]. apply rp_ret. rewrite app_nil_r. cbn beta.
  change (gm grw w [] w3 ev ∧ typed_r w w3 t e). split.
  - split; [done|]. split; [|done]. constructor.
    + intros c Hc. by apply (gw_alive _ _ X1).
    + intros c cm Hc Hcm. assert (comp_of w1 c = Some cm) as H1 by by apply (gw_comp _ _ X1).
      change (comp_of w3 c) with (comp_of w2 c). rewrite /comp_of HM decide_False; [done|]. by apply (sr_old _ _ _ Hsp).
    + intros t' c Hc. rewrite /w3 /=. rewrite lookup_insert_ne; [|congruence]. by rewrite (sr_types _ _ _ Hsp).
    + intros t' c. rewrite /w3 /=. intros [[<- <-]|[_ H]]%lookup_insert_Some; [right; apply Hsp|]. rewrite (sr_types _ _ _ Hsp) in H. by left.
  - constructor.
    + rewrite /w3 /=. by rewrite lookup_insert.
    + apply (sr_len _ _ _ Hsp).
    + intros c0 Hc0 Hn. change (meta_at w3 (uindex c0)) with (meta_at w2 (uindex c0)). pose proof (sr_old _ _ _ Hsp c0 Hc0).
      rewrite HM decide_False //. by apply (sr_meta _ _ _ Hsp).
Qed.

(** ** One builder call before [build] *)
Record bstep_r (w : world) (b : builder) (o : bop) (s : bw) : Prop := {
  bs_buf : bbuf s.1;
  bs_target : same_target b s.1;
  bs_len : length (w_archs s.2) ≤ Nat.max 1 (length (w_archs w));
  bs_meta : ∀ c0, alive (w_ents w) c0 → meta_at w (uindex c0) = None → meta_at s.2 (uindex c0) = None;
  bs_new : ∃ d, (∀ D, pending w b D → pending s.2 s.1 (D ++ [d])) ∧
    ∀ w', grw s.2 w' → owe w' d.1 d.2 = bgift w' o
}.
Lemma grw_owe w w' c v cm : grw w w' → alive (w_ents w) c → comp_of w c = Some cm → owe w' c v = ldrop (cm_drop cm) v ∧ dropping w' c v = ldrop (cm_drop cm) v.
Proof.
  intros X Hal Hcm. pose proof (gw_comp _ _ X c cm Hal Hcm) as H. pose proof (gw_alive _ _ X c Hal) as H'.
  rewrite owe_dropping // /owe H. done.
Qed.
Lemma bop_r w b o : rinv w → room 0 w → bbuf b → bop_legal o (b, w) → o ≠ BBuild →
  gb grw (run_bop o) (b, w) [] (λ _ s, bstep_r w b o s).
Proof.
  intros Hw Hroom Hb Hleg Hnb. destruct o as [t v|c|c v|]; [| | |done]; cbn [run_bop bop_legal snd] in *.
  - destruct Hleg as [Ht Hv]. rewrite /builder_with.
    eapply gb_then; [apply _|by apply gb_in_world, get_or_create_r|].
    intros c [b0 w'] Hw' X' [E0 Htr]. cbn [fst snd] in *. subst b0.
    pose proof (with_data_run b w' c v Hb) as H. rewrite /gb /rp.
    destruct (builder_with_data c v (b, w')) as [[] [b1 w1] ev|r [b1 w1] ev| |]; cbn [fst snd] in *.
    + destruct H as (-> & -> & Hb1 & Hst & Hal & cm & Hcm & Hpend). split; [by apply gm_refl; [apply _|]|].
      pose proof (type_comp_r _ _ _ _ Hw' (tr_type _ _ _ _ Htr) Hal Hcm) as ->.
      constructor; cbn [fst snd]; [done|done|apply Htr|apply Htr|].
      exists (c, v). cbn [fst snd]. split.
      * intros D HD. change (cm_size (cm_from_generic t)) with (ty_size t) in Hpend. rewrite -Hv firstn_all in Hpend.
        apply Hpend. by eapply grw_pending.
      * intros w2 X2. by destruct (grw_owe w' w2 c v _ X2 Hal Hcm) as [-> _].
    + destruct H as (-> & -> & Hb1 & _). by apply gm_refl; [apply _|].
    + done.
    + destruct H as (cm & Hal & Hcm & Hlt). rewrite (type_comp_r _ _ _ _ Hw' (tr_type _ _ _ _ Htr) Hal Hcm) in Hlt.
      change (cm_size (cm_from_generic t)) with (ty_size t) in Hlt. lia.
  - pose proof (with_dynamic_run b w c Hb) as H. rewrite /gb /rp.
    destruct (builder_with_dynamic c (b, w)) as [[] [b1 w1] ev|r [b1 w1] ev| |]; cbn [fst snd]; [| |done..].
    + destruct H as (-> & -> & Hb1 & Hst & Hal & cm & Hcm & Hz & Hpend). split; [by apply gm_refl; [apply _|]|].
      constructor; cbn [fst snd]; [done|done|lia|done|]. exists (c, []). split; [done|].
      intros w2 X2. cbn [fst snd bgift]. by destruct (grw_owe w w2 c [] _ X2 Hal Hcm) as [-> ->].
    + destruct H as (-> & -> & -> & Hr). by apply gm_refl; [apply _|].
  - destruct Hleg as [_ Hf]. pose proof (with_data_run b w c v Hb) as H. rewrite /gb /rp.
    destruct (builder_with_data c v (b, w)) as [[] [b1 w1] ev|r [b1 w1] ev| |]; cbn [fst snd].
    + destruct H as (-> & -> & Hb1 & Hst & Hal & cm & Hcm & Hpend). split; [by apply gm_refl; [apply _|]|].
      constructor; cbn [fst snd]; [done|done|lia|done|]. exists (c, v). cbn [fst snd bgift]. split.
      * intros D HD. rewrite -(value_fits_comp _ _ _ _ Hal Hcm Hf) firstn_all in Hpend. by apply Hpend.
      * intros w2 X2. by destruct (grw_owe w w2 c v _ X2 Hal Hcm) as [-> ->].
    + destruct H as (-> & -> & Hb1 & Hr). by apply gm_refl; [apply _|].
    + done.
    + destruct H as (cm & Hal & Hcm & Hlt). rewrite (value_fits_comp _ _ _ _ Hal Hcm Hf) in Hlt. lia.
Qed.

(** ** The life of a builder.  [gift_r w D bs w']: what is owed for the values collected and passed. *)
Lemma room_max n w w' : length (w_archs w') ≤ Nat.max 1 (length (w_archs w)) → (n ≤ 1) → room n w → room n w'.
Proof. rewrite /room. intros H Hn Hr. assert (2 <= u32_max)%N by by vm_compute. lia. Qed.
Definition gmf (w : world) (G : world → list event) (w' : world) (ev : list event) : Prop := gm grw w (G w') w' ev.
Lemma bops_after_r w b bs : rinv w → room 0 w → bbuf b → bops_legal bs (b, w) → bops_builds bs = 0 →
  gb grw (run_bops bs) (b, w) [] (λ _ _, True).
Proof.
  revert w b. induction bs as [|o bs IH]; intros w b Hw Hroom Hb Hleg Hbl; [by apply gb_ret; [apply _|..]|].
  cbn [run_bops bops_legal] in *. destruct Hleg as [Ho Hbs]. assert (o ≠ BBuild ∧ bops_builds bs = 0) as [Hnb Hbl'].
  { destruct o; try done. }
  pose proof (bop_r w b o Hw Hroom Hb Ho Hnb) as Hop. rewrite /gb /rp in Hop.
  rewrite /gb /rp /bind. destruct (run_bop o (b, w)) as [[] s ev|r s ev| |]; [|done..].
  destruct Hop as [Hg Hst]. destruct s as [b1 w1]. cbn [fst snd] in *.
  assert (gb grw (run_bops bs) (b1, w1) [] (λ _ _, True)) as HI.
  { apply IH; [apply Hg|apply (room_max 0 w); [apply Hst|lia|done]|apply Hst|done|done]. }
  rewrite /gb /rp in HI. rewrite /add_events. destruct (run_bops bs (b1, w1)) as [[] s2 ev2|r s2 ev2| |]; [| |done..].
  - split; [|done]. destruct HI as [HI _]. eapply (gm_trans grw _ _ _ [] [] []); [exact Hg|exact HI|intros x; rewrite cnt_nil; lia].
  - eapply (gm_trans grw _ _ _ [] [] []); [exact Hg|exact HI|intros x; rewrite cnt_nil; lia].
Qed.
Lemma bops_r w b bs D : rinv w → room 1 w → bbuf b → bops_legal bs (b, w) → bops_builds bs ≤ 1 → pending w b D →
  alive (w_ents w) (eb_entity b) → meta_at w (uindex (eb_entity b)) = None → (∀ t, w_types w !! t ≠ Some (eb_entity b)) →
  layout_wf (cm_layout (eb_meta b)) →
  rp (run_bops bs) (b, w) (λ _ s ev, gmf w (λ w', pd w' D ++ (bs ≫= bgift w')) s.2 ev)
                          (λ _ s ev, gmf w (λ w', pd w' D ++ (bs ≫= bgift w')) s.2 ev).
Proof.
  revert w b D. induction bs as [|o bs IH]; intros w b D Hw Hroom Hb Hleg Hbl Hp Hal Hn Hty Hlay.
  { split; [done|]. split; [reflexivity|apply acct_refl]. }
  cbn [run_bops bops_legal] in *. destruct Hleg as [Ho Hbs].
  assert (room 0 w) as Hroom0. { rewrite /room in Hroom |- *. lia. }
  assert (o = BBuild ∨ o ≠ BBuild) as [->|Hnb] by (destruct o; by (left + right)).
  - (* the build *)
    pose proof (build_r w b D Hw Hroom0 Hb Hp Hal Hn Hty Hlay) as HB. pose proof (bsafe_build b w Hb) as Hbs'.
    cbn [run_bop] in *. rewrite /rp /bind in Hbs |- *. rewrite /gb /rp in HB.
    destruct (build (b, w)) as [id [b1 w1] ev|r [b1 w1] ev| |]; [| |done..]; cbn [fst snd ret add_events] in *.
    2:{ eapply gm_mono; [exact HB|]. intros x. rewrite cnt_app (grw_pd w w1 b D); [lia|apply HB|done]. }
    destruct HB as [Hg [_ HB]].
    assert (gb grw (run_bops bs) (b1, w1) [] (λ _ _, True)) as HI.
    { apply bops_after_r; [apply Hg| |done|done|cbn in Hbl; lia]. pose proof (br_len _ _ _ _ HB). rewrite /room in Hroom |- *. lia. }
    rewrite /gb /rp in HI. cbn [snd] in HI.
    assert (∀ w2 ev2, gm grw w1 [] w2 ev2 → gmf w (λ w', pd w' D ++ (BBuild :: bs) ≫= bgift w') w2 ((ev ++ []) ++ ev2)) as Hfin.
    { intros w2 ev2 H2. rewrite /gmf app_nil_r. eapply (gm_trans grw _ _ _ (pd w D) [] _); [exact Hg|exact H2|].
      intros x. rewrite cnt_app cnt_nil (grw_pd w w2 b D); [lia| |done]. etrans; [apply Hg|apply H2]. }
    destruct (run_bops bs (b1, w1)) as [[] s2 ev2|r s2 ev2| |]; [| |done..].
    + destruct HI as [HI _]. by apply Hfin.
    + by apply Hfin.
  - pose proof (bop_r w b o Hw Hroom0 Hb Ho Hnb) as Hop. rewrite /gb /rp in Hop.
    rewrite /rp /bind. destruct (run_bop o (b, w)) as [[] [b1 w1] ev|r [b1 w1] ev| |]; [| |done..]; cbn [fst snd] in *.
    2:{ eapply gm_mono; [exact Hop|]. intros x. rewrite cnt_nil. lia. }
    destruct Hop as [Hg Hst]. destruct (bs_new _ _ _ _ Hst) as (d & Hd & Hgift). destruct (bs_target _ _ _ _ Hst) as [T1 T2]. cbn [fst snd] in *.
    assert (rp (run_bops bs) (b1, w1) (λ _ s ev, gmf w1 (λ w', pd w' (D ++ [d]) ++ (bs ≫= bgift w')) s.2 ev)
                          (λ _ s ev, gmf w1 (λ w', pd w' (D ++ [d]) ++ (bs ≫= bgift w')) s.2 ev)) as HI.
    { apply IH.
      - apply Hg.
      - apply (room_max 1 w); [apply Hst|lia|done].
      - apply Hst.
      - done.
      - by destruct o.
      - by apply Hd.
      - rewrite T1. by apply (gw_alive w w1), Hal; apply Hg.
      - rewrite T1. by apply (bs_meta _ _ _ _ Hst).
      - rewrite T1. intros t Ht. destruct (gw_fresh w w1 (proj1 (proj2 Hg)) t _ Ht) as [H|H]; [by apply (Hty t)|done].
      - by rewrite T2. }
    assert (∀ w2 ev2, gmf w1 (λ w', pd w' (D ++ [d]) ++ (bs ≫= bgift w')) w2 ev2 → gmf w (λ w', pd w' D ++ ((o :: bs) ≫= bgift w')) w2 (ev ++ ev2)) as Hfin.
    { intros w2 ev2 H2. rewrite /gmf in H2 |- *. eapply (gm_trans grw _ _ _ [] _ _); [exact Hg|exact H2|].
      intros x. assert (cnt x (pd w2 (D ++ [d])) = cnt x (pd w2 D) + cnt x (bgift w2 o)) as E.
      { rewrite /pd cnt_bind_app -(Hgift w2); [|apply H2]. f_equal. by rewrite bind_cons app_nil_r. }
      rewrite bind_cons !cnt_app E cnt_nil. lia. }
    rewrite /rp in HI. rewrite /add_events. destruct (run_bops bs (b1, w1)) as [[] s2 ev2|r s2 ev2| |]; [| |done..]; by apply Hfin.
Qed.

(** ** [spawn] *)
Lemma spawn_builder_r w cap meta : rinv w →
  gp grw (spawn_builder cap meta) w [] (λ b w', fresh_builder (eb_entity b) meta b ∧ alive (w_ents w') (eb_entity b) ∧
    meta_at w' (uindex (eb_entity b)) = None ∧ (∀ t, w_types w' !! t ≠ Some (eb_entity b)) ∧ w_archs w' = w_archs w ∧ ¬ alive (w_ents w) (eb_entity b) ∧ id_wf (eb_entity b)).
Proof.
  intros Hw. rewrite /spawn_builder. eapply gp_then; [apply _|by apply spawn_id_r|].
  intros e w1 Hw1 X1 Hn. destruct (set_ents_eq _ _ (ni_eq _ _ _ Hn)) as (Ea & Em & Et & _).
  assert (∀ b w', fresh_builder e meta b ∧ (∃ r, w' = set_reuse r w1) → fresh_builder (eb_entity b) meta b ∧ alive (w_ents w') (eb_entity b) ∧
    meta_at w' (uindex (eb_entity b)) = None ∧ (∀ t, w_types w' !! t ≠ Some (eb_entity b)) ∧ w_archs w' = w_archs w ∧ ¬ alive (w_ents w) (eb_entity b) ∧ id_wf (eb_entity b)) as Hpost.
  { intros b w' [Hb [r ->]]. pose proof Hb as (_ & -> & _). split; [done|]. cbn [set_reuse w_ents w_types w_archs]. split; [apply Hn|].
    split; [rewrite /meta_at /= Em; apply Hn|]. split; [rewrite Et; apply Hn|]. split; [done|]. split; apply Hn. }
  destruct cap as [n|].
  - eapply gp_mono; [by apply gp_builder_with_capacity|exact Hpost].
  - eapply gp_mono; [by apply gp_builder_new|exact Hpost].
Qed.
Lemma dropping_reuse r w c v : dropping (set_reuse r w) c v = dropping w c v.
Proof.
  rewrite /dropping /dtor /get_entity_meta /is_alive /bind /gets /=. destruct (ents_is_alive (w_ents w) c) as [[]|]; done.
Qed.
Lemma bgift_reuse r w bs : bs ≫= bgift (set_reuse r w) = bs ≫= bgift w.
Proof.
  induction bs as [|o bs IH]; [done|]. rewrite !bind_cons IH. f_equal. destruct o; try done; apply dropping_reuse.
Qed.
Lemma spawn_program_r w cap meta bs fin : rinv w → room 1 w → layout_wf (cm_layout meta) →
  match spawn_builder cap meta w with Done b w' _ => bops_legal bs (b, w') | _ => True end → bops_builds bs ≤ 1 →
  rp (spawn_program cap meta bs fin) w (λ e w' ev, gmf w (λ w', bs ≫= bgift w') w' ev ∧ id_wf e ∧ ¬ alive (w_ents w) e ∧ alive (w_ents w') e) (λ _ w' ev, gmf w (λ w', bs ≫= bgift w') w' ev).
Proof.
  intros Hw Hroom Hlay Hleg Hbl. rewrite /spawn_program /bind.
  pose proof (spawn_builder_r w cap meta Hw) as HS. rewrite /gp /rp in HS. rewrite /rp.
  destruct (spawn_builder cap meta w) as [b w1 ev|r w1 ev| |]; [| |done..].
  2:{ eapply gm_mono; [exact HS|]. intros x. rewrite cnt_nil. lia. }
  destruct HS as [Hg ((Hb & _ & Hm & Hbp) & Hal & Hn & Hty & HA & Hnew & Hid)].
  assert (rp (run_bops bs) (b, w1) (λ _ s ev, gmf w1 (λ w', pd w' [] ++ (bs ≫= bgift w')) s.2 ev)
                          (λ _ s ev, gmf w1 (λ w', pd w' [] ++ (bs ≫= bgift w')) s.2 ev)) as HR.
  { apply bops_r; try done; [apply Hg|by rewrite /room HA|by rewrite Hm]. }
  assert (rp (match fin with BDrop => with_builder b (run_bops bs) | BForget => forget_builder b (run_bops bs) end) w1
    (λ _ w' ev, gmf w1 (λ w', bs ≫= bgift w') w' ev) (λ _ w' ev, gmf w1 (λ w', bs ≫= bgift w') w' ev)) as HF.
  { assert (∀ w2 ev2 r, gmf w1 (λ w', pd w' [] ++ (bs ≫= bgift w')) w2 ev2 → (reuse_ok (w_reuse w2) → reuse_ok r) →
      gmf w1 (λ w', bs ≫= bgift w') (set_reuse r w2) ev2) as Hre.
    { intros w2 ev2 r H2 Hr. pose proof (gm_reuse _ _ _ _ _ H2 Hr) as H3. rewrite /gmf bgift_reuse. exact H3. }
    destruct fin.
    - apply rp_with_builder; [done|apply bsafe_bops|]. eapply rp_mono; [exact HR|..]; intros ? s ev2 H r Hr; by apply Hre.
    - apply rp_forget_builder; [done|apply bsafe_bops|]. eapply rp_mono; [exact HR|..]; [done|]. intros ? s ev2 H r Hr; by apply Hre. }
  assert (∀ w2 ev2, gmf w1 (λ w', bs ≫= bgift w') w2 ev2 → gmf w (λ w', bs ≫= bgift w') w2 (ev ++ ev2)) as Hfin.
  { intros w2 ev2 H2. rewrite /gmf in H2 |- *. eapply (gm_trans grw _ _ _ [] _ _); [exact Hg|exact H2|]. intros x. rewrite cnt_nil. lia. }
  rewrite /rp in HF. rewrite /add_events.
  destruct ((match fin with BDrop => with_builder b (run_bops bs) | BForget => forget_builder b (run_bops bs) end) w1) as [[] w2 ev2|r w2 ev2| |]; [| |done..].
  - cbn [ret]. rewrite app_nil_r. split; [by apply Hfin|]. split; [done|]. split; [done|]. destruct HF as (_ & X & _). by apply (gw_alive _ _ X).
  - by apply Hfin.
Qed.
