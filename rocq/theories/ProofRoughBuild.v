(** * Rough histories: new entities *)
From Verif Require Import ProofBase SpecSmall World Query History ProofEntities ProofBitset ProofArrayVec ProofUVec.
From Verif Require Export ProofRoughOps.

(** ** Steps of a builder: the builder may change in any way *)
Lemma rp_in_world {A} b w (m : M world A) (Q : post bw A) (P : ppost bw) :
  rp m w (λ a w' ev, Q a (b, w') ev) (λ r w' ev, P r (b, w') ev) → rp (in_world m) (b, w) Q P.
Proof. rewrite /rp /in_world /on_snd /zoom /=. by destruct (m w). Qed.
Section gb.
  Context (X : relation world) `{!PreOrder X}.
  Definition gb {A} (m : M bw A) (s : bw) (G : list event) (Q : A → bw → Prop) : Prop :=
    rp m s (λ r s' ev, gm X s.2 G s'.2 ev ∧ Q r s') (λ _ s' ev, gm X s.2 G s'.2 ev).
  Lemma gb_bind {A B} (m : M bw A) (k : A → M bw B) s G1 G2 G (Q1 : A → bw → Prop) Q :
    gb m s G1 Q1 → (∀ r s1, rinv s1.2 → X s.2 s1.2 → Q1 r s1 → gb (k r) s1 G2 Q) →
    (∀ x, cnt x G1 + cnt x G2 ≤ cnt x G) → gb (bind m k) s G Q.
  Proof using PreOrder0.
    intros Hm Hk HG. eapply rp_bind'; [exact Hm| |].
    - intros r w' ev H. eapply gm_mono; [exact H|]. intros x. specialize (HG x). lia.
    - intros r w1 ev [Hg HQ]. eapply rp_mono; [apply (Hk r w1); [apply Hg..|done]| |].
      + intros b w2 ev2 [Hg2 ?]. split; [|done]. eapply gm_trans; [apply _|exact Hg|exact Hg2|exact HG].
      + intros b w2 ev2 Hg2. eapply gm_trans; [apply _|exact Hg|exact Hg2|exact HG].
  Qed.
  Lemma gb_then {A B} (m : M bw A) (k : A → M bw B) s G (Q1 : A → bw → Prop) Q :
    gb m s [] Q1 → (∀ r s1, rinv s1.2 → X s.2 s1.2 → Q1 r s1 → gb (k r) s1 G Q) → gb (bind m k) s G Q.
  Proof using PreOrder0. intros. eapply gb_bind; [done..|]. intros x. rewrite cnt_nil. lia. Qed.
  Lemma gb_then_r {A B} (m : M bw A) (k : A → M bw B) s G (Q1 : A → bw → Prop) Q :
    gb m s G Q1 → (∀ r s1, rinv s1.2 → X s.2 s1.2 → Q1 r s1 → gb (k r) s1 [] Q) → gb (bind m k) s G Q.
  Proof using PreOrder0. intros. eapply gb_bind; [done..|]. intros x. rewrite cnt_nil. lia. Qed.
  Lemma gb_step {A B} (m : M bw A) (k : A → M bw B) s a s' G Q : m s = Done a s' [] → s'.2 = s.2 → gb (k a) s' G Q → gb (bind m k) s G Q.
  Proof. intros H1 H2 H3. eapply rp_step; [exact H1|]. rewrite /gb H2 in H3. done. Qed.
  Lemma gb_ret {A} (a : A) s G (Q : A → bw → Prop) : rinv s.2 → Q a s → gb (ret a) s G Q.
  Proof using PreOrder0. intros Hw HQ. split; [by apply gm_refl; [apply _|]|done]. Qed.
  Lemma gb_in_world {A} (m : M world A) b w G Q : gp X m w G Q → gb (in_world m) (b, w) G (λ r s, s.1 = b ∧ Q r s.2).
  Proof. intros H. apply rp_in_world. eapply rp_mono; [exact H| |done]. intros a w' ev [? ?]. done. Qed.
  Lemma gb_unwrap {A B} (o : option A) r (k : A → M bw B) s G Q : rinv s.2 →
    (∀ a, o = Some a → gb (k a) s G Q) → gb (bind (unwrap o r) k) s G Q.
  Proof using PreOrder0.
    intros Hw H. destruct o as [a|]; [by eapply gb_step; [| |apply H]|]. eapply rp_stop; [done|]. by apply gm_refl; [apply _|].
  Qed.
  Lemma gb_massert {B} (b : bool) r (k : () → M bw B) s G Q : rinv s.2 →
    (b = true → gb (k ()) s G Q) → gb (bind (massert b r) k) s G Q.
  Proof using PreOrder0.
    intros Hw H. destruct b; [by eapply gb_step; [| |apply H]|]. eapply rp_stop; [done|]. by apply gm_refl; [apply _|].
  Qed.
  Lemma gb_get_arch {B} i (k : archetype → M bw B) b w G Q : rinv w →
    (∀ a, w_archs w !! i = Some a → gb (k a) (b, w) G Q) → gb (bind (in_world (get_arch i)) k) (b, w) G Q.
  Proof using PreOrder0.
    intros Hw H. destruct (w_archs w !! i) as [a|] eqn:E.
    - eapply gb_step; [by apply in_world_done, get_arch_done|done|by apply H].
    - eapply (rp_stop _ _ _ RIndex (b, w) []); [|by apply (gm_refl X w G)]. rewrite /in_world /on_snd /zoom /get_arch /bind /gets /= E. done.
  Qed.
  Lemma gb_mono {A} (m : M bw A) s G (Q Q' : A → bw → Prop) : gb m s G Q → (∀ a s', Q a s' → Q' a s') → gb m s G Q'.
  Proof. intros H HQ. eapply rp_mono; [exact H| |done]. intros a w' ev [? ?]. auto. Qed.
End gb.
Lemma gb_weaken {A} (X Y : relation world) (m : M bw A) s G Q : (∀ w1 w2, X w1 w2 → Y w1 w2) → gb X m s G Q → gb Y m s G Q.
Proof.
  intros H Hm. eapply rp_mono; [exact Hm| |].
  - intros a w' ev [(? & ? & ?) ?]. split; [|done]. split; [done|]. split; [by apply H|done].
  - intros a w' ev (? & ? & ?). split; [done|]. split; [by apply H|done].
Qed.

(** The destructor calls owed for collected values *)
Definition pd (w : world) (D : list (ecsid * value)) : list event := D ≫= λ d, owe w d.1 d.2.
Lemma pd_ext w w' D : (∀ c v, (c, v) ∈ D → comp_of w' c = comp_of w c) → pd w' D = pd w D.
Proof.
  intros H. rewrite /pd. induction D as [|[c v] D IH]; [done|]. rewrite !bind_cons IH; [|intros d u Hd; apply (H d u); by right].
  f_equal. rewrite /owe /=. rewrite (H c v); [done|left].
Qed.
Lemma gext_pending w w' b D : gext w w' → pending w b D → pending w' b D.
Proof.
  intros X [P1 P2 P3 P4]. constructor; [done..|]. intros c v Hc. rewrite (ge_ents _ _ X) (gext_comp _ _ _ X). by apply P4.
Qed.
Lemma gext_pd w w' D : gext w w' → pd w' D = pd w D.
Proof. intros X. apply pd_ext. intros c v _. by apply gext_comp. Qed.

(** ** The push loop *)
Lemma build_push_r k b w D D1 D2 off : rinv w → bbuf b → pending w b D → D = D1 ++ D2 → off = length (concat D1.*2) →
  gb cw (build_push k D2.*1 off) (b, w) (pd w D2) (λ _ s, s.1 = b).
Proof.
  intros Hw Hb. revert w D1 off Hw. induction D2 as [|[c v] D2 IH]; intros w D1 off Hw Hp HD Hoff; [by apply gb_ret; [apply _|..]|].
  rewrite fmap_cons. cbn [build_push fst].
  destruct (pe_comp _ _ _ Hp c v) as (Hal & cm & Hcm & Hlen). { rewrite HD. set_solver. }
  assert (Hcm' := Hcm). rewrite /comp_of in Hcm'. apply fmap_Some in Hcm' as (em & Hem & Ecm).
  eapply gb_step; [by apply in_meta_run|done|]. rewrite Hem. eapply gb_step; [done|done|].
  apply gb_get_arch; [apply _|done|]. intros a Ha. apply gb_unwrap; [apply _|done|]. intros si Hsi.
  eapply gb_step; [done|done|]. cbn [fst].
  rewrite HD in Hp. destruct (pending_read _ _ _ _ _ _ Hb Hp) as (Hread & Hrl & Hok). rewrite -HD in Hp.
  rewrite -Hoff in Hread Hrl Hok. rewrite -Ecm -Hlen Hok.
  assert (∀ x, cnt x (owe w c v) + cnt x (pd w D2) ≤ cnt x (pd w ((c, v) :: D2))) as HG.
  { intros x. rewrite /pd bind_cons cnt_app /=. lia. }
  eapply gb_bind; [apply _| | |exact HG].
  - apply (gb_in_world cw _ b w (owe w c v) (λ _ _, True)). apply gp_storage; [done|].
    intros a0 c0 u cm0 Ha0 Hs Hwf Hcm0 Hti. rewrite Ha in Ha0. injection Ha0 as <-.
    assert (c0 = c) as ->.
    { apply (as_lookup _ (ri_shape _ Hw _ _ Ha)) in Hsi. rewrite -(as_storages _ (ri_shape _ Hw _ _ Ha)) list_lookup_fmap Hs /= in Hsi. by injection Hsi. }
    rewrite Hcm in Hcm0. injection Hcm0 as <-. assert (uv_size u = cm_size cm) as Hsz by by rewrite /uv_size Hti.
    eapply rp_mono; [apply (push_vstep u (readable (eb_data b) off) (owe w c v) Hwf)| |].
    + lia.
    + rewrite /owe Hcm Hti Hsz -Hlen Hread. done.
    + done.
    + intros r v' ev [-> ->]. by apply vstep_refl.
  - intros [] [b1 w1] Hw1 X1 [E1 _]. cbn [snd fst] in *. subst b1.
    eapply gb_then; [apply _| |].
    + apply (gb_in_world cw _ b w1 [] (λ _ _, True)). apply gp_storage; [done|]. intros a0 c0 u cm0 Ha0 Hs Hwf Hcm0 Hti.
      rewrite /rp (uv_elems_len_rep _ _ Hwf). by apply vstep_refl.
    + intros n [b2 w2] Hw2 X2 [E2 _]. cbn [snd fst] in *. subst b2. apply gb_massert; [apply _|done|]. intros _.
      assert (gext w w2) as X02 by (apply cw_gext; by etrans).
      rewrite -(gext_pd _ _ D2 X02). apply (IH w2 (D1 ++ [(c, v)])).
      * done.
      * by eapply gext_pending.
      * by rewrite -app_assoc.
      * rewrite fmap_app concat_app app_length /= app_nil_r. lia.
Qed.

(** ** New storages *)
Lemma stores_owed w ss D : Forall2 (ProofBuild.stores w) ss D → (ss.*2 ≫= owed_vec) = pd w D.
Proof.
  induction 1 as [|s d ss D (H1 & cm & H2 & H3 & H4) _ IH]; [done|]. rewrite fmap_cons !bind_cons IH. rewrite /pd bind_cons. f_equal.
  rewrite (owed_vec_rep _ _ H4) /owed_list /= app_nil_r H3 /owe H2. done.
Qed.
Lemma pending_drops_pd w D x : cnt x (pending_drops w D) ≤ cnt x (pd w D).
Proof.
  induction D as [|[c v] D IH]; [done|]. rewrite /pending_drops fmap_cons concat_cons /pd bind_cons !cnt_app. cbn [fst snd].
  assert (cnt x (match comp_of w c with Some cm => drop_events_of (cm_type_info cm) [v] | None => [] end) ≤ cnt x (owe w c v)) as H.
  { rewrite /owe. destruct (comp_of w c) as [cm|]; [|done]. rewrite (cnt_perm x _ _ (drop_events_owed _ _)). case_decide; [rewrite cnt_nil; lia|].
    rewrite /owed_list /= app_nil_r. done. }
  rewrite /pending_drops /pd in IH. lia.
Qed.
Lemma create_storages_r w b D D1 D2 acc off :
  bbuf b → pending w b D → D = D1 ++ D2 → off = length (concat D1.*2) → Forall2 (ProofBuild.stores w) acc D1 →
  rp (create_storages D2.*1 off acc) (b, w)
     (λ ss s ev, ev = [] ∧ s = (b, w) ∧ Forall2 (ProofBuild.stores w) ss D)
     (λ _ s ev, s = (b, w) ∧ ∀ x, cnt x ev ≤ cnt x (pd w D)).
Proof.
  intros Hb Hp. revert D1 acc off. induction D2 as [|[c v] D2 IH]; intros D1 acc off HD Hoff Hacc.
  - rewrite app_nil_r in HD. subst D1. by apply rp_ret.
  - rewrite fmap_cons. cbn [create_storages fst].
    destruct (pe_comp _ _ _ Hp c v) as (Hal & cm & Hcm & Hlen). { rewrite HD. set_solver. }
    assert (Hcm' := Hcm). rewrite /comp_of in Hcm'. apply fmap_Some in Hcm' as (em & Hem & Ecm).
    rewrite HD in Hp. destruct (pending_read _ _ _ _ _ _ Hb Hp) as (Hread & Hrl & Hok). rewrite -HD in Hp.
    rewrite -Hoff in Hread Hrl Hok.
    eapply (rp_bind' _ _ _ (λ x s ev, ev = [] ∧ s = (b, w) ∧ x.2 = off + length v ∧ ProofBuild.stores w (c, x.1) (c, v))
                           (λ _ s ev, s = (b, w) ∧ ∀ x, cnt x ev ≤ cnt x (pd w D))).
    + eapply rp_on_unwind; [by apply stores_drop|].
      eapply rp_step; [by apply in_meta_run|]. rewrite Hem. eapply rp_step; [done|]. eapply rp_step; [done|].
      cbn [fst]. rewrite -Ecm -Hlen.
      pose proof (uv_push_rep (uv_new (cm_type_info cm)) [] (readable (eb_data b) off) (uv_rep_new _)) as Hpush.
      change (uv_size (uv_new (cm_type_info cm))) with (cm_size cm) in Hpush. rewrite -Hlen in Hpush. specialize (Hpush Hrl).
      rewrite /wp in Hpush. destruct (uv_push_raw _ _) as [[] v' ev|r v' ev| |]; try done.
      * destruct Hpush as (-> & Hti & Hrep). rewrite Hok. apply rp_ret. split_and!; [done..|].
        split; [done|]. exists cm. split_and!; [done|done|]. simpl. by rewrite Hread in Hrep.
      * apply rp_panic. split; [done|]. intros x. rewrite app_nil_l HD. pose proof (pending_drops_pd w D1 x).
        rewrite /pd bind_app cnt_app. rewrite /pd in H. lia.
    + done.
    + intros [v' off'] s ev (-> & -> & -> & Hst). simpl in *. eapply rp_mono.
      * apply (IH (D1 ++ [(c, v)])).
        -- by rewrite -app_assoc.
        -- rewrite fmap_app concat_app app_length /= app_nil_r. lia.
        -- apply Forall2_app; [done|]. by constructor.
      * intros ss s ev (-> & -> & ?). done.
      * intros r s ev (-> & ?). done.
Qed.

Lemma create_archetype_r w b D : rinv w → bbuf b → pending w b D →
  rp create_archetype (b, w)
     (λ na s ev, ev = [] ∧ s.2 = w ∧ arch_shape na ∧ arch_cols (comp_of w) na ∧ a_cache na = rc_new ∧
        (∀ c, c ∈ a_comp_ids na ↔ c ∈ D.*1) ∧ length (a_comp_ids na) = length D.*1 ∧ ∀ x, cnt x (owed_arch na) = cnt x (pd w D))
     (λ _ s ev, s.2 = w ∧ ∀ x, cnt x ev ≤ cnt x (pd w D)).
Proof.
  intros Hw Hb Hp. rewrite /create_archetype. eapply rp_step; [done|]. cbn [fst]. rewrite (pe_ids _ _ _ Hp).
  eapply rp_bind'; [by apply (create_storages_r w b D [] D [] 0)|intros r s ev [-> ?]; done|].
  intros ss s ev (-> & -> & Hss). cbn beta.
  assert (ss.*1 = D.*1) as Hfst.
  { clear -Hss. induction Hss as [|s d ss D [H _] _ IH]; [done|]. by rewrite !fmap_cons H IH. }
  eapply rp_step; [done|]. eapply rp_step; [done|]. cbn [fst snd].
  change (eb_ids (set_ids (sort_by ecsid_leb (eb_ids b)) b)) with (sort_by ecsid_leb (eb_ids b)).
  rewrite (pe_ids _ _ _ Hp). set (ids := sort_by ecsid_leb D.*1). set (ss' := sort_by storage_leb ss).
  assert (ss'.*1 = ids) as Hss'. { by rewrite /ss' sort_by_fst Hfst. }
  assert (ids ≡ₚ D.*1) as Hperm by apply sort_by_perm.
  assert (∃ D', D' ≡ₚ D ∧ Forall2 (ProofBuild.stores w) ss' D') as (D' & HD' & HF').
  { assert (ss ≡ₚ ss') as Hps by (symmetry; apply sort_by_perm).
    destruct (Forall2_Permutation_l _ _ _ _ Hps Hss) as (D' & ? & ?). by exists D'. }
  assert (∀ x, cnt x (pd w D') = cnt x (pd w D)) as Hpd. { intros x. apply cnt_perm. rewrite /pd. by rewrite HD'. }
  eapply rp_bind.
  eapply rp_on_unwind; [by apply stores_drop|]. apply rp_unwrap.
  2:{ intros _. split; [done|]. intros x. rewrite app_nil_l -Hpd. apply pending_drops_pd. }
  intros lk Hlk.
  assert (NoDup D.*1) as Hnd.
  { destruct (decide (NoDup D.*1)) as [|Hn]; [done|]. pose proof (index_ids_distinct_none 0 ids ∅) as Hd. rewrite Hlk in Hd.
    discriminate Hd. by rewrite Hperm. }
  assert (NoDup ids) as Hndi by by rewrite Hperm.
  pose proof (index_ids_distinct_some 0 ids ∅ Hndi (λ x _, lookup_empty x)) as Hd. rewrite Hlk in Hd. injection Hd as ->.
  eapply rp_step. { by rewrite zip_ids_agree_refl. }
  eapply rp_step; [done|]. cbn [fst snd]. apply rp_ret. cbn [snd a_comp_ids a_cache].
  split; [done|]. split; [done|]. split; [|split; [|split; [done|split; [intros c; by rewrite Hperm|split; [by rewrite Hperm|]]]]].
  - constructor; simpl.
    + by apply sort_by_sorted.
    + done.
    + intros c i. by apply index_ids_spec.
    + apply rc_inv_new.
  - intros c v (j & Hj)%elem_of_list_lookup. cbn [a_storages] in Hj.
    destruct (Forall2_lookup_l _ _ _ _ _ HF' Hj) as ([c' v'] & Hj' & Hc' & cm & Hcm & Hti & Hrep). simpl in *. subst c'.
    split; [by eapply uv_rep_wf|]. eauto.
  - intros x. rewrite /owed_arch /= (stores_owed _ _ _ HF'). apply Hpd.
Qed.

(** ** Metadata for a new entity *)
Lemma set_meta_r w e M em : rinv w → alive (w_ents w) e → meta_at w (uindex e) = None → (∀ t, w_types w !! t ≠ Some e) →
  layout_wf (cm_layout (em_comp em)) → w_archs w ≠ [] →
  (∀ i, mjoin (M !! i) = if decide (i = uindex e) then Some em else meta_at w i) →
  rinv (set_meta M w) ∧ ∀ x, cnt x (owed (set_meta M w)) = cnt x (owed w).
Proof.
  intros Hw He Hnone Hty Hlay Hne HM. split; [|done].
  assert (∀ i, meta_at (set_meta M w) i = if decide (i = uindex e) then Some em else meta_at w i) as Hm by exact HM.
  assert (∀ c cm, comp_of w c = Some cm → comp_of (set_meta M w) c = Some cm) as Hcomp.
  { intros c cm. rewrite /comp_of Hm. intros (em0 & Hem0 & ->)%fmap_Some. case_decide as E; [|by rewrite Hem0]. rewrite E Hnone in Hem0. done. }
  eapply (rinv_change w); try done.
  - apply (ri_reuse _ Hw).
  - apply (ri_ents _ Hw).
  - intros k a Ha. split_and!; [by eapply ri_shape| |by eapply (ri_cache _ Hw)].
    intros c v Hcv. destruct (ri_cols _ Hw _ _ Ha c v Hcv) as (? & cm & ? & ?). split; [done|]. exists cm. split; [by apply Hcomp|done].
  - apply (ri_comps _ Hw).
  - intros i em0. rewrite Hm. case_decide as E.
    + intros [= <-]. split; [|done]. exists (id_gen e). rewrite E. by apply alive_iff.
    + intros Hem. split; [by eapply (ri_meta _ Hw)|by eapply (ri_layout _ Hw)].
  - intros t d Ht. destruct (ri_types _ Hw _ _ Ht) as (_ & _ & b & g & Hg & Hb). exists b, g. split; [done|]. destruct b; [|done].
    intros E cm. rewrite /comp_of Hm. case_decide as Ed; [|by apply Hb]. exfalso. apply (Hty t). rewrite Ht. f_equal.
    eapply (alive_inj (w_ents w)); [|done|done]. apply alive_iff. rewrite Hg E. done.
Qed.

(** ** What new entities change *)
Record grw (w w' : world) : Prop := {
  gw_alive : ∀ c, alive (w_ents w) c → alive (w_ents w') c;
  gw_comp : ∀ c cm, alive (w_ents w) c → comp_of w c = Some cm → comp_of w' c = Some cm;
  gw_types : ∀ t c, w_types w !! t = Some c → w_types w' !! t = Some c;
  gw_fresh : ∀ t c, w_types w' !! t = Some c → w_types w !! t = Some c ∨ ¬ alive (w_ents w) c
}.
Global Instance grw_preorder : PreOrder grw.
Proof.
  split; [constructor; naive_solver|]. intros w1 w2 w3 [A1 A2 A3 A4] [B1 B2 B3 B4]. constructor; [naive_solver..|].
  intros t c H. destruct (B4 t c H) as [H'|H']; [by apply A4|]. right. auto.
Qed.
Lemma gext_grw w w' : gext w w' → grw w w'.
Proof.
  intros X. constructor.
  - intros c. by rewrite (ge_ents _ _ X).
  - intros c cm _. by rewrite (gext_comp _ _ _ X).
  - intros t c. by rewrite (ge_types _ _ X).
  - intros t c. rewrite (ge_types _ _ X). by left.
Qed.
Lemma grw_pending w w' b D : grw w w' → pending w b D → pending w' b D.
Proof.
  intros X [P1 P2 P3 P4]. constructor; [done..|]. intros c v Hc. destruct (P4 c v Hc) as (Hal & cm & Hcm & ?).
  split; [by apply (gw_alive _ _ X)|]. exists cm. split; [by apply (gw_comp _ _ X)|done].
Qed.
Lemma grw_pd w w' b D : grw w w' → pending w b D → pd w' D = pd w D.
Proof.
  intros X P. apply pd_ext. intros c v Hc. destruct (pe_comp _ _ _ P c v Hc) as (Hal & cm & Hcm & _). rewrite Hcm.
  by apply (gw_comp _ _ X).
Qed.
Lemma grw_reuse w r : grw w (set_reuse r w).
Proof. constructor; naive_solver. Qed.
Lemma rinv_reuse w r : rinv w → reuse_ok r → rinv (set_reuse r w).
Proof. intros Hw Hr. constructor; try apply Hw. done. Qed.
Lemma ensure_locks_r ids w : rinv w → ∃ w1, ensure_locks ids w = Done () w1 [] ∧ gm gext w [] w1 [] ∧
  w_meta w1 = w_meta w ∧ w_archs w1 = w_archs w.
Proof.
  revert w. induction ids as [|c ids IH]; intros w Hw.
  - exists w. split; [done|]. split; [by apply gm_refl; [apply _|]|done].
  - cbn [ensure_locks]. destruct (lock_world_r c w Hw) as (Hg & H1 & H2 & H3).
    destruct (IH (lock_world c w)) as (w1 & Hrun & Hg1 & Hm & HA); [apply Hg|].
    exists w1. split; [by rewrite (bind_done_nil _ _ _ _ _ (ensure_lock_run c w))|].
    split; [|split; congruence]. eapply (gm_trans gext _ _ _ [] [] [] [] []); [exact Hg|exact Hg1|]. intros x. rewrite cnt_nil. lia.
Qed.
Lemma find_archetype_r w ids : rinv w → room 0 w → (∀ c, c ∈ ids → alive (w_ents w) c) →
  ∃ r, find_archetype_dynamic ids w = Done r w [] ∧
    match r with
    | Some k => ∃ L, arch_ids w !! k = Some L ∧ (∀ c, c ∈ ids → c ∈ L) ∧ length L = length ids
    | None => (ids = [] → w_archs w = []) ∧ ∀ k L, arch_ids w !! k = Some L → (∀ c, c ∈ ids → c ∈ L) → length L ≠ length ids
    end.
Proof.
  intros Hw Hroom Hal. rewrite /find_archetype_dynamic (bind_done_nil _ _ w (w_archs w) w eq_refl).
  case_decide as Hd.
  - destruct Hd as [Hlen Hn%nil_length_inv]. destruct (find_zero_r w Hw Hlen) as (a & Ha & Hids & Hz).
    rewrite (bind_done_nil _ _ _ _ _ (get_arch_done _ _ _ Ha)) Hids. exists (Some 0). split; [done|].
    exists []. subst ids. split_and!; [done| |done]. intros c Hc. by apply elem_of_nil in Hc.
  - destruct ids as [|c ids].
    + exists None. split; [apply search_empty|]. assert (w_archs w = []) as E.
      { apply nil_length_inv. destruct (decide (0 < length (w_archs w))); [|lia]. by destruct Hd. }
      split; [done|]. intros k L HL. apply lookup_lt_Some in HL. rewrite arch_ids_length E /= in HL. lia.
    + destruct (search_r w (c :: ids) (length (c :: ids)) Hw Hroom Hal) as (r & Hrun & Hr); [done|]. exists r. split; [done|].
      destruct r; [done|]. split; [done|]. exact Hr.
Qed.

(** ** [build] *)
Record built_r (w w' : world) (e : ecsid) (D : list (ecsid * value)) : Prop := {
  br_ents : w_ents w' = w_ents w;
  br_types : w_types w' = w_types w;
  br_meta : ∀ i, i ≠ uindex e → meta_at w i = None → meta_at w' i = None;
  br_some : is_Some (meta_at w' (uindex e));
  br_ids : ∀ k L, arch_ids w' !! k = Some L → e ∉ L;
  br_len : length (w_archs w') ≤ S (length (w_archs w));
  br_nil : D = [] → length (w_archs w') ≤ Nat.max 1 (length (w_archs w))
}.
Lemma gext_none w w' i : gext w w' → meta_at w i = None → meta_at w' i = None.
Proof. intros X H. pose proof (ge_meta _ _ X i) as E. rewrite H in E. by destruct (meta_at w' i). Qed.
Lemma build_r w b D :
  rinv w → room 0 w → bbuf b → pending w b D →
  alive (w_ents w) (eb_entity b) → meta_at w (uindex (eb_entity b)) = None → (∀ t, w_types w !! t ≠ Some (eb_entity b)) →
  layout_wf (cm_layout (eb_meta b)) →
  gb grw build (b, w) (pd w D) (λ id s, id = eb_entity b ∧ built_r w s.2 (eb_entity b) D).
Proof.
  intros Hw Hroom Hb Hp Hal Hnone Hty Hlay. set (e := eb_entity b) in *.
  rewrite /build. eapply gb_step; [done|done|]. cbn [fst].
  assert (∀ c, c ∈ D.*1 → alive (w_ents w) c) as HalD.
  { intros c ([c' v] & -> & Hin)%elem_of_list_fmap. by apply (pe_comp _ _ _ Hp c' v). }
  destruct (find_archetype_r w (eb_ids b) Hw Hroom) as (r & Hrun & Hr). { by rewrite (pe_ids _ _ _ Hp). }
  eapply gb_step; [by apply in_world_done|done|]. rewrite (pe_ids _ _ _ Hp) in Hr |- *.
  (* the last step *)
  assert (∀ b1 w1 k i, rinv w1 → gext w w1 → w_archs w1 ≠ [] → length (w_archs w1) ≤ S (length (w_archs w)) →
    (D = [] → length (w_archs w1) ≤ Nat.max 1 (length (w_archs w))) →
    rp (do* in_world (set_entity_meta e (EntMeta (InstMeta k i) (eb_meta b))) in ret e) (b1, w1)
      (λ r s' ev, gm grw w1 [] s'.2 ev ∧ r = e ∧ built_r w s'.2 e D) (λ _ s' ev, gm grw w1 [] s'.2 ev)) as Hlast.
  { intros b1 w1 k i Hw1 X1 Hne Hlen Hlen0.
    destruct (set_entity_meta_run w1 e (EntMeta (InstMeta k i) (eb_meta b))) as (M & HMrun & HM).
    { by rewrite (ge_ents _ _ X1). }
    eapply rp_step; [by apply in_world_done|]. cbn [ret rp snd].
    assert (meta_at w1 (uindex e) = None) as Hn1 by by eapply gext_none.
    destruct (set_meta_r w1 e M (EntMeta (InstMeta k i) (eb_meta b)) Hw1) as [Hw2 Ho]; try done.
    { by rewrite (ge_ents _ _ X1). } { by rewrite (ge_types _ _ X1). }
    assert (∀ j, meta_at (set_meta M w1) j = if decide (j = uindex e) then Some (EntMeta (InstMeta k i) (eb_meta b)) else meta_at w1 j) as HM' by exact HM.
    assert (gm grw w1 [] (set_meta M w1) []) as Hg.
    { split; [done|]. split; [|intros x; rewrite Ho cnt_nil; lia]. constructor; try done; [|by left].
      intros c cm _. rewrite /comp_of HM'. intros (em0 & Hem0 & ->)%fmap_Some. case_decide as E; [|by rewrite Hem0]. rewrite E Hn1 in Hem0. done. }
    split; [done|]. split; [done|]. constructor; try done.
    - apply (ge_ents _ _ X1).
    - apply (ge_types _ _ X1).
    - intros j Hj Hnj. rewrite HM' decide_False //. by eapply gext_none.
    - rewrite HM' decide_True //.
    - intros k' L HL He. destruct (rinv_comp w1 k' L e Hw1 HL He) as [cm Hcm]. by rewrite /comp_of Hn1 in Hcm. }
  destruct r as [k|].
  - (* an archetype of the right size holding all the ids *)
    destruct Hr as (L & HL & Hsub & Hlen).
    eapply gb_then; [apply _|eapply (gb_weaken cw); [intros ?? H; by apply gext_grw, cw_gext|apply (gb_in_world cw _ b w [] (λ _ w1, arch_ids w1 = arch_ids w ∧ gext w w1))]|].
    { eapply rp_mono; [by apply gp_entities| |]; [|done]. intros ? w1 ev [Hg _]. split; [done|]. split; [by apply cw_ids, Hg|by apply cw_gext, Hg]. }
    intros [] [b1 w1] Hw1 _ (Eb & Hids1 & X1). cbn [fst snd] in *. subst b1.
    eapply (gb_then_r grw _ _ _ _ (λ _ s, gext w s.2 ∧ arch_ids s.2 = arch_ids w)).
    { rewrite -(gext_pd _ _ D X1). eapply rp_mono; [apply (build_push_r k b w1 D [] D 0); try done|..].
      - by eapply gext_pending.
      - intros [] [b2 w2] ev [(H1 & H2 & H3) _]. cbn [snd] in *. split; [split; [done|split; [by apply gext_grw, cw_gext|done]]|].
        split; [etrans; [done|by apply cw_gext]|]. by rewrite (cw_ids _ _ H2).
      - intros r [b2 w2] ev (H1 & H2 & H3). cbn [snd] in *. split; [done|split; [by apply gext_grw, cw_gext|done]]. }
    intros [] [b2 w2] Hw2 _ [X2 Hids2]. cbn [fst snd] in *. apply gb_get_arch; [apply _|done|]. intros a Ha.
    assert (length (w_archs w2) = length (w_archs w)) as El by by rewrite -!arch_ids_length Hids2.
    eapply rp_mono; [apply (Hlast b2 w2 k (length (a_entities a) - 1))|..]; try done; [by intros E; rewrite E in Ha|rewrite El; lia|intros _; rewrite El; lia].
  - (* no such archetype *)
    destruct Hr as [Hr0 Hr]. destruct (ensure_locks_r D.*1 w Hw) as (w1 & Hlrun & (Hw1 & X1 & A1) & Hm1 & HA1).
    eapply (gb_then grw _ _ _ _ (λ _ s, s = (b, w1))).
    { rewrite /gb /rp (in_world_done _ _ _ _ _ _ Hlrun). split; [|done]. split; [done|]. split; [by apply gext_grw|done]. }
    intros [] s _ _ ->. pose proof (gext_pending _ _ _ _ X1 Hp) as Hp1. rewrite -(gext_pd _ _ D X1).
    eapply rp_bind'; [by apply (create_archetype_r w1 b D)| |].
    { intros r [b2 w2] ev (E2 & He). cbn [snd] in *. subst w2. split; [done|]. split; [reflexivity|]. intros x. specialize (He x). lia. }
    intros na [b2 w2] ev (-> & E2 & Hsh & Hcols & Hca & Hin & Hlen & Hown). cbn [snd] in *. subst w2.
    destruct (push_r w1 na Hw1 Hsh Hcols Hca) as (w2 & Hprun & Hw2 & X2 & HA2 & Hm2 & Ho2).
    { intros c Hc%Hin. rewrite (ge_ents _ _ X1). by apply HalD. }
    { intros k HL. rewrite /arch_ids HA1 -/(arch_ids w) in HL. apply (Hr k _ HL); [by intros c; rewrite Hin|done]. }
    { rewrite HA1. intros E. destruct D as [|[c v] D0]; [by apply nil_length_inv|]. exfalso.
      destruct (pe_comp _ _ _ Hp c v) as (_ & cm & Hcm & _); [left|]. rewrite /comp_of in Hcm. apply fmap_Some in Hcm as (em & Hem & _).
      by destruct (ri_layout _ Hw _ _ Hem). }
    change (gb grw (let* n := in_world (push_archetype na) in do* in_world (set_entity_meta e (EntMeta (InstMeta n 0) (eb_meta b))) in ret e)
      (b2, w1) (pd w1 D) (λ id s, id = e ∧ built_r w s.2 e D)).
    eapply (gb_then_r grw _ _ _ _ (λ n s, s = (b2, w2))).
    { rewrite /gb /rp (in_world_done _ _ _ _ _ _ Hprun). split; [|done]. split; [done|]. split; [by apply gext_grw|].
      intros x. cbn [snd]. rewrite Ho2 Hown cnt_nil. lia. }
    intros n s _ _ ->.
    eapply rp_mono; [apply (Hlast b2 w2 n 0)|..]; try done.
    + by etrans.
    + rewrite HA2. by destruct (w_archs w1).
    + rewrite HA2 app_length HA1 /=. lia.
    + intros ->. rewrite HA2 app_length HA1 /= Hr0 //.
Qed.
