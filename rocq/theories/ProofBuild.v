(** * [EntityBuilder::build] *)
From Verif Require Import ProofBase SpecSmall World History ProofEntities ProofBitset ProofArrayVec ProofUVec.
From Verif Require Export ProofBuilder.

Lemma wp_in_world {A} b w (m : M world A) (Q : post bw A) (P : ppost bw) :
  wp m w (λ a w' ev, Q a (b, w') ev) (λ r w' ev, P r (b, w') ev) → wp (in_world m) (b, w) Q P.
Proof. intros H. rewrite /in_world /on_snd. eapply wp_zoom; [done|]. exact H. Qed.
Lemma in_world_done {A} b w (m : M world A) a w' ev : m w = Done a w' ev → in_world m (b, w) = Done a (b, w') ev.
Proof. intros H. by rewrite /in_world /on_snd /zoom /= H. Qed.

Lemma set_entity_meta_run w e m : alive (w_ents w) e →
  ∃ M, set_entity_meta e m w = Done () (set_meta M w) [] ∧
    ∀ i, mjoin (M !! i) = if decide (i = uindex e) then Some m else meta_at w i.
Proof.
  intros H. rewrite /set_entity_meta (bind_done_nil _ _ _ _ _ (is_alive_alive _ _ H)).
  eexists. split; [done|]. intros i. case_decide as Hlt.
  - exact (meta_at_insert w (uindex e) (Some m) i Hlt).
  - rewrite /meta_at. destruct (decide (i = uindex e)) as [->|Hne].
    + rewrite lookup_app_r; [|lia]. rewrite lookup_app_r; [|rewrite replicate_length; lia].
      rewrite replicate_length Nat.sub_diag. done.
    + destruct (decide (i < length (w_meta w))).
      * by rewrite lookup_app_l.
      * rewrite lookup_app_r; [|lia]. rewrite (lookup_ge_None_2 (w_meta w) i); [|lia]. simpl.
        destruct (decide (i < uindex e)).
        -- rewrite lookup_app_l; [|rewrite replicate_length; lia]. rewrite lookup_replicate_2; [done|lia].
        -- rewrite lookup_app_r; [|rewrite replicate_length; lia]. rewrite replicate_length.
           destruct (i - length (w_meta w) - (uindex e - length (w_meta w))) eqn:E; [lia|]. done.
Qed.

(** ** Reading the pending values back *)
Lemma pending_read w b D1 c v D2 : bbuf b → pending w b (D1 ++ (c, v) :: D2) →
  let off := length (concat D1.*2) in
  take (length v) (readable (eb_data b) off) = v ∧ length v ≤ length (readable (eb_data b) off) ∧
  offset_ok (eb_data b) (off + length v) = true.
Proof.
  intros [Hb Hle] [P1 P2 P3 P4]. intros off. rewrite fmap_app fmap_cons concat_app /= in P2 P3.
  rewrite !app_length -/off in P2.
  destruct Hb as [[Hc Hd]|(Hc & Hl & m & Hd & Hm)]; rewrite Hd in P3 |- *.
  - assert (length v = 0) as Hv by lia. rewrite (nil_length_inv v Hv). split_and!; [done|simpl; lia|]. simpl.
    apply bool_decide_eq_true. lia.
  - rewrite /readable drop_0 in P3. assert (drop off (take (eb_len b) m) = v ++ concat D2.*2) as H3.
    { rewrite P3 drop_app_alt //. }
    rewrite skipn_firstn_comm in H3. simpl. split_and!.
    + assert (take (length v) (take (eb_len b - off) (drop off m)) = v) as H4 by by rewrite H3 take_app.
      rewrite take_take in H4. by rewrite Nat.min_l in H4; [|lia].
    + rewrite drop_length. lia.
    + apply bool_decide_eq_true. lia.
Qed.

Lemma list_to_map_first (D1 D2 : list (ecsid * value)) c v : c ∉ D1.*1 →
  (list_to_map (D1 ++ (c, v) :: D2) : gmap ecsid value) !! c = Some v.
Proof.
  intros Hc. rewrite list_to_map_app lookup_union_r; [|by apply not_elem_of_list_to_map]. simpl. by rewrite lookup_insert.
Qed.

(** What a repeated component leaves behind: of the columns of the archetype, those of the
    components pushed have one value more, that of the repeated one two; [e] has its row. *)
Definition overrun (w : world) (k : nat) (a : archetype) (rs : list row) (D : list (ecsid * value)) (w' : world) : Prop :=
  ∃ ss D1 c v D2, D = D1 ++ (c, v) :: D2 ∧ NoDup D1.*1 ∧ c ∈ D1.*1 ∧ ss.*1 = a_comp_ids a ∧
    (∃ r, (reuse_ok (w_reuse w) → reuse_ok r) ∧ w' = set_reuse r (st_world w k a ss)) ∧
    cols (comp_of w) ss (λ d, ft rs (list_to_map D) (list_to_set D1.*1) d ++ if decide (d = c) then [v] else []).
Definition torn (w : world) (R : list (list row)) (e : ecsid) (D : list (ecsid * value)) (w' : world) : Prop :=
  ∃ k a rs, w_archs w !! k = Some a ∧ R !! k = Some rs ∧ (∀ c, c ∈ D.*1 → c ∈ a_comp_ids a) ∧
    overrun w k (a_set_entities (a_entities a ++ [e]) a) rs D w'.
Lemma torn_nodup w R e D w' : torn w R e D w' → ¬ NoDup D.*1.
Proof.
  intros (k & a & rs & _ & _ & _ & ss & D1 & c & v & D2 & -> & _ & Hc & _). rewrite fmap_app fmap_cons NoDup_app.
  intros (_ & Hx & _). apply (Hx c Hc). left.
Qed.
Lemma torn_types w R e D w' : torn w R e D w' → w_types w' = w_types w.
Proof. by intros (k & a & rs & _ & _ & _ & ss & D1 & c & v & D2 & _ & _ & _ & _ & (r & _ & ->) & _). Qed.
Lemma torn_reuse w R e D w' r : torn w R e D w' → (reuse_ok (w_reuse w') → reuse_ok r) → torn w R e D (set_reuse r w').
Proof.
  intros (k & a & rs & H1 & H2 & H3 & ss & D1 & c & v & D2 & H4 & H5 & H6 & H7 & (r0 & H0 & ->) & H8) Hr.
  exists k, a, rs. split_and!; [done..|]. exists ss, D1, c, v, D2. split_and!; [done..| |done]. exists r. split; [|done]. intros H. by apply Hr, H0.
Qed.

(** ** The push loop *)
Lemma build_push_spec w k a rs b D D1 D2 ss off :
  k < length (w_archs w) → arch_shape a →
  length (a_entities a) = S (length rs) →
  bbuf b → pending w b D → D = D1 ++ D2 →
  (∀ c, c ∈ D.*1 → c ∈ a_comp_ids a) →
  NoDup D1.*1 → ss.*1 = a_comp_ids a → off = length (concat D1.*2) →
  cols (comp_of w) ss (ft rs (list_to_map D) (list_to_set D1.*1)) →
  wp (build_push k D2.*1 off) (b, st_world w k a ss)
     (λ _ s ev, ev = [] ∧ NoDup D.*1 ∧ ∃ ss', s = (b, st_world w k a ss') ∧ ss'.*1 = ss.*1 ∧
        cols (comp_of w) ss' (ft rs (list_to_map D) (list_to_set D.*1)))
     (λ r s ev, ev = [] ∧ r = RColumnLength ∧ overrun w k a rs D s.2).
Proof.
  intros Hk Hsh Hel Hb Hp. revert D1 ss off. induction D2 as [|[c v] D2 IH]; intros D1 ss off HD Hin Hnd Hss Hoff Hc.
  - rewrite app_nil_r in HD. subst D. apply wp_ret. split_and!; [done|done|]. exists ss. done.
  - rewrite fmap_cons. cbn [build_push]. cbn [fst].
    destruct (pe_comp _ _ _ Hp c v) as (Hal & cm & Hcm & Hlen). { rewrite HD. set_solver. }
    assert (Hcm' := Hcm). rewrite /comp_of in Hcm'. apply fmap_Some in Hcm' as (em & Hem & Ecm).
    apply wp_bind, wp_in_world, wp_get_entity_meta; [done|]. change (meta_at (st_world w k a ss) (uindex c)) with (meta_at w (uindex c)).
    rewrite Hem. apply wp_bind, (wp_unwrap_some _ em); [done|].
    assert (w_archs (st_world w k a ss) !! k = Some (a_set_storages ss a)) as Ha by by apply list_lookup_insert.
    apply wp_bind, wp_in_world. rewrite {1}/wp (get_arch_done _ _ _ Ha).
    assert (c ∈ a_comp_ids a) as [si Hsi]%elem_of_list_lookup. { apply Hin. rewrite HD fmap_app. set_solver. }
    apply wp_bind, (wp_unwrap_some _ si). { by apply (as_lookup _ Hsh). }
    apply wp_bind, wp_gets. simpl fst.
    rewrite -Hss in Hsi. destruct (fst_lookup _ _ _ Hsi) as [u Hu].
    destruct (cols_lookup _ _ _ _ _ _ Hc Hu) as (cm' & Hcm' & Hti & Hrep). rewrite Hcm in Hcm'. injection Hcm' as <-.
    assert (uv_size u = cm_size cm) as Hsz by by rewrite /uv_size Hti.
    rewrite HD in Hp. destruct (pending_read _ _ _ _ _ _ Hb Hp) as (Hread & Hrl & Hok). rewrite -HD in Hp.
    rewrite -Hoff in Hread Hrl Hok. rewrite -Ecm -Hlen.
    apply wp_bind, wp_in_world. eapply wp_in_storage; [exact Ha|exact Hu|]. eapply wp_mono.
    { apply (uv_push_rep u _ (readable (eb_data b) off) Hrep). rewrite Hsz -Hlen. done. }
    2:{ done. }
    intros [] u' ev (-> & Hti' & Hrep'). rewrite Hsz -Hlen Hread in Hrep'. rewrite Hok.
    assert (set_archs (<[k := a_set_storages (<[si := (c, u')]> (a_storages (a_set_storages ss a))) (a_set_storages ss a)]>
       (w_archs (st_world w k a ss))) (st_world w k a ss) = st_world w k a (<[si := (c, u')]> ss)) as ->.
    { rewrite /st_world /set_archs /=. f_equal. by rewrite list_insert_insert. }
    set (ss1 := <[si := (c, u')]> ss).
    assert (w_archs (st_world w k a ss1) !! k = Some (a_set_storages ss1 a)) as Ha1 by by apply list_lookup_insert.
    assert (ss1 !! si = Some (c, u')) as Hu1. { apply list_lookup_insert. by eapply lookup_lt_Some. }
    assert (in_world (in_arch k (in_storage si uv_elems_len)) (b, st_world w k a ss1) =
            Done (length (ft rs (list_to_map D) (list_to_set D1.*1) c ++ [v])) (b, st_world w k a ss1) []) as Hel1.
    { apply in_world_done. rewrite /in_arch /zoom Ha1 /in_storage /zoom /= Hu1 /= (uv_elems_len_rep _ _ Hrep').
      f_equal. rewrite (alter_snd _ _ _ _ _ Hu1) (list_insert_id ss1) //. rewrite /st_world /set_archs /=. f_equal.
      by rewrite list_insert_insert. }
    apply wp_bind. rewrite {1}/wp Hel1. rewrite app_length /=.
    change (length (a_entities (a_set_storages ss a))) with (length (a_entities a)). rewrite Hel.
    apply wp_bind. destruct (decide (c ∈ D1.*1)) as [Hdup|Hnew].
    + (* a repeated component *)
      rewrite /ft decide_True; [|by apply elem_of_list_to_set]. rewrite app_length col_length /=.
      apply wp_massert; [intros Hb'%bool_decide_eq_true; lia|]. intros _. split_and!; [done|done|].
      assert (NoDup ss.*1) as Hns. { rewrite Hss. by apply sorted_NoDup, Hsh. }
      exists ss1, D1, c, v, D2. split_and!; [done..|by rewrite /ss1 (fst_insert _ _ _ _ _ Hu)| |].
      { exists (w_reuse w). split; [done|]. by rewrite /st_world. }
      eapply cols_ext; [|eapply (cols_insert _ _ _ _ _ _ u' _ Hns Hu Hc Hti' Hrep')].
      intros d _. simpl. destruct (decide (d = c)) as [->|Hdc]; [done|]. by rewrite app_nil_r.
    + rewrite /ft decide_False; [|by rewrite elem_of_list_to_set]. rewrite col_length.
      apply wp_massert_true; [apply bool_decide_eq_true; lia|].
      eapply wp_mono.
      * apply (IH (D1 ++ [(c, v)]) ss1 (off + length v)).
        -- by rewrite -app_assoc.
        -- done.
        -- rewrite fmap_app NoDup_app. split_and!; [done| |apply NoDup_singleton].
           intros d Hd ->%elem_of_list_singleton. done.
        -- by rewrite /ss1 (fst_insert _ _ _ _ _ Hu).
        -- rewrite fmap_app concat_app app_length /= app_nil_r. lia.
        -- assert (NoDup ss.*1) as Hns. { rewrite Hss. by apply sorted_NoDup, Hsh. }
           rewrite /ft decide_False in Hrep'; [|by rewrite elem_of_list_to_set].
           eapply cols_ext; [|eapply (cols_insert _ _ _ _ _ _ u' _ Hns Hu Hc Hti' Hrep')].
           intros d _. simpl. rewrite fmap_app /ft. destruct (decide (d = c)) as [->|Hdc].
           ++ rewrite decide_True; [|apply elem_of_list_to_set; set_solver]. by rewrite HD list_to_map_first.
           ++ case_decide as H1; case_decide as H2; rewrite ?elem_of_list_to_set in H1 H2; set_solver.
      * intros [] s ev (-> & Hn & ss' & -> & Hf & Hcc). split_and!; [done..|]. exists ss'. split_and!; [done| |done].
        by rewrite Hf /ss1 (fst_insert _ _ _ _ _ Hu).
      * intros r s ev (-> & -> & Hn). done.
Qed.

(** ** What building keeps *)
Record bkeeps (e : ecsid) (cm : component_meta) (w w' : world) : Prop := {
  bk_ents : w_ents w' = w_ents w;
  bk_meta : ∀ i, i ≠ uindex e → meta_at w' i = meta_at w i;
  bk_new : em_comp <$> meta_at w' (uindex e) = Some cm;
  bk_types : w_types w' = w_types w;
  bk_reuse : w_reuse w' = w_reuse w;
  bk_locks : ∀ c i, w_lock_lookup w !! c = Some i → w_lock_lookup w' !! c = Some i ∧ w_locks w' !! i = w_locks w !! i;
  bk_ids : ∀ k L, arch_ids w !! k = Some L → arch_ids w' !! k = Some L;
  bk_len : length (w_archs w') ≤ S (length (w_archs w))
}.

(** ** A new row in an existing archetype *)
Lemma winv_new_row w R k a a' rs e m em w' :
  winv w R → w_archs w !! k = Some a → R !! k = Some rs →
  alive (w_ents w) e → meta_at w (uindex e) = None →
  em_inst em = InstMeta k (length rs) → layout_wf (cm_layout (em_comp em)) →
  (∀ i, meta_at w' i = if decide (i = uindex e) then Some em else meta_at w i) →
  w_archs w' = <[k := a']> (w_archs w) →
  w_bitset w' = w_bitset w → w_entbits w' = w_entbits w → w_ents w' = w_ents w →
  w_lock_lookup w' = w_lock_lookup w → w_locks w' = w_locks w → w_types w' = w_types w → w_reuse w' = w_reuse w →
  a_comp_ids a' = a_comp_ids a → a_lookup a' = a_lookup a → a_cache a' = a_cache a →
  a_entities a' = a_entities a ++ [e] → (a_storages a').*1 = (a_storages a).*1 →
  (∀ c, is_Some (m !! c) ↔ c ∈ a_comp_ids a) →
  cols (comp_of w) (a_storages a') (λ c, col c (rs ++ [(e, m)])) →
  winv w' (<[k := rs ++ [(e, m)]]> R) ∧
  (∀ e0 m0, rowof (<[k := rs ++ [(e, m)]]> R) e0 m0 ↔ (e0 = e ∧ m0 = m) ∨ rowof R e0 m0).
Proof.
  intros Hw Ha Hrs Hal Hnone Hinst Hlay Hmeta Harchs Hbs Heb Hents Hll Hlk Hty Hre Eids Elk Ecache Eents Est Hdom Hcols.
  assert (k < length R) as HkR by by eapply lookup_lt_Some.
  assert (k < length (w_archs w)) as HkA by by eapply lookup_lt_Some.
  assert (arch_ids w' = arch_ids w) as Hids.
  { rewrite /arch_ids Harchs list_fmap_insert Eids list_insert_id //. by rewrite list_lookup_fmap Ha. }
  assert (∀ c cm, comp_of w c = Some cm → comp_of w' c = Some cm) as Hcomp.
  { intros c cm. rewrite /comp_of Hmeta. intros (em0 & Hem0 & ->)%fmap_Some. case_decide as E; [|by rewrite Hem0].
    rewrite E Hnone in Hem0. done. }
  assert (∀ k0 i0 rs0 e0 m0, <[k := rs ++ [(e, m)]]> R !! k0 = Some rs0 → rs0 !! i0 = Some (e0, m0) →
    (k0 = k ∧ i0 = length rs ∧ e0 = e ∧ m0 = m) ∨ (∃ rs1, R !! k0 = Some rs1 ∧ rs1 !! i0 = Some (e0, m0))) as HR.
  { intros k0 i0 rs0 e0 m0 H1 H2. apply list_lookup_insert_Some in H1 as [(-> & <- & _)|[_ H1]]; [|by right; eauto].
    apply lookup_app_Some in H2 as [H2|[Hge H2]]; [right; eauto|]. left.
    apply list_lookup_singleton_Some in H2 as [? [= -> ->]]. split_and!; [done|lia|done..]. }
  split.
  - apply (winv_rows_change w R w'); try done.
    + by rewrite Hents; apply (wi_ents _ _ Hw).
    + by rewrite insert_length.
    + intros k0 a0. rewrite Harchs. intros [(-> & <- & _)|[_ H0]]%list_lookup_insert_Some.
      * pose proof (wi_shape _ _ Hw _ _ Ha) as [S1 S2 S3 S4]. split.
        -- constructor; rewrite ?Eids ?Elk ?Ecache ?Est //.
        -- pose proof (wi_cache _ _ Hw _ _ Ha) as Hc. rewrite /cache_ok Ecache Eids. exact Hc.
      * split; [by eapply wi_shape|by eapply wi_cache].
    + intros k0 a0 rs0. rewrite Harchs. intros [(-> & <- & _)|[Hne H0]]%list_lookup_insert_Some.
      * rewrite list_lookup_insert //. intros [= <-]. pose proof (wi_rows _ _ Hw _ _ _ Ha Hrs) as [A1 A2 A3]. constructor.
        -- rewrite Eents A1 fmap_app. done.
        -- intros c v Hcv. destruct (Hcols c v Hcv) as (cm & ? & ? & ?). exists cm. split_and!; [by apply Hcomp|done|done].
        -- intros r c. rewrite Eids elem_of_app elem_of_list_singleton. intros [Hr| ->]; [by apply A3|]. apply Hdom.
      * rewrite list_lookup_insert_ne //. intros Hrs0. destruct (wi_rows _ _ Hw _ _ _ H0 Hrs0) as [A1 A2 A3].
        constructor; [done| |done]. intros c v Hcv. destruct (A2 c v Hcv) as (cm & ? & ? & ?). exists cm.
        split_and!; [by apply Hcomp|done|done].
    + intros k0 L c HL Hc. destruct (wi_comps _ _ Hw _ _ _ HL Hc) as (? & [cm ?] & _). rewrite Hents. split; [done|].
      exists cm. by apply Hcomp.
    + intros k0 i0 rs0 e0 m0 H1 H2. rewrite Hents. destruct (HR _ _ _ _ _ H1 H2) as [(-> & -> & -> & ->)|(rs1 & H3 & H4)].
      * split; [done|]. rewrite Hmeta decide_True //=. by rewrite Hinst.
      * destruct (wi_row _ _ Hw _ _ _ _ _ H3 H4) as [? E]. split; [done|]. rewrite Hmeta. case_decide as E'; [|done].
        rewrite E' Hnone in E. done.
    + intros i em0. rewrite Hmeta. case_decide as E.
      * intros [= <-]. rewrite Hinst /=. exists (rs ++ [(e, m)]), e, m. split_and!; [by apply list_lookup_insert| |done].
        rewrite lookup_app_r // Nat.sub_diag //.
      * intros H0. destruct (wi_meta _ _ Hw _ _ H0) as (rs0 & e0 & m0 & H1 & H2 & H3).
        destruct (decide (im_arch (em_inst em0) = k)) as [Ek|Ek].
        -- rewrite Ek in H1 |- *. rewrite Hrs in H1. injection H1 as <-. exists (rs ++ [(e, m)]), e0, m0.
           split_and!; [by apply list_lookup_insert|by apply lookup_app_l_Some|done].
        -- exists rs0, e0, m0. rewrite list_lookup_insert_ne //.
    + intros i em0. rewrite Hmeta. case_decide as E; [by intros [= <-]|]. apply (wi_layout _ _ Hw).
    + intros t c Ht. destruct (wi_types _ _ Hw _ _ Ht) as (_ & _ & b & g & Hg & Hb). exists b, g. rewrite Hents. split; [done|].
      destruct b; [|done]. intros Eg. by apply Hcomp, Hb.
  - intros e0 m0. split.
    + intros (k0 & i0 & rs0 & H1 & H2). destruct (HR _ _ _ _ _ H1 H2) as [(-> & -> & -> & ->)|(rs1 & H3 & H4)]; [by left|].
      right. by exists k0, i0, rs1.
    + intros [[-> ->]|(k0 & i0 & rs0 & H1 & H2)].
      * exists k, (length rs), (rs ++ [(e, m)]). split; [by apply list_lookup_insert|]. rewrite lookup_app_r // Nat.sub_diag //.
      * destruct (decide (k0 = k)) as [->|Hne].
        -- rewrite Hrs in H1. injection H1 as <-. exists k, i0, (rs ++ [(e, m)]).
           split; [by apply list_lookup_insert|by apply lookup_app_l_Some].
        -- exists k0, i0, rs0. rewrite list_lookup_insert_ne //.
Qed.

(** ** New storages *)
Definition stores (w : world) (s : ecsid * uvec) (d : ecsid * value) : Prop :=
  s.1 = d.1 ∧ ∃ cm, comp_of w d.1 = Some cm ∧ uv_ti s.2 = cm_type_info cm ∧ uv_rep s.2 [d.2].
Definition pending_drops (w : world) (D : list (ecsid * value)) : list event :=
  concat ((λ d, match comp_of w d.1 with Some cm => drop_events_of (cm_type_info cm) [d.2] | None => [] end) <$> D).
Lemma stores_drop w ss D : Forall2 (stores w) ss D → uv_drop_all ss.*2 = Some (pending_drops w D).
Proof.
  induction 1 as [|s d ss D (H1 & cm & H2 & H3 & H4) _ IH]; [done|]. cbn [fmap list_fmap uv_drop_all].
  rewrite (uv_drop_events_rep _ _ H4) IH. rewrite /pending_drops fmap_cons /= H2 H3. done.
Qed.
Lemma create_storages_spec w b D D1 D2 acc off :
  bbuf b → pending w b D → D = D1 ++ D2 → off = length (concat D1.*2) → Forall2 (stores w) acc D1 →
  wp (create_storages D2.*1 off acc) (b, w)
     (λ ss s ev, ev = [] ∧ s = (b, w) ∧ Forall2 (stores w) ss D) no_panic.
Proof.
  intros Hb Hp. revert D1 acc off. induction D2 as [|[c v] D2 IH]; intros D1 acc off HD Hoff Hacc.
  - rewrite app_nil_r in HD. subst D1. by apply wp_ret.
  - rewrite fmap_cons. cbn [create_storages fst].
    destruct (pe_comp _ _ _ Hp c v) as (Hal & cm & Hcm & Hlen). { rewrite HD. set_solver. }
    assert (Hcm' := Hcm). rewrite /comp_of in Hcm'. apply fmap_Some in Hcm' as (em & Hem & Ecm).
    rewrite HD in Hp. destruct (pending_read _ _ _ _ _ _ Hb Hp) as (Hread & Hrl & Hok). rewrite -HD in Hp.
    rewrite -Hoff in Hread Hrl Hok.
    eapply (wp_bind' _ _ _ (λ x s ev, ev = [] ∧ s = (b, w) ∧ x.2 = off + length v ∧ stores w (c, x.1) (c, v))).
    + eapply wp_on_unwind; [by apply stores_drop|].
      apply wp_bind, wp_in_world, wp_get_entity_meta; [done|]. rewrite Hem.
      apply wp_bind, (wp_unwrap_some _ em); [done|]. apply wp_bind, wp_gets. cbn [fst]. rewrite -Ecm -Hlen.
      pose proof (uv_push_rep (uv_new (cm_type_info cm)) [] (readable (eb_data b) off) (uv_rep_new _)) as Hpush.
      change (uv_size (uv_new (cm_type_info cm))) with (cm_size cm) in Hpush. rewrite -Hlen in Hpush. specialize (Hpush Hrl).
      rewrite /wp in Hpush. destruct (uv_push_raw _ _) as [[] v' ev|r v' ev| |]; try done.
      * destruct Hpush as (-> & Hti & Hrep). rewrite Hok. apply wp_ret. split_and!; [done..|].
        split; [done|]. exists cm. split_and!; [done|done|]. simpl. by rewrite Hread in Hrep.
    + intros [v' off'] s ev (-> & -> & -> & Hst). simpl in *. eapply wp_mono.
      * apply (IH (D1 ++ [(c, v)])).
        -- by rewrite -app_assoc.
        -- rewrite fmap_app concat_app app_length /= app_nil_r. lia.
        -- apply Forall2_app; [done|]. by constructor.
      * intros ss s ev (-> & -> & ?). done.
      * done.
Qed.

(** ** Locks for the components of a new archetype *)
Lemma ensure_locks_run ids w R : winv w R →
  ∃ w', ensure_locks ids w = Done () w' [] ∧ winv w' R ∧ same_but_locks w w' ∧
    ∀ c, c ∈ ids → is_Some (w_lock_lookup w' !! c).
Proof.
  revert w. induction ids as [|c ids IH]; intros w Hw; cbn [ensure_locks].
  { exists w. split_and!; [done|done|apply same_but_locks_refl|]. intros c Hc. by apply elem_of_nil in Hc. }
  rewrite (bind_done_nil _ _ _ _ _ (ensure_lock_run c w)).
  destruct (winv_lock c w R Hw) as [Hw1 Hc1]. destruct (IH _ Hw1) as (w' & Hrun & Hw' & Hs & Hl).
  exists w'. split_and!; [done|done| |].
  - eapply same_but_locks_trans; [by eapply lock_world_same|done].
  - intros d [->|Hd]%elem_of_cons; [|by apply Hl]. destruct Hc1 as [i Hi]. exists i. by apply Hs.
Qed.

(** ** Finding the archetype *)
Lemma search_empty w : search [] 0 w = Done None w [].
Proof. rewrite /search (bind_done_nil _ _ w (w_bitset w) w eq_refl). vm_compute. reflexivity. Qed.
Lemma find_archetype_spec w R ids : winv w R → room 0 w → (∀ c, c ∈ ids → alive (w_ents w) c) →
  ∃ r, find_archetype_dynamic ids w = Done r w [] ∧
    match r with
    | Some k => ∃ L, arch_ids w !! k = Some L ∧ (∀ c, c ∈ ids → c ∈ L) ∧ length L = length ids
    | None => ∀ k L, arch_ids w !! k = Some L → (∀ c, c ∈ ids → c ∈ L) → length L ≠ length ids
    end.
Proof.
  intros Hw Hroom Hal. rewrite /find_archetype_dynamic (bind_done_nil _ _ w (w_archs w) w eq_refl).
  case_decide as Hd.
  - destruct Hd as [Hlen Hn%nil_length_inv]. destruct (find_zero w R Hw Hlen) as (a & Ha & Hids & Hz).
    rewrite (bind_done_nil _ _ _ _ _ (get_arch_done _ _ _ Ha)) Hids. exists (Some 0). split; [done|].
    exists []. subst ids. split_and!; [done| |done]. intros c Hc. by apply elem_of_nil in Hc.
  - destruct ids as [|c ids].
    + exists None. split; [apply search_empty|]. intros k L HL. apply lookup_lt_Some in HL. rewrite arch_ids_length in HL.
      exfalso. apply Hd. simpl. lia.
    + by apply (search_spec w R).
Qed.

Lemma Forall2_Permutation_l {A B} (P : A → B → Prop) l1 l2 k : l1 ≡ₚ l2 → Forall2 P l1 k →
  ∃ k', k' ≡ₚ k ∧ Forall2 P l2 k'.
Proof.
  intros Hp. revert k. induction Hp as [|x l1 l2 _ IH|x y l|l1 l2 l3 _ IH1 _ IH2]; intros k Hk.
  - exists k. done.
  - apply Forall2_cons_inv_l in Hk as (z & k0 & Hz & Hk & ->). destruct (IH _ Hk) as (k' & Hp' & ?).
    exists (z :: k'). split; [by rewrite Hp'|by constructor].
  - apply Forall2_cons_inv_l in Hk as (z & k0 & Hz & Hk & ->). apply Forall2_cons_inv_l in Hk as (z' & k1 & Hz' & Hk & ->).
    exists (z' :: z :: k1). split; [constructor|by repeat constructor].
  - destruct (IH1 _ Hk) as (k1 & H1 & Hk1). destruct (IH2 _ Hk1) as (k2 & H2 & Hk2). exists k2. split; [by rewrite H2|done].
Qed.

(** ** [build] *)
Lemma pending_archs w R b c v D : winv w R → pending w b ((c, v) :: D) → w_archs w ≠ [].
Proof.
  intros Hw Hp. destruct (pe_comp _ _ _ Hp c v) as (_ & cm & Hcm & _); [left|].
  rewrite /comp_of in Hcm. apply fmap_Some in Hcm as (em & Hem & _).
  destruct (wi_meta _ _ Hw _ _ Hem) as (rs & e & m & H1 & _). apply lookup_lt_Some in H1. rewrite (wi_len _ _ Hw) in H1.
  by intros E; rewrite E /= in H1; lia.
Qed.

Lemma build_spec w R b D :
  winv w R → room 0 w → bbuf b → pending w b D →
  alive (w_ents w) (eb_entity b) → meta_at w (uindex (eb_entity b)) = None → layout_wf (cm_layout (eb_meta b)) →
  wp build (b, w)
     (λ id s ev, ev = [] ∧ id = eb_entity b ∧ NoDup D.*1 ∧ bkeeps (eb_entity b) (eb_meta b) w s.2 ∧
        (∀ k L, arch_ids s.2 !! k = Some L → arch_ids w !! k = Some L ∨ ∀ c, c ∈ L ↔ c ∈ D.*1) ∧
        ∃ R', winv s.2 R' ∧ ∀ e0 m0, rowof R' e0 m0 ↔ (e0 = eb_entity b ∧ m0 = list_to_map D) ∨ rowof R e0 m0)
     (λ r s ev, ¬ NoDup D.*1 ∧
        ((r = RColumnLength ∧ ev = [] ∧ torn w R (eb_entity b) D s.2) ∨ (r = RDuplicate ∧ same_but_locks w s.2 ∧ winv s.2 R ∧ ev ≡ₚ pending_drops w D))).
Proof.
  intros Hw Hroom Hb Hp Hal Hnone Hlay. set (e := eb_entity b) in *.
  rewrite /build. apply wp_bind, wp_gets. cbn [fst].
  assert (∀ c, c ∈ D.*1 → alive (w_ents w) c) as HalD.
  { intros c ([c' v] & -> & Hin)%elem_of_list_fmap. by apply (pe_comp _ _ _ Hp c' v). }
  destruct (find_archetype_spec w R (eb_ids b) Hw Hroom) as (r & Hrun & Hr). { by rewrite (pe_ids _ _ _ Hp). }
  apply wp_bind. rewrite {1}/wp (in_world_done _ _ _ _ _ _ Hrun). rewrite (pe_ids _ _ _ Hp) in Hr |- *.
  destruct r as [k|].
  - (* an archetype of the right size holding all the ids *)
    destruct Hr as (L & HL & Hsub & Hlen). pose proof HL as (a & Ha & Ea)%arch_ids_lookup.
    destruct (winv_get_rows _ _ Hw _ _ Ha) as (rs & Hrs & Hrows). pose proof (wi_shape _ _ Hw _ _ Ha) as Hsh.
    assert (k < length (w_archs w)) as Hk by by eapply lookup_lt_Some.
    set (a1 := a_set_entities (a_entities a ++ [e]) a).
    assert (in_world (in_arch k (modify (λ a, a_set_entities (a_entities a ++ [e]) a))) (b, w) =
      Done () (b, st_world w k a1 (a_storages a)) []) as Hpush.
    { apply in_world_done. by rewrite /in_arch /zoom Ha. }
    apply wp_bind. rewrite {1}/wp Hpush.
    apply wp_bind. eapply wp_mono.
    { apply (build_push_spec w k a1 rs b D [] D (a_storages a) 0); try done.
      - by destruct Hsh; constructor.
      - rewrite /a1 /= app_length (ar_ents _ _ _ Hrows) fmap_length /=. lia.
      - intros c Hc. change (c ∈ a_comp_ids a). rewrite Ea. by apply Hsub.
      - constructor.
      - apply (as_storages _ Hsh).
      - eapply cols_ext; [|by apply arch_rows_cols]. intros d _. rewrite /ft. case_decide; [set_solver|done]. }
    2:{ intros r s ev (-> & -> & Ho).
        assert (torn w R e D s.2) as Ht. { exists k, a, rs. split_and!; [done..| |done]. intros c Hc. rewrite Ea. by apply Hsub. }
        split; [by eapply torn_nodup|]. by left. }
    intros [] s ev (-> & Hnd & ss' & -> & Hfst & Hcols).
    set (w1 := st_world w k a1 ss').
    assert (w_archs w1 !! k = Some (a_set_storages ss' a1)) as Ha1 by by apply list_lookup_insert.
    apply wp_bind, wp_in_world. rewrite {1}/wp (get_arch_done _ _ _ Ha1).
    change (a_entities (a_set_storages ss' a1)) with (a_entities a ++ [e]).
    assert (length (a_entities a ++ [e]) - 1 = length rs) as ->.
    { rewrite app_length (ar_ents _ _ _ Hrows) fmap_length /=. lia. }
    destruct (set_entity_meta_run w1 e (EntMeta (InstMeta k (length rs)) (eb_meta b))) as (M & HMrun & HM); [done|].
    apply wp_bind, wp_in_world. rewrite {1}/wp HMrun. apply wp_ret. cbn [snd].
    assert (∀ c, c ∈ D.*1 ↔ c ∈ a_comp_ids a) as Hset.
    { rewrite Ea. intros c. split; [apply Hsub|]. apply (subset_same_length D.*1 L); [done| |done|done].
      apply sorted_NoDup. by eapply winv_sorted. }
    destruct (winv_new_row w R k a (a_set_storages ss' a1) rs e (list_to_map D) (EntMeta (InstMeta k (length rs)) (eb_meta b)) (set_meta M w1))
      as [Hw' Hrow']; try done.
    { intros c. rewrite -Hset -not_eq_None_Some -not_elem_of_list_to_map. destruct (decide (c ∈ D.*1)); naive_solver. }
    { eapply cols_ext; [|exact Hcols]. intros d Hd. simpl. rewrite /ft decide_True.
      - rewrite col_app. done.
      - apply elem_of_list_to_set, Hset. change (a_storages (a_set_storages ss' a1)) with ss' in Hd.
        by rewrite Hfst (as_storages _ Hsh) in Hd. }
    assert (arch_ids (set_meta M w1) = arch_ids w) as Hai.
    { rewrite /arch_ids /= list_fmap_insert list_insert_id //. by rewrite list_lookup_fmap Ha. }
    split_and!; [done|done|done| |rewrite Hai; by left|eauto].
    constructor; try done.
    + intros i Hi. etrans; [apply HM|]. by rewrite decide_False.
    + change (meta_at (set_meta M w1) (uindex e)) with (mjoin (M !! uindex e)). rewrite HM decide_True //.
    + intros k0 L0 HL0. by rewrite Hai.
    + simpl. rewrite insert_length. lia.
  - (* no such archetype *)
    destruct (ensure_locks_run D.*1 w R Hw) as (w1 & Hlrun & Hw1 & Hsame & Hlocks).
    apply wp_bind. rewrite {1}/wp (in_world_done _ _ _ _ _ _ Hlrun).
    destruct Hsame as (S1 & S2 & S3 & S4 & S5 & S6 & S7 & S8).
    assert (∀ i, meta_at w1 i = meta_at w i) as Hma by (intros i; by rewrite /meta_at S5).
    assert (∀ c, comp_of w1 c = comp_of w c) as Hco by (intros c; by rewrite /comp_of Hma).
    assert (pending w1 b D) as Hp1.
    { destruct Hp as [P1 P2 P3 P4]. constructor; [done..|]. intros c v Hc. rewrite S4 Hco. by apply P4. }
    assert (pending_drops w1 D = pending_drops w D) as Hpd.
    { rewrite /pending_drops. f_equal. apply list_fmap_ext. intros i x _. by rewrite Hco. }
    apply wp_bind. rewrite /create_archetype. apply wp_bind, wp_gets. cbn [fst]. rewrite (pe_ids _ _ _ Hp).
    apply wp_bind. eapply wp_mono; [by apply (create_storages_spec w1 b D [] D [] 0)| |done].
    intros ss s ev (-> & -> & Hss).
    assert (ss.*1 = D.*1) as Hfst.
    { clear -Hss. induction Hss as [|s d ss D [H _] _ IH]; [done|]. by rewrite !fmap_cons H IH. }
    apply wp_bind. rewrite /on_fst. eapply wp_zoom; [done|]. apply wp_modify.
    apply wp_bind, wp_gets. cbn [fst snd].
    change (eb_ids (set_ids (sort_by ecsid_leb (eb_ids b)) b)) with (sort_by ecsid_leb (eb_ids b)).
    rewrite (pe_ids _ _ _ Hp). set (ids := sort_by ecsid_leb D.*1). set (ss' := sort_by storage_leb ss).
    assert (ss'.*1 = ids) as Hss'. { by rewrite /ss' sort_by_fst Hfst. }
    assert (ids ≡ₚ D.*1) as Hperm by apply sort_by_perm.
    assert (∃ D', D' ≡ₚ D ∧ Forall2 (stores w1) ss' D') as (D' & HD' & HF').
    { assert (ss ≡ₚ ss') as Hps by (symmetry; apply sort_by_perm).
      destruct (Forall2_Permutation_l _ _ _ _ Hps Hss) as (D' & ? & ?). by exists D'. }
    assert (pending_drops w1 D' ≡ₚ pending_drops w D) as Hpd'.
    { rewrite -Hpd /pending_drops. by rewrite HD'. }
    apply wp_bind. eapply wp_on_unwind; [by apply stores_drop|]. apply wp_unwrap.
    2:{ intros Hn. cbn [snd]. split.
        - intros Hnd. pose proof (index_ids_distinct_some 0 ids ∅) as Hd. rewrite Hn in Hd.
          discriminate Hd; [by rewrite Hperm|]. intros. apply lookup_empty.
        - right. split_and!; [done..|]. by rewrite !app_nil_l. }
    intros lk Hlk.
    assert (NoDup D.*1) as Hnd.
    { destruct (decide (NoDup D.*1)) as [|Hn]; [done|]. pose proof (index_ids_distinct_none 0 ids ∅) as Hd. rewrite Hlk in Hd.
      discriminate Hd. by rewrite Hperm. }
    assert (NoDup ids) as Hndi by by rewrite Hperm.
    pose proof (index_ids_distinct_some 0 ids ∅ Hndi (λ x _, lookup_empty x)) as Hd. rewrite Hlk in Hd. injection Hd as ->.
    apply wp_bind. eapply wp_on_unwind; [by apply stores_drop|]. apply wp_massert_true; [by apply zip_ids_agree_refl|].
    apply wp_bind. eapply wp_zoom; [done|]. apply wp_modify. cbn [fst snd]. apply wp_ret.
    set (na := Archetype (index_ids 0 ids ∅) [eb_entity b] ss' ids rc_new). fold e in na.
    destruct (push_archetype_run na w1 R Hw1) as (bs & eb & Hprun & H1 & H2 & H3 & H4 & H5).
    apply wp_bind, wp_in_world. rewrite {1}/wp Hprun. set (n := length (w_archs w1)).
    set (w2 := set_archs _ _).
    destruct (set_entity_meta_run w2 e (EntMeta (InstMeta n 0) (eb_meta b))) as (M & HMrun & HM).
    { change (w_ents w2) with (w_ents w1). by rewrite S4. }
    apply wp_bind, wp_in_world. rewrite {1}/wp HMrun. apply wp_ret. cbn [snd].
    assert (∀ i, meta_at (set_meta M w2) i = if decide (i = uindex e) then Some (EntMeta (InstMeta n 0) (eb_meta b)) else meta_at w i) as HM'.
    { intros i. etrans; [apply HM|]. case_decide; [done|]. apply Hma. }
    assert (∀ c cm, comp_of w c = Some cm → comp_of (set_meta M w2) c = Some cm) as Hcomp.
    { intros c cm. rewrite /comp_of HM'. intros (em0 & Hem0 & ->)%fmap_Some. case_decide as E; [|by rewrite Hem0].
      rewrite E Hnone in Hem0. done. }
    assert (winv (set_meta M w2) (R ++ [[(e, list_to_map D)]])) as Hw2.
    { apply (winv_push w1 R na [(e, list_to_map D)] bs eb M); try done.
      - constructor; simpl.
        + by apply sort_by_sorted.
        + done.
        + intros c i. by apply index_ids_spec.
        + apply rc_inv_new.
      - constructor; simpl.
        + done.
        + intros c v (j & Hj)%elem_of_list_lookup.
          destruct (Forall2_lookup_l _ _ _ _ _ HF' Hj) as ([c' v'] & Hj' & Hc' & cm & Hcm & Hti & Hrep). simpl in *. subst c'.
          exists cm. split_and!; [apply Hcomp; by rewrite -Hco|done|]. rewrite /col /=.
          assert (list_to_map D !! c = Some v') as ->; [|done].
          apply elem_of_list_to_map; [done|]. rewrite -HD'. by eapply elem_of_list_lookup_2.
        + intros r c ->%elem_of_list_singleton. simpl. rewrite Hperm.
          rewrite -not_eq_None_Some -not_elem_of_list_to_map. destruct (decide (c ∈ D.*1)); naive_solver.
      - intros c Hc. simpl in Hc. rewrite Hperm in Hc. rewrite S4. split_and!; [by apply HalD| |by apply Hlocks].
        apply elem_of_list_fmap in Hc as ([c' v] & -> & Hin). destruct (pe_comp _ _ _ Hp1 c' v Hin) as (_ & cm & ? & _). by exists cm.
      - intros k HL. simpl in HL. rewrite /arch_ids S1 -/(arch_ids w) in HL. apply (Hr k ids HL).
        + intros c Hc. by rewrite Hperm.
        + by rewrite Hperm.
      - intros E. simpl. destruct D as [|[c v] D0]; [done|]. exfalso.
        apply (pending_archs w1 R b c v D0 Hw1 Hp1). by apply nil_length_inv.
      - intros i em Hem. rewrite HM'. case_decide as E; [|by rewrite -Hma]. rewrite E Hma Hnone in Hem. done.
      - intros i em. rewrite HM'. case_decide as E; [|rewrite Hma; by left]. intros [= <-]. right. split_and!; [done..|].
        by exists e, (list_to_map D).
      - intros j e0 m0 Hj. apply list_lookup_singleton_Some in Hj as [-> [= <- <-]]. rewrite S4. split; [done|].
        rewrite HM' decide_True //. }
    assert (arch_ids (set_meta M w2) = arch_ids w ++ [ids]) as Hai by by rewrite /arch_ids /= fmap_app S1.
    split_and!; [done|done|done| | |].
    + constructor.
      * done.
      * intros i Hi. by rewrite HM' decide_False.
      * by rewrite HM' decide_True.
      * done.
      * done.
      * exact S8.
      * intros k L HL. rewrite Hai. by apply lookup_app_l_Some.
      * simpl. rewrite app_length /= S1. lia.
    + intros k L. rewrite Hai lookup_app_Some. intros [HL|[_ HL]]; [by left|].
      apply list_lookup_singleton_Some in HL as [_ <-]. right. intros c. by rewrite Hperm.
    + exists (R ++ [[(e, list_to_map D)]]). split; [done|]. intros e0 m0. split.
      * intros (k & i & rs & Hk & Hi). apply lookup_app_Some in Hk as [Hk|[_ Hk]]; [right; by exists k, i, rs|].
        apply list_lookup_singleton_Some in Hk as [_ <-]. apply list_lookup_singleton_Some in Hi as [_ [= -> ->]]. by left.
      * intros [[-> ->]|(k & i & rs & Hk & Hi)].
        -- exists (length R), 0, [(e, list_to_map D)]. split; [|done]. rewrite lookup_app_r // Nat.sub_diag //.
        -- exists k, i, rs. split; [|done]. by apply lookup_app_l_Some.
Qed.
