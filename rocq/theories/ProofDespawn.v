(** * Despawning an entity *)
From Verif Require Import ProofBase SpecSmall World History ProofEntities ProofBitset ProofArrayVec ProofUVec.
From Verif Require Export ProofAddRemove.

(** The events of dropping the values [x d] of the components [ids], in this order. *)
Definition row_drops (cmo : ecsid → option component_meta) (ids : list ecsid) (m : gmap ecsid value) : list event :=
  ids ≫= λ d, drop_event (cmo d ≫= cm_drop) (default [] (m !! d)).

Definition st_world (w : world) (k : nat) (a : archetype) (ss : list (ecsid * uvec)) : world :=
  set_archs (<[k := a_set_storages ss a]> (w_archs w)) w.

Lemma swap_remove_storages_spec cmo w k a rs rs' row0 e m n j D ss :
  k < length (w_archs w) →
  rs !! row0 = Some (e, m) → vec_swap_remove row0 rs = Some rs' →
  n = length ss - j → NoDup ss.*1 → (∀ d, d ∈ drop j ss.*1 → d ∉ D) →
  cols cmo ss (fc rs rs' D) →
  ∃ ss', swap_remove_storages k row0 (seq j n) (st_world w k a ss) =
           Done () (st_world w k a ss') (row_drops cmo (drop j ss.*1) m) ∧
         ss'.*1 = ss.*1 ∧ cols cmo ss' (fc rs rs' (list_to_set (drop j ss.*1) ∪ D)).
Proof.
  intros Hk Hrow Hsr. revert j D ss. induction n as [|n IH]; intros j D ss Hn Hnd HD Hc.
  - cbn [seq swap_remove_storages]. exists ss. rewrite drop_ge; [|rewrite fmap_length; lia]. split_and!; [done|done|].
    eapply cols_ext; [|exact Hc]. intros d _. rewrite /fc. repeat case_decide; set_solver.
  - cbn [seq swap_remove_storages]. destruct (lookup_lt_is_Some_2 (ss.*1) j) as [d Hd]; [rewrite fmap_length; lia|].
    destruct (fst_lookup _ _ _ Hd) as [v Hv]. destruct (cols_lookup _ _ _ _ _ _ Hc Hv) as (cm & Hcm & Hti & Hrep).
    rewrite (drop_S _ _ _ Hd) in HD |- *.
    rewrite /fc decide_False in Hrep; [|apply HD; left].
    destruct (uv_swap_remove_rep v (col d rs) row0 (default [] (m !! d)) (col d rs') Hrep) as (v' & Hrun & Hti' & Hrep').
    { by rewrite col_lookup Hrow. }
    { by apply col_swap_remove. }
    set (ss1 := <[j := (d, v')]> ss).
    assert (in_arch k (in_storage j (uv_swap_remove row0)) (st_world w k a ss) =
            Done () (st_world w k a ss1) (drop_event (ti_drop (uv_ti v)) (default [] (m !! d)))) as Hstep.
    { rewrite /in_arch /zoom /st_world /= list_lookup_insert // /in_storage /zoom /= Hv /= Hrun.
      rewrite (alter_snd _ _ _ _ _ Hv) list_insert_insert. done. }
    destruct (IH (S j) ({[d]} ∪ D) ss1) as (ss' & Hrun' & Hfst & Hc').
    + rewrite /ss1 insert_length. lia.
    + by rewrite /ss1 (fst_insert _ _ _ _ _ Hv).
    + rewrite /ss1 (fst_insert _ _ _ _ _ Hv). intros d' Hd' [->%elem_of_singleton|Hin]%elem_of_union; [|by apply (HD d'); [right|]].
      pose proof (NoDup_drop j _ Hnd) as Hnd'. rewrite (drop_S _ _ _ Hd) in Hnd'. by apply NoDup_cons in Hnd' as [? _].
    + eapply cols_ext; [|eapply (cols_insert _ _ _ _ _ _ v' _ Hnd Hv Hc Hti' Hrep')].
      intros d' _. rewrite /fc. repeat case_decide; set_solver.
    + exists ss'. rewrite /ss1 (fst_insert _ _ _ _ _ Hv) in Hrun' Hfst Hc'. split_and!; [|done|].
      * rewrite /bind Hstep /add_events Hrun'. f_equal. rewrite /row_drops /=. f_equal.
        by rewrite Hcm Hti.
      * eapply cols_ext; [|exact Hc']. intros d' _. rewrite /fc. repeat case_decide; set_solver.
Qed.

(** The state after a row is gone. *)
Lemma winv_gone w R k row0 a a' rs rs' e m w' :
  winv w R → w_archs w !! k = Some a → R !! k = Some rs →
  rs !! row0 = Some (e, m) → vec_swap_remove row0 rs = Some rs' →
  w_archs w' = <[k := a']> (w_archs w) →
  a_lookup a' = a_lookup a → a_comp_ids a' = a_comp_ids a → a_cache a' = a_cache a →
  a_entities a' = rs'.*1 → (a_storages a').*1 = a_comp_ids a →
  cols (comp_of w) (a_storages a') (λ d, col d rs') →
  w_bitset w' = w_bitset w → w_entbits w' = w_entbits w →
  w_lock_lookup w' = w_lock_lookup w → w_locks w' = w_locks w → w_types w' = w_types w → w_reuse w' = w_reuse w →
  id_wf e → ents_despawn e (w_ents w) = Done true (w_ents w') [] →
  (∀ L k, arch_ids w !! k = Some L → e ∉ L) →
  (∀ t c, w_types w !! t = Some c → uindex c = uindex e → wrap32 (id_gen e + 1) ≠ id_gen c) →
  (∀ i, meta_at w' i = if decide (i = uindex e) then None else
        match rs' !! row0 with
        | Some r => if decide (i = uindex r.1) then moved_inst row0 <$> meta_at w i else meta_at w i
        | None => meta_at w i
        end) →
  winv w' (<[k := rs']> R) ∧ arch_ids w' = arch_ids w ∧
  (∀ i, i ≠ uindex e → em_comp <$> meta_at w' i = em_comp <$> meta_at w i) ∧
  (∀ e0 m0, rowof (<[k := rs']> R) e0 m0 ↔ e0 ≠ e ∧ rowof R e0 m0).
Proof.
  intros Hw Ha Hrs Hrow Hsr HA Lk Ik Ck Ek Sk Cols Hb Heb Hll Hlk Hty Hre Hwfe Hdes Hunused Htame Hmeta.
  assert (k < length R) as HlR by by eapply lookup_lt_Some.
  destruct (wi_row _ _ Hw _ _ _ _ _ Hrs Hrow) as [Hal Hem].
  destruct (ents_despawn_spec _ _ _ _ _ (wi_ents _ _ Hw) Hwfe Hdes) as (Hewf & _ & _ & Hslot & Hgen & _).
  assert (arch_ids w' = arch_ids w) as Hids.
  { rewrite /arch_ids HA list_fmap_insert Ik. apply list_insert_id. by rewrite list_lookup_fmap Ha. }
  assert (∀ i, i ≠ uindex e → em_comp <$> meta_at w' i = em_comp <$> meta_at w i) as Hcomp.
  { intros i Hi. rewrite Hmeta decide_False //. destruct (rs' !! row0); [|done]. case_decide; [|done]. by destruct (meta_at w i). }
  assert (∀ c, alive (w_ents w) c → c ≠ e → uindex c ≠ uindex e) as Hidx.
  { intros c Hc Hce Hu. by apply Hce, (alive_inj _ _ _ Hc Hal). }
  assert (∀ c, alive (w_ents w) c → c ≠ e → alive (w_ents w') c) as Halive.
  { intros c Hc Hce. apply alive_iff. rewrite Hgen list_lookup_insert_ne; [|by apply not_eq_sym, Hidx]. by apply alive_iff. }
  assert (∀ k i rs0 m0, R !! k = Some rs0 → rs0 !! i = Some (e, m0) → k = k ∧ i = row0) as Huniq'.
  { intros k' i rs0 m0 H1 H2. by destruct (winv_row_unique _ _ Hw _ _ _ _ _ _ _ _ _ H1 H2 Hrs Hrow) as (_ & -> & _). }
  assert (∀ k' i rs0 m0, R !! k' = Some rs0 → rs0 !! i = Some (e, m0) → k' = k ∧ i = row0 ∧ m0 = m) as Huniq.
  { intros k' i rs0 m0 H1 H2. by destruct (winv_row_unique _ _ Hw _ _ _ _ _ _ _ _ _ H1 H2 Hrs Hrow) as (-> & -> & ->). }
  assert (∀ k' rs0, <[k := rs']> R !! k' = Some rs0 ↔ (k' = k ∧ rs0 = rs') ∨ (k' ≠ k ∧ R !! k' = Some rs0)) as HR'.
  { intros k' rs0. rewrite list_lookup_insert_Some. naive_solver. }
  (* rows of the new table *)
  assert (∀ k' i rs0 e0 m0, <[k := rs']> R !! k' = Some rs0 → rs0 !! i = Some (e0, m0) →
    ∃ i0 rs1, R !! k' = Some rs1 ∧ rs1 !! i0 = Some (e0, m0) ∧ e0 ≠ e ∧
      ((i0 = i ∧ (k' = k → i ≠ row0 ∧ i ≠ length rs - 1)) ∨ (k' = k ∧ i = row0 ∧ rs' !! row0 = Some (e0, m0)))) as Hfrom.
  { intros k' i rs0 e0 m0 [[-> ->]|[Hne Hk]]%HR' Hi.
    - destruct (swap_remove_from _ _ _ _ _ Hsr Hi) as (i0 & Hi0 & Hne0 & Hcase). exists i0, rs. split_and!; [done|done| |].
      + intros ->. by destruct (Huniq _ _ _ _ Hrs Hi0) as (_ & ? & _).
      + destruct Hcase as [->|[-> ->]]; [|by right].
        destruct (decide (i = length rs - 1)) as [->|]; [|left; split; [done|]; by intros _].
        exfalso. pose proof (vec_swap_remove_length _ _ _ Hsr). apply lookup_lt_Some in Hi. lia.
    - exists i, rs0. split_and!; [done|done| |].
      + intros ->. destruct (Huniq _ _ _ _ Hk Hi) as (? & _). done.
      + left. split; [done|]. by intros ->. }
  assert (∀ k' i rs0 e0 m0, R !! k' = Some rs0 → rs0 !! i = Some (e0, m0) → e0 ≠ e →
    ∃ rs1 i', <[k := rs']> R !! k' = Some rs1 ∧ rs1 !! i' = Some (e0, m0) ∧
       ((i' = i ∧ (k' = k → i ≠ row0 ∧ i ≠ length rs - 1)) ∨ (k' = k ∧ i' = row0 ∧ rs' !! row0 = Some (e0, m0)))) as Hto.
  { intros k' i rs0 e0 m0 Hk Hi Hne. destruct (decide (k' = k)) as [->|Hkk].
    - rewrite Hrs in Hk. simplify_eq. assert (i ≠ row0) as Hir by congruence.
      pose proof (swap_remove_to _ _ _ _ _ Hsr Hi Hir) as Hto'. case_decide as Hl.
      + exists rs', row0. split_and!; [apply HR'; by left|done|by right].
      + exists rs', i. split_and!; [apply HR'; by left|done|]. left. done.
    - exists rs0, i. split_and!; [apply HR'; by right|done|]. left. split; [done|]. by intros ->. }
  split; [|split; [done|split; [done|]]].
  2:{ intros e0 m0. split.
      - intros (k' & i & rs0 & Hk & Hi). destruct (Hfrom _ _ _ _ _ Hk Hi) as (i0 & rs1 & H1 & H2 & H3 & _).
        split; [done|]. by exists k', i0, rs1.
      - intros (Hne & k' & i & rs0 & Hk & Hi). destruct (Hto _ _ _ _ _ Hk Hi Hne) as (rs1 & i' & H1 & H2 & _). by exists k', i', rs1. }
  eapply winv_rows_change; try done.
  - by rewrite insert_length.
  - intros k' a0. rewrite HA list_lookup_insert_Some. intros [(<- & <- & _)|(_ & Ha0)].
    + destruct (wi_shape _ _ Hw _ _ Ha) as [S1 S2 S3 S4]. split.
      * constructor; rewrite ?Lk ?Ik ?Ck //.
      * rewrite /cache_ok Ck Ik. by eapply wi_cache.
    + split; [by eapply wi_shape|by eapply wi_cache].
  - intros k' a0 rs0 Ha0 Hk. assert (∃ a1, w_archs w !! k' = Some a1 ∧ a_comp_ids a0 = a_comp_ids a1) as (a1 & Ha1 & Hi1).
    { rewrite HA list_lookup_insert_Some in Ha0. destruct Ha0 as [(<- & <- & _)|(_ & ?)]; eauto. }
    assert (∀ c, c ∈ a_comp_ids a0 → comp_of w' c = comp_of w c) as Hce.
    { intros c Hc. apply Hcomp. assert (arch_ids w !! k' = Some (a_comp_ids a0)) as HL.
      { apply arch_ids_lookup. by exists a1. }
      apply Hidx; [by eapply wi_comps|]. intros ->. by eapply Hunused. }
    rewrite HA list_lookup_insert_Some in Ha0. destruct Ha0 as [(<- & <- & _)|(Hkk & Ha0)].
    + rewrite list_lookup_insert // in Hk. injection Hk as <-.
      pose proof (wi_rows _ _ Hw _ _ _ Ha Hrs) as [Re Rc Rd]. constructor; [done| |].
      * intros c v Hin. rewrite Hce; [by apply Cols|]. rewrite Ik -Sk. apply elem_of_list_fmap. by exists (c, v).
      * intros r c Hr. rewrite Ik. apply Rd. apply elem_of_list_lookup in Hr as [i Hi].
        destruct (swap_remove_from _ _ _ _ _ Hsr Hi) as (i0 & Hi0 & _). by eapply elem_of_list_lookup_2.
    + rewrite list_lookup_insert_ne // in Hk. pose proof (wi_rows _ _ Hw _ _ _ Ha0 Hk) as [Re Rc Rd]. constructor; [done| |done].
      intros c v Hin. rewrite Hce; [by apply Rc|]. rewrite -(as_storages _ (wi_shape _ _ Hw _ _ Ha0)). apply elem_of_list_fmap. by exists (c, v).
  - intros k' L c HL Hc. destruct (wi_comps _ _ Hw _ _ _ HL Hc) as (Hac & Hcm & _).
    assert (c ≠ e) as Hne by (intros ->; by eapply Hunused). split; [by apply Halive|].
    rewrite /comp_of Hcomp //. by apply Hidx.
  - intros k' i rs0 e0 m0 Hk Hi. destruct (Hfrom _ _ _ _ _ Hk Hi) as (i0 & rs1 & H1 & H2 & Hne & Hcase).
    destruct (wi_row _ _ Hw _ _ _ _ _ H1 H2) as [Hal0 Hem0]. split; [by apply Halive|].
    rewrite Hmeta decide_False; [|by apply Hidx]. destruct Hcase as [[-> Hk']|(-> & -> & ->)].
    + destruct (rs' !! row0) as [[s ms]|] eqn:Hsw; [|done]. simpl. case_decide as Hu; [|done].
      (* the entity that takes the freed row cannot be another one *)
      destruct (swap_remove_from _ _ _ _ _ Hsr Hsw) as (j0 & Hj0 & Hnej & Hcj).
      assert (s = e0) as -> by exact (winv_row_index _ _ Hw _ _ _ _ _ _ _ _ _ _ Hrs Hj0 H1 H2 (eq_sym Hu)).
      destruct (winv_row_unique _ _ Hw _ _ _ _ _ _ _ _ _ Hrs Hj0 H1 H2) as (<- & -> & _).
      destruct (Hk' eq_refl) as [? ?]. destruct Hcj as [?|[_ ?]]; done.
    + simpl. rewrite decide_True //. apply fmap_Some in Hem0 as (em0 & -> & HE). simpl. by rewrite -HE.
  - intros i em0. rewrite Hmeta. case_decide as Hie; [done|]. intros Hem0.
    assert (∃ em1, meta_at w i = Some em1) as [em1 Hem1].
    { destruct (rs' !! row0); [|eauto]. case_decide; [|eauto]. apply fmap_Some in Hem0 as (? & ? & _). eauto. }
    destruct (wi_meta _ _ Hw _ _ Hem1) as (rs1 & e0 & m0 & H1 & H2 & Hu).
    assert (e0 ≠ e) as Hne by by intros ->.
    destruct (Hto _ _ _ _ _ H1 H2 Hne) as (rs2 & i' & H3 & H4 & Hcase).
    exists rs2, e0, m0. destruct Hcase as [[-> Hk']|(Hk' & -> & Hsw)].
    + destruct (rs' !! row0) as [[s ms]|] eqn:Hsw; [|by rewrite Hem1 in Hem0; simplify_eq].
      simpl in Hem0. case_decide as Hs; [|by rewrite Hem1 in Hem0; simplify_eq]. exfalso.
      destruct (swap_remove_from _ _ _ _ _ Hsr Hsw) as (j0 & Hj0 & Hnej & Hcj).
      assert (s = e0) as -> by exact (winv_row_index _ _ Hw _ _ _ _ _ _ _ _ _ _ Hrs Hj0 H1 H2 (eq_trans (eq_sym Hs) (eq_sym Hu))).
      destruct (winv_row_unique _ _ Hw _ _ _ _ _ _ _ _ _ Hrs Hj0 H1 H2) as (Ek' & Ej & _).
      destruct (Hk' (eq_sym Ek')) as [? ?]. destruct Hcj as [?|[_ ?]]; congruence.
    + rewrite Hsw /= decide_True // Hem1 in Hem0. injection Hem0 as <-. simpl. done.
  - intros i em0 Hem0. destruct (decide (i = uindex e)) as [->|Hie]; [by rewrite Hmeta decide_True in Hem0|].
    pose proof (Hcomp i Hie) as HE. rewrite Hem0 in HE. destruct (meta_at w i) as [em1|] eqn:E; [|done].
    injection HE as ->. by eapply wi_layout.
  - intros t c Htc. destruct (wi_types _ _ Hw _ _ Htc) as (_ & _ & b & g & Hg & Hb').
    rewrite Hgen. destruct (decide (uindex c = uindex e)) as [Hu|Hu].
    + exists false, (id_gen e). rewrite Hu list_lookup_insert; [|by eapply lookup_lt_Some]. split; [done|]. by apply (Htame t c).
    + exists b, g. rewrite list_lookup_insert_ne //. split; [done|]. destruct b; [|done]. intros Hgc.
      rewrite /comp_of Hcomp //. by apply Hb'.
Qed.

(** ** [despawn] *)
Lemma used_as_component_spec w R c : winv w R →
  used_as_component w c = true ↔ ∃ k L, arch_ids w !! k = Some L ∧ c ∈ L.
Proof.
  intros Hw. rewrite /used_as_component existsb_exists. split.
  - intros (a & Hin%elem_of_list_In & [i Hi]%bool_decide_eq_true). apply elem_of_list_lookup in Hin as [k Hk].
    exists k, (a_comp_ids a). split; [apply arch_ids_lookup; eauto|].
    apply (as_lookup _ (wi_shape _ _ Hw _ _ Hk)) in Hi. by eapply elem_of_list_lookup_2.
  - intros (k & L & (a & Ha & <-)%arch_ids_lookup & [i Hi]%elem_of_list_lookup). exists a.
    split; [by eapply elem_of_list_In, elem_of_list_lookup_2|]. apply bool_decide_eq_true.
    apply (as_lookup _ (wi_shape _ _ Hw _ _ Ha)) in Hi. eauto.
Qed.

(** What [despawn e] keeps. *)
Record dkeeps (e : ecsid) (w w' : world) : Prop := {
  dk_ents : ents_despawn e (w_ents w) = Done true (w_ents w') [];
  dk_comp : ∀ i, i ≠ uindex e → em_comp <$> meta_at w' i = em_comp <$> meta_at w i;
  dk_none : meta_at w' (uindex e) = None;
  dk_types : w_types w' = w_types w;
  dk_reuse : w_reuse w' = w_reuse w;
  dk_lock_lookup : w_lock_lookup w' = w_lock_lookup w;
  dk_locks : w_locks w' = w_locks w;
  dk_ids : arch_ids w' = arch_ids w
}.

Lemma ents_despawn_alive s e : alive s e → ∃ s', ents_despawn e s = Done true s' [].
Proof.
  intros H. pose proof (proj1 (alive_iff _ _) H) as Hg. rewrite /alive in H. rewrite /ents_despawn H Hg. eauto.
Qed.

Lemma despawn_spec w R e :
  winv w R → id_wf e →
  (ents_is_alive (w_ents w) e = Some true → ∀ t c, w_types w !! t = Some c → uindex c = uindex e → wrap32 (id_gen e + 1) ≠ id_gen c) →
  wp (despawn e) w
     (λ b w' ev, (b = false ∧ ents_is_alive (w_ents w) e = Some false ∧ w' = w ∧ ev = []) ∨
        (b = true ∧ alive (w_ents w) e ∧ dkeeps e w w' ∧
         ∃ R' m ids, winv w' R' ∧ rowof R e m ∧
           (∀ e0 m0, rowof R' e0 m0 ↔ e0 ≠ e ∧ rowof R e0 m0) ∧
           StronglySorted id_lt ids ∧ (∀ d, d ∈ ids ↔ is_Some (m !! d)) ∧ ev = row_drops (comp_of w) ids m))
     (λ r w' ev, w' = w ∧ ev = [] ∧
        ((r = RNoGeneration ∧ ents_is_alive (w_ents w) e = None) ∨
         (r = RComponentInUse ∧ alive (w_ents w) e ∧ ∃ k L, arch_ids w !! k = Some L ∧ e ∈ L) ∨
         (r = RUnwrap ∧ alive (w_ents w) e ∧ meta_at w (uindex e) = None))).
Proof.
  intros Hw Hwf Htame. rewrite /despawn.
  apply wp_bind, wp_is_alive.
  3:{ intros E. split_and!; [done..|]. by left. }
  2:{ intros E. apply wp_ret. left. done. }
  intros Hal. specialize (Htame Hal). simpl. apply wp_bind, wp_gets. simpl.
  apply wp_bind, wp_massert.
  2:{ intros Hu%negb_false_iff. split_and!; [done..|]. right. left. split_and!; [done..|]. by apply (used_as_component_spec _ _ _ Hw). }
  intros Hu%negb_true_iff.
  assert (∀ L k, arch_ids w !! k = Some L → e ∉ L) as Hunused.
  { intros L k HL He. assert (used_as_component w e = true) as Ht; [|by rewrite Ht in Hu]. apply (used_as_component_spec _ _ _ Hw). eauto. }
  apply wp_bind, wp_get_entity_meta; [done|]. simpl. apply wp_bind, wp_unwrap.
  2:{ intros E. split_and!; [done..|]. by right; right. }
  intros em Hem. simpl. destruct (winv_meta_row _ _ Hw _ _ Hal Hem) as (rs & m & Hrs & Hrow).
  set (k := im_arch (em_inst em)) in *. set (row0 := im_index (em_inst em)) in *.
  destruct (proj1 (winv_rows_len _ _ Hw k)) as [a Ha]; [by eexists|].
  pose proof (wi_rows _ _ Hw _ _ _ Ha Hrs) as Hrows. pose proof (wi_shape _ _ Hw _ _ Ha) as Hsh.
  assert (k < length (w_archs w)) as Hlk by by eapply lookup_lt_Some.
  destruct (swap_remove_exists _ _ _ Hrow) as [rs' Hsr].
  destruct (ents_despawn_alive _ _ Hal) as [s' Hdes].
  (* the run of Archetype::despawn *)
  destruct (swap_remove_storages_spec (comp_of w) w k (a_set_entities rs'.*1 a) rs rs' row0 e m (length (a_storages a)) 0 ∅ (a_storages a))
    as (ss' & Hrun & Hfst & Hcols); [done|done|done|lia| |set_solver| |].
  { rewrite (as_storages _ Hsh). by apply sorted_NoDup, Hsh. }
  { eapply cols_ext; [|by apply arch_rows_cols]. intros d _. rewrite /fc. case_decide; [set_solver|done]. }
  rewrite drop_0 (as_storages _ Hsh) in Hrun. rewrite (as_storages _ Hsh) in Hfst. rewrite drop_0 (as_storages _ Hsh) in Hcols.
  assert (∀ r, rs' !! row0 = Some r → uindex r.1 ≠ uindex e ∧ is_Some (meta_at w (uindex r.1))) as Hsw.
  { intros [s ms] Hr. destruct (swap_remove_from _ _ _ _ _ Hsr Hr) as (j0 & Hj0 & Hne0 & _). simpl.
    destruct (wi_row _ _ Hw _ _ _ _ _ Hrs Hj0) as [Hals Hms]. split.
    - intros Hus. assert (s = e) as -> by exact (winv_row_index _ _ Hw _ _ _ _ _ _ _ _ _ _ Hrs Hj0 Hrs Hrow Hus).
      by destruct (winv_row_unique _ _ Hw _ _ _ _ _ _ _ _ _ Hrs Hj0 Hrs Hrow) as (_ & ? & _).
    - apply fmap_Some in Hms as (ems & -> & _). eauto. }
  set (w1 := st_world w k (a_set_entities rs'.*1 a) ss').
  assert (∃ M, arch_despawn k row0 e w = Done () (set_meta M w1) (row_drops (comp_of w) (a_comp_ids a) m) ∧
     ∀ i, mjoin (M !! i) = if decide (i = uindex e) then None else
        match rs' !! row0 with
        | Some r => if decide (i = uindex r.1) then moved_inst row0 <$> meta_at w i else meta_at w i
        | None => meta_at w i
        end) as (M & Hdrun & HM).
  { rewrite /arch_despawn (bind_done_nil _ _ _ _ _ (get_arch_done _ _ _ Ha)).
    assert (a_entities a !! row0 = Some e) as He. { by rewrite (ar_ents _ _ _ Hrows) list_lookup_fmap Hrow. }
    rewrite He. cbn [unwrap]. rewrite (bind_done_nil _ _ w e w eq_refl).
    assert (massert (bool_decide (e = e)) RAssert w = Done () w []) as Hma by by rewrite bool_decide_true.
    rewrite (bind_done_nil _ _ _ _ _ Hma).
    assert (vec_swap_remove row0 (a_entities a) = Some rs'.*1) as Hes.
    { rewrite (ar_ents _ _ _ Hrows). by apply vec_swap_remove_fmap. }
    rewrite Hes. cbn [unwrap]. rewrite (bind_done_nil _ _ w rs'.*1 w eq_refl).
    assert (in_arch k (modify (a_set_entities rs'.*1)) w = Done () (st_world w k (a_set_entities rs'.*1 a) (a_storages a)) []) as Hie.
    { rewrite /in_arch /zoom Ha /modify /st_world. by rewrite (a_set_storages_id (a_set_entities rs'.*1 a)). }
    rewrite (bind_done_nil _ _ _ _ _ Hie).
    rewrite {1}/bind Hrun. fold w1.
    rewrite (bind_done_nil _ _ w1 (length (w_meta w1)) w1 eq_refl).
    assert (uindex e < length (w_meta w)) as Hlt by by eapply meta_at_lt.
    assert (massert (bool_decide (uindex e < length (w_meta w1))) RIndex w1 = Done () w1 []) as Hmb by by rewrite bool_decide_true.
    rewrite (bind_done_nil _ _ _ _ _ Hmb).
    set (w2 := set_meta (<[uindex e := None]> (w_meta w1)) w1).
    rewrite (bind_done_nil _ _ w1 () w2 eq_refl).
    assert (∀ i, meta_at w2 i = if decide (i = uindex e) then None else meta_at w i) as Hm2.
    { intros i. exact (meta_at_insert w (uindex e) None i Hlt). }
    rewrite list_lookup_fmap. destruct (rs' !! row0) as [r|] eqn:Hr; simpl.
    - destruct (Hsw r eq_refl) as [Hur [emr Hemr]].
      assert (meta_at w2 (uindex r.1) = Some emr) as Hr2 by by rewrite Hm2 decide_False.
      rewrite (update_meta_run w2 _ emr) //. simpl. rewrite app_nil_r. eexists. split; [done|].
      intros i. etrans; [exact (meta_at_insert w2 (uindex r.1) _ i (meta_at_lt _ _ _ Hr2))|].
      rewrite Hm2. destruct (decide (i = uindex r.1)) as [->|]; [|by case_decide]. rewrite decide_False // Hemr. done.
    - rewrite app_nil_r. exists (w_meta w2). split; [done|]. intros i. apply Hm2. }
  apply wp_bind. rewrite {1}/wp Hdrun. set (w2 := set_meta M w1) in *.
  assert (in_ents (ents_despawn e) w2 = Done true (set_ents s' w2) []) as Hine.
  { rewrite /in_ents /zoom /=. by rewrite Hdes. }
  apply wp_bind. rewrite {1}/wp Hine. apply wp_ret. right. rewrite !app_nil_r. split_and!; [done..| |].
  - destruct (winv_gone w R k row0 a (a_set_storages ss' (a_set_entities rs'.*1 a)) rs rs' e m (set_ents s' w2)) as (_ & Hids & Hcomp & _); try done.
    { eapply cols_ext; [|exact Hcols]. intros d Hd. rewrite Hfst in Hd. rewrite /fc decide_True //. set_solver. }
    constructor; try done. change (meta_at (set_ents s' w2) (uindex e)) with (mjoin (M !! uindex e)). by rewrite HM decide_True.
  - destruct (winv_gone w R k row0 a (a_set_storages ss' (a_set_entities rs'.*1 a)) rs rs' e m (set_ents s' w2)) as (Hw' & _ & _ & Hro); try done.
    { eapply cols_ext; [|exact Hcols]. intros d Hd. rewrite Hfst in Hd. rewrite /fc decide_True //. set_solver. }
    exists (<[k := rs']> R), m, (a_comp_ids a). split_and!; [done|by exists k, row0, rs|done|apply Hsh| |done].
    intros d. symmetry. exact (ar_dom _ _ _ Hrows (e, m) d (elem_of_list_lookup_2 _ _ _ Hrow)).
Qed.
