(** * Rough histories: the invariant *)
From Verif Require Import ProofBase SpecSmall World Query History ProofEntities ProofBitset ProofArrayVec ProofUVec.
From Verif Require Export ProofRough.

(** What is left of [winv] after any panic: nothing is known about rows.  The columns of an
    archetype are well formed, each by itself; their lengths, the list of entities and the
    metadata need not agree. *)
Definition arch_cols (cmo : ecsid → option component_meta) (a : archetype) : Prop :=
  ∀ c v, (c, v) ∈ a_storages a → uv_wf v ∧ ∃ cm, cmo c = Some cm ∧ uv_ti v = cm_type_info cm.
(** The slot of a registered type. *)
Definition type_slot (w : world) (t : ty) (c : ecsid) : Prop :=
  ∃ b g, generations (w_ents w) !! uindex c = Some (b, g) ∧
    if b : bool then g = id_gen c → ∀ cm, comp_of w c = Some cm → cm = cm_from_generic t
    else wrap32 (g + 1) ≠ id_gen c.
Definition reuse_r (w : world) : Prop :=
  match w_reuse w with Some (ids, p, cap) => ids = [] ∧ cap ≠ 0 ∧ buffer_ok p cap | None => True end.
Record rinv (w : world) : Prop := {
  ri_ents : ents_wf (w_ents w);
  ri_shape : ∀ k a, w_archs w !! k = Some a → arch_shape a;
  ri_cols : ∀ k a, w_archs w !! k = Some a → arch_cols (comp_of w) a;
  ri_cache : ∀ k a, w_archs w !! k = Some a → cache_ok (arch_ids w) a;
  ri_comps : ∀ k L c, arch_ids w !! k = Some L → c ∈ L → alive (w_ents w) c;
  ri_distinct : ∀ k k' L, arch_ids w !! k = Some L → arch_ids w !! k' = Some L → k = k';
  ri_zero : ∀ L, arch_ids w !! 0 = Some L → L = [];
  ri_bitset : Forall (bv_ok (length (w_archs w))) (w_bitset w);
  ri_bits : ∀ i k, bs_bit (w_bitset w) i k = true ↔
    ∃ L c, arch_ids w !! k = Some L ∧ c ∈ L ∧ uindex c = i;
  ri_entbits : bv_wf (w_entbits w) ∧ bv_len (w_entbits w) = length (w_archs w) ∧
    ∀ k, k < length (w_archs w) → bit_of (bv_data (w_entbits w)) k = true;
  ri_meta : ∀ i em, meta_at w i = Some em → ∃ g, generations (w_ents w) !! i = Some (true, g);
  ri_layout : ∀ i em, meta_at w i = Some em → layout_wf (cm_layout (em_comp em)) ∧ w_archs w ≠ [];
  ri_types : ∀ t c, w_types w !! t = Some c → ty_wf t ∧ id_wf c ∧ type_slot w t c;
  ri_types_inj : ∀ t t' c, w_types w !! t = Some c → w_types w !! t' = Some c → t = t';
  ri_reuse : reuse_r w
}.
Lemma rinv_sorted w : rinv w → ∀ k L, arch_ids w !! k = Some L → StronglySorted id_lt L.
Proof. intros Hw k L (a & Ha & <-)%arch_ids_lookup. by eapply as_sorted, ri_shape. Qed.
Lemma rinv_distinct_set w : rinv w → ∀ k k' L L', arch_ids w !! k = Some L → arch_ids w !! k' = Some L' →
  (∀ c, c ∈ L ↔ c ∈ L') → k = k'.
Proof.
  intros Hw k k' L L' H1 H2 Heq. eapply ri_distinct; [done|exact H1|]. rewrite H2. f_equal.
  apply sorted_ext; [by eapply rinv_sorted..|]. naive_solver.
Qed.
(** The component ids of an archetype have metadata. *)
Lemma rinv_comp w k L c : rinv w → arch_ids w !! k = Some L → c ∈ L → is_Some (comp_of w c).
Proof.
  intros Hw (a & Ha & <-)%arch_ids_lookup Hc. rewrite -(as_storages _ (ri_shape _ Hw _ _ Ha)) in Hc.
  apply elem_of_list_fmap in Hc as ([c' v] & -> & Hin). destruct (ri_cols _ Hw _ _ Ha _ _ Hin) as (_ & cm & ? & _). eauto.
Qed.
Lemma rinv_new : rinv world_new.
Proof.
  constructor; try done.
  - apply ents_wf_new.
  - constructor.
  - intros i k. split; [done|]. by intros (L & c & ? & _).
  - split_and!; [|done|intros k; cbn; lia]. apply bv_wf_new.
Qed.

Lemma search_r w ids n : rinv w → room 0 w →
  (∀ c, c ∈ ids → alive (w_ents w) c) → ids ≠ [] →
  ∃ r, search ids n w = Done r w [] ∧
    match r with
    | Some k => ∃ L, arch_ids w !! k = Some L ∧ (∀ c, c ∈ ids → c ∈ L) ∧ length L = n
    | None => ∀ k L, arch_ids w !! k = Some L → (∀ c, c ∈ ids → c ∈ L) → length L ≠ n
    end.
Proof.
  intros Hw Hroom Hal Hne. rewrite /search (bind_done_nil _ _ w (w_bitset w) w eq_refl).
  pose proof (min_bit_length_spec (w_bitset w) ids u32_max ltac:(lia)) as Hm.
  (* an archetype containing all ids has its bit set in every vector *)
  assert (∀ k L c, arch_ids w !! k = Some L → c ∈ L → ∃ b, w_bitset w !! uindex c = Some b ∧ bit_of (bv_data b) k = true) as Hbit.
  { intros k L c HL Hc. assert (bs_bit (w_bitset w) (uindex c) k = true) as Hb by (apply (ri_bits _ Hw); eauto).
    rewrite /bs_bit in Hb. destruct (w_bitset w !! uindex c) as [b|]; [eauto|done]. }
  destruct (min_bit_length (w_bitset w) ids u32_max) as [bl|].
  2:{ destruct Hm as (c & Hc & Hb). exists None. split; [done|]. intros k L HL Hall.
      destruct (Hbit k L c HL (Hall _ Hc)) as (b & Hb' & _). congruence. }
  destruct Hm as (Hbl & Hbs & Hlt).
  destruct (bit_iters_spec (w_bitset w) ids Hbs) as (iters & -> & Hil & Hin).
  cbn [unwrap]. rewrite (bind_done_nil _ _ w iters w eq_refl).
  assert (iters ≠ []) as Hine. { destruct iters; [|done]. destruct ids; [done|]. done. }
  assert (iters_wf iters) as Hiwf.
  { intros ws f (c & b & _ & Hb & -> & ->)%Hin. rewrite /identity_map.
    pose proof (Forall_lookup_1 _ _ _ _ (ri_bitset _ Hw) Hb) as ((Hwd & _) & _). done. }
  (* membership in the iteration *)
  assert (∀ k, k ∈ future (bi_new iters bl) ↔ ∃ L, arch_ids w !! k = Some L ∧ ∀ c, c ∈ ids → c ∈ L) as Hfut.
  { intros k. rewrite elem_of_future_new //. split.
    - intros [Hk Hcb].
      assert (∀ c, c ∈ ids → bs_bit (w_bitset w) (uindex c) k = true) as Hbits.
      { intros c Hc. destruct (Hbs c Hc) as [b Hb]. destruct (Hcb (bv_data b) identity_map) as (x & Hx & Ht); [apply Hin; eauto 10|].
        rewrite /bs_bit Hb /bit_of Hx. done. }
      destruct ids as [|c0 ids0]; [done|].
      destruct (proj1 (ri_bits _ Hw _ _) (Hbits c0 ltac:(left))) as (L & c' & HL & _ & _).
      exists L. split; [done|]. intros c Hc.
      destruct (proj1 (ri_bits _ Hw _ _) (Hbits c Hc)) as (L' & c'' & HL' & Hc'' & Hu). rewrite HL in HL'. simplify_eq.
      rewrite (alive_inj _ _ _ (Hal c Hc) (ri_comps _ Hw _ _ _ HL Hc'')) //.
    - intros (L & HL & Hall). assert (k < length (w_archs w)) as Hkl.
      { rewrite -arch_ids_length. by eapply lookup_lt_Some. }
      split.
      + apply Hlt. split; [rewrite /room in Hroom; lia|]. intros c b Hc Hb.
        destruct (Hbit k L c HL (Hall _ Hc)) as (b' & Hb' & Ht). rewrite Hb in Hb'. simplify_eq.
        pose proof (Forall_lookup_1 _ _ _ _ (ri_bitset _ Hw) Hb) as ((_ & _ & Hz) & _).
        destruct (decide (bv_len b' ≤ k)) as [Hle|]; [|lia]. by rewrite Hz in Ht.
      + intros ws f (c & b & Hc & Hb & -> & ->)%Hin.
        destruct (Hbit k L c HL (Hall _ Hc)) as (b' & Hb' & Ht). rewrite Hb in Hb'. simplify_eq.
        rewrite /bit_of in Ht. destruct (bv_data b' !! (k / usize_bits)) as [x|] eqn:Hx; [|done]. by exists x. }
  destruct (find_sized_spec w n (find_fuel iters) (bi_new iters bl)) as (r & Hrun & Hres).
  - by apply bi_new_inv.
  - rewrite /find_fuel. pose proof (future_new_length iters bl). lia.
  - intros k (L & (a & Ha & _)%arch_ids_lookup & _)%Hfut. eauto.
  - exists r. split; [done|]. destruct r as [k|].
    + destruct Hres as ((L & HL & Hall)%Hfut & a & Ha & Hn). exists L. split_and!; [done|done|].
      apply arch_ids_lookup in HL as (a' & Ha' & <-). by simplify_eq.
    + intros k L HL Hall. apply arch_ids_lookup in HL as (a & Ha & <-).
      eapply (Hres k a); [|done]. apply Hfut. exists (a_comp_ids a). split; [|done].
      apply arch_ids_lookup. eauto.
Qed.

Lemma find_plus_r w k L c : rinv w → room 0 w → arch_ids w !! k = Some L →
  alive (w_ents w) c → c ∉ L →
  ∃ r, find_plus_id L c w = Done r w [] ∧
    match r with
    | Some j => ∃ L', arch_ids w !! j = Some L' ∧ toggle c L L'
    | None => ∀ j L', arch_ids w !! j = Some L' → ¬ toggle c L L'
    end.
Proof.
  intros Hw Hroom HL Hc Hnc. rewrite /find_plus_id.
  destruct (search_r w (L ++ [c]) (length L + 1) Hw Hroom) as (r & Hrun & Hres).
  - intros d [Hd| ->%elem_of_list_singleton]%elem_of_app; [|done]. by eapply ri_comps.
  - by destruct L.
  - exists r. split; [done|]. pose proof (rinv_sorted _ Hw _ _ HL) as HsL. destruct r as [j|].
    + destruct Hres as (L' & HL' & Hsub & Hlen). exists L'. split; [done|].
      apply toggle_add; [done|by eapply rinv_sorted|done|]. split; [done|lia].
    + intros j L' HL' Ht. apply toggle_add in Ht as [Hsub Hlen]; [|done|by eapply rinv_sorted|done].
      by apply (Hres j L' HL' Hsub).
Qed.
Lemma find_zero_r w : rinv w → 0 < length (w_archs w) →
  ∃ a, w_archs w !! 0 = Some a ∧ a_comp_ids a = [] ∧ arch_ids w !! 0 = Some [].
Proof.
  intros Hw Hlen. destruct (lookup_lt_is_Some_2 _ _ Hlen) as [a Ha]. exists a.
  assert (arch_ids w !! 0 = Some (a_comp_ids a)) as Hids by (apply arch_ids_lookup; eauto).
  pose proof (ri_zero _ Hw _ Hids) as E. rewrite E in Hids. done.
Qed.
Lemma find_minus_r w k L c : rinv w → room 0 w → arch_ids w !! k = Some L → c ∈ L →
  ∃ r, find_minus_id L c w = Done r w [] ∧
    match r with
    | Some j => ∃ L', arch_ids w !! j = Some L' ∧ toggle c L L'
    | None => ∀ j L', arch_ids w !! j = Some L' → ¬ toggle c L L'
    end.
Proof.
  intros Hw Hroom HL Hc. rewrite /find_minus_id (bind_done_nil _ _ w (w_archs w) w eq_refl).
  pose proof (rinv_sorted _ Hw _ _ HL) as HsL.
  case_decide as Hd.
  - destruct (find_zero_r w Hw) as (a & Ha & Hids & Hz); [tauto|].
    rewrite (bind_done_nil _ _ _ _ _ (get_arch_done _ _ _ Ha)) Hids. exists (Some 0). split; [done|].
    exists []. split; [done|]. destruct Hd as [_ Hlen]. destruct L as [|x [|]]; try done.
    apply elem_of_list_singleton in Hc as ->. intros d. set_solver.
  - destruct (search_r w (filter (λ i, i ≠ c) L) (length L - 1) Hw Hroom) as (r & Hrun & Hres).
    + intros d [_ Hd']%elem_of_list_filter. by eapply ri_comps.
    + pose proof (filter_ne_length c L (sorted_NoDup _ HsL) Hc) as Hlen. intros E. rewrite E /= in Hlen.
      apply Hd. apply lookup_lt_Some in HL. rewrite arch_ids_length in HL. split; [lia|].
      assert (length L ≠ 0) by (destruct L; [by apply elem_of_nil in Hc|done]). lia.
    + exists r. split; [done|]. destruct r as [j|].
      * destruct Hres as (L' & HL' & Hsub & Hlen). exists L'. split; [done|].
        apply toggle_remove; [done|by eapply rinv_sorted|done|]. done.
      * intros j L' HL' Ht. apply toggle_remove in Ht as [Hsub Hlen]; [|done|by eapply rinv_sorted|done].
        by apply (Hres j L' HL' Hsub).
Qed.

Lemma from_with_r cmo a c cm : arch_shape a → arch_cols cmo a → c ∉ a_comp_ids a → cmo c = Some cm →
  ∃ na, from_archetype_with a (cm_type_info cm) c = Some na ∧ arch_shape na ∧ arch_rows cmo na [] ∧
    a_cache na = rc_new ∧ toggle c (a_comp_ids a) (a_comp_ids na).
Proof.
  intros Hsh Hrows Hc Hcm. rewrite /from_archetype_with.
  change (a_lookup (from_archetype a)) with (a_lookup a).
  destruct (a_lookup a !! c) as [i|] eqn:E.
  { apply (as_lookup _ Hsh) in E. destruct Hc. by eapply elem_of_list_lookup_2. }
  change (a_comp_ids (from_archetype a)) with (a_comp_ids a).
  destruct (sort_archetype_spec cmo (from_archetype a) (a_comp_ids a ++ [c])
    (a_storages (from_archetype a) ++ [(c, uv_new (cm_type_info cm))])) as (na & Hna & H1 & H2 & H3 & H4).
  - by rewrite fmap_app from_archetype_fst (as_storages _ Hsh).
  - apply NoDup_app. split_and!; [by apply sorted_NoDup, Hsh|set_solver|apply NoDup_singleton].
  - intros d v [Hd|Hd]%elem_of_app.
    + apply elem_of_from_archetype in Hd as (v0 & Hd & ->). destruct (Hrows _ _ Hd) as (_ & cm' & ? & ->). eauto.
    + apply elem_of_list_singleton in Hd as [= -> ->]. eauto.
  - done.
  - done.
  - exists na. split_and!; try done. intros d. rewrite H4 elem_of_app elem_of_list_singleton.
    destruct (decide (d = c)) as [->|]; naive_solver.
Qed.
Lemma from_without_r cmo a c : arch_shape a → arch_cols cmo a → c ∈ a_comp_ids a →
  ∃ na, from_archetype_without a c = Some na ∧ arch_shape na ∧ arch_rows cmo na [] ∧
    a_cache na = rc_new ∧ toggle c (a_comp_ids a) (a_comp_ids na).
Proof.
  intros Hsh Hrows Hc. rewrite /from_archetype_without.
  change (a_lookup (from_archetype a)) with (a_lookup a).
  apply elem_of_list_lookup in Hc as [i Hi]. rewrite (proj2 (as_lookup _ Hsh c i) Hi).
  change (a_comp_ids (from_archetype a)) with (a_comp_ids a).
  pose proof (sorted_NoDup _ (as_sorted _ Hsh)) as Hnd.
  assert (i < length (a_comp_ids a)) as Hlt by by eapply lookup_lt_Some.
  assert (length (a_storages (from_archetype a)) = length (a_comp_ids a)) as Hlen.
  { by rewrite -(fmap_length fst) from_archetype_fst (as_storages _ Hsh). }
  rewrite decide_True; [|lia].
  destruct (sort_archetype_spec cmo (from_archetype a) (delete i (a_comp_ids a))
    (delete i (a_storages (from_archetype a)))) as (na & Hna & H1 & H2 & H3 & H4).
  - by rewrite list_fmap_delete from_archetype_fst (as_storages _ Hsh).
  - pose proof Hnd as Hnd'. rewrite (delete_Permutation _ _ _ Hi) in Hnd'. by apply NoDup_cons in Hnd' as [_ ?].
  - intros d v Hd. apply elem_of_list_lookup in Hd as [j Hj].
    assert ((d, v) ∈ a_storages (from_archetype a)) as Hd.
    { eapply elem_of_submseteq; [eapply elem_of_list_lookup_2; exact Hj|]. apply sublist_submseteq, sublist_delete. }
    apply elem_of_from_archetype in Hd as (v0 & Hd & ->). destruct (Hrows _ _ Hd) as (_ & cm' & ? & ->). eauto.
  - done.
  - done.
  - exists na. split_and!; try done. intros d. rewrite H4 elem_of_delete_ne //.
    apply elem_of_list_lookup_2 in Hi. destruct (decide (d = c)) as [->|]; naive_solver.
Qed.

Lemma push_archetype_r a w : rinv w →
  ∃ bs eb, push_archetype a w = Done (length (w_archs w)) (set_archs (w_archs w ++ [a]) (set_entbits eb (set_bitset bs w))) [] ∧
    Forall (bv_ok (S (length (w_archs w)))) bs ∧
    (∀ i k, bs_bit bs i k = true ↔ bs_bit (w_bitset w) i k = true ∨
       (k = length (w_archs w) ∧ ∃ c, c ∈ a_comp_ids a ∧ uindex c = i)) ∧
    bv_wf eb ∧ bv_len eb = S (length (w_archs w)) ∧ (∀ k, k ≤ length (w_archs w) → bit_of (bv_data eb) k = true).
Proof.
  intros Hw. rewrite /push_archetype (bind_done_nil _ _ w (length (w_archs w)) w eq_refl).
  destruct (set_arch_bits_run (a_comp_ids a) (length (w_archs w)) w) as (bs & Hrun & Hwf & Hbits).
  { eapply Forall_impl; [apply (ri_bitset _ Hw)|]. intros b [? ?]. split; [done|lia]. }
  rewrite (bind_done_nil _ _ _ _ _ Hrun). set (w1 := set_bitset bs w).
  rewrite (bind_done_nil _ _ w1 (bv_push_bit (w_entbits w1) true) w1 eq_refl).
  destruct (ri_entbits _ Hw) as (Heb & Hlen & Hset).
  destruct (bv_set_bit_spec (w_entbits w) (bv_len (w_entbits w)) true Heb) as (eb & Hs & Hebwf & Hlen' & Hbit).
  change (w_entbits w1) with (w_entbits w). rewrite /bv_push_bit Hs. exists bs, eb. split_and!; try done.
  - rewrite Hlen' Hlen. lia.
  - intros k Hk. rewrite Hbit Hlen. case_decide; [done|]. apply Hset. lia.
Qed.

(** ** Rebuilding the invariant when no archetype is added *)
Lemma rinv_change w w' :
  rinv w → arch_ids w' = arch_ids w → w_bitset w' = w_bitset w → w_entbits w' = w_entbits w →
  w_types w' = w_types w → reuse_r w' → ents_wf (w_ents w') →
  (∀ k a, w_archs w' !! k = Some a → arch_shape a ∧ arch_cols (comp_of w') a ∧ cache_ok (arch_ids w) a) →
  (∀ k L c, arch_ids w !! k = Some L → c ∈ L → alive (w_ents w') c) →
  (∀ i em, meta_at w' i = Some em → (∃ g, generations (w_ents w') !! i = Some (true, g)) ∧ layout_wf (cm_layout (em_comp em)) ∧ w_archs w ≠ []) →
  (∀ t c, w_types w !! t = Some c → type_slot w' t c) →
  rinv w'.
Proof.
  intros Hw Hids Hbs Heb Hty Hre Hents Hsh Hcomps Hmeta Htypes.
  assert (length (w_archs w') = length (w_archs w)) as Hlen by by rewrite -!arch_ids_length Hids.
  constructor; try done.
  - intros k a Ha. by apply (Hsh k a).
  - intros k a Ha. by apply (Hsh k a).
  - intros k a Ha. rewrite Hids. by apply (Hsh k a).
  - rewrite Hids. done.
  - rewrite Hids. apply (ri_distinct _ Hw).
  - rewrite Hids. apply (ri_zero _ Hw).
  - rewrite Hbs Hlen. apply (ri_bitset _ Hw).
  - rewrite Hbs Hids. apply (ri_bits _ Hw).
  - rewrite Heb Hlen. apply (ri_entbits _ Hw).
  - intros i em Hem. by apply (Hmeta i em).
  - intros i em Hem. destruct (Hmeta i em Hem) as (_ & ? & Hne). split; [done|]. intros E. apply Hne. rewrite E in Hlen. by apply nil_length_inv.
  - intros t c. rewrite Hty. intros Htc. destruct (ri_types _ Hw _ _ Htc) as (? & ? & _). split_and!; [done..|]. by apply Htypes.
  - rewrite Hty. apply (ri_types_inj _ Hw).
Qed.
Lemma arch_cols_ext cmo cmo' a : (∀ c, c ∈ (a_storages a).*1 → cmo' c = cmo c) → arch_cols cmo a → arch_cols cmo' a.
Proof.
  intros H Ha c v Hcv. destruct (Ha c v Hcv) as (? & cm & ? & ?). split; [done|]. exists cm. split; [|done]. rewrite H //.
  apply elem_of_list_fmap. by exists (c, v).
Qed.
(** Locks play no role. *)
Lemma rinv_lock c w : rinv w → rinv (lock_world c w).
Proof.
  intros Hw. rewrite /lock_world. destruct (w_lock_lookup w !! c); [done|].
  eapply (rinv_change w); try done.
  - apply (ri_reuse _ Hw).
  - apply (ri_ents _ Hw).
  - intros k a Ha. split_and!; [by eapply ri_shape|by eapply (ri_cols _ Hw)|by eapply (ri_cache _ Hw)].
  - apply (ri_comps _ Hw).
  - intros i em Hem. split; [by eapply (ri_meta _ Hw)|by eapply (ri_layout _ Hw)].
  - intros t d Ht. by destruct (ri_types _ Hw _ _ Ht) as (_ & _ & ?).
Qed.

(** ** What a world owes *)
Definition owed_arch (a : archetype) : list event := (a_storages a).*2 ≫= owed_vec.
Lemma owed_archs w : owed w = w_archs w ≫= owed_arch.
Proof. rewrite /owed /all_cols bind_bind. done. Qed.
Lemma cnt_owed_insert w k a a' x : w_archs w !! k = Some a →
  cnt x (owed_arch a) + cnt x (owed (set_archs (<[k := a']> (w_archs w)) w)) = cnt x (owed_arch a') + cnt x (owed w).
Proof. intros Ha. rewrite !owed_archs /=. by apply cnt_bind_insert. Qed.
Lemma cnt_owed_storage a i c v v' x : a_storages a !! i = Some (c, v) →
  cnt x (owed_vec v) + cnt x (owed_arch (a_set_storages (<[i := (c, v')]> (a_storages a)) a)) = cnt x (owed_vec v') + cnt x (owed_arch a).
Proof.
  intros Hi. rewrite /owed_arch /= list_fmap_insert /=. apply cnt_bind_insert. by rewrite list_lookup_fmap Hi.
Qed.
Lemma rinv_cols_wf w : rinv w → cols_wf w.
Proof.
  intros Hw. rewrite /cols_wf /all_cols. apply Forall_forall. intros v (a & Hv & Ha)%elem_of_list_bind.
  apply elem_of_list_lookup in Ha as [k Ha]. apply elem_of_list_fmap in Hv as ([c v'] & -> & Hin).
  by destruct (ri_cols _ Hw _ _ Ha _ _ Hin).
Qed.

(** ** Columns, entity lists and places change; component sets do not *)
Definition s_sim (s s' : ecsid * uvec) : Prop := s'.1 = s.1 ∧ uv_ti s'.2 = uv_ti s.2 ∧ (uv_wf s.2 → uv_wf s'.2).
Definition a_sim (a a' : archetype) : Prop :=
  a_lookup a' = a_lookup a ∧ a_comp_ids a' = a_comp_ids a ∧ a_cache a' = a_cache a ∧ Forall2 s_sim (a_storages a) (a_storages a').
Record cw (w w' : world) : Prop := {
  cw_archs : Forall2 a_sim (w_archs w) (w_archs w');
  cw_bitset : w_bitset w' = w_bitset w;
  cw_entbits : w_entbits w' = w_entbits w;
  cw_ents : w_ents w' = w_ents w;
  cw_types : w_types w' = w_types w;
  cw_reuse : w_reuse w' = w_reuse w;
  cw_meta : ∀ i, em_comp <$> meta_at w' i = em_comp <$> meta_at w i
}.
Lemma s_sim_refl s : s_sim s s.
Proof. done. Qed.
Lemma Forall2_s_sim_refl ss : Forall2 s_sim ss ss.
Proof. induction ss; constructor; [apply s_sim_refl|done]. Qed.
Lemma a_sim_refl a : a_sim a a.
Proof. split_and!; try done. apply Forall2_s_sim_refl. Qed.
Lemma cw_refl w : cw w w.
Proof. constructor; try done. induction (w_archs w); constructor; [apply a_sim_refl|done]. Qed.
Lemma a_sim_trans a b c : a_sim a b → a_sim b c → a_sim a c.
Proof.
  intros (A1 & A2 & A3 & A4) (B1 & B2 & B3 & B4). split_and!; try congruence.
  eapply Forall2_transitive; [|exact A4|exact B4]. intros s1 s2 s3 (C1 & C2 & C3) (D1 & D2 & D3). split_and!; [congruence|congruence|auto].
Qed.
Lemma cw_trans w1 w2 w3 : cw w1 w2 → cw w2 w3 → cw w1 w3.
Proof.
  intros [A1 A2 A3 A4 A5 A6 A7] [B1 B2 B3 B4 B5 B6 B7]. constructor; try congruence.
  eapply Forall2_transitive; [exact a_sim_trans|done|done].
Qed.
Lemma cw_ids w w' : cw w w' → arch_ids w' = arch_ids w.
Proof.
  intros H. rewrite /arch_ids. pose proof (cw_archs _ _ H) as HA. induction HA as [|a a' l l' (_ & E & _) _ IH]; [done|].
  by rewrite !fmap_cons E IH.
Qed.
Lemma cw_comp w w' c : cw w w' → comp_of w' c = comp_of w c.
Proof. intros H. apply (cw_meta _ _ H). Qed.
Lemma cw_alive w w' e : cw w w' → alive (w_ents w') e ↔ alive (w_ents w) e.
Proof. intros H. by rewrite (cw_ents _ _ H). Qed.
Lemma a_sim_fst a a' : a_sim a a' → (a_storages a').*1 = (a_storages a).*1.
Proof. intros (_ & _ & _ & H). induction H as [|s s' l l' (E & _) _ IH]; [done|]. by rewrite !fmap_cons E IH. Qed.
Lemma a_sim_shape a a' : a_sim a a' → arch_shape a → arch_shape a'.
Proof.
  intros Hs [H1 H2 H3 H4]. pose proof (a_sim_fst _ _ Hs) as Hf. destruct Hs as (A1 & A2 & A3 & _).
  constructor; [by rewrite A2|by rewrite Hf A2|by rewrite A1 A2|by rewrite A3].
Qed.
Lemma a_sim_cols cmo a a' : a_sim a a' → arch_cols cmo a → arch_cols cmo a'.
Proof.
  intros (_ & _ & _ & H) Hc c v' Hin. apply elem_of_list_lookup in Hin as [i Hi].
  destruct (Forall2_lookup_r _ _ _ _ _ H Hi) as ([c0 v] & Hi0 & E1 & E2 & E3). simpl in *. subst c0.
  destruct (Hc c v) as (Hwf & cm & ? & ?); [by eapply elem_of_list_lookup_2|]. split; [auto|]. exists cm. split; [done|congruence].
Qed.
Lemma rinv_cw w w' : rinv w → cw w w' → rinv w'.
Proof.
  intros Hw Hc. pose proof (cw_ids _ _ Hc) as Hids. destruct Hc as [A1 A2 A3 A4 A5 A6 A7].
  assert (∀ c, comp_of w' c = comp_of w c) as Hcomp by (intros c; apply A7).
  eapply (rinv_change w); try done.
  - rewrite /reuse_r A6. apply (ri_reuse _ Hw).
  - rewrite A4. apply (ri_ents _ Hw).
  - intros k a' Ha'. destruct (Forall2_lookup_r _ _ _ _ _ A1 Ha') as (a & Ha & Hs). split_and!.
    + eapply a_sim_shape; [done|]. by eapply ri_shape.
    + apply (arch_cols_ext (comp_of w)); [done|]. eapply a_sim_cols; [done|]. by eapply ri_cols.
    + destruct Hs as (_ & E2 & E3 & _). intros c j. rewrite E3 E2. by apply (ri_cache _ Hw _ _ Ha).
  - rewrite A4. apply (ri_comps _ Hw).
  - intros i em Hem. specialize (A7 i). rewrite Hem /= in A7. symmetry in A7. apply fmap_Some in A7 as (em0 & Hem0 & ->).
    rewrite A4. split; [by eapply (ri_meta _ Hw)|by eapply (ri_layout _ Hw)].
  - intros t c Ht. destruct (ri_types _ Hw _ _ Ht) as (_ & _ & b & g & Hg & Hb). exists b, g. rewrite A4. split; [done|].
    destruct b; [|done]. by rewrite Hcomp.
Qed.
Lemma cw_arch w k a a' : w_archs w !! k = Some a → a_sim a a' → cw w (set_archs (<[k := a']> (w_archs w)) w).
Proof.
  intros Ha Hs. constructor; try done. apply Forall2_same_length_lookup_2; [by rewrite /= insert_length|].
  intros i x y Hx Hy. simpl in Hy. apply list_lookup_insert_Some in Hy as [(-> & <- & _)|(_ & Hy)]; [by simplify_eq|].
  simplify_eq. apply a_sim_refl.
Qed.
Lemma a_sim_storage a i c v v' : a_storages a !! i = Some (c, v) → uv_ti v' = uv_ti v → (uv_wf v → uv_wf v') →
  a_sim a (a_set_storages (<[i := (c, v')]> (a_storages a)) a).
Proof.
  intros Hi Ht Hwf. split_and!; try done. simpl. apply Forall2_same_length_lookup_2; [by rewrite insert_length|].
  intros j x y Hx Hy. apply list_lookup_insert_Some in Hy as [(-> & <- & _)|(_ & Hy)]; [by simplify_eq|]. by simplify_eq.
Qed.

(** ** A step and what it does to the account: the destructor calls made ([ev]) and still owed
    afterwards were owed before, or are in [G]. *)
Definition acct (w : world) (G : list event) (w' : world) (ev : list event) : Prop :=
  ∀ x, cnt x ev + cnt x (owed w') ≤ cnt x (owed w) + cnt x G.
Definition cwp (w : world) (G : list event) (w' : world) (ev : list event) : Prop :=
  rinv w' ∧ cw w w' ∧ acct w G w' ev.
Lemma acct_refl w G : acct w G w [].
Proof. intros x. rewrite cnt_nil. lia. Qed.
Lemma acct_trans w1 w2 w3 G1 G2 G e1 e2 : acct w1 G1 w2 e1 → acct w2 G2 w3 e2 → (∀ x, cnt x G1 + cnt x G2 ≤ cnt x G) → acct w1 G w3 (e1 ++ e2).
Proof. intros A B H x. specialize (A x). specialize (B x). specialize (H x). rewrite cnt_app. lia. Qed.
Lemma acct_mono w1 w2 G G' ev : acct w1 G w2 ev → (∀ x, cnt x G ≤ cnt x G') → acct w1 G' w2 ev.
Proof. intros A H x. specialize (A x). specialize (H x). lia. Qed.
Lemma cwp_refl w G : rinv w → cwp w G w [].
Proof. intros H. split; [done|]. split; [apply cw_refl|apply acct_refl]. Qed.
Lemma cwp_mono w G G' w' ev : cwp w G w' ev → (∀ x, cnt x G ≤ cnt x G') → cwp w G' w' ev.
Proof. intros (A & B & C) H. split; [done|]. split; [done|]. by eapply acct_mono. Qed.
Lemma cwp_weak w G w' ev : cwp w [] w' ev → cwp w G w' ev.
Proof. intros H. eapply cwp_mono; [done|]. intros x. rewrite cnt_nil. lia. Qed.
Lemma cwp_trans w1 w2 w3 G1 G2 G e1 e2 : cwp w1 G1 w2 e1 → cwp w2 G2 w3 e2 → (∀ x, cnt x G1 + cnt x G2 ≤ cnt x G) → cwp w1 G w3 (e1 ++ e2).
Proof. intros (A & B & C) (A' & B' & C') H. split; [done|]. split; [by eapply cw_trans|by eapply acct_trans]. Qed.
Lemma cwp_trans_l w1 w2 w3 G e1 e2 : cwp w1 [] w2 e1 → cwp w2 G w3 e2 → cwp w1 G w3 (e1 ++ e2).
Proof. intros A B. eapply cwp_trans; [done..|]. intros x. rewrite cnt_nil. lia. Qed.
Lemma cwp_trans_r w1 w2 w3 G e1 e2 : cwp w1 G w2 e1 → cwp w2 [] w3 e2 → cwp w1 G w3 (e1 ++ e2).
Proof. intros A B. eapply cwp_trans; [done..|]. intros x. rewrite cnt_nil. lia. Qed.

(** *** The elementary steps *)
Lemma entities_r k f w : rinv w →
  rp (in_arch k (modify (λ a, a_set_entities (f a) a))) w (λ _ w' ev, cwp w [] w' ev) (λ _ w' ev, cwp w [] w' ev).
Proof.
  intros Hw. rewrite /rp /in_arch /zoom. destruct (w_archs w !! k) as [a|] eqn:Ha; [|by apply cwp_refl]. cbn.
  assert (cw w (set_archs (<[k := a_set_entities (f a) a]> (w_archs w)) w)) as Hc.
  { eapply cw_arch; [done|]. split_and!; try done. apply Forall2_s_sim_refl. }
  split; [by eapply rinv_cw|]. split; [done|]. intros x. rewrite !cnt_nil.
  pose proof (cnt_owed_insert w k a (a_set_entities (f a) a) x Ha) as E. change (owed_arch (a_set_entities (f a) a)) with (owed_arch a) in E. lia.
Qed.
Lemma owed_set_meta M w : owed (set_meta M w) = owed w.
Proof. done. Qed.
Lemma update_meta_r i f w : rinv w →
  rp (update_meta i f) w (λ _ w' ev, cwp w [] w' ev) (λ _ w' ev, cwp w [] w' ev).
Proof.
  intros Hw. destruct (meta_at w i) as [em|] eqn:E.
  - rewrite /rp (update_meta_run _ _ _ _ E). pose proof (meta_at_lt _ _ _ E) as Hlt.
    set (w' := set_meta _ w). assert (cw w w') as Hc.
    { constructor; try done.
      - apply (cw_archs _ _ (cw_refl w)).
      - intros j. rewrite /w' meta_at_insert //. case_decide; [by subst; rewrite E|done]. }
    split; [by eapply rinv_cw|]. split; [done|]. intros x. change (owed w') with (owed w). rewrite cnt_nil. lia.
  - rewrite /rp /update_meta /bind /gets /=. rewrite /meta_at in E. destruct (w_meta w !! i) as [[|]|]; [done|by apply cwp_refl..].
Qed.
Lemma storage_r {A} k i (m : M uvec A) w G (Q : A → Prop) : rinv w →
  (∀ a c v cm, w_archs w !! k = Some a → a_storages a !! i = Some (c, v) → uv_wf v → comp_of w c = Some cm → uv_ti v = cm_type_info cm →
     rp m v (λ r v' ev, vstep G v v' ev ∧ Q r) (λ _ v' ev, vstep G v v' ev)) →
  rp (in_arch k (in_storage i m)) w (λ r w' ev, cwp w G w' ev ∧ Q r) (λ _ w' ev, cwp w G w' ev).
Proof.
  intros Hw Hm. rewrite /rp /in_arch /zoom. destruct (w_archs w !! k) as [a|] eqn:Ha; [|by apply cwp_refl].
  rewrite /in_storage /zoom. destruct (a_storages a !! i) as [[c v]|] eqn:Hi; cbn [fmap option_fmap option_map snd].
  2:{ rewrite list_insert_id // set_archs_id. by apply cwp_refl. }
  destruct (ri_cols _ Hw _ _ Ha c v) as (Hwf & cm & Hcm & Hti); [by eapply elem_of_list_lookup_2|].
  assert (∀ v' ev, vstep G v v' ev → cwp w G (set_archs (<[k := a_set_storages (alter (λ s : ecsid * uvec, (s.1, v')) i (a_storages a)) a]> (w_archs w)) w) ev) as Hstep.
  { intros v' ev (H1 & H2 & H3). rewrite (alter_snd _ _ _ _ _ Hi).
    assert (cw w (set_archs (<[k := a_set_storages (<[i := (c, v')]> (a_storages a)) a]> (w_archs w)) w)) as Hc.
    { eapply cw_arch; [done|]. by eapply a_sim_storage. }
    split; [by eapply rinv_cw|]. split; [done|]. intros x. specialize (H3 x).
    pose proof (cnt_owed_insert w k a (a_set_storages (<[i := (c, v')]> (a_storages a)) a) x Ha).
    pose proof (cnt_owed_storage a i c v v' x Hi). lia. }
  specialize (Hm a c v cm eq_refl Hi Hwf Hcm Hti). rewrite /rp in Hm. destruct (m v) as [r v' ev|r v' ev| |]; [| |done..].
  - destruct Hm as [Hm HQ]. split; [by apply Hstep|done].
  - by apply Hstep.
Qed.
Lemma move_element_r cur i tar j row c Lc Lt w : rinv w → cur ≠ tar →
  arch_ids w !! cur = Some Lc → arch_ids w !! tar = Some Lt → Lc !! i = Some c → Lt !! j = Some c →
  rp (move_element cur i tar j row) w (λ _ w' ev, cwp w [] w' ev) (λ _ w' ev, cwp w [] w' ev).
Proof.
  intros Hw Hne (ca & Hca & <-)%arch_ids_lookup (ta & Hta & <-)%arch_ids_lookup Hi Hj. rewrite /rp /move_element Hca Hta.
  rewrite -(as_storages _ (ri_shape _ Hw _ _ Hca)) in Hi. rewrite -(as_storages _ (ri_shape _ Hw _ _ Hta)) in Hj.
  destruct (fst_lookup _ _ _ Hi) as [cv Hcv]. destruct (fst_lookup _ _ _ Hj) as [tv Htv]. rewrite Hcv Htv.
  destruct (ri_cols _ Hw _ _ Hca c cv) as (Hwc & cm & Hcm & Htc); [by eapply elem_of_list_lookup_2|].
  destruct (ri_cols _ Hw _ _ Hta c tv) as (Hwt & cm' & Hcm' & Htt); [by eapply elem_of_list_lookup_2|].
  rewrite Hcm in Hcm'. injection Hcm' as <-.
  assert (∀ cv' tv' ev, total1 cv cv' → total1 tv tv' →
    (∀ x, cnt x ev + cnt x (owed_vec cv') + cnt x (owed_vec tv') = cnt x (owed_vec cv) + cnt x (owed_vec tv)) →
    cwp w [] (set_archs (<[tar := a_set_storages (<[j := (c, tv')]> (a_storages ta)) ta]> (<[cur := a_set_storages (<[i := (c, cv')]> (a_storages ca)) ca]> (w_archs w))) w) ev) as Hstep.
  { intros cv' tv' ev [T1 W1] [T2 W2] Hx. set (ca' := a_set_storages (<[i := (c, cv')]> (a_storages ca)) ca).
    set (w1 := set_archs (<[cur := ca']> (w_archs w)) w).
    assert (cw w w1) as C1 by (eapply cw_arch; [done|]; by eapply a_sim_storage).
    assert (w_archs w1 !! tar = Some ta) as Hta1 by by rewrite /= list_lookup_insert_ne.
    set (ta' := a_set_storages (<[j := (c, tv')]> (a_storages ta)) ta).
    change (set_archs _ w) with (set_archs (<[tar := ta']> (w_archs w1)) w1).
    assert (cw w1 (set_archs (<[tar := ta']> (w_archs w1)) w1)) as C2 by (eapply cw_arch; [done|]; by eapply a_sim_storage).
    assert (cw w (set_archs (<[tar := ta']> (w_archs w1)) w1)) as C3 by by eapply cw_trans.
    split; [by eapply rinv_cw|]. split; [done|]. intros x. specialize (Hx x).
    pose proof (cnt_owed_insert w cur ca ca' x Hca) as E1. fold w1 in E1.
    pose proof (cnt_owed_insert w1 tar ta ta' x Hta1) as E2.
    pose proof (cnt_owed_storage ca i c cv cv' x Hcv) as E3. fold ca' in E3.
    pose proof (cnt_owed_storage ta j c tv tv' x Htv) as E4. fold ta' in E4. rewrite cnt_nil. lia. }
  pose proof (move_vstep cv tv row Hwc Hwt ltac:(congruence)) as Hm.
  destruct (uv_swap_move row (cv, tv)) as [[] [cv' tv'] ev|r [cv' tv'] ev| |]; [| |done..].
  - destruct Hm as (? & ? & ?). by apply Hstep.
  - destruct Hm as (? & ? & ?). by apply Hstep.
Qed.
