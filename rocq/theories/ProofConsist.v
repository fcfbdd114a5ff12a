(** * Consistency of the reachable worlds (C20, C21), the search for archetypes (C49) and
    its cache (C22). *)
From Verif Require Import ProofBase SpecSmall World History ProofEntities ProofBitset ProofArrayVec ProofUVec.
From Verif Require Export ProofLaws.

Lemma columns_ids w R k a : winv w R → w_archs w !! k = Some a → columns a = a_comp_ids a.
Proof. intros Hw Ha. apply (as_storages _ (wi_shape _ _ Hw _ _ Ha)). Qed.
Lemma placed_row w R e k i : winv w R → placed w e k i ↔ ∃ rs m, R !! k = Some rs ∧ rs !! i = Some (e, m).
Proof.
  intros Hw. split.
  - intros (a & Ha & He). assert (k < length R) as [rs Hrs]%lookup_lt_is_Some by (rewrite (wi_len _ _ Hw); by eapply lookup_lt_Some).
    rewrite (ar_ents _ _ _ (wi_rows _ _ Hw _ _ _ Ha Hrs)) list_lookup_fmap in He. apply fmap_Some in He as ([e' m] & He & ->). eauto.
  - intros (rs & m & Hrs & Hi). assert (k < length (w_archs w)) as [a Ha]%lookup_lt_is_Some by (rewrite -(wi_len _ _ Hw); by eapply lookup_lt_Some).
    exists a. split; [done|]. rewrite (ar_ents _ _ _ (wi_rows _ _ Hw _ _ _ Ha Hrs)) list_lookup_fmap Hi. done.
Qed.
Lemma located_meta w e k i : located w e k i ↔ alive (w_ents w) e ∧ em_inst <$> meta_at w (uindex e) = Some (InstMeta k i).
Proof.
  rewrite /located. pose proof (get_entity_meta_cases w e) as H. destruct (get_entity_meta e w) as [o w' ev|r w' ev| |]; [| |done..].
  - destruct H as (_ & _ & b & Hb & ->). rewrite /alive Hb. destruct b; [|split; [done|by intros [? _]]].
    destruct (meta_at w (uindex e)) as [m|]; cbn; [|split; [done|by intros [_ ?]]]. split; [by intros ->|by intros [_ [= ->]]].
  - destruct H as (_ & _ & _ & H). rewrite /alive H. split; [done|by intros [? _]].
Qed.
Lemma ok_consistent w : WOk w → consistent w.
Proof.
  intros [[R Hw] _]. assert (∀ e k i, placed w e k i → alive (w_ents w) e ∧ em_inst <$> meta_at w (uindex e) = Some (InstMeta k i)) as Hp.
  { intros e k i (rs & m & Hrs & Hi)%(placed_row _ R _ _ _ Hw). by eapply wi_row. }
  constructor.
  - intros e k i k' i' [_ H1]%Hp [_ H2]%Hp. rewrite H1 in H2. by injection H2.
  - intros e (k & i & [H _]%Hp). by apply lives_alive.
  - intros e k i. rewrite located_meta. split; [|apply Hp]. intros [Hal Hm]. apply fmap_Some in Hm as (em & Hem & Hi).
    destruct (wi_meta _ _ Hw _ _ Hem) as (rs & e' & m & H1 & H2 & H3). rewrite -Hi /= in H1 H2.
    assert (e' = e) as ->. { destruct (wi_row _ _ Hw _ _ _ _ _ H1 H2) as [Hal' _]. by eapply alive_inj. }
    apply (placed_row _ R _ _ _ Hw). eauto.
  - intros k a c u Ha Hin. assert (k < length R) as [rs Hrs]%lookup_lt_is_Some by (rewrite (wi_len _ _ Hw); by eapply lookup_lt_Some).
    pose proof (wi_rows _ _ Hw _ _ _ Ha Hrs) as Har. destruct (ar_cols _ _ _ Har _ _ Hin) as (cm & _ & _ & Hrep).
    rewrite (ar_ents _ _ _ Har) fmap_length -(col_length c rs). destruct Hrep as [_ Hrep].
    case_decide as E; [destruct Hrep as (_ & _ & ->); rewrite E; lia|destruct Hrep as (-> & _); f_equal; lia].
  - intros k a Ha. rewrite (columns_ids _ _ _ _ Hw Ha). apply sorted_NoDup, (as_sorted _ (wi_shape _ _ Hw _ _ Ha)).
  - intros c (k & L & HL & Hc)%(in_use_ids _ _ Hw). destruct (wi_comps _ _ Hw _ _ _ HL Hc) as (Hal & Hcm & _).
    assert (lives w c) as Hl by by apply lives_alive. split; [done|]. by apply (stored_comp _ _ Hw).
Qed.
Lemma ok_distinct w : WOk w → distinct_sets w.
Proof.
  intros [[R Hw] _] k k' a a' Ha Ha' Hs. rewrite (columns_ids _ _ _ _ Hw Ha) (columns_ids _ _ _ _ Hw Ha') in Hs.
  apply (wi_distinct _ _ Hw k k' (a_comp_ids a)); apply arch_ids_lookup; [eauto|]. exists a'. split; [done|].
  eapply sorted_ext; [by eapply as_sorted, wi_shape..|]. intros c. symmetry. apply Hs.
Qed.

(** ** Searching (C49) *)
Lemma find_view w ids : WOk w → Forall (lives w) ids → NoDup ids →
  match find_archetype_dynamic ids w with
  | Done (Some k) w' ev => w' = w ∧ ev = [] ∧ ∃ a, w_archs w !! k = Some a ∧ same_set (columns a) ids
  | Done None w' ev => w' = w ∧ ev = [] ∧ ∀ k a, w_archs w !! k = Some a → ¬ same_set (columns a) ids
  | _ => False
  end.
Proof.
  intros [[R Hw] Hroom] Hal Hnd. rewrite Forall_forall in Hal.
  destruct (find_archetype_spec w R ids Hw) as (r & -> & H).
  { done. } { intros c Hc. by apply lives_alive, Hal. }
  destruct r as [k|].
  - destruct H as (L & HL & Hsub & Hlen). split_and!; [done..|]. pose proof (winv_sorted _ _ Hw _ _ HL) as Hs.
    apply arch_ids_lookup in HL as (a & Ha & <-). exists a. split; [done|]. rewrite (columns_ids _ _ _ _ Hw Ha).
    pose proof (subset_same_length _ _ Hnd (sorted_NoDup _ Hs) Hsub) as Hsame. intros c. split; [|apply Hsub]. apply Hsame. done.
  - split_and!; [done..|]. intros k a Ha Hs. rewrite (columns_ids _ _ _ _ Hw Ha) in Hs.
    apply (H k (a_comp_ids a)); [apply arch_ids_lookup; eauto|intros c; apply Hs|].
    apply Permutation_length, NoDup_Permutation; [apply sorted_NoDup, (as_sorted _ (wi_shape _ _ Hw _ _ Ha))|done|done].
Qed.
(** ** The cache (C22) *)
Lemma toggle_unique w R k a j j' L L' c : winv w R → w_archs w !! k = Some a →
  arch_ids w !! j = Some L → arch_ids w !! j' = Some L' → toggle c (a_comp_ids a) L → toggle c (a_comp_ids a) L' → j = j'.
Proof.
  intros Hw Ha HL HL' H1 H2. apply (wi_distinct _ _ Hw j j' L); [done|]. rewrite HL'. f_equal.
  eapply sorted_ext; [by eapply winv_sorted..|]. by eapply toggle_ext.
Qed.
Lemma cache_view w k a c j s ev : WOk w → w_archs w !! k = Some a → lives w c →
  rc_lookup_id c (a_cache a) = Done (Some j) s ev →
  (c ∉ columns a → find_plus_id (a_comp_ids a) c w = Done (Some j) w []) ∧
  (c ∈ columns a → find_minus_id (a_comp_ids a) c w = Done (Some j) w []) ∧
  ∃ a', w_archs w !! j = Some a' ∧ ∀ d, d ∈ columns a' ↔ (d ≠ c ∧ d ∈ columns a) ∨ (d = c ∧ c ∉ columns a).
Proof.
  intros [[R Hw] Hr] Ha Hc E. rewrite (columns_ids _ _ _ _ Hw Ha).
  destruct (rc_lookup_id_spec c _ (as_cache _ (wi_shape _ _ Hw _ _ Ha))) as (s' & E' & _). rewrite E' in E. injection E as E _ _.
  destruct (wi_cache _ _ Hw _ _ Ha _ _ E) as (L & HL & HT).
  assert (arch_ids w !! k = Some (a_comp_ids a)) as Hids by (apply arch_ids_lookup; eauto).
  split_and!.
  - intros Hn. destruct (find_plus_spec w R k _ c Hw Hr Hids) as (r & Hrun & Hres); [by apply lives_alive|done|]. rewrite Hrun.
    destruct r as [j'|]; [|by destruct (Hres j L)]. destruct Hres as (L' & HL' & HT'). by rewrite (toggle_unique _ _ _ _ _ _ _ _ _ Hw Ha HL HL' HT HT').
  - intros Hn. destruct (find_minus_spec w R k _ c Hw Hr Hids) as (r & Hrun & Hres); [done|]. rewrite Hrun.
    destruct r as [j'|]; [|by destruct (Hres j L)]. destruct Hres as (L' & HL' & HT'). by rewrite (toggle_unique _ _ _ _ _ _ _ _ _ Hw Ha HL HL' HT HT').
  - apply arch_ids_lookup in HL as (a' & Ha' & <-). exists a'. split; [done|]. rewrite (columns_ids _ _ _ _ Hw Ha'). exact HT.
Qed.
