(** * Finding or creating the archetype an entity moves to *)
From Verif Require Import ProofBase SpecSmall World History ProofEntities ProofBitset ProofArrayVec ProofUVec.
From Verif Require Export ProofFrame.

(** ** The world with at most more (empty) archetypes, more locks and other cache contents *)
Record wext (w : world) (R : list (list row)) (w' : world) (R' : list (list row)) : Prop := {
  we_archs : ∀ k a, w_archs w !! k = Some a → ∃ s, w_archs w' !! k = Some (a_set_cache s a);
  we_rows : ∃ n, R' = R ++ replicate n [] ∧ length (w_archs w') = length (w_archs w) + n;
  we_ents : w_ents w' = w_ents w;
  we_meta : w_meta w' = w_meta w;
  we_types : w_types w' = w_types w;
  we_reuse : w_reuse w' = w_reuse w;
  we_locks : ∀ c i, w_lock_lookup w !! c = Some i → w_lock_lookup w' !! c = Some i ∧ w_locks w' !! i = w_locks w !! i
}.
Lemma a_set_cache_twice s s' a : a_set_cache s (a_set_cache s' a) = a_set_cache s a.
Proof. done. Qed.
Lemma a_set_cache_id a : a_set_cache (a_cache a) a = a.
Proof. by destruct a. Qed.
Lemma wext_refl w R : wext w R w R.
Proof.
  constructor; try done.
  - intros k a Ha. exists (a_cache a). by rewrite a_set_cache_id.
  - exists 0. rewrite app_nil_r. split; [done|lia].
Qed.
Lemma wext_trans w R w1 R1 w2 R2 : wext w R w1 R1 → wext w1 R1 w2 R2 → wext w R w2 R2.
Proof.
  intros [Aa Ar Ae Am At Au Al] [Ba Br Be Bm Bt Bu Bl]. constructor; try congruence.
  - intros k a (s & Hs)%Aa. destruct (Ba _ _ Hs) as (s' & Hs'). exists s'. by rewrite a_set_cache_twice in Hs'.
  - destruct Ar as (n1 & -> & H1), Br as (n2 & -> & H2). exists (n1 + n2). rewrite -app_assoc -replicate_add. split; [done|lia].
  - intros c i Hc. destruct (Al c i Hc) as [Hc1 E1]. destruct (Bl c i Hc1) as [? E2]. split; [done|congruence].
Qed.
Lemma wext_ids w R w' R' k L : wext w R w' R' → arch_ids w !! k = Some L → arch_ids w' !! k = Some L.
Proof.
  intros [Aa _ _ _ _ _ _] (a & Ha & <-)%arch_ids_lookup. destruct (Aa _ _ Ha) as (s & Hs).
  apply arch_ids_lookup. by exists (a_set_cache s a).
Qed.
Lemma wext_rows w R w' R' k rs : wext w R w' R' → R !! k = Some rs → R' !! k = Some rs.
Proof. intros [_ (n & -> & _) _ _ _ _ _] H. by apply lookup_app_l_Some. Qed.
Lemma wext_locks w R w' : winv w R → same_but_locks w w' → wext w R w' R.
Proof.
  intros Hw (HA & _ & _ & HE & HM & HT & HU & HL). constructor; try done.
  - intros k a Ha. rewrite HA Ha. exists (a_cache a). by rewrite a_set_cache_id.
  - exists 0. rewrite app_nil_r HA. split; [done|lia].
Qed.
Lemma wext_cache w R k a s : w_archs w !! k = Some a →
  wext w R (set_archs (<[k := a_set_cache s a]> (w_archs w)) w) R.
Proof.
  intros Ha. constructor; try done.
  - intros k' a' Ha'. simpl. destruct (decide (k = k')) as [->|Hne].
    + simplify_eq. exists s. apply list_lookup_insert. by eapply lookup_lt_Some.
    + rewrite list_lookup_insert_ne //. exists (a_cache a'). by rewrite a_set_cache_id.
  - exists 0. rewrite app_nil_r /= insert_length. split; [done|lia].
Qed.

(** ** Adding or taking away a component, as sets *)
Lemma subset_same_length {A} (l1 l2 : list A) : NoDup l1 → NoDup l2 →
  (∀ x, x ∈ l1 → x ∈ l2) → length l2 = length l1 → ∀ x, x ∈ l2 → x ∈ l1.
Proof.
  intros H1 H2 Hsub Hlen x Hx. assert (l1 ⊆+ l2) as Hs by by apply NoDup_submseteq.
  by rewrite (submseteq_Permutation_length_eq _ _ Hlen Hs).
Qed.
Lemma toggle_add c L L' : StronglySorted id_lt L → StronglySorted id_lt L' → c ∉ L →
  (toggle c L L' ↔ (∀ d, d ∈ L ++ [c] → d ∈ L') ∧ length L' = length L + 1).
Proof.
  intros HL HL' Hc. assert (NoDup (L ++ [c])) as Hnd.
  { apply NoDup_app. split_and!; [by apply sorted_NoDup|set_solver|apply NoDup_singleton]. }
  split.
  - intros Ht. assert (∀ d, d ∈ L' ↔ d ∈ L ++ [c]) as Heq.
    { intros d. rewrite (Ht d) elem_of_app elem_of_list_singleton. destruct (decide (d = c)) as [->|]; naive_solver. }
    split; [naive_solver|]. assert (L' ≡ₚ L ++ [c]) as -> by (apply NoDup_Permutation; [by apply sorted_NoDup|done|done]).
    by rewrite app_length.
  - intros [Hsub Hlen] d. assert (d ∈ L' ↔ d ∈ L ++ [c]) as ->.
    { split; [|apply Hsub]. apply subset_same_length; [done|by apply sorted_NoDup|done|]. rewrite app_length /=. lia. }
    rewrite elem_of_app elem_of_list_singleton. destruct (decide (d = c)) as [->|]; naive_solver.
Qed.
Lemma toggle_filter c L L' : c ∈ L → (toggle c L L' ↔ ∀ d, d ∈ L' ↔ d ∈ filter (λ i, i ≠ c) L).
Proof.
  intros Hc. rewrite /toggle. setoid_rewrite elem_of_list_filter. split; intros H d; rewrite (H d); naive_solver.
Qed.
Lemma filter_ne_length (c : ecsid) L : NoDup L → c ∈ L → length (filter (λ i, i ≠ c) L) = length L - 1.
Proof.
  intros Hn Hc. induction Hn as [|x L Hx Hn IH]; [by apply elem_of_nil in Hc|].
  rewrite filter_cons. apply elem_of_cons in Hc as [->|Hc].
  - rewrite decide_False; [|naive_solver]. simpl. rewrite Nat.sub_0_r. f_equal.
    clear IH Hn. induction L as [|y L IHL]; [done|]. apply not_elem_of_cons in Hx as [Hne Hx].
    rewrite filter_cons decide_True; [by f_equal; apply IHL|congruence].
  - rewrite decide_True; [|by intros ->]. simpl. rewrite IH //. destruct L; [by apply elem_of_nil in Hc|simpl; lia].
Qed.
Lemma toggle_remove c L L' : StronglySorted id_lt L → StronglySorted id_lt L' → c ∈ L →
  (toggle c L L' ↔ (∀ d, d ∈ filter (λ i, i ≠ c) L → d ∈ L') ∧ length L' = length L - 1).
Proof.
  intros HL HL' Hc. rewrite toggle_filter //. assert (NoDup (filter (λ i, i ≠ c) L)) as Hnd by by apply NoDup_filter, sorted_NoDup.
  pose proof (filter_ne_length c L (sorted_NoDup _ HL) Hc) as Hlen. split.
  - intros Heq. split; [naive_solver|].
    assert (L' ≡ₚ filter (λ i, i ≠ c) L) as -> by (apply NoDup_Permutation; [by apply sorted_NoDup|done|done]). done.
  - intros [Hsub Hlen'] d. split; [|apply Hsub]. apply subset_same_length; [done|by apply sorted_NoDup|done|]. lia.
Qed.
Lemma toggle_ext c L L1 L2 : toggle c L L1 → toggle c L L2 → ∀ d, d ∈ L1 ↔ d ∈ L2.
Proof. intros H1 H2 d. by rewrite (H1 d) (H2 d). Qed.
Lemma toggle_sym c L L' : toggle c L L' → toggle c L' L.
Proof. intros H d. pose proof (H d). pose proof (H c). destruct (decide (d ∈ L)), (decide (d ∈ L')), (decide (d = c)), (decide (c ∈ L)); subst; naive_solver. Qed.

(** ** The find functions *)
Lemma find_plus_spec w R k L c : winv w R → room 0 w → arch_ids w !! k = Some L →
  alive (w_ents w) c → c ∉ L →
  ∃ r, find_plus_id L c w = Done r w [] ∧
    match r with
    | Some j => ∃ L', arch_ids w !! j = Some L' ∧ toggle c L L'
    | None => ∀ j L', arch_ids w !! j = Some L' → ¬ toggle c L L'
    end.
Proof.
  intros Hw Hroom HL Hc Hnc. rewrite /find_plus_id.
  destruct (search_spec w R (L ++ [c]) (length L + 1) Hw Hroom) as (r & Hrun & Hres).
  - intros d [Hd| ->%elem_of_list_singleton]%elem_of_app; [|done]. by eapply wi_comps.
  - by destruct L.
  - exists r. split; [done|]. pose proof (winv_sorted _ _ Hw _ _ HL) as HsL. destruct r as [j|].
    + destruct Hres as (L' & HL' & Hsub & Hlen). exists L'. split; [done|].
      apply toggle_add; [done|by eapply winv_sorted|done|]. split; [done|lia].
    + intros j L' HL' Ht. apply toggle_add in Ht as [Hsub Hlen]; [|done|by eapply winv_sorted|done].
      by apply (Hres j L' HL' Hsub).
Qed.
Lemma find_zero w R : winv w R → 0 < length (w_archs w) →
  ∃ a, w_archs w !! 0 = Some a ∧ a_comp_ids a = [] ∧ arch_ids w !! 0 = Some [].
Proof.
  intros Hw Hlen. destruct (lookup_lt_is_Some_2 _ _ Hlen) as [a Ha]. exists a.
  assert (arch_ids w !! 0 = Some (a_comp_ids a)) as Hids by (apply arch_ids_lookup; eauto).
  pose proof (wi_zero _ _ Hw _ Hids) as E. rewrite E in Hids. done.
Qed.
Lemma find_minus_spec w R k L c : winv w R → room 0 w → arch_ids w !! k = Some L → c ∈ L →
  ∃ r, find_minus_id L c w = Done r w [] ∧
    match r with
    | Some j => ∃ L', arch_ids w !! j = Some L' ∧ toggle c L L'
    | None => ∀ j L', arch_ids w !! j = Some L' → ¬ toggle c L L'
    end.
Proof.
  intros Hw Hroom HL Hc. rewrite /find_minus_id (bind_done_nil _ _ w (w_archs w) w eq_refl).
  pose proof (winv_sorted _ _ Hw _ _ HL) as HsL.
  case_decide as Hd.
  - destruct (find_zero w R Hw) as (a & Ha & Hids & Hz); [tauto|].
    rewrite (bind_done_nil _ _ _ _ _ (get_arch_done _ _ _ Ha)) Hids. exists (Some 0). split; [done|].
    exists []. split; [done|]. destruct Hd as [_ Hlen]. destruct L as [|x [|]]; try done.
    apply elem_of_list_singleton in Hc as ->. intros d. set_solver.
  - destruct (search_spec w R (filter (λ i, i ≠ c) L) (length L - 1) Hw Hroom) as (r & Hrun & Hres).
    + intros d [_ Hd']%elem_of_list_filter. by eapply wi_comps.
    + pose proof (filter_ne_length c L (sorted_NoDup _ HsL) Hc) as Hlen. intros E. rewrite E /= in Hlen.
      apply Hd. apply lookup_lt_Some in HL. rewrite arch_ids_length in HL. split; [lia|].
      assert (length L ≠ 0) by (destruct L; [by apply elem_of_nil in Hc|done]). lia.
    + exists r. split; [done|]. destruct r as [j|].
      * destruct Hres as (L' & HL' & Hsub & Hlen). exists L'. split; [done|].
        apply toggle_remove; [done|by eapply winv_sorted|done|]. done.
      * intros j L' HL' Ht. apply toggle_remove in Ht as [Hsub Hlen]; [|done|by eapply winv_sorted|done].
        by apply (Hres j L' HL' Hsub).
Qed.

(** ** New archetypes derived from existing ones *)
Lemma from_archetype_fst a : (a_storages (from_archetype a)).*1 = (a_storages a).*1.
Proof. rewrite /from_archetype /=. rewrite -list_fmap_compose. done. Qed.
Lemma elem_of_from_archetype a c v : (c, v) ∈ a_storages (from_archetype a) →
  ∃ v0, (c, v0) ∈ a_storages a ∧ v = uv_new (uv_ti v0).
Proof.
  rewrite /from_archetype /=. intros ([c' v0] & [= -> ->] & Hin)%elem_of_list_fmap. eauto.
Qed.
Lemma sort_archetype_spec cmo a ids ss : ss.*1 = ids → NoDup ids →
  (∀ c v, (c, v) ∈ ss → ∃ cm, cmo c = Some cm ∧ v = uv_new (cm_type_info cm)) →
  a_entities a = [] → a_cache a = rc_new →
  ∃ na, sort_archetype a ids ss = Some na ∧ arch_shape na ∧ arch_rows cmo na [] ∧ a_cache na = rc_new ∧
    (∀ d, d ∈ a_comp_ids na ↔ d ∈ ids).
Proof.
  intros Hss Hnd Hcols Hents Hcache. rewrite /sort_archetype.
  assert ((sort_by storage_leb ss).*1 = sort_by ecsid_leb ids) as Hss' by by rewrite sort_by_fst Hss.
  rewrite zip_ids_agree_refl //. eexists. split; [done|].
  assert (NoDup (sort_by ecsid_leb ids)) as Hnd' by by rewrite sort_by_perm.
  split_and!.
  - constructor; simpl.
    + by apply sort_by_sorted.
    + done.
    + intros c i. by apply index_ids_spec.
    + rewrite Hcache. apply rc_inv_new.
  - constructor; simpl.
    + done.
    + intros c v Hcv. rewrite elem_of_sort_by in Hcv. destruct (Hcols c v Hcv) as (cm & ? & ->).
      exists cm. split_and!; [done|done|]. apply uv_rep_new.
    + intros r c Hr. by apply elem_of_nil in Hr.
  - done.
  - intros d. simpl. apply elem_of_sort_by.
Qed.
Lemma from_with_spec cmo a rs c cm : arch_shape a → arch_rows cmo a rs → c ∉ a_comp_ids a → cmo c = Some cm →
  ∃ na, from_archetype_with a (cm_type_info cm) c = Some na ∧ arch_shape na ∧ arch_rows cmo na [] ∧
    a_cache na = rc_new ∧ toggle c (a_comp_ids a) (a_comp_ids na).
Proof.
  intros Hsh Hrows Hc Hcm. rewrite /from_archetype_with.
  change (a_lookup (from_archetype a)) with (a_lookup a).
  destruct (a_lookup a !! c) as [i|] eqn:E.
  { apply (as_lookup _ Hsh) in E. destruct Hc. by eapply elem_of_list_lookup_2. }
  change (a_comp_ids (from_archetype a)) with (a_comp_ids a).
  destruct (sort_archetype_spec cmo (from_archetype a) (a_comp_ids a ++ [c])
    (a_storages (from_archetype a) ++ [(c, uv_new (cm_type_info cm))])) as (na & Hna & H1 & H2 & H3 & H4).
  - by rewrite fmap_app from_archetype_fst (as_storages _ Hsh).
  - apply NoDup_app. split_and!; [by apply sorted_NoDup, Hsh|set_solver|apply NoDup_singleton].
  - intros d v [Hd|Hd]%elem_of_app.
    + apply elem_of_from_archetype in Hd as (v0 & Hd & ->). destruct (ar_cols _ _ _ Hrows _ _ Hd) as (cm' & ? & -> & _). eauto.
    + apply elem_of_list_singleton in Hd as [= -> ->]. eauto.
  - done.
  - done.
  - exists na. split_and!; try done. intros d. rewrite H4 elem_of_app elem_of_list_singleton.
    destruct (decide (d = c)) as [->|]; naive_solver.
Qed.
Lemma elem_of_delete_ne (l : list ecsid) i c d : NoDup l → l !! i = Some c → d ∈ delete i l ↔ d ∈ l ∧ d ≠ c.
Proof.
  intros Hn Hi. assert (l ≡ₚ c :: delete i l) as Hp by by apply delete_Permutation.
  rewrite Hp in Hn. apply NoDup_cons in Hn as [Hc _]. rewrite {2}Hp elem_of_cons.
  destruct (decide (d = c)) as [->|]; naive_solver.
Qed.
Lemma from_without_spec cmo a rs c : arch_shape a → arch_rows cmo a rs → c ∈ a_comp_ids a →
  ∃ na, from_archetype_without a c = Some na ∧ arch_shape na ∧ arch_rows cmo na [] ∧
    a_cache na = rc_new ∧ toggle c (a_comp_ids a) (a_comp_ids na).
Proof.
  intros Hsh Hrows Hc. rewrite /from_archetype_without.
  change (a_lookup (from_archetype a)) with (a_lookup a).
  apply elem_of_list_lookup in Hc as [i Hi]. rewrite (proj2 (as_lookup _ Hsh c i) Hi).
  change (a_comp_ids (from_archetype a)) with (a_comp_ids a).
  pose proof (sorted_NoDup _ (as_sorted _ Hsh)) as Hnd.
  assert (i < length (a_comp_ids a)) as Hlt by by eapply lookup_lt_Some.
  assert (length (a_storages (from_archetype a)) = length (a_comp_ids a)) as Hlen.
  { by rewrite -(fmap_length fst) from_archetype_fst (as_storages _ Hsh). }
  rewrite decide_True; [|lia].
  destruct (sort_archetype_spec cmo (from_archetype a) (delete i (a_comp_ids a))
    (delete i (a_storages (from_archetype a)))) as (na & Hna & H1 & H2 & H3 & H4).
  - by rewrite list_fmap_delete from_archetype_fst (as_storages _ Hsh).
  - pose proof Hnd as Hnd'. rewrite (delete_Permutation _ _ _ Hi) in Hnd'. by apply NoDup_cons in Hnd' as [_ ?].
  - intros d v Hd. apply elem_of_list_lookup in Hd as [j Hj].
    assert ((d, v) ∈ a_storages (from_archetype a)) as Hd.
    { eapply elem_of_submseteq; [eapply elem_of_list_lookup_2; exact Hj|]. apply sublist_submseteq, sublist_delete. }
    apply elem_of_from_archetype in Hd as (v0 & Hd & ->). destruct (ar_cols _ _ _ Hrows _ _ Hd) as (cm' & ? & -> & _). eauto.
  - done.
  - done.
  - exists na. split_and!; try done. intros d. rewrite H4 elem_of_delete_ne //.
    apply elem_of_list_lookup_2 in Hi. destruct (decide (d = c)) as [->|]; naive_solver.
Qed.

(** ** Cache accesses *)
Lemma cache_lookup_run w k a c : w_archs w !! k = Some a → rc_inv (a_cache a) →
  ∃ s, in_arch k (in_cache (rc_lookup_id c)) w =
         Done (rc_lookup (a_cache a) !! c) (set_archs (<[k := a_set_cache s a]> (w_archs w)) w) [] ∧
       rc_lookup s = rc_lookup (a_cache a) ∧ rc_inv s.
Proof.
  intros Ha Hinv. destruct (rc_lookup_id_spec c (a_cache a) Hinv) as (s & Hrun & ? & ?). exists s.
  split_and!; [|done|done]. rewrite /in_arch /zoom Ha /in_cache /zoom Hrun. done.
Qed.
Lemma cache_insert_run w k a c n : w_archs w !! k = Some a → rc_inv (a_cache a) →
  ∃ s, in_arch k (in_cache (rc_insert_id c n)) w =
         Done () (set_archs (<[k := a_set_cache s a]> (w_archs w)) w) [] ∧
       rc_lookup s = <[c := n]> (rc_lookup (a_cache a)) ∧ rc_inv s.
Proof.
  intros Ha Hinv. destruct (rc_insert_id_spec c n (a_cache a) Hinv) as (s & Hrun & ? & ?). exists s.
  split_and!; [|done|done]. rewrite /in_arch /zoom Ha /in_cache /zoom Hrun. done.
Qed.
Lemma winv_cache_insert w R k a c n L' : winv w R → w_archs w !! k = Some a →
  arch_ids w !! n = Some L' → toggle c (a_comp_ids a) L' →
  ∃ w', in_arch k (in_cache (rc_insert_id c n)) w = Done () w' [] ∧ winv w' R ∧ wext w R w' R ∧ arch_ids w' = arch_ids w.
Proof.
  intros Hw Ha HL Ht. destruct (cache_insert_run w k a c n Ha) as (s & Hrun & Hs & Hinv).
  { by eapply as_cache, wi_shape. }
  eexists. split; [exact Hrun|]. split_and!.
  - eapply winv_cache_change; [done|done|done|]. intros c' j. rewrite Hs lookup_insert_Some.
    intros [[<- <-]|[_ Hj]]; [eauto|]. by eapply wi_cache.
  - by apply wext_cache.
  - by eapply arch_ids_insert.
Qed.
Lemma winv_cache_lookup w R k a c : winv w R → w_archs w !! k = Some a →
  ∃ r w', in_arch k (in_cache (rc_lookup_id c)) w = Done r w' [] ∧ winv w' R ∧ wext w R w' R ∧ arch_ids w' = arch_ids w ∧
    match r with Some j => ∃ L', arch_ids w !! j = Some L' ∧ toggle c (a_comp_ids a) L' | None => True end.
Proof.
  intros Hw Ha. destruct (cache_lookup_run w k a c Ha) as (s & Hrun & Hs & Hinv).
  { by eapply as_cache, wi_shape. }
  eexists _, _. split; [exact Hrun|]. split_and!.
  - eapply winv_cache_change; [done|done|done|]. rewrite Hs. intros c' j Hj. by eapply wi_cache.
  - by apply wext_cache.
  - by eapply arch_ids_insert.
  - destruct (rc_lookup (a_cache a) !! c) eqn:E; [|done]. by eapply wi_cache.
Qed.

(** ** Registering an empty archetype *)
Lemma winv_push_empty w R a :
  winv w R → arch_shape a → arch_rows (comp_of w) a [] → a_cache a = rc_new →
  (∀ c, c ∈ a_comp_ids a → alive (w_ents w) c ∧ is_Some (comp_of w c) ∧ is_Some (w_lock_lookup w !! c)) →
  (∀ k L, arch_ids w !! k = Some L → ¬ ∀ c, c ∈ L ↔ c ∈ a_comp_ids a) →
  w_archs w ≠ [] →
  ∃ w', push_archetype a w = Done (length (w_archs w)) w' [] ∧ winv w' (R ++ [[]]) ∧ wext w R w' (R ++ [[]]) ∧
    w_archs w' = w_archs w ++ [a] ∧ w_lock_lookup w' = w_lock_lookup w ∧ w_locks w' = w_locks w.
Proof.
  intros Hw Hsh Hrows Hcache Hcomps Hnew Hne.
  destruct (push_archetype_run a w R Hw) as (bs & eb & Hrun & H1 & H2 & H3 & H4 & H5).
  eexists. split; [exact Hrun|]. split_and!; try done.
  - apply (winv_push w R a [] bs eb (w_meta w)); try done.
    + intros c j Hj. rewrite Hcache lookup_empty in Hj. done.
    + intros k Hk. by apply (Hnew k _ Hk).
    + intros E. apply nil_length_inv in E. done.
    + intros i em Hem. by left.
  - constructor; try done.
    + intros k a' Ha'. exists (a_cache a'). rewrite a_set_cache_id. simpl. by apply lookup_app_l_Some.
    + exists 1. simpl. rewrite app_length /=. done.
Qed.
