(** * C52: the functions of the world *)
From Verif Require Import ProofBase SpecSmall World Query History ProofEntities ProofBitset ProofArrayVec ProofUVec.
From Verif Require Export ProofQuiet.

(** ** Sums *)
Lemma sum_insert {A} (f : A → nat) l i x y : l !! i = Some x →
  sum_list_with f (<[i := y]> l) + f x = sum_list_with f l + f y.
Proof.
  revert i. induction l as [|z l IH]; intros i Hi; [done|]. destruct i as [|i].
  - injection Hi as ->. cbn. lia.
  - change (f z + sum_list_with f (<[i := y]> l) + f x = f z + sum_list_with f l + f y). specialize (IH i Hi). lia.
Qed.
Lemma sum_lookup {A} (f : A → nat) l i x : l !! i = Some x → f x ≤ sum_list_with f l.
Proof.
  revert i. induction l as [|z l IH]; intros i Hi; [done|]. destruct i as [|i]; cbn [sum_list_with]; [injection Hi as ->; lia|].
  specialize (IH i Hi). lia.
Qed.
Lemma sum_app {A} (f : A → nat) l1 l2 : sum_list_with f (l1 ++ l2) = sum_list_with f l1 + sum_list_with f l2.
Proof. induction l1 as [|x l1 IH]; cbn; [done|]. lia. Qed.
Lemma sum_zero {A} (f : A → nat) l : (∀ x, x ∈ l → f x = 0) → sum_list_with f l = 0.
Proof.
  induction l as [|x l IH]; intros H; [done|]. cbn. rewrite (H x); [|left]. rewrite IH; [done|]. intros y Hy. apply H. by right.
Qed.
Lemma sum_perm {A} (f : A → nat) l1 l2 : l1 ≡ₚ l2 → sum_list_with f l1 = sum_list_with f l2.
Proof. induction 1; cbn; lia. Qed.

Definition abytes (a : archetype) : nat := sum_list_with (λ s : ecsid * uvec, ubytes s.2) (a_storages a).
Definition wbytes (w : world) : nat := sum_list_with abytes (w_archs w).

(** ** What stays the same while entities are moved *)
Definition tyi (w : world) (c : ecsid) : type_info := cm_type_info (default cm_unit (comp_of w c)).
Record aok (w0 : world) (a : archetype) : Prop := {
  ao_ids : (a_storages a).*1 = a_comp_ids a;
  ao_ti : ∀ c u, (c, u) ∈ a_storages a → uv_ti u = tyi w0 c
}.
Record bounded (w0 : world) (T : nat) (w : world) : Prop := {
  bd_meta : w_meta w = w_meta w0;
  bd_ents : w_ents w = w_ents w0;
  bd_bytes : wbytes w ≤ T;
  bd_archs : ∀ k a, w_archs w !! k = Some a → aok w0 a
}.
Lemma bounded_winv w R : winv w R → bounded w (wbytes w) w.
Proof.
  intros Hw. constructor; [done..|]. intros k a Ha. constructor; [by apply (wi_shape _ _ Hw _ _ Ha)|].
  intros c u Hcu. assert (is_Some (R !! k)) as [rs Hrs]. { apply lookup_lt_is_Some. rewrite (wi_len _ _ Hw). by eapply lookup_lt_Some. }
  destruct (ar_cols _ _ _ (wi_rows _ _ Hw _ _ _ Ha Hrs) c u Hcu) as (cm & Hcm & Hti & _). by rewrite /tyi Hcm.
Qed.
Lemma bounded_mono w0 T T' w : bounded w0 T w → T ≤ T' → bounded w0 T' w.
Proof. intros [] ?. constructor; try done. lia. Qed.
Lemma tyi_wf w R c : winv w R → layout_wf (ti_layout (tyi w c)).
Proof.
  intros Hw. rewrite /tyi /comp_of. destruct (meta_at w (uindex c)) as [em|] eqn:E; [by apply (wi_layout _ _ Hw _ _ E)|done].
Qed.
Lemma bounded_archs w0 T w w' : w_meta w' = w_meta w → w_ents w' = w_ents w → w_archs w' = w_archs w → bounded w0 T w → bounded w0 T w'.
Proof. intros E1 E2 E3 [H1 H2 H3 H4]. constructor; [congruence..|by rewrite /wbytes E3|by rewrite E3]. Qed.
(** One archetype replaced by one with the same columns. *)
Lemma bounded_same w0 T w k a a' : bounded w0 T w → w_archs w !! k = Some a →
  a_storages a' = a_storages a → a_comp_ids a' = a_comp_ids a → bounded w0 T (set_archs (<[k := a']> (w_archs w)) w).
Proof.
  intros [H1 H2 H3 H4] Ha Es Ei. constructor; [done..| |].
  - rewrite /wbytes /=. pose proof (sum_insert abytes _ _ _ a' Ha) as E. rewrite /wbytes in H3.
    assert (abytes a' = abytes a) as Ea by by rewrite /abytes Es. lia.
  - intros k' b. cbn. destruct (decide (k' = k)) as [->|Hne].
    + rewrite list_lookup_insert; [|by eapply lookup_lt_Some]. intros [= <-]. destruct (H4 _ _ Ha). constructor; [congruence|]. by rewrite Es.
    + rewrite list_lookup_insert_ne //. apply H4.
Qed.

Section world.
  Context (w0 : world) (R0 : list (list row)) (Hw0 : winv w0 R0).
  Local Set Default Proof Using "Hw0".
  Notation B := (bounded w0).
  (** The bound and the ids of archetype [k]. *)
  Definition BL (T k : nat) (L : list ecsid) (w : world) : Prop := B T w ∧ arch_ids w !! k = Some L.

  Lemma quiet_is_alive P e : quiet P (is_alive e) (λ _, P).
  Proof. apply quiet_read; [apply calm_is_alive|]. intros s a s' ev. rewrite /is_alive /bind /=. by destruct (ents_is_alive _ _); intros [=]. Qed.
  Lemma quiet_get_meta P e : quiet P (get_entity_meta e) (λ o w, P w ∧ get_entity_meta e w = Done o w []).
  Proof.
    intros w Hw. pose proof (calm_get_entity_meta e w) as Hc. destruct (get_entity_meta e w) as [o w' ev| | |] eqn:E; try done.
    pose proof (get_entity_meta_cases w e) as H. rewrite E in H. destruct H as (-> & -> & _). done.
  Qed.
  Lemma quiet_get_arch P k : quiet P (get_arch k) (λ a w, P w ∧ w_archs w !! k = Some a).
  Proof. intros w Hw. rewrite /get_arch /bind /=. destruct (w_archs w !! k) eqn:E; [|done]. by cbn. Qed.
  Lemma calm_find_sized fuel it n : calm (find_sized fuel it n).
  Proof. revert it. induction fuel as [|fuel IH]; intros it; cbn [find_sized]; calm. Qed.
  Lemma calm_search ids n : calm (search ids n).
  Proof. rewrite /search. calm. apply calm_find_sized. Qed.
  Lemma quiet_find_plus P ids c : quiet P (find_plus_id ids c) (λ _, P).
  Proof. apply quiet_read; [apply calm_search|]. intros ? ? ? ? H. by eapply search_state. Qed.
  Lemma quiet_find_archetype P ids : quiet P (find_archetype_dynamic ids) (λ _, P).
  Proof.
    apply quiet_read; [|intros ? ? ? ? H; by eapply find_archetype_state].
    rewrite /find_archetype_dynamic. calm. apply calm_search.
  Qed.
  Lemma quiet_find_minus P ids c : quiet P (find_minus_id ids c) (λ _, P).
  Proof.
    apply quiet_read. { rewrite /find_minus_id. calm. apply calm_search. }
    intros s a s' ev H. rewrite /find_minus_id (bind_done_nil _ _ s (w_archs s) s eq_refl) in H.
    destruct (decide _).
    - apply bind_done_inv in H as (x & s1 & ev1 & ev2 & H1 & H & _). apply get_arch_inv in H1 as [_ ->].
      apply bind_done_inv in H as (y & s2 & ev3 & ev4 & H1 & H & _). apply massert_state in H1 as ->. by injection H.
    - by eapply search_state.
  Qed.
  Lemma av_push_start_panic {A} (v : array_vec A) x r : av_push_start v x = AvPanic r → r ≠ RCapacity.
  Proof. rewrite /av_push_start. intros H. repeat (case_match; simplify_eq; try done). Qed.
  Lemma av_as_slice_panic {A} (v : array_vec A) r : av_as_slice v = AvPanic r → r ≠ RCapacity.
  Proof. rewrite /av_as_slice. intros H. repeat (case_match; simplify_eq; try done). Qed.
  Lemma calm_rc_lookup c : calm (rc_lookup_id c).
  Proof.
    intros s. rewrite /rc_lookup_id. destruct (av_as_slice _) eqn:E; [|by eapply av_as_slice_panic|done].
    destruct (rc_scan _ _); [done|]. destruct (_ !! c); [|done]. destruct (av_push_start _ _) as [[]|r|] eqn:E2; [done|by eapply av_push_start_panic|done].
  Qed.
  Lemma calm_rc_insert c k : calm (rc_insert_id c k).
  Proof. intros s. rewrite /rc_insert_id. destruct (av_push_start _ _) as [[]|r|] eqn:E2; [done|by eapply av_push_start_panic|done]. Qed.
  (** Calls on one archetype that leave its columns alone. *)
  Lemma quiet_in_arch {A} T k' L k (m : M archetype A) : calm m →
    (∀ a x a' ev, m a = Done x a' ev → a_storages a' = a_storages a ∧ a_comp_ids a' = a_comp_ids a) →
    quiet (BL T k' L) (in_arch k m) (λ _, BL T k' L).
  Proof.
    intros Hc Hm w [Hw HL]. rewrite /in_arch /zoom. destruct (w_archs w !! k) as [a|] eqn:Ha; [|done].
    specialize (Hc a). destruct (m a) as [x a' ev| | |] eqn:E; [|done..]. destruct (Hm _ _ _ _ E) as [Es Ei].
    split; [by eapply bounded_same|]. rewrite /arch_ids /= list_fmap_insert Ei list_insert_id; [done|]. by rewrite list_lookup_fmap Ha.
  Qed.
  Lemma quiet_cache {A} T k' L k (m : M arcache A) : calm m → quiet (BL T k' L) (in_arch k (in_cache m)) (λ _, BL T k' L).
  Proof.
    intros Hc. apply quiet_in_arch; [by apply calm_zoom|]. intros a x a' ev. rewrite /in_cache /zoom.
    destruct (m (a_cache a)); [|done..]. by intros [= _ <- _].
  Qed.
  Lemma quiet_ensure_lock T k L c : quiet (BL T k L) (ensure_lock c) (λ _, BL T k L).
  Proof. apply quiet_modify. intros w [Hw HL]. destruct (w_lock_lookup w !! c); [done|]. split; [by apply (bounded_archs w0 T w)|done]. Qed.

  (** ** New archetypes *)
  Lemma quiet_push_arch T k L na : aok w0 na →
    quiet (BL T k L) (push_archetype na) (λ n w, BL (T + abytes na) k L w ∧ arch_ids w !! n = Some (a_comp_ids na)).
  Proof.
    intros Hna. rewrite /push_archetype.
    assert (∀ ids n l, quiet (λ w, BL T k L w ∧ length (w_archs w) = l) (set_arch_bits ids n) (λ _ w, BL T k L w ∧ length (w_archs w) = l)) as Hbits.
    { intros ids n l. induction ids as [|c ids IH]; cbn [set_arch_bits]; [by apply quiet_ret|].
      eapply quiet_bind; [apply quiet_gets|]. intros o. cbn beta. eapply quiet_bind; [by apply quiet_unwrap|]. intros bs. cbn beta.
      eapply quiet_bind; [|intros ?; apply IH]. apply quiet_modify. intros w [[[[Hw HL] Hl] ?] ?]. split; [|done]. split; [by apply (bounded_archs w0 T w)|done]. }
    eapply quiet_bind; [apply quiet_gets|]. intros n. cbn beta.
    eapply quiet_bind; [eapply quiet_mono; [apply (Hbits _ _ n)|by intros w [? ->]|intros a w Hx; exact Hx]|]. intros ?. cbn beta.
    eapply quiet_bind; [apply quiet_gets|]. intros o. cbn beta. eapply quiet_bind; [by apply quiet_unwrap|]. intros eb. cbn beta.
    eapply quiet_bind; [apply (quiet_modify _ _ (λ _ w, BL T k L w ∧ length (w_archs w) = n)); intros w [[[[Hw HL] Hl] ?] ?]; (split; [|done]); split; [by apply (bounded_archs w0 T w)|done]|]. intros ?. cbn beta.
    eapply quiet_bind; [|intros ?; apply quiet_ret; intros s Hs; exact Hs]. apply quiet_modify. intros w [[Hw HL] Hl].
    assert (arch_ids (set_archs (w_archs w ++ [na]) w) = arch_ids w ++ [a_comp_ids na]) as Eids by by rewrite /arch_ids /= fmap_app.
    split; [|rewrite Eids lookup_app_r arch_ids_length; [|lia]; by rewrite Hl Nat.sub_diag]. split.
    - destruct Hw as [H1 H2 H3 H4]. constructor; [done..| |].
      + rewrite /wbytes /= sum_app /=. rewrite /wbytes in H3. lia.
      + intros k' b. cbn. intros [?|[_ Hx]]%lookup_app_Some; [by eapply H4|]. apply list_lookup_singleton_Some in Hx as [_ <-]. done.
    - rewrite Eids. by apply lookup_app_l_Some.
  Qed.
  Lemma zip_ids_agree_eq ids (ss : list (ecsid * uvec)) : length ss = length ids → zip_ids_agree ids ss = true → ss.*1 = ids.
  Proof.
    revert ss. induction ids as [|i ids IH]; intros [|[c u] ss] Hl H; try done. cbn in *. rewrite /zip_ids_agree /= andb_true_iff bool_decide_eq_true in H.
    destruct H as [-> H]. f_equal. apply IH; [lia|done].
  Qed.
  Lemma sort_aok a ids ss na : length ss = length ids → (∀ c u, (c, u) ∈ ss → uv_ti u = tyi w0 c ∧ ubytes u = 0) →
    sort_archetype a ids ss = Some na → aok w0 na ∧ abytes na = 0.
  Proof.
    intros Hl Hs. rewrite /sort_archetype. destruct (zip_ids_agree _ _) eqn:Hz; [|done]. intros [= <-].
    apply zip_ids_agree_eq in Hz; [|by rewrite !sort_by_length]. split; [constructor|].
    - done.
    - cbn. intros c u Hcu. apply elem_of_sort_by in Hcu. by apply Hs.
    - rewrite /abytes /=. apply sum_zero. intros [c u] Hcu. apply elem_of_sort_by in Hcu. by apply (Hs c u).
  Qed.
  Lemma ubytes_new ti : ubytes (uv_new ti) = 0.
  Proof. rewrite /ubytes. by case_decide. Qed.
  Lemma from_with_aok a c ti na : aok w0 a → ti = tyi w0 c → from_archetype_with a ti c = Some na → aok w0 na ∧ abytes na = 0.
  Proof.
    intros [Hi Ht] -> H. rewrite /from_archetype_with in H. destruct (_ !! c); [done|].
    eapply sort_aok; [| |exact H].
    - cbn. by rewrite !app_length fmap_length -Hi fmap_length.
    - intros d u [Hd|Hd]%elem_of_app.
      + apply elem_of_from_archetype in Hd as Hd'. cbn in Hd. apply elem_of_list_fmap in Hd as ([d' u'] & [= -> ->] & Hin). split; [exact (Ht _ _ Hin)|apply ubytes_new].
      + apply elem_of_list_singleton in Hd as [= -> ->]. split; [done|apply ubytes_new].
  Qed.
  Lemma elem_of_delete_sub {A} (l : list A) i x : x ∈ delete i l → x ∈ l.
  Proof. revert i. induction l as [|y l IH]; intros [|i]; cbn; [done..| |]; [by right|]. rewrite !elem_of_cons. naive_solver. Qed.
  Lemma from_without_aok a c na : aok w0 a → from_archetype_without a c = Some na → aok w0 na ∧ abytes na = 0.
  Proof.
    intros [Hi Ht] H. rewrite /from_archetype_without in H. destruct (_ !! c) as [i|]; [|done]. case_decide as Hd; [|done].
    eapply sort_aok; [| |exact H].
    - cbn in *. rewrite !length_delete; [|apply lookup_lt_is_Some; lia..]. by rewrite fmap_length -Hi fmap_length.
    - intros d u Hu. apply elem_of_delete_sub in Hu. cbn in Hu. apply elem_of_list_fmap in Hu as ([d' u'] & [= -> ->] & Hin). split; [exact (Ht _ _ Hin)|apply ubytes_new].
  Qed.

  (** ** Moving elements *)
  Lemma bounded_set_storage T T' k a i c u u' w : B T w → w_archs w !! k = Some a → a_storages a !! i = Some (c, u) →
    uv_ti u' = uv_ti u → wbytes w + ubytes u' ≤ T' + ubytes u →
    B T' (set_archs (<[k := a_set_storages (<[i := (c, u')]> (a_storages a)) a]> (w_archs w)) w) ∧
    arch_ids (set_archs (<[k := a_set_storages (<[i := (c, u')]> (a_storages a)) a]> (w_archs w)) w) = arch_ids w.
  Proof.
    intros [H1 H2 H3 H4] Ha Hi Hti Hle. split.
    - constructor; [done..| |].
      + rewrite /wbytes /=. pose proof (sum_insert abytes _ _ _ (a_set_storages (<[i := (c, u')]> (a_storages a)) a) Ha) as E.
        assert (abytes (a_set_storages (<[i := (c, u')]> (a_storages a)) a) + ubytes u = abytes a + ubytes u') as Ea.
        { rewrite /abytes /=. exact (sum_insert (λ s : ecsid * uvec, ubytes s.2) _ _ _ (c, u') Hi). }
        rewrite /wbytes in Hle. lia.
      + intros k' b. cbn. destruct (decide (k' = k)) as [->|Hne].
        * rewrite list_lookup_insert; [|by eapply lookup_lt_Some]. intros [= <-]. destruct (H4 _ _ Ha) as [Hs Ht]. constructor; cbn.
          -- rewrite -Hs list_fmap_insert list_insert_id //. by rewrite list_lookup_fmap Hi.
          -- intros d v Hd. apply elem_of_list_lookup in Hd as [j Hj]. destruct (decide (j = i)) as [->|Hji].
             ++ rewrite list_lookup_insert in Hj; [|by eapply lookup_lt_Some]. injection Hj as <- <-. rewrite Hti. apply Ht. by eapply elem_of_list_lookup_2.
             ++ rewrite list_lookup_insert_ne // in Hj. apply Ht. by eapply elem_of_list_lookup_2.
        * rewrite list_lookup_insert_ne //. apply H4.
    - rewrite /arch_ids /= list_fmap_insert list_insert_id //. by rewrite list_lookup_fmap Ha.
  Qed.
  Lemma storage_ubytes w k a i c u : w_archs w !! k = Some a → a_storages a !! i = Some (c, u) → ubytes u ≤ abytes a.
  Proof. intros _ Hi. exact (sum_lookup (λ s : ecsid * uvec, ubytes s.2) _ _ _ Hi). Qed.
  Lemma two_archs w k k' a a' : k ≠ k' → w_archs w !! k = Some a → w_archs w !! k' = Some a' → abytes a + abytes a' ≤ wbytes w.
  Proof.
    intros Hne Ha Ha'. rewrite /wbytes. pose (z := Archetype ∅ [] [] [] rc_new).
    pose proof (sum_insert abytes _ _ _ z Ha) as E. change (abytes z) with 0 in E.
    assert (<[k := z]> (w_archs w) !! k' = Some a') as H' by by rewrite list_lookup_insert_ne.
    pose proof (sum_lookup abytes _ _ _ H'). lia.
  Qed.
  Lemma quiet_move T k L cur i tar j row : small T → cur ≠ tar → quiet (BL T k L) (move_element cur i tar j row) (λ _, BL T k L).
  Proof.
    intros HT Hne w [Hw HL]. rewrite /move_element. destruct (w_archs w !! cur) as [ca|] eqn:Hca; [|done].
    destruct (w_archs w !! tar) as [ta|] eqn:Hta; [|done]. destruct (a_storages ca !! i) as [[ci cv]|] eqn:Hci; [|done].
    destruct (a_storages ta !! j) as [[ti tv]|] eqn:Hti; [|done].
    pose proof (two_archs _ _ _ _ _ Hne Hca Hta) as H2. pose proof (storage_ubytes _ _ _ _ _ _ Hca Hci) as Hc. pose proof (storage_ubytes _ _ _ _ _ _ Hta Hti) as Ht.
    pose proof (bd_bytes _ _ _ Hw) as Hbw.
    assert (layout_wf (ti_layout (uv_ti tv))) as Hwf.
    { rewrite (ao_ti _ _ (bd_archs _ _ _ Hw _ _ Hta) _ _ (elem_of_list_lookup_2 _ _ _ Hti)). by apply (tyi_wf _ R0). }
    pose proof (uv_swap_move_quiet cv tv row Hwf) as Hm. destruct (uv_swap_move row (cv, tv)) as [[] [cv' tv'] ev|r [cv' tv'] ev| |]; [| |done..].
    2:{ apply Hm. rewrite /small in HT |- *. lia. }
    destruct Hm as (E1 & E2 & Hsum). { rewrite /small in HT |- *. lia. }
    set (w1 := set_archs (<[cur := a_set_storages (<[i := (ci, cv')]> (a_storages ca)) ca]> (w_archs w)) w).
    destruct (bounded_set_storage T (wbytes w1) cur ca i ci cv cv' w Hw Hca Hci E1) as [Hw1 HL1].
    { rewrite /w1 /wbytes /=. pose proof (sum_insert abytes _ _ _ (a_set_storages (<[i := (ci, cv')]> (a_storages ca)) ca) Hca) as E.
      pose proof (sum_insert (λ s : ecsid * uvec, ubytes s.2) _ _ _ (ci, cv') Hci) as E'. cbn in E'. rewrite /abytes in E |- *. cbn in E |- *. lia. }
    fold w1 in Hw1, HL1.
    assert (wbytes w1 + ubytes cv = wbytes w + ubytes cv') as Hb1.
    { rewrite /w1 /wbytes /=. pose proof (sum_insert abytes _ _ _ (a_set_storages (<[i := (ci, cv')]> (a_storages ca)) ca) Hca) as E.
      pose proof (sum_insert (λ s : ecsid * uvec, ubytes s.2) _ _ _ (ci, cv') Hci) as E'. cbn in E'. rewrite /abytes in E |- *. cbn in E |- *. lia. }
    assert (w_archs w1 !! tar = Some ta) as Hta1. { rewrite /w1 /=. by rewrite list_lookup_insert_ne. }
    destruct (bounded_set_storage _ T tar ta j ti tv tv' w1 Hw1 Hta1 Hti E2) as [Hw2 HL2]; [lia|].
    split; [exact Hw2|]. transitivity (arch_ids w1 !! k); [|by rewrite HL1]. by rewrite -HL2.
  Qed.
  Lemma quiet_storage_id T k L j : quiet (BL T k L) (storage_id k j) (λ c w, BL T k L w ∧ L !! j = Some c).
  Proof.
    rewrite /storage_id. eapply quiet_bind; [apply quiet_get_arch|]. intros a. cbn beta. eapply quiet_bind; [by apply quiet_unwrap|]. intros s. cbn beta.
    apply quiet_ret. intros w [[[Hw HL] Ha] Hs]. split; [done|]. apply arch_ids_lookup in HL as (a' & Ha' & <-). assert (a' = a) as -> by congruence.
    rewrite -(ao_ids _ _ (bd_archs _ _ _ Hw _ _ Ha)) list_lookup_fmap Hs. done.
  Qed.
  Lemma quiet_add_zip T L c cur tar row ncur : small T → cur ≠ tar → ∀ js i sk, (∀ j, sk = Some j → L !! j = Some c) →
    quiet (BL T tar L) (add_zip c cur tar row ncur i js sk) (λ o w, BL T tar L w ∧ ∀ j, o = Some j → L !! j = Some c).
  Proof.
    intros HT Hne js. induction js as [|j js IH]; intros i sk Hsk; cbn [add_zip].
    { destruct (decide _); by apply quiet_ret. }
    destruct (decide _); [by apply quiet_ret|]. eapply quiet_bind; [apply quiet_storage_id|]. intros tid. cbn beta.
    apply quiet_pure. intros Hj. destruct (decide (tid = c)) as [->|Hc].
    - eapply quiet_bind; [by apply quiet_massert|]. intros ?. cbn beta. eapply quiet_mono; [apply (IH i (Some j))| |].
      + by intros ? [= <-].
      + by intros s [? _].
      + done.
    - eapply quiet_bind; [by apply quiet_move|]. intros ?. by apply IH.
  Qed.
  Lemma quiet_rem_zip T c cur tar row ntar k L : small T → cur ≠ tar → ∀ is_ j sk,
    quiet (BL T k L) (rem_zip c cur tar row ntar is_ j sk) (λ _, BL T k L).
  Proof.
    intros HT Hne is_. induction is_ as [|i is_ IH]; intros j sk; cbn [rem_zip]; [by apply quiet_ret|].
    eapply quiet_bind.
    { apply (quiet_read _ (storage_id cur i)); [rewrite /storage_id; calm|]. intros s a s' ev H. rewrite /storage_id in H.
      apply bind_done_inv in H as (x & s1 & ev1 & ev2 & H1 & H & _). apply get_arch_inv in H1 as [_ ->].
      apply bind_done_inv in H as (y & s2 & ev3 & ev4 & H1 & H & _). apply unwrap_inv in H1 as [_ ->]. by injection H. }
    intros cid. cbn beta. destruct (decide _).
    - eapply quiet_bind; [by apply quiet_massert|]. intros ?. cbn beta. eapply quiet_mono; [apply IH|by intros s [? _]|done].
    - destruct (decide _); [by apply quiet_ret|]. eapply quiet_bind; [by apply quiet_move|]. intros ?. apply IH.
  Qed.
  Lemma quiet_push T k L i c src : L !! i = Some c → small (T + ti_size (tyi w0 c)) →
    quiet (BL T k L) (in_arch k (in_storage i (uv_push_raw src))) (λ _, BL (T + ti_size (tyi w0 c)) k L).
  Proof.
    intros HLi Hs w [Hw HL]. rewrite /in_arch /zoom. destruct (w_archs w !! k) as [a|] eqn:Ha; [|done].
    rewrite /in_storage /zoom. destruct (a_storages a !! i) as [[c' u]|] eqn:Hi; [|done]. cbn [fmap option_fmap option_map snd].
    apply arch_ids_lookup in HL as HL'. destruct HL' as (a' & Ha' & HLa). assert (a' = a) as -> by congruence.
    pose proof (bd_archs _ _ _ Hw _ _ Ha) as Hok.
    assert (c' = c) as ->. { rewrite -HLa -(ao_ids _ _ Hok) list_lookup_fmap Hi in HLi. by injection HLi. }
    pose proof (ao_ti _ _ Hok _ _ (elem_of_list_lookup_2 _ _ _ Hi)) as Hti.
    pose proof (storage_ubytes _ _ _ _ _ _ Ha Hi) as H1. pose proof (sum_lookup abytes _ _ _ Ha) as H2. pose proof (bd_bytes _ _ _ Hw) as H3. rewrite /wbytes in H3.
    assert (uv_size u = ti_size (tyi w0 c)) as Hsz by by rewrite /uv_size Hti.
    pose proof (uv_push_quiet u src) as Hp. destruct (uv_push_raw src u) as [[] u' ev|r u' ev| |]; [| |done..].
    2:{ apply Hp; [rewrite Hti; by apply (tyi_wf _ R0)|]. rewrite /small in Hs |- *. lia. }
    destruct Hp as [Et Eb]; [rewrite Hti; by apply (tyi_wf _ R0)|rewrite /small in Hs |- *; lia|].
    assert (alter (λ s : ecsid * uvec, (s.1, u')) i (a_storages a) = <[i := (c, u')]> (a_storages a)) as ->.
    { apply list_eq. intros j. destruct (decide (j = i)) as [->|Hne].
      - rewrite list_lookup_alter Hi list_lookup_insert //. by eapply lookup_lt_Some.
      - rewrite list_lookup_alter_ne // list_lookup_insert_ne //. }
    destruct (bounded_set_storage T (T + ti_size (tyi w0 c)) k a i c u u' w Hw Ha Hi Et) as [Hb1 HL1].
    { pose proof (bd_bytes _ _ _ Hw). lia. }
    split; [exact Hb1|]. by rewrite HL1.
  Qed.

  (** ** Adding and removing *)
  Lemma calm_push_row tar e : calm (push_row tar e).
  Proof. rewrite /push_row. calm. Qed.
  Lemma calm_remove_row cur row : calm (remove_row cur row).
  Proof. rewrite /remove_row. calm. Qed.
  Lemma quiet_alive P e : quiet P (is_alive e) (λ b w, P w ∧ ents_is_alive (w_ents w) e = Some b).
  Proof. intros w Hw. rewrite /is_alive /bind /=. destruct (ents_is_alive (w_ents w) e) eqn:E; [|done]. by cbn. Qed.
  Definition T0 : nat := wbytes w0.
  Lemma meta_tyi T w c cm : B T w → get_entity_meta c w = Done (Some cm) w [] → cm_type_info (em_comp cm) = tyi w0 c.
  Proof.
    intros Hw Hm. pose proof (get_entity_meta_cases w c) as Hc. rewrite Hm in Hc.
    destruct Hc as (_ & _ & lv & El & Ho). destruct lv; [|done]. by rewrite /tyi /comp_of /meta_at -(bd_meta _ _ _ Hw) -/(meta_at w (uindex c)) -Ho.
  Qed.
  Lemma quiet_add e c src : (alive (w_ents w0) c → small (T0 + ti_size (tyi w0 c))) → small T0 →
    quiet (B T0) (add_component_with_data e c src) (λ _ _, True).
  Proof.
    intros Hsc Hs0. rewrite /add_component_with_data.
    eapply quiet_bind; [apply quiet_is_alive|]. intros b1. cbn beta. destruct (negb b1); [by apply quiet_ret|].
    eapply quiet_bind; [apply quiet_alive|]. intros b2. cbn beta. destruct b2; [|by apply quiet_ret]. cbn [negb].
    apply (quiet_mono _ (λ w, B T0 w ∧ small (T0 + ti_size (tyi w0 c))) _ _ (λ _ _, True)); [|intros w [Hw Hal]; split; [done|]; apply Hsc; rewrite /alive -(bd_ents _ _ _ Hw); done|done].
    apply quiet_pure. intros Hs.
    eapply quiet_bind; [apply (quiet_read (B T0) (get_entity_meta e)); [apply calm_get_entity_meta|intros s a s' ev H; by apply get_meta_inv in H as [-> _]]|].
    intros om. cbn beta. eapply quiet_bind; [by apply quiet_unwrap|]. intros m. cbn beta. cbv zeta.
    generalize (im_arch (em_inst m)) (im_index (em_inst m)). intros cur row. apply quiet_pure. intros _.
    eapply quiet_bind; [apply quiet_get_arch|]. intros a. cbn beta.
    apply (quiet_mono _ (BL T0 cur (a_comp_ids a)) _ _ (λ _ _, True)); [|intros w [Hw Ha]; split; [done|]; apply arch_ids_lookup; eauto|done].
    eapply quiet_bind; [by apply quiet_massert|]. intros ?. cbn beta. apply quiet_pure. intros _.
    eapply quiet_bind; [apply quiet_cache, calm_rc_lookup|]. intros cached. cbn beta.
    eapply quiet_bind with (Q := λ _, BL T0 cur (a_comp_ids a)).
    { destruct cached as [k|]; [by apply quiet_ret|]. eapply quiet_bind; [apply quiet_find_plus|]. intros [k|]; cbn beta; [|by apply quiet_ret].
      eapply quiet_bind; [apply quiet_cache, calm_rc_insert|]. intros ?. by apply quiet_ret. }
    intros found. cbn beta.
    eapply quiet_bind with (Q := λ _, B T0).
    { destruct found as [k|]; [apply quiet_ret; by intros w [? _]|].
      eapply quiet_bind; [apply quiet_ensure_lock|]. intros ?. cbn beta.
      eapply quiet_bind; [apply quiet_get_meta|]. intros ocm. cbn beta.
      eapply quiet_bind; [by apply quiet_unwrap|]. intros cm. cbn beta.
      eapply quiet_bind; [apply quiet_get_arch|]. intros ca1. cbn beta.
      eapply quiet_bind; [by apply quiet_unwrap|]. intros na. cbn beta.
      apply (quiet_mono _ (λ w, BL T0 cur (a_comp_ids a) w ∧ aok w0 na ∧ abytes na = 0) _ _ (λ _, B T0)); [| |done].
      2:{ intros w [[[[[Hw HL] Hm] ->] Hca1] Hna]. split; [done|]. eapply from_with_aok; [by eapply bd_archs| |exact Hna].
          by eapply meta_tyi. }
      apply quiet_pure. intros [Hok H0]. eapply quiet_bind; [by apply quiet_push_arch|]. intros n. cbn beta.
      eapply quiet_bind; [|intros ?; apply quiet_ret; intros w Hw; exact Hw].
      eapply quiet_mono; [apply (quiet_cache T0 cur (a_comp_ids a)), calm_rc_insert|..].
      - intros w [Hx _]. by rewrite H0 Nat.add_0_r in Hx.
      - by intros ? w [? _]. }
    intros tar. cbn beta.
    eapply quiet_bind; [apply quiet_gets|]. intros archs. cbn beta.
    eapply quiet_bind; [by apply quiet_unwrap|]. intros [ca ta]. cbn beta iota.
    apply (quiet_mono _ (λ w, BL T0 tar (a_comp_ids ta) w ∧ cur ≠ tar ∧ length (a_storages ta) = length (a_comp_ids ta)) _ _ (λ _ _, True)); [| |done].
    2:{ intros w [[Hw ->] Hit]. apply index_twice_spec in Hit as (Hne & Hca & Hta). split_and!; [split; [done|]; apply arch_ids_lookup; eauto|done|].
        rewrite -(ao_ids _ _ (bd_archs _ _ _ Hw _ _ Hta)). by rewrite fmap_length. }
    apply quiet_pure. intros [Hne Hlen].
    eapply quiet_bind; [by apply quiet_add_zip|]. intros sk. cbn beta. apply quiet_pure. intros Hsk.
    eapply quiet_bind with (Q := λ j w, BL T0 tar (a_comp_ids ta) w ∧ a_comp_ids ta !! j = Some c).
    { destruct sk as [j|]; [apply quiet_ret; auto|]. eapply quiet_bind; [by apply quiet_unwrap|]. intros l. cbn beta.
      eapply quiet_bind; [by apply quiet_massert|]. intros ?. cbn beta. apply quiet_ret. intros w [[Hw Hl] Hb]. split; [done|].
      apply bool_decide_eq_true in Hb as ->. rewrite last_lookup in Hl. by rewrite Hlen -Nat.sub_1_r in Hl |- *. }
    intros j. cbn beta. apply quiet_pure. intros Hj.
    eapply quiet_bind; [by apply (quiet_push T0 tar (a_comp_ids ta) j c)|]. intros ?.
    apply quiet_calm. apply calm_bind; [apply calm_push_row|intros ?; apply calm_remove_row].
  Qed.
  Lemma quiet_remove e c : small T0 → quiet (B T0) (remove_component_dynamic e c) (λ _ _, True).
  Proof.
    intros Hs0. rewrite /remove_component_dynamic.
    eapply quiet_bind; [apply quiet_is_alive|]. intros b1. cbn beta. destruct (negb b1); [by apply quiet_ret|].
    eapply quiet_bind; [apply quiet_is_alive|]. intros b2. cbn beta. destruct (negb b2); [by apply quiet_ret|].
    eapply quiet_bind; [apply (quiet_read (B T0) (get_entity_meta e)); [apply calm_get_entity_meta|intros s a s' ev H; by apply get_meta_inv in H as [-> _]]|].
    intros om. cbn beta. eapply quiet_bind; [by apply quiet_unwrap|]. intros m. cbn beta. cbv zeta.
    generalize (im_arch (em_inst m)) (im_index (em_inst m)). intros cur row. apply quiet_pure. intros _.
    eapply quiet_bind; [apply quiet_get_arch|]. intros a. cbn beta.
    apply (quiet_mono _ (BL T0 cur (a_comp_ids a)) _ _ (λ _ _, True)); [|intros w [Hw Ha]; split; [done|]; apply arch_ids_lookup; eauto|done].
    eapply quiet_bind; [by apply quiet_massert|]. intros ?. cbn beta. apply quiet_pure. intros _.
    eapply quiet_bind; [apply quiet_cache, calm_rc_lookup|]. intros cached. cbn beta.
    eapply quiet_bind with (Q := λ _, BL T0 cur (a_comp_ids a)).
    { destruct cached as [k|]; [by apply quiet_ret|]. eapply quiet_bind; [apply quiet_find_minus|]. intros [k|]; cbn beta; [|by apply quiet_ret].
      eapply quiet_bind; [apply quiet_cache, calm_rc_insert|]. intros ?. by apply quiet_ret. }
    intros found. cbn beta.
    eapply quiet_bind with (Q := λ _, BL T0 cur (a_comp_ids a)).
    { destruct found as [k|]; [by apply quiet_ret|].
      eapply quiet_bind; [apply quiet_get_arch|]. intros ca1. cbn beta.
      eapply quiet_bind; [by apply quiet_unwrap|]. intros na. cbn beta.
      apply (quiet_mono _ (λ w, BL T0 cur (a_comp_ids a) w ∧ aok w0 na ∧ abytes na = 0) _ _ (λ _, BL T0 cur (a_comp_ids a))); [| |done].
      2:{ intros w [[[Hw HL] Hca1] Hna]. split; [done|]. eapply from_without_aok; [by eapply bd_archs|exact Hna]. }
      apply quiet_pure. intros [Hok H0]. eapply quiet_bind; [by apply quiet_push_arch|]. intros n. cbn beta.
      eapply quiet_bind; [|intros ?; apply quiet_ret; intros w Hw; exact Hw].
      eapply quiet_mono; [apply (quiet_cache T0 cur (a_comp_ids a)), calm_rc_insert|..].
      - intros w [Hx _]. by rewrite H0 Nat.add_0_r in Hx.
      - done. }
    intros tar. cbn beta.
    eapply quiet_bind; [apply quiet_gets|]. intros archs. cbn beta.
    eapply quiet_bind; [by apply quiet_unwrap|]. intros [ca ta]. cbn beta iota.
    apply (quiet_mono _ (λ w, BL T0 cur (a_comp_ids a) w ∧ cur ≠ tar) _ _ (λ _ _, True)); [| |done].
    2:{ intros w [[Hw ->] Hit]. by apply index_twice_spec in Hit as (Hne & Hca & Hta). }
    apply quiet_pure. intros Hne.
    eapply quiet_bind; [by apply quiet_rem_zip|]. intros sk.
    apply quiet_calm. apply calm_bind; [destruct sk; calm|]. intros j. apply calm_bind; [calm|]. intros ?.
    apply calm_bind; [apply calm_push_row|intros ?; apply calm_remove_row].
  Qed.

  (** ** Building *)
  Lemma elems_len_state u n u' ev : uv_elems_len u = Done n u' ev → u' = u.
  Proof. rewrite /uv_elems_len /bind /=. destruct (decide _); [by intros [= _ <- _]|]. destruct (bool_decide _); cbn; [by intros [= _ <- _]|done]. Qed.
  Definition given_size (D : list (ecsid * value)) : nat := sum_list_with (λ p : ecsid * value, ti_size (tyi w0 p.1)) D.
  Lemma quiet_push_given k L D : ∀ T, small (T + given_size D) →
    quiet (λ w, BL T k L w ∧ ∀ a, w_archs w !! k = Some a → ∀ c i, a_lookup a !! c = Some i → L !! i = Some c)
      (push_given k D) (λ _ w, wbytes w ≤ T + given_size D).
  Proof.
    induction D as [|[c v] D IH]; intros T Hs; cbn [push_given].
    { apply quiet_ret. intros w [[Hw _] _]. pose proof (bd_bytes _ _ _ Hw). cbn. lia. }
    change (small (T + (ti_size (tyi w0 c) + given_size D))) in Hs.
    eapply quiet_bind; [apply quiet_get_meta|]. intros ocm. cbn beta.
    eapply quiet_bind; [by apply quiet_unwrap|]. intros cm. cbn beta.
    eapply quiet_bind; [apply quiet_get_arch|]. intros a. cbn beta.
    eapply quiet_bind; [by apply quiet_unwrap|]. intros si. cbn beta.
    apply (quiet_mono _ (λ w, (BL T k L w ∧ w_archs w !! k = Some a) ∧
       (L !! si = Some c ∧ ∀ c i, a_lookup a !! c = Some i → L !! i = Some c)) _ _ (λ _ w, wbytes w ≤ T + given_size ((c, v) :: D))); [| |done].
    2:{ intros w [[[[[Hw Hlk] ?] ?] Ha] Hsi]. split_and!; [done|done|by eapply Hlk|by apply Hlk]. }
    apply quiet_pure. intros [Hsi Hlk].
    assert (∀ {A} i (m : M uvec A) (w : world) x w' ev, w_archs w !! k = Some a → in_arch k (in_storage i m) w = Done x w' ev → ∃ a', w_archs w' !! k = Some a' ∧ a_lookup a' = a_lookup a) as Hkeep.
    { intros A i m w x w' ev Ha. rewrite /in_arch /zoom Ha /in_storage /zoom. destruct (_ <$> _); [|done]. destruct (m _); [|done..].
      intros [= _ <- _]. cbn. rewrite list_lookup_insert; [eauto|by eapply lookup_lt_Some]. }
    eapply quiet_bind with (Q := λ _ w, BL (T + ti_size (tyi w0 c)) k L w ∧ ∃ a', w_archs w !! k = Some a' ∧ a_lookup a' = a_lookup a).
    { intros w [Hw Ha]. pose proof (quiet_push T k L si c v Hsi) as Hp. specialize (Hp ltac:(rewrite /small in Hs |- *; lia) w Hw).
      destruct (in_arch k _ w) as [x w' ev| | |] eqn:E; [|done..]. split; [done|]. by eapply Hkeep. }
    intros ?. cbn beta.
    eapply quiet_bind with (Q := λ _ w, BL (T + ti_size (tyi w0 c)) k L w ∧ ∃ a', w_archs w !! k = Some a' ∧ a_lookup a' = a_lookup a).
    { apply quiet_read; [rewrite /uv_elems_len; calm|]. intros w x w' ev. rewrite /in_arch /zoom. destruct (w_archs w !! k) as [b|] eqn:Hb; [|done].
      rewrite /in_storage /zoom. destruct (a_storages b !! si) as [[d u]|] eqn:Hi; [|done]. cbn [fmap option_fmap option_map snd].
      destruct (uv_elems_len u) as [n u' ev'| | |] eqn:E; [|done..]. intros [= _ <- _].
      assert (u' = u) as -> by by eapply elems_len_state.
      assert (alter (λ s : ecsid * uvec, (s.1, u)) si (a_storages b) = a_storages b) as ->.
      { rewrite -{2}(list_alter_id id (a_storages b) si); [|done]. apply list_alter_ext; [|done]. intros p Hp. rewrite Hi in Hp. by injection Hp as <-. }
      rewrite a_set_storages_id list_insert_id //. by destruct w. }
    intros n. cbn beta. eapply quiet_bind; [by apply quiet_massert|]. intros ?. cbn beta. apply quiet_pure. intros _.
    eapply quiet_mono; [apply (IH (T + ti_size (tyi w0 c)))| |].
    - rewrite /small in Hs |- *. lia.
    - intros w [Hw (a' & Ha' & El)]. split; [done|]. intros b Hb. assert (b = a') as -> by congruence. by rewrite El.
    - intros ? w Hx. cbn beta in Hx. change (given_size ((c, v) :: D)) with (ti_size (tyi w0 c) + given_size D). lia.
  Qed.
  Lemma quiet_on_unwind {S A} P (m : M S A) cl Q : quiet P m Q → quiet P (on_unwind m cl) Q.
  Proof. intros H s Hs. specialize (H s Hs). rewrite /on_unwind. destruct (m s); try done. by destruct cl. Qed.
  Definition sbytes (ss : list (ecsid * uvec)) : nat := sum_list_with (λ s : ecsid * uvec, ubytes s.2) ss.
  Definition styped (ss : list (ecsid * uvec)) : Prop := ∀ c u, (c, u) ∈ ss → uv_ti u = tyi w0 c.
  Lemma quiet_create_given T D : ∀ acc, small (given_size D) → styped acc →
    quiet (B T) (create_given D acc) (λ ss w, B T w ∧ styped ss ∧ length ss = length acc + length D ∧ sbytes ss = sbytes acc + given_size D).
  Proof.
    induction D as [|[c v] D IH]; intros acc Hs Hacc; cbn [create_given].
    { apply quiet_ret. intros w Hw. cbn. split_and!; [done..|lia|lia]. }
    change (small (ti_size (tyi w0 c) + given_size D)) in Hs.
    eapply quiet_bind with (Q := λ u w, B T w ∧ uv_ti u = tyi w0 c ∧ ubytes u = ti_size (tyi w0 c)).
    { apply quiet_on_unwind. eapply quiet_bind; [apply quiet_get_meta|]. intros ocm. cbn beta.
      eapply quiet_bind; [by apply quiet_unwrap|]. intros cm. cbn beta. intros w [[Hw Hm] ->].
      rewrite (meta_tyi _ _ _ _ Hw Hm). pose proof (uv_push_quiet (uv_new (tyi w0 c)) v) as Hp.
      destruct (uv_push_raw v (uv_new (tyi w0 c))) as [x u ev|r u ev| |]; cbn; [| |done..].
      - destruct Hp as [H1 H2]; [by eapply tyi_wf|rewrite ubytes_new /uv_size /=; rewrite /small in Hs |- *; lia|].
        rewrite ubytes_new in H2. done.
      - apply Hp; [by eapply tyi_wf|]. rewrite ubytes_new /uv_size /=. rewrite /small in Hs |- *. lia. }
    intros u. cbn beta. apply quiet_pure. intros [Hti Hu].
    eapply quiet_mono; [apply IH| |].
    - rewrite /small in Hs |- *. lia.
    - intros c' u' [H|H]%elem_of_app; [by apply Hacc|]. apply elem_of_list_singleton in H. by simplify_eq.
    - by intros w Hw.
    - intros ss w (H1 & H2 & H3 & H4). rewrite app_length /= in H3. rewrite /sbytes sum_app /= Hu in H4.
      change (given_size ((c, v) :: D)) with (ti_size (tyi w0 c) + given_size D). rewrite /sbytes. cbn [length].
      split_and!; [done..|lia|lia].
  Qed.
  Lemma quiet_push_arch_bytes T na : quiet (B T) (push_archetype na) (λ _ w, wbytes w ≤ T + abytes na).
  Proof.
    rewrite /push_archetype.
    assert (∀ ids n, quiet (B T) (set_arch_bits ids n) (λ _, B T)) as Hbits.
    { intros ids n. induction ids as [|c ids IH]; cbn [set_arch_bits]; [by apply quiet_ret|].
      eapply quiet_bind; [apply quiet_gets|]. intros o. cbn beta. eapply quiet_bind; [by apply quiet_unwrap|]. intros bs. cbn beta.
      eapply quiet_bind; [|intros ?; apply IH]. apply quiet_modify. intros w [[Hw ?] ?]. by apply (bounded_archs w0 T w). }
    eapply quiet_bind; [apply quiet_gets|]. intros n. cbn beta.
    eapply quiet_bind; [eapply quiet_mono; [apply Hbits|by intros w [? _]|intros a w Hx; exact Hx]|]. intros ?. cbn beta.
    eapply quiet_bind; [apply quiet_gets|]. intros o. cbn beta. eapply quiet_bind; [by apply quiet_unwrap|]. intros eb. cbn beta.
    eapply quiet_bind; [apply (quiet_modify _ _ (λ _, B T)); intros w [[Hw ?] ?]; by apply (bounded_archs w0 T w)|]. intros ?. cbn beta.
    eapply quiet_bind; [|intros ?; apply quiet_ret; intros s Hs; exact Hs]. apply quiet_modify. intros w Hw.
    pose proof (bd_bytes _ _ _ Hw) as H3. rewrite /wbytes /= sum_app /=. rewrite /wbytes in H3. lia.
  Qed.
  Lemma quiet_set_meta T e m : quiet (λ w, wbytes w ≤ T) (set_entity_meta e m) (λ _ w, wbytes w ≤ T).
  Proof.
    rewrite /set_entity_meta. eapply quiet_bind; [apply quiet_is_alive|]. intros al. cbn beta.
    destruct al; [|by apply quiet_ret]. by apply quiet_modify.
  Qed.
  Lemma quiet_ensure_locks T ids : quiet (B T) (ensure_locks ids) (λ _, B T).
  Proof.
    induction ids as [|c ids IH]; cbn [ensure_locks]; [by apply quiet_ret|]. eapply quiet_bind; [|intros ?; exact IH].
    apply quiet_modify. intros w Hw. destruct (w_lock_lookup w !! c); [done|]. by apply (bounded_archs w0 T w).
  Qed.
  Lemma quiet_build_given D e meta : small (T0 + given_size D) →
    quiet (λ w, w = w0) (build_given D e meta) (λ _ w, wbytes w ≤ T0 + given_size D).
  Proof.
    intros Hs. rewrite /build_given. eapply quiet_bind; [apply quiet_find_archetype|]. intros [k|]; cbn beta iota.
    - destruct (w_archs w0 !! k) as [a|] eqn:Ha.
      2:{ intros w ->. by rewrite /bind /in_arch /zoom Ha. }
      eapply quiet_bind with (Q := λ _ w, BL T0 k (a_comp_ids a) w ∧
        ∀ a', w_archs w !! k = Some a' → ∀ c i, a_lookup a' !! c = Some i → a_comp_ids a !! i = Some c).
      { intros w ->. rewrite /in_arch /zoom Ha /=. split.
        - split; [eapply bounded_same; [by eapply bounded_winv|done..]|]. apply arch_ids_lookup. cbn. rewrite list_lookup_insert; [|by eapply lookup_lt_Some].
          eexists. split; [done|done].
        - intros a'. rewrite list_lookup_insert; [|by eapply lookup_lt_Some]. intros [= <-] c i. cbn. by apply (as_lookup _ (wi_shape _ _ Hw0 _ _ Ha)). }
      intros ?. cbn beta. eapply quiet_bind; [by apply quiet_push_given|]. intros ?. cbn beta.
      eapply quiet_bind; [apply quiet_get_arch|]. intros b. cbn beta.
      eapply quiet_bind; [|intros ?; apply quiet_ret; intros w Hx; exact Hx]. cbn beta.
      eapply quiet_mono; [apply quiet_set_meta|by intros w [? _]|done].
    - eapply quiet_bind; [eapply quiet_mono; [apply (quiet_ensure_locks T0)|intros w ->; by eapply bounded_winv|intros ? w Hx; exact Hx]|]. intros ?. cbn beta.
      eapply quiet_bind with (Q := λ na w, B T0 w ∧ abytes na = given_size D).
      { rewrite /create_arch_given. eapply quiet_bind.
        - apply quiet_create_given; [rewrite /small in Hs |- *; lia|]. intros c u Hc. by apply elem_of_nil in Hc.
        - intros ss. cbn beta. cbv zeta. eapply quiet_bind; [apply quiet_on_unwind; by apply quiet_unwrap|]. intros lk. cbn beta.
          eapply quiet_bind; [apply quiet_on_unwind; by apply quiet_massert|]. intros ?. cbn beta. apply quiet_ret.
          intros w [[(Hw & Hty & Hl & Hb) _] _]. split; [done|]. rewrite /abytes /=. rewrite (sum_perm _ _ ss); [done|]. apply sort_by_perm. }
      intros na. cbn beta. apply quiet_pure. intros Hna.
      eapply quiet_bind; [apply (quiet_push_arch_bytes T0)|]. intros n. cbn beta. rewrite Hna.
      eapply quiet_bind; [apply quiet_set_meta|]. intros ?. by apply quiet_ret.
  Qed.
End world.
