(** * What a panicking destructor leaves behind *)
From Verif Require Import ProofBase SpecSmall World Query History ProofEntities ProofBitset ProofArrayVec ProofUVec ProofLocks.
From Verif Require Export ProofDropPanicWorld.

(** *** The entities of the archetypes *)
Definition entk (w w' : world) : Prop :=
  (∀ k a, w_archs w !! k = Some a → ∃ a', w_archs w' !! k = Some a' ∧ a_entities a' = a_entities a) ∧
  w_ents w' = w_ents w ∧ w_types w' = w_types w ∧ w_reuse w' = w_reuse w.
Global Instance entk_preorder : PreOrder entk.
Proof.
  split.
  - intros w. split; [eauto|done].
  - intros w1 w2 w3 [H1 (E1 & E2 & E3)] [H2 (F1 & F2 & F3)]. split; [|split_and!; congruence].
    intros k a Ha. destruct (H1 _ _ Ha) as (a2 & Ha2 & <-). by apply H2.
Qed.
Lemma entk_insert w k a a' : w_archs w !! k = Some a → a_entities a' = a_entities a → entk w (set_archs (<[k := a']> (w_archs w)) w).
Proof.
  intros Ha He. split; [|done]. intros k' a0 Ha0. cbn. destruct (decide (k' = k)) as [->|Hne].
  - rewrite list_lookup_insert; [|by eapply lookup_lt_Some]. simplify_eq. eauto.
  - rewrite list_lookup_insert_ne //. eauto.
Qed.
Lemma entk_in_arch {A} k (m : M archetype A) : keeping (λ a a', a_entities a' = a_entities a) m → keeping entk (in_arch k m).
Proof.
  intros H w. rewrite /in_arch /zoom. destruct (w_archs w !! k) as [a|] eqn:Ha; [|reflexivity].
  specialize (H a). destruct (m a); [by eapply entk_insert..|done|done].
Qed.
Lemma entk_in_cache {A} (m : M arcache A) : keeping (λ a a', a_entities a' = a_entities a) (in_cache m).
Proof. intros a. rewrite /in_cache /zoom. by destruct (m (a_cache a)). Qed.
Lemma entk_in_storage {A} i (m : M uvec A) : keeping (λ a a', a_entities a' = a_entities a) (in_storage i m).
Proof. intros a. rewrite /in_storage /zoom. destruct (snd <$> a_storages a !! i); [|done]. by destruct (m u). Qed.
Create HintDb entk.
Ltac entk1 :=
  lazymatch goal with
  | |- keeping _ (bind _ _) => apply keeping_bind; [apply _| |intros ?]
  | |- keeping _ (ret _) => apply keeping_ret; apply _
  | |- keeping _ (panic _) => apply keeping_panic; apply _
  | |- keeping _ ub => apply keeping_ub; apply _
  | |- keeping _ (gets _) => apply keeping_gets; apply _
  | |- keeping _ (massert _ _) => apply keeping_massert; apply _
  | |- keeping _ (unwrap _ _) => apply keeping_unwrap; apply _
  | |- keeping _ (or_ub _) => apply keeping_or_ub; apply _
  | |- keeping _ (in_arch _ (in_cache _)) => apply entk_in_arch, entk_in_cache
  | |- keeping _ (in_arch _ (in_storage _ _)) => apply entk_in_arch, entk_in_storage
  | |- keeping entk (modify _) => apply keeping_modify; [apply _|intros; by (split; [eauto|done])]
  | |- keeping _ (if ?b then _ else _) => destruct b
  | |- keeping _ (match ?x with _ => _ end) => destruct x
  | |- keeping _ (let _ := _ in _) => cbv zeta
  end.
Ltac entk := repeat (entk1 || eauto with entk).
Lemma entk_find_sized fuel it n : keeping entk (find_sized fuel it n).
Proof. revert it. induction fuel as [|fuel IH]; intros it; cbn [find_sized]; rewrite ?/get_arch; entk. Qed.
Global Hint Resolve entk_find_sized : entk.
Lemma entk_find_minus_id ids c : keeping entk (find_minus_id ids c).
Proof. rewrite /find_minus_id /search /get_arch. entk. Qed.
Lemma entk_set_arch_bits ids n : keeping entk (set_arch_bits ids n).
Proof. induction ids as [|c ids IH]; cbn [set_arch_bits]; entk. Qed.
Lemma entk_get_arch k : keeping entk (get_arch k).
Proof. rewrite /get_arch. entk. Qed.
Global Hint Resolve entk_find_minus_id entk_set_arch_bits entk_get_arch : entk.
Lemma entk_push_archetype a : keeping entk (push_archetype a).
Proof.
  rewrite /push_archetype. entk1; [entk|]. entk1; [entk|]. entk1; [entk|]. entk1; [entk|]. entk1; [entk|]. entk1; [|entk].
  apply keeping_modify; [apply _|]. intros w. split; [|done]. intros k a' Ha. exists a'. split; [|done]. cbn. by apply lookup_app_l_Some.
Qed.
Lemma entk_move_element cur i tar j row : keeping entk (move_element cur i tar j row).
Proof.
  intros w. rewrite /move_element. destruct (w_archs w !! cur) as [ca|] eqn:Hc; [|reflexivity].
  destruct (w_archs w !! tar) as [ta|] eqn:Ht; [|reflexivity]. destruct (a_storages ca !! i) as [[ci cv]|]; [|reflexivity].
  destruct (a_storages ta !! j) as [[ti tv]|]; [|reflexivity].
  assert (∀ cv' tv', entk w (set_archs (<[tar := a_set_storages (<[j := (ti, tv')]> (a_storages ta)) ta]>
    (<[cur := a_set_storages (<[i := (ci, cv')]> (a_storages ca)) ca]> (w_archs w))) w)) as H.
  { intros cv' tv'. split; [|done]. intros k a Ha. cbn. destruct (decide (tar = k)) as [->|Hne].
    - rewrite Ht in Ha. simplify_eq. eexists. rewrite list_lookup_insert; [|rewrite insert_length; by eapply lookup_lt_Some]. done.
    - rewrite list_lookup_insert_ne //. destruct (decide (cur = k)) as [->|Hne'].
      + rewrite Hc in Ha. simplify_eq. eexists. rewrite list_lookup_insert; [|by eapply lookup_lt_Some]. done.
      + rewrite list_lookup_insert_ne //. eauto. }
  destruct (uv_swap_move row (cv, tv)) as [? [cv' tv'] ?|? [cv' tv'] ?| |]; [apply H..|done|done].
Qed.
Global Hint Resolve entk_push_archetype entk_move_element : entk.
Lemma entk_storage_id k j : keeping entk (storage_id k j).
Proof. rewrite /storage_id. entk. Qed.
Global Hint Resolve entk_storage_id : entk.
Lemma entk_rem_zip c cur tar row n is_ j sk : keeping entk (rem_zip c cur tar row n is_ j sk).
Proof. revert j sk. induction is_ as [|i is_ IH]; intros j sk; cbn [rem_zip]; entk. Qed.
Global Hint Resolve entk_rem_zip : entk.
Lemma keeping_done {S A} (P : S → S → Prop) (m : M S A) s a s' ev : keeping P m → m s = Done a s' ev → P s s'.
Proof. intros H E. specialize (H s). by rewrite E in H. Qed.

(** *** [remove_component_dynamic]: the panic comes before the entity changes its row *)
Lemma tracks_last_at {S A B} bomb (mb m : M S A) (k : A → M S B) s : tracks bomb eq mb m → (∀ a, mute (k a)) →
  tracks_at bomb (λ s1 s2, ∃ a b ev, m s = Done a s1 ev ∧ k a s1 = Done b s2 []) s (bind mb k) (bind m k).
Proof.
  intros Hm Hk. rewrite /tracks_at /bind. destruct (Hm s) as [[-> Hs]|(s1 & ev1 & -> & Hb & HG)].
  - left. split; [done|]. destruct (m s) as [a s1 ev|r s1 ev| |]; [|done..]. cbn in Hs. specialize (Hk a s1).
    destruct (k a s1); cbn in *; [subst|destruct Hk as [-> _]|done|done]; by rewrite app_nil_r.
  - right. exists s1, ev1. split_and!; [done| |].
    + destruct (m s) as [a s2 ev|r s2 ev| |]; cbn in *; [|done..]. destruct (k a s2); cbn; [by apply cut_off_app_l..|done|done].
    + intros b s3 ev E. destruct (m s) as [a s2 ev2|r s2 ev2| |] eqn:Em; [|done..]. rewrite (HG a s2 ev2 eq_refl).
      specialize (Hk a s2). destruct (k a s2) as [b' s4 ev4|? ? ?| |] eqn:Ek; [|done..]. cbn in *. subst ev4. simplify_eq. eauto 10.
Qed.
Lemma tracks_at_weaken {S A} bomb (G G' : S → S → Prop) s (mb m : M S A) :
  tracks_at bomb G s mb m → (∀ s1 s2, G s1 s2 → G' s1 s2) → tracks_at bomb G' s mb m.
Proof. intros [H|(s1 & ev1 & H1 & H2 & H3)] HG; [by left|right]. exists s1, ev1. split_and!; [done..|]. eauto. Qed.
Lemma index_twice_ne {A} i j (l : list A) p : index_twice i j l = Some p → i ≠ j.
Proof. rewrite /index_twice. intros H ->. by rewrite Nat.compare_refl in H. Qed.
Definition rest_run (w : world) (e : ecsid) (w1 w2 : world) : Prop :=
  ∃ tar cur row, cur ≠ tar ∧ located w e cur row ∧ entk w w1 ∧ (do* push_row tar e in remove_row cur row) w1 = Done () w2 [].
Lemma get_entity_meta_same w e o w' ev : get_entity_meta e w = Done o w' ev → w' = w.
Proof. intros E. pose proof (get_entity_meta_cases w e) as H. rewrite E in H. by destruct H. Qed.
Lemma is_alive_same w e o w' ev : is_alive e w = Done o w' ev → w' = w.
Proof. intros E. pose proof (is_alive_cases w e) as H. rewrite E in H. by destruct H. Qed.
Lemma tracks_remove bomb e c w : tracks_at bomb (rest_run w e) w (remove_component_dynamic_b bomb e c) (remove_component_dynamic e c).
Proof.
  rewrite /remove_component_dynamic_b /remove_component_dynamic.
  apply tracks_at_pre; [mute|]. intros al w0 ->%is_alive_same. destruct (negb al); [apply tracks_at_mute; mute|].
  apply tracks_at_pre; [mute|]. intros al' w0 ->%is_alive_same. destruct (negb al'); [apply tracks_at_mute; mute|].
  apply tracks_at_pre; [mute|]. intros om w0 E. pose proof (get_entity_meta_same _ _ _ _ _ E) as ->.
  apply tracks_at_pre; [mute|]. intros m w0 Eu. destruct om as [m'|]; [|done]. injection Eu as -> <-.
  assert (located w e (im_arch (em_inst m)) (im_index (em_inst m))) as Hloc. { rewrite /located E. by destruct (em_inst m). }
  revert Hloc. generalize (im_arch (em_inst m)) (im_index (em_inst m)). intros cur row Hloc. cbv zeta.
  assert (entk w w) as Hk by reflexivity. revert Hk. generalize w at 2 4. intros s Hk. clear E.
  apply tracks_at_pre; [mute|]. intros a s1 E. assert (entk w s1) as Hk1. { etrans; [exact Hk|]. eapply keeping_done; [|exact E]. entk. } clear E s Hk.
  apply tracks_at_pre; [mute|]. intros u s2 E. assert (entk w s2) as Hk. { etrans; [exact Hk1|]. eapply keeping_done; [|exact E]. entk. } clear E s1 Hk1 u.
  apply tracks_at_pre; [mute|]. intros cached s1 E. assert (entk w s1) as Hk1. { etrans; [exact Hk|]. eapply keeping_done; [|exact E]. entk. } clear E s2 Hk.
  apply tracks_at_pre; [mute|]. intros found s2 E. assert (entk w s2) as Hk. { etrans; [exact Hk1|]. eapply keeping_done; [|exact E]. entk. } clear E s1 Hk1.
  apply tracks_at_pre; [mute|]. intros tar s1 E. assert (entk w s1) as Hk1. { etrans; [exact Hk|]. eapply keeping_done; [|exact E]. entk. } clear E s2 Hk.
  apply tracks_at_pre; [mute|]. intros archs s2 E. assert (entk w s2) as Hk. { etrans; [exact Hk1|]. eapply keeping_done; [|exact E]. entk. } clear E s1 Hk1.
  destruct (index_twice cur tar archs) as [p|] eqn:Hit; [|left; split; [done|apply harmless_nil]]. pose proof (index_twice_ne _ _ _ _ Hit) as Hne.
  apply tracks_at_pre; [mute|]. intros [ca ta] s1 E. assert (entk w s1) as Hk1. { etrans; [exact Hk|]. eapply keeping_done; [|exact E]. entk. } clear E s2 Hk.
  apply tracks_at_pre; [mute|]. intros sk s2 E. assert (entk w s2) as Hk. { etrans; [exact Hk1|]. eapply keeping_done; [|exact E]. entk. } clear E s1 Hk1.
  apply tracks_at_pre; [mute|]. intros skipped s1 E. assert (entk w s1) as Hk1. { etrans; [exact Hk|]. eapply keeping_done; [|exact E]. entk. } clear E s2 Hk.
  eapply tracks_at_weaken; [apply tracks_last_at; [apply tracks_storage|intros; mute]|].
  intros w1 w2 ([] & [] & ev & E & Hrest). exists tar, cur, row. split_and!; [done..| |done]. etrans; [exact Hk1|].
  eapply keeping_done; [|exact E]. entk.
Qed.
Lemma get_arch_inv k w a w' ev : get_arch k w = Done a w' ev → w_archs w !! k = Some a ∧ w' = w ∧ ev = [].
Proof. rewrite /get_arch (bind_done_nil _ _ w (w_archs w !! k) w eq_refl). destruct (w_archs w !! k); [|done]. by intros [= -> -> ->]. Qed.
Lemma rest_run_archs tar cur row e w1 w2 : (do* push_row tar e in remove_row cur row) w1 = Done () w2 [] → cur ≠ tar →
  ∃ ca ta es, w_archs w1 !! cur = Some ca ∧ w_archs w1 !! tar = Some ta ∧ vec_swap_remove row (a_entities ca) = Some es ∧
    w_archs w2 = <[cur := a_set_entities es ca]> (<[tar := a_set_entities (a_entities ta ++ [e]) ta]> (w_archs w1)) ∧
    w_ents w2 = w_ents w1 ∧ w_types w2 = w_types w1 ∧ w_reuse w2 = w_reuse w1.
Proof.
  assert (∀ i f w w' ev, update_meta i f w = Done () w' ev →
    w_archs w' = w_archs w ∧ w_ents w' = w_ents w ∧ w_types w' = w_types w ∧ w_reuse w' = w_reuse w) as Hup.
  { intros i f w w' ev. rewrite /update_meta (bind_done_nil _ _ w (w_meta w !! i) w eq_refl).
    destruct (w_meta w !! i) as [om|]; [|done]. rewrite (bind_done_nil _ _ w om w eq_refl). destruct om as [m|]; [|done].
    rewrite (bind_done_nil _ _ w m w eq_refl) /modify. by intros [= <- _]. }
  intros H Hne. apply bind_done_inv in H as ([] & w' & e1 & e2 & Hp & Hr & _).
  rewrite /push_row in Hp. apply bind_done_inv in Hp as ([] & w0 & e3 & e4 & Hp1 & Hp2 & _).
  rewrite /in_arch /zoom in Hp1. destruct (w_archs w1 !! tar) as [ta|] eqn:Hta; [|done]. cbn in Hp1. injection Hp1 as Hw0 _.
  apply bind_done_inv in Hp2 as (a & w0' & e5 & e6 & Hg & Hu & _). pose proof (get_arch_inv _ _ _ _ _ Hg) as (Hga & -> & _).
  destruct (Hup _ _ _ _ _ Hu) as (A1 & E1 & T1 & R1). clear Hu Hg Hga.
  rewrite /remove_row in Hr. apply bind_done_inv in Hr as (ca & w3 & e7 & e8 & Hg & Hr & _). pose proof (get_arch_inv _ _ _ _ _ Hg) as (Hga & -> & _).
  destruct (vec_swap_remove row (a_entities ca)) as [es|] eqn:Hes; [|done]. cbn [unwrap] in Hr. rewrite (bind_done_nil _ _ w' es w' eq_refl) in Hr.
  apply bind_done_inv in Hr as ([] & w3 & e9 & e10 & Hs & Hr & _). rewrite /in_arch /zoom Hga in Hs. cbn in Hs. injection Hs as Hw3 _.
  assert (w_archs w2 = w_archs w3 ∧ w_ents w2 = w_ents w3 ∧ w_types w2 = w_types w3 ∧ w_reuse w2 = w_reuse w3) as (A2 & E2 & T2 & R2).
  { destruct (es !! row); [by eapply Hup|]. by injection Hr as <- _. }
  subst w0 w3. cbn in *. rewrite A1 list_lookup_insert_ne // in Hga. exists ca, ta, es. rewrite A2 A1 E2 T2 R2. by split_and!.
Qed.
Lemma all_cols_same w w' : a_storages <$> w_archs w' = a_storages <$> w_archs w → all_cols w' = all_cols w.
Proof.
  intros H. rewrite /all_cols. assert (∀ l : list archetype, l ≫= (λ a, (a_storages a).*2) = (a_storages <$> l) ≫= λ s, s.*2) as Hl.
  { intros l. by rewrite fmap_bind_list. }
  by rewrite !Hl H.
Qed.
(** What a call that returns leaves owed. *)
Lemma owed_conserved o w r w' ev : WOk w → op_legal o w → op_tame o w → step o w = Done r w' ev → (∃ e, o = ODespawn e) ∨ (∃ e c, o = ORemoveDyn e c) →
  owed w ≡ₚ ev ++ owed w'.
Proof.
  intros Hok Hl Ht E Ho. destruct (step_done_ok _ _ _ _ _ Hok Hl Ht E) as [Hok' _]. assert (wgoes o w (inl r) w' ev) as Hg by done.
  pose proof (wgoes_frame _ _ _ _ _ Hok Hg) as Hf. destruct (wgoes_entry _ _ _ _ _ Hok Hok' Hg) as ([tk dr lo bk] & Hb & Hbk & Hev & Hbal & Hu).
  pose proof Hok as [[R Hw] _]. pose proof Hok' as [[R' Hw'] _]. rewrite /balanced in Hbal.
  assert (bk = []) as ->. { by destruct Ho as [[e ->]|(e & c & ->)]. }
  assert (tk = [] ∧ lo = []) as [-> ->].
  { destruct Ho as [[e ->]|(e & c & ->)]; cbn in Hb; [|tauto].
    repeat case_match; simplify_eq; tauto. }
  cbn in Hbal, Hev. rewrite !app_nil_r in Hbal. rewrite app_nil_r in Hev. rewrite (owed_held _ _ Hw) (owed_held _ _ Hw') Hev.
  rewrite -(dropping_stays w R w' R' (cells w) Hw Hw' Hf).
  - rewrite /dropping_all -Hbal bind_app. apply Permutation_app_comm.
  - apply Forall_forall. intros [c v] Hc. rewrite /cells in Hc. apply elem_of_list_fmap in Hc as ([[e0 c0] v0] & [= -> ->] & Hh).
    eapply holds_in_use. by apply held_holds.
Qed.

Lemma entk_last w w1 cur a e0 : entk w w1 → w_archs w !! cur = Some a → ∀ ca, w_archs w1 !! cur = Some ca → last (a_entities ca) = Some e0 → last_of w cur e0.
Proof. intros [Hk _] Ha ca Hca Hl. destruct (Hk _ _ Ha) as (a' & Ha' & He). simplify_eq. exists a. by rewrite -He. Qed.
Lemma remove_spilled w w1 w2 e c tar cur row ca ta es : consistent w2 → unsets w w2 e c → placed w e cur row → cur ≠ tar →
  w_archs w1 !! cur = Some ca → w_archs w1 !! tar = Some ta → vec_swap_remove row (a_entities ca) = Some es →
  w_archs w2 = <[cur := a_set_entities es ca]> (<[tar := a_set_entities (a_entities ta ++ [e]) ta]> (w_archs w1)) →
  spilled w w1 e c.
Proof.
  intros Hcon Hun Hpl Hne Hca Hta Hes HA. pose proof (lookup_lt_Some _ _ _ Hca) as Hlc. pose proof (lookup_lt_Some _ _ _ Hta) as Hlt.
  assert (w_archs w2 !! cur = Some (a_set_entities es ca)) as Hca2 by (rewrite HA list_lookup_insert // insert_length //).
  assert (w_archs w2 !! tar = Some (a_set_entities (a_entities ta ++ [e]) ta)) as Hta2 by (rewrite HA list_lookup_insert_ne // list_lookup_insert //).
  exists cur, row, ca, tar, ta. split; [done|]. split; [done|]. split; [done|]. split; [done|]. split; [|split; [|split]].
  - intros d u Hu. pose proof (co_columns _ Hcon _ _ _ _ Hca2 Hu) as H. cbn in H. rewrite /filled H. f_equal. by eapply vec_swap_remove_length.
  - intros d u Hu. pose proof (co_columns _ Hcon _ _ _ _ Hta2 Hu) as H. cbn in H. rewrite /filled H app_length. done.
  - assert (placed w2 e tar (length (a_entities ta))) as Hp2. { exists (a_set_entities (a_entities ta ++ [e]) ta). split; [done|]. cbn. by rewrite lookup_app_r // Nat.sub_diag. }
    intros d v. trans (holds w2 e d v); [|rewrite (Hun e d v); naive_solver]. split.
    + intros (u & [j Hj]%elem_of_list_lookup & Hm). exists tar, (length (a_entities ta)), (a_set_entities (a_entities ta ++ [e]) ta), j, u. split; [done|].
      split; [cbn; by rewrite lookup_app_r // Nat.sub_diag|done].
    + intros (k & i & a & j & u & Ha & Hi & Hj & Hm). destruct (co_once _ Hcon e k i tar (length (a_entities ta))) as [-> ->]; [by exists a|done|].
      simplify_eq. exists u. split; [by eapply elem_of_list_lookup_2|done].
  - intros k x d u Hk1 Hk2 Hx Hu. eapply (co_columns _ Hcon k); [|done]. by rewrite HA !list_lookup_insert_ne.
Qed.
Lemma remove_damage bomb w e c w1 w2 ev0 ev : WOk w → op_legal (ORemoveDyn e c) w → op_tame (ORemoveDyn e c) w →
  remove_component_dynamic e c w = Done () w2 ev0 → rest_run w e w1 w2 → cut_off bomb ev0 ev →
  ev = ev0 ∧ wrecked w w1 e ev ∧ (same_stored w w1 ∧ spilled w w1 e c) ∧ cols_wf w1 ∧ drop_reuse w1 = Some ().
Proof.
  intros Hok Hl Ht E (tar & cur & row & Hne & Hloc & Hk & Hrest) (pre & x & post & Hev0 & Hev & _).
  assert (step (ORemoveDyn e c) w = Done RUnit w2 ev0) as Es. { cbn [step]. rewrite /bind E /= app_nil_r. done. }
  pose proof (remove_dyn_view w e c Hok Hl Ht) as Hv. rewrite Es in Hv.
  destruct Hv as (_ & [(_ & -> & _)|(Hle & Hse & Hlc & Hsl & Hss & Hst & Hun & v & Hv & Hdr)]); [by destruct pre|].
  assert (ev = ev0) as ->.
  { rewrite /dropping in Hdr. rewrite Hdr in Hev0. destruct (dtor w c); [|by destruct pre]. destruct pre as [|y pre]; [|by destruct pre].
    rewrite Hev Hdr. injection Hev0 as <- <-. done. }
  clear Hev Hev0. destruct (step_done_ok _ _ _ _ _ Hok Hl Ht Es) as [Hok2 _].
  pose proof (owed_conserved _ _ _ _ _ Hok Hl Ht Es (or_intror (ex_intro _ e (ex_intro _ c eq_refl)))) as Hcons.
  destruct (rest_run_archs _ _ _ _ _ _ Hrest Hne) as (ca & ta & es & Hca & Hta & Hes & HA & HE & HT & HR).
  assert (a_storages <$> w_archs w2 = a_storages <$> w_archs w1) as Hcols.
  { rewrite HA !list_fmap_insert /=. rewrite (list_insert_id (a_storages <$> w_archs w1)); [|by rewrite list_lookup_fmap Hta].
    apply list_insert_id. by rewrite list_lookup_fmap Hca. }
  apply all_cols_same in Hcols. pose proof Hok2 as [[R2 Hw2] _].
  apply (co_located _ (ok_consistent _ Hok)) in Hloc as Hpl. destruct Hpl as (a & Ha & Hae).
  destruct (proj1 Hk _ _ Ha) as (ca' & Hca' & Hce). rewrite Hca in Hca'. injection Hca' as <-.
  destruct Hk as [Hk (Hk1 & Hk2 & Hk3)].
  (* rows of [w1] and [w2] *)
  assert (∀ k' a2, w_archs w2 !! k' = Some a2 → ∃ a1, w_archs w1 !! k' = Some a1 ∧ a_storages a2 = a_storages a1 ∧
    ∀ i e0, a_entities a2 !! i = Some e0 → e0 ≠ e → ¬ last_of w cur e0 → a_entities a1 !! i = Some e0) as Hback.
  { intros k' a2. rewrite HA list_lookup_insert_Some. intros [(<- & <- & _)|(Hck & Ha2)].
    - exists ca. split_and!; [done..|]. cbn. intros i e0 Hi Hee Hnl. rewrite (vec_swap_remove_lookup _ _ _ _ Hes) in Hi.
      case_decide; [|done]. case_decide; [|done]. exfalso. apply Hnl. exists a. split; [done|]. rewrite -Hce last_lookup.
      by replace (Init.Nat.pred _) with (length (a_entities ca) - 1) by lia.
    - apply list_lookup_insert_Some in Ha2 as [(<- & <- & _)|(_ & Ha2)].
      + exists ta. split_and!; [done..|]. cbn. intros i e0 Hi Hee _. apply lookup_app_Some in Hi as [?|[_ Hi]]; [done|].
        by apply list_lookup_singleton_Some in Hi as [_ ->].
      + exists a2. by split_and!. }
  assert (∀ k' a1, w_archs w1 !! k' = Some a1 → ∃ a2, w_archs w2 !! k' = Some a2 ∧ a_storages a2 = a_storages a1 ∧
    ∀ i e0, a_entities a1 !! i = Some e0 → e0 ≠ e → ¬ last_of w cur e0 → a_entities a2 !! i = Some e0) as Hforth.
  { intros k' a1 Ha1. rewrite HA. destruct (decide (k' = cur)) as [->|Hck].
    - rewrite list_lookup_insert; [|rewrite insert_length; by eapply lookup_lt_Some]. rewrite Hca in Ha1. injection Ha1 as <-. eexists. split_and!; [done..|]. cbn.
      intros i e0 Hi Hee Hnl. rewrite (vec_swap_remove_lookup _ _ _ _ Hes). apply lookup_lt_Some in Hi as Hlt. rewrite decide_True.
      + rewrite decide_False //. intros ->. rewrite Hce in Hi. congruence.
      + destruct (decide (i = length (a_entities ca) - 1)) as [->|]; [|lia]. exfalso. apply Hnl. exists a. split; [done|]. rewrite -Hce last_lookup.
        by replace (Init.Nat.pred _) with (length (a_entities ca) - 1) by lia.
    - rewrite list_lookup_insert_ne //. destruct (decide (k' = tar)) as [->|Hct].
      + rewrite list_lookup_insert; [|by eapply lookup_lt_Some]. simplify_eq. eexists. split_and!; [done..|]. cbn. intros i e0 Hi _ _. by apply lookup_app_l_Some.
      + rewrite list_lookup_insert_ne //. eauto. }
  split; [done|]. split; [|split; [|split]].
  - constructor.
    + intros e0 _. by rewrite !lives_alive Hk1.
    + intros t c0. by rewrite /type_id Hk2.
    + by rewrite Hcons /owed Hcols.
    + exists cur, row. split; [by exists a|]. intros e0 c0 v0 Hee Hnl. trans (holds w2 e0 c0 v0).
      * split; intros (k' & i & a' & j & u & Ha' & He' & Hc' & Hm').
        -- destruct (Hforth _ _ Ha') as (a2 & Ha2 & Hs2 & Hf2). exists k', i, a2, j, u. split_and!; [done|by apply Hf2|by rewrite Hs2|done].
        -- destruct (Hback _ _ Ha') as (a2 & Ha2 & Hs2 & Hf2). exists k', i, a2, j, u. split_and!; [done|by apply Hf2|by rewrite -Hs2|done].
      * rewrite (Hun e0 c0 v0). naive_solver.
  - split; [|eapply remove_spilled; [by eapply ok_consistent|exact Hun|by exists a|exact Hne|exact Hca|exact Hta|exact Hes|exact HA]].
    assert (∀ w' e0, stored w' e0 ↔ ∃ k' a', w_archs w' !! k' = Some a' ∧ e0 ∈ a_entities a') as Hin.
    { intros w' e0. split; [intros (k' & i & a' & ? & ?%elem_of_list_lookup_2); eauto|].
      intros (k' & a' & ? & [i ?]%elem_of_list_lookup_1). by exists k', i, a'. }
    intros e0. rewrite -(Hss e0) !Hin HA. pose proof (lookup_lt_Some _ _ _ Hca) as Hlc1. pose proof (lookup_lt_Some _ _ _ Hta) as Hlt1.
    rewrite -Hce in Hae. pose proof (vec_swap_remove_perm _ _ _ _ Hes Hae) as Hp. split; intros (k' & a' & Ha' & He').
    + destruct (decide (k' = cur)) as [->|Hck].
      * rewrite Hca in Ha'. injection Ha' as <-. rewrite Hp in He'. apply elem_of_cons in He' as [->|He'].
        -- exists tar, (a_set_entities (a_entities ta ++ [e]) ta). rewrite list_lookup_insert_ne // list_lookup_insert //. split; [done|]. cbn. set_solver.
        -- exists cur, (a_set_entities es ca). rewrite list_lookup_insert ?insert_length //.
      * destruct (decide (k' = tar)) as [->|Hct].
        -- exists tar, (a_set_entities (a_entities ta ++ [e]) ta). rewrite list_lookup_insert_ne // list_lookup_insert //. split; [done|]. cbn.
           simplify_eq. set_solver.
        -- exists k', a'. by rewrite !list_lookup_insert_ne.
    + apply list_lookup_insert_Some in Ha' as [(<- & <- & _)|(_ & Ha')].
      * exists cur, ca. split; [done|]. rewrite Hp. cbn in He'. set_solver.
      * apply list_lookup_insert_Some in Ha' as [(<- & <- & _)|(_ & Ha')]; [|by exists k', a'].
        cbn in He'. apply elem_of_app in He' as [He'|He'%elem_of_list_singleton]; [by exists tar, ta|]. subst e0.
        exists cur, ca. split; [done|]. by eapply elem_of_list_lookup_2.
  - rewrite /cols_wf -Hcols. by eapply winv_cols_wf.
  - pose proof (reuse_drop _ _ Hw2) as Hd. rewrite /drop_reuse HR in Hd. done.
Qed.
