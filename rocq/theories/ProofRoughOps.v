(** * Rough histories: the calls on existing entities *)
From Verif Require Import ProofBase SpecSmall World Query History ProofEntities ProofBitset ProofArrayVec ProofUVec.
From Verif Require Export ProofRoughMove.

Definition owe (w : world) (c : ecsid) (v : value) : list event :=
  match comp_of w c with Some cm => ldrop (cm_drop cm) v | None => [] end.
Lemma owe_dropping w c v : alive (w_ents w) c → dropping w c v = owe w c v.
Proof.
  intros Hc. rewrite /dropping /dtor /owe (get_entity_meta_alive _ _ Hc) /comp_of.
  by destruct (meta_at w (uindex c)) as [[]|].
Qed.
Lemma gp_cw {A} (m : M world A) w G Q : gp cw m w G Q → gp gext m w G Q.
Proof. apply gp_weaken, cw_gext. Qed.
Lemma gp_storage {A} k i (m : M uvec A) w G : rinv w →
  (∀ a c v cm, w_archs w !! k = Some a → a_storages a !! i = Some (c, v) → uv_wf v → comp_of w c = Some cm → uv_ti v = cm_type_info cm →
     rp m v (λ r v' ev, vstep G v v' ev) (λ _ v' ev, vstep G v v' ev)) →
  gp cw (in_arch k (in_storage i m)) w G (λ _ _, True).
Proof.
  intros Hw Hm. eapply rp_mono; [apply (storage_r k i m w G (λ _, True) Hw)| |]; [|intros ??? [H _]; split; [exact H|done]|intros ??? H; exact H].
  intros a c v cm H1 H2 H3 H4 H5. eapply rp_mono; [by eapply (Hm a)| |done]. intros ??? H. by split.
Qed.
Lemma toggle_add_filter c L L' : StronglySorted id_lt L → StronglySorted id_lt L' → c ∉ L → toggle c L L' → filter (λ x, x ≠ c) L' = L.
Proof.
  intros HL HL' Hc Ht. apply sorted_ext; [by apply sorted_filter|done|].
  intros d. rewrite elem_of_list_filter (Ht d). split; [naive_solver|]. intros Hd. assert (d ≠ c) by congruence. naive_solver.
Qed.

Lemma add_r w e c src : rinv w → room 0 w →
  (∀ cm, alive (w_ents w) c → comp_of w c = Some cm → length src = cm_size cm) →
  gp gext (add_component_with_data e c src) w (owe w c src) (λ _ _, True).
Proof.
  intros Hw Hroom Hsrc. rewrite /add_component_with_data.
  apply gp_is_alive; [apply _|done|]. intros b He. destruct b; [|by apply gp_ret; [apply _|..]].
  apply gp_is_alive; [apply _|done|]. intros b Hc. destruct b; [|by apply gp_ret; [apply _|..]].
  destruct Hc as [Hc _]. specialize (Hc eq_refl). cbn [negb].
  apply gp_get_meta; [apply _|done|]. intros o Ho _. apply gp_unwrap; [apply _|done|]. intros em ->.
  apply gp_get_arch; [apply _|done|]. intros a Ha.
  apply gp_massert; [apply _|done|]. intros Hnc%negb_true_iff%bool_decide_eq_false.
  set (cur := im_arch (em_inst em)) in *. set (row := im_index (em_inst em)).
  assert (arch_ids w !! cur = Some (a_comp_ids a)) as HL by (apply arch_ids_lookup; eauto).
  apply (target_r _ _ _ w cur (a_comp_ids a) c); [done|done| | |].
  { intros w1 Hw1 X1 Hids. apply (find_plus_r w1 cur (a_comp_ids a) c Hw1); [|by rewrite Hids|by rewrite (ge_ents _ _ X1)|done].
    rewrite /room in Hroom |- *. by rewrite -arch_ids_length Hids arch_ids_length. }
  { intros w1 Hw1 X1 Hids Ht. apply gp_ensure_lock; [done|]. intros w2 Hw2 X2 Hids2 Hm2 HA2.
    apply gp_get_meta; [apply _|done|]. intros o Ho2 _. apply gp_unwrap; [apply _|done|]. intros cm ->.
    destruct (Ho2 cm eq_refl) as [Hc2 Hcm2].
    apply gp_get_arch; [apply _|done|]. intros a1 Ha1.
    assert (arch_ids w2 !! cur = Some (a_comp_ids a1)) as HL1 by (apply arch_ids_lookup; eauto).
    assert (a_comp_ids a1 = a_comp_ids a) as E1. { rewrite Hids2 Hids HL in HL1. by injection HL1. }
    destruct (from_with_r (comp_of w2) a1 c (em_comp cm)) as (na & Hna & Hsh & Hr & Hca & Htg);
      [by eapply ri_shape|by eapply (ri_cols _ Hw2)|by rewrite E1|by rewrite /comp_of Hcm2|].
    rewrite Hna. eapply gp_step; [done|]. rewrite E1 in Htg.
    eapply gp_mono; [apply (push_target_r w2 cur (a_comp_ids a) c na)|]; try done.
    - by rewrite Hids2 Hids.
    - intros j L' HL'. apply (Ht j). by rewrite -Hids2.
    - intros d Hd. destruct (decide (d = c)) as [->|Hdc]; [done|].
      apply Htg in Hd. destruct Hd as [[_ Hd]|[-> _]]; [|done].
      apply (ri_comps _ Hw2 cur (a_comp_ids a)); [by rewrite Hids2 Hids|done]. }
  intros tar w1 L' Hw1 X1 HL' Ht.
  pose proof (ge_ids _ _ X1 _ _ HL) as HL1.
  assert (c ∈ L') as HcL' by (apply Ht; by right).
  assert (cur ≠ tar) as Hne. { intros E. rewrite -E HL1 in HL'. by simplify_eq. }
  destruct (rinv_comp _ _ _ _ Hw1 HL' HcL') as [cm Hcm].
  assert (comp_of w c = Some cm) as Hcmw by by rewrite -(gext_comp _ _ _ X1).
  eapply gp_step; [done|]. apply gp_unwrap; [apply _|done|]. intros [ca ta] (_ & Hca & Hta)%index_twice_spec.
  assert (a_comp_ids ca = a_comp_ids a) as Eca.
  { apply arch_ids_lookup in HL1 as (x & Hx & <-). by simplify_eq. }
  assert (a_comp_ids ta = L') as Eta.
  { apply arch_ids_lookup in HL' as (x & Hx & <-). by simplify_eq. }
  assert (length (a_storages ca) = length (a_comp_ids a)) as Elc.
  { by rewrite -Eca -(as_storages _ (ri_shape _ Hw1 _ _ Hca)) fmap_length. }
  assert (length (a_storages ta) = length L') as Elt.
  { by rewrite -Eta -(as_storages _ (ri_shape _ Hw1 _ _ Hta)) fmap_length. }
  rewrite Elc Elt. eapply gp_then; [apply _| |].
  { apply gp_cw, (add_zip_r c cur tar row (a_comp_ids a) L' Hne); try done.
    - apply sorted_NoDup. by eapply (rinv_sorted _ Hw1).
    - by rewrite Nat.sub_0_r.
    - rewrite !drop_0. apply toggle_add_filter; [by eapply (rinv_sorted _ Hw1)|by eapply (rinv_sorted _ Hw1)|done|done]. }
  intros sk w2 Hw2 X2 Hsk.
  eapply (gp_then gext _ _ _ _ (λ j w', w' = w2 ∧ L' !! j = Some c)).
  { destruct sk as [j|]; [by apply gp_ret; [apply _|..]|].
    rewrite Eta Hsk. eapply gp_step; [done|]. rewrite bool_decide_eq_true_2; [|done]. eapply gp_step; [done|].
    apply gp_ret; [apply _|done|]. split; [done|]. rewrite -Hsk last_lookup. f_equal. lia. }
  intros j w' _ _ (-> & Hj). assert (gext w w2) as X02 by by etrans.
  eapply gp_then_r; [apply _| |].
  - apply gp_cw, gp_storage; [done|]. intros a0 c0 v cm0 Ha0 Hs Hwf Hcm0 Hti.
    assert (c0 = c) as ->.
    { pose proof (ge_ids _ _ X2 _ _ HL') as (x & Hx & HxL)%arch_ids_lookup. rewrite Ha0 in Hx. injection Hx as <-.
      rewrite -HxL -(as_storages _ (ri_shape _ Hw2 _ _ Ha0)) list_lookup_fmap Hs /= in Hj. by injection Hj. }
    rewrite (gext_comp _ _ _ X02) Hcmw in Hcm0. injection Hcm0 as <-.
    assert (uv_size v = cm_size cm) as Hsz by by rewrite /uv_size Hti.
    specialize (Hsrc cm Hc Hcmw).
    eapply rp_mono; [apply (push_vstep v src (owe w c src) Hwf)| |].
    + lia.
    + rewrite /owe Hcmw Hti Hsz. by rewrite take_ge; [|lia].
    + done.
    + intros r v' ev [-> ->]. by apply vstep_refl.
  - intros _ w3 Hw3 X3 _. cbn beta. eapply gp_then; [apply _|by apply gp_cw, push_row_r|].
    intros _ w4 Hw4 X4 _. by apply gp_cw, remove_row_r.
Qed.

Lemma remove_r bomb w e c : rinv w → room 0 w →
  gp gext (remove_component_dynamic_b bomb e c) w [] (λ _ _, True).
Proof.
  intros Hw Hroom. rewrite /remove_component_dynamic_b.
  apply gp_is_alive; [apply _|done|]. intros b He. destruct b; [|by apply gp_ret; [apply _|..]].
  apply gp_is_alive; [apply _|done|]. intros b Hc. destruct b; [|by apply gp_ret; [apply _|..]].
  destruct Hc as [Hc _]. specialize (Hc eq_refl). cbn [negb].
  apply gp_get_meta; [apply _|done|]. intros o Ho _. apply gp_unwrap; [apply _|done|]. intros em ->.
  apply gp_get_arch; [apply _|done|]. intros a Ha.
  apply gp_massert; [apply _|done|]. intros Hca%bool_decide_eq_true.
  set (cur := im_arch (em_inst em)) in *. set (row := im_index (em_inst em)).
  assert (arch_ids w !! cur = Some (a_comp_ids a)) as HL by (apply arch_ids_lookup; eauto).
  apply (target_r _ _ _ w cur (a_comp_ids a) c); [done|done| | |].
  { intros w1 Hw1 X1 Hids. apply (find_minus_r w1 cur (a_comp_ids a) c Hw1); [|by rewrite Hids|done].
    rewrite /room in Hroom |- *. by rewrite -arch_ids_length Hids arch_ids_length. }
  { intros w1 Hw1 X1 Hids Ht.
    apply gp_get_arch; [apply _|done|]. intros a1 Ha1.
    assert (arch_ids w1 !! cur = Some (a_comp_ids a1)) as HL1 by (apply arch_ids_lookup; eauto).
    assert (a_comp_ids a1 = a_comp_ids a) as E1. { rewrite Hids HL in HL1. by injection HL1. }
    destruct (from_without_r (comp_of w1) a1 c) as (na & Hna & Hsh & Hr & Hcac & Htg);
      [by eapply ri_shape|by eapply (ri_cols _ Hw1)|by rewrite E1|].
    rewrite Hna. eapply gp_step; [done|]. rewrite E1 in Htg.
    eapply gp_mono; [apply (push_target_r w1 cur (a_comp_ids a) c na)|]; try done.
    - by rewrite Hids.
    - intros d Hd. apply (proj1 (toggle_filter _ _ _ Hca) Htg), elem_of_list_filter in Hd as [_ Hd].
      apply (ri_comps _ Hw1 cur (a_comp_ids a)); [by rewrite Hids|done]. }
  intros tar w1 L' Hw1 X1 HL' Ht.
  pose proof (ge_ids _ _ X1 _ _ HL) as HL1.
  assert (cur ≠ tar) as Hne. { intros E. rewrite -E HL1 in HL'. simplify_eq. destruct (proj1 (Ht c) Hca) as [[]|[]]; done. }
  eapply gp_step; [done|]. apply gp_unwrap; [apply _|done|]. intros [ca ta] (_ & Hcur & Hta)%index_twice_spec.
  assert (a_comp_ids ca = a_comp_ids a) as Eca.
  { apply arch_ids_lookup in HL1 as (x & Hx & <-). by simplify_eq. }
  assert (a_comp_ids ta = L') as Eta.
  { apply arch_ids_lookup in HL' as (x & Hx & <-). by simplify_eq. }
  assert (length (a_storages ca) = length (a_comp_ids a)) as Elc.
  { by rewrite -Eca -(as_storages _ (ri_shape _ Hw1 _ _ Hcur)) fmap_length. }
  assert (length (a_storages ta) = length L') as Elt.
  { by rewrite -Eta -(as_storages _ (ri_shape _ Hw1 _ _ Hta)) fmap_length. }
  rewrite Elc Elt. eapply gp_then; [apply _| |].
  { apply gp_cw, (rem_zip_r c cur tar row (a_comp_ids a) L' Hne); try done.
    - apply sorted_NoDup. by eapply (rinv_sorted _ Hw1).
    - by rewrite Nat.sub_0_r.
    - rewrite !drop_0. apply sorted_ext; [by eapply sorted_filter, (rinv_sorted _ Hw1)|by eapply (rinv_sorted _ Hw1)|].
      intros d. by rewrite (proj1 (toggle_filter _ _ _ Hca) Ht d). }
  intros sk w2 Hw2 X2 Hsk.
  eapply (gp_then gext _ _ _ _ (λ _ _, True)).
  { destruct sk as [j|]; [by apply gp_ret; [apply _|..]|].
    apply gp_unwrap; [apply _|done|]. intros l _. apply gp_massert; [apply _|done|]. intros _. by apply gp_ret; [apply _|..]. }
  intros j w3 Hw3 X3 _. eapply gp_then; [apply _| |].
  - apply gp_cw, gp_storage; [done|]. intros a0 c0 v cm0 Ha0 Hs Hwf Hcm0 Hti. by apply swap_remove_vstep.
  - intros _ w4 Hw4 X4 _. cbn beta. eapply gp_then; [apply _|by apply gp_cw, push_row_r|].
    intros _ w5 Hw5 X5 _. by apply gp_cw, remove_row_r.
Qed.
Lemma add_dyn_r w e c : rinv w → room 0 w →
  gp gext (add_component_dynamic e c) w (owe w c []) (λ _ _, True).
Proof.
  intros Hw Hroom. rewrite /add_component_dynamic.
  apply gp_is_alive; [apply _|done|]. intros b _. apply gp_massert; [apply _|done|]. intros _.
  apply gp_is_alive; [apply _|done|]. intros b' _. apply gp_massert; [apply _|done|]. intros _.
  apply gp_get_meta; [apply _|done|]. intros o Ho _. apply gp_unwrap; [apply _|done|]. intros em ->.
  apply gp_massert; [apply _|done|]. intros Hz%bool_decide_eq_true.
  apply add_r; [done|done|]. intros cm _ Hcm. destruct (Ho em eq_refl) as [_ Hem]. rewrite /comp_of Hem in Hcm. by injection Hcm as <-.
Qed.

(** ** [despawn] *)
Record dext (w w' : world) : Prop := {
  de_ents : w_ents w' = w_ents w;
  de_types : w_types w' = w_types w;
  de_ids : arch_ids w' = arch_ids w
}.
Global Instance dext_preorder : PreOrder dext.
Proof. split; [done|]. intros w1 w2 w3 [] []. constructor; congruence. Qed.
Lemma cw_dext w w' : cw w w' → dext w w'.
Proof. intros H. pose proof (cw_ids _ _ H). destruct H. by constructor. Qed.
Lemma used_r w c : rinv w → used_as_component w c = false → ∀ k L, arch_ids w !! k = Some L → c ∉ L.
Proof.
  intros Hw Hu k L (a & Ha & <-)%arch_ids_lookup [i Hi]%elem_of_list_lookup.
  assert (used_as_component w c = true); [|congruence]. apply existsb_exists. exists a.
  split; [by eapply elem_of_list_In, elem_of_list_lookup_2|]. apply bool_decide_eq_true.
  apply (as_lookup _ (ri_shape _ Hw _ _ Ha)) in Hi. eauto.
Qed.
Lemma swap_remove_storages_r bomb k row is_ w : rinv w → gp cw (swap_remove_storages_b bomb k row is_) w [] (λ _ _, True).
Proof.
  revert w. induction is_ as [|i is_ IH]; intros w Hw; [by apply gp_ret; [apply _|..]|]. cbn [swap_remove_storages_b].
  eapply gp_then; [apply _|apply gp_storage; [done|]|].
  - intros a0 c0 v cm0 Ha0 Hs Hwf Hcm0 Hti. by apply swap_remove_vstep.
  - intros _ w1 Hw1 _ _. by apply IH.
Qed.
Lemma other_index w e c k L : rinv w → alive (w_ents w) e → (∀ k L, arch_ids w !! k = Some L → e ∉ L) →
  arch_ids w !! k = Some L → c ∈ L → uindex c ≠ uindex e.
Proof.
  intros Hw He Hu HL Hc Hi. assert (c = e) as ->; [|by apply (Hu k L)]. eapply (alive_inj (w_ents w)); try done. by eapply (ri_comps _ Hw).
Qed.
Lemma clear_r w e : rinv w → alive (w_ents w) e → (∀ k L, arch_ids w !! k = Some L → e ∉ L) → uindex e < length (w_meta w) →
  let w' := set_meta (<[uindex e := None]> (w_meta w)) w in
  gm dext w [] w' [] ∧ meta_at w' (uindex e) = None.
Proof.
  intros Hw He Hu Hlt w'.
  assert (∀ i, meta_at w' i = if decide (i = uindex e) then None else meta_at w i) as Hm.
  { intros i. apply (meta_at_insert w (uindex e) None i Hlt). }
  split; [|by rewrite Hm decide_True]. split; [|split; [by constructor|intros x; change (owed w') with (owed w); rewrite !cnt_nil; lia]].
  eapply (rinv_change w); try done.
  - apply (ri_reuse _ Hw).
  - apply (ri_ents _ Hw).
  - intros k a Ha. split_and!; [by eapply ri_shape| |by eapply (ri_cache _ Hw)].
    eapply (arch_cols_ext (comp_of w)); [|by eapply (ri_cols _ Hw)].
    rewrite (as_storages _ (ri_shape _ Hw _ _ Ha)). intros c Hc. rewrite /comp_of Hm decide_False //.
    eapply (other_index w e c k (a_comp_ids a)); try done. apply arch_ids_lookup. eauto.
  - apply (ri_comps _ Hw).
  - intros i em. rewrite Hm. case_decide; [done|]. intros Hem. split; [by eapply (ri_meta _ Hw)|by eapply (ri_layout _ Hw)].
  - intros t d Ht. destruct (ri_types _ Hw _ _ Ht) as (_ & _ & b & g & Hg & Hb). exists b, g. split; [done|]. destruct b; [|done].
    intros E cm. rewrite /comp_of Hm. case_decide; [done|]. by apply Hb.
Qed.
Lemma arch_despawn_r bomb w k row e : rinv w → alive (w_ents w) e → (∀ k L, arch_ids w !! k = Some L → e ∉ L) →
  gp dext (arch_despawn_b bomb k row e) w [] (λ _ w', meta_at w' (uindex e) = None).
Proof.
  intros Hw He Hu. rewrite /arch_despawn_b.
  apply gp_get_arch; [apply _|done|]. intros a Ha. apply gp_unwrap; [apply _|done|]. intros e' _.
  apply gp_massert; [apply _|done|]. intros _. apply gp_unwrap; [apply _|done|]. intros es _.
  eapply gp_then; [apply _|by apply (gp_weaken _ _ _ _ _ _ cw_dext), (gp_entities k (λ _, es))|]. intros _ w1 Hw1 X1 _. cbn beta.
  eapply gp_then; [apply _|by apply (gp_weaken _ _ _ _ _ _ cw_dext), swap_remove_storages_r|]. intros _ w2 Hw2 X2 _. cbn beta.
  eapply gp_step; [done|]. apply gp_massert; [apply _|done|]. intros Hlt%bool_decide_eq_true.
  assert (dext w w2) as X02 by by etrans.
  destruct (clear_r w2 e Hw2) as [Hg Hn]; [by rewrite (de_ents _ _ X02)|by rewrite (de_ids _ _ X02)|done|].
  set (w3 := set_meta _ w2) in *.
  eapply (gp_then dext _ _ _ _ (λ _ w', w' = w3)); [done|]. intros _ w' Hw3 X3 ->.
  destruct (es !! row) as [s|]; [|by apply gp_ret; [apply _|..]].
  pose proof (gp_update_meta (uindex s) (λ im, InstMeta (im_arch im) row) w3 Hw3) as Hup.
  eapply rp_mono; [exact Hup| |].
  - intros [] w4 ev [(? & Hcw & ?) _]. split; [split; [done|split; [by apply cw_dext|done]]|].
    pose proof (cw_meta _ _ Hcw (uindex e)) as E. rewrite Hn /= in E. by destruct (meta_at w4 (uindex e)).
  - intros r w4 ev (? & Hcw & ?). split; [done|split; [by apply cw_dext|done]].
Qed.
Lemma despawn_ents_r w e : rinv w → id_wf e → alive (w_ents w) e → (∀ k L, arch_ids w !! k = Some L → e ∉ L) →
  meta_at w (uindex e) = None →
  (∀ t c, w_types w !! t = Some c → uindex c = uindex e → wrap32 (id_gen e + 1) ≠ id_gen c) →
  ∃ w', in_ents (ents_despawn e) w = Done true w' [] ∧ rinv w' ∧ acct w [] w' [] ∧ w_types w' = w_types w ∧ ¬ alive (w_ents w') e ∧ ∀ c, uindex c ≠ uindex e → alive (w_ents w') c ↔ alive (w_ents w) c.
Proof.
  intros Hw Hid He Hu Hn Htame. destruct (ents_despawn_alive _ _ He) as [s' Hdes].
  exists (set_ents s' w). split; [rewrite /in_ents /zoom /=; by rewrite Hdes|].
  destruct (ents_despawn_spec _ _ _ _ _ (ri_ents _ Hw) Hid Hdes) as (Hwf & _ & _ & Hold & Hgen & _).
  assert (∀ c, uindex c ≠ uindex e → alive s' c ↔ alive (w_ents w) c) as Hal.
  { intros c Hc. rewrite !alive_iff Hgen list_lookup_insert_ne //. }
  split; [|split; [intros x; change (owed (set_ents s' w)) with (owed w); rewrite !cnt_nil; lia|]].
  2:{ split; [done|]. split; [|done]. cbn [set_ents w_ents]. rewrite alive_iff Hgen list_lookup_insert; [done|by eapply lookup_lt_Some]. }
  eapply (rinv_change w); try done.
  - apply (ri_reuse _ Hw).
  - intros k a Ha. split_and!; [by eapply ri_shape|by eapply (ri_cols _ Hw)|by eapply (ri_cache _ Hw)].
  - intros k L c HL Hc. apply Hal; [by eapply (other_index w e c k L)|by eapply (ri_comps _ Hw)].
  - intros i em Hem. split; [|by eapply (ri_layout _ Hw)]. destruct (ri_meta _ Hw i em Hem) as [g Hg]. exists g.
    cbn [set_ents w_ents]. rewrite Hgen list_lookup_insert_ne //. intros <-. by rewrite /meta_at /= in Hem Hn; rewrite Hn in Hem.
  - intros t c Htc. destruct (ri_types _ Hw _ _ Htc) as (_ & _ & b & g & Hg & Hb').
    rewrite /type_slot. cbn [set_ents w_ents]. rewrite Hgen. destruct (decide (uindex c = uindex e)) as [Hi|Hi].
    + exists false, (id_gen e). rewrite Hi list_lookup_insert; [|by eapply lookup_lt_Some]. split; [done|]. by apply (Htame t c).
    + exists b, g. rewrite list_lookup_insert_ne //.
Qed.
Definition anyw : relation world := λ _ _, True.
Global Instance anyw_preorder : PreOrder anyw.
Proof. by split. Qed.
Lemma gp_any {A} X (m : M world A) w G Q : gp X m w G Q → gp anyw m w G Q.
Proof. by apply gp_weaken. Qed.
Lemma despawn_r bomb w e : rinv w → id_wf e →
  (ents_is_alive (w_ents w) e = Some true → ∀ t c, w_types w !! t = Some c → uindex c = uindex e → wrap32 (id_gen e + 1) ≠ id_gen c) →
  rp (despawn_b bomb e) w
    (λ r w' ev, gm anyw w [] w' ev ∧ w_types w' = w_types w ∧
       if r then alive (w_ents w) e ∧ ¬ alive (w_ents w') e ∧ ∀ c, uindex c ≠ uindex e → alive (w_ents w') c ↔ alive (w_ents w) c else w' = w)
    (λ _ w' ev, gm dext w [] w' ev).
Proof.
  intros Hw Hid Htame. rewrite /despawn_b.
  pose proof (is_alive_cases w e) as Hc. destruct (is_alive e w) as [b w' ev|r w' ev| |] eqn:E; [| |done..].
  2:{ destruct Hc as (-> & -> & _). rewrite /rp /bind E. by apply gm_refl; [apply _|]. }
  destruct Hc as (-> & -> & He & _). apply (rp_step _ _ _ _ _ _ _ E). destruct b.
  2:{ split; [by apply gm_refl; [apply _|]|done]. }
  destruct He as [He _]. specialize (He eq_refl). specialize (Htame He). cbn [negb].
  eapply rp_step; [done|]. destruct (used_as_component w e) eqn:Hu; [by eapply rp_stop; [done|]; apply gm_refl; [apply _|]|].
  pose proof (used_r _ _ Hw Hu) as Hu'. eapply rp_step; [done|].
  pose proof (get_entity_meta_cases w e) as Hm. destruct (get_entity_meta e w) as [o w' ev|r w' ev| |] eqn:E3; [| |done..].
  2:{ destruct Hm as (-> & -> & _). rewrite /rp /bind E3. by apply gm_refl; [apply _|]. }
  destruct Hm as (-> & -> & _). apply (rp_step _ _ _ _ _ _ _ E3). destruct o as [em|]; [|by eapply rp_stop; [done|]; apply gm_refl; [apply _|]].
  eapply rp_step; [done|].
  pose proof (arch_despawn_r bomb w (im_arch (em_inst em)) (im_index (em_inst em)) e Hw He Hu') as Hd.
  eapply rp_bind'; [exact Hd|done|]. intros [] w1 ev1 [(Hw1 & X1 & A1) Hn]. cbn beta.
  destruct (despawn_ents_r w1 e Hw1 Hid) as (w2 & Hrun & Hw2 & A2 & Ht & Hdead & Hal); [by rewrite (de_ents _ _ X1)|by rewrite (de_ids _ _ X1)|done|by rewrite (de_types _ _ X1)|].
  apply (rp_step _ _ _ _ _ _ _ Hrun). apply rp_ret. split; [|split; [by rewrite Ht (de_types _ _ X1)|]].
  - split; [done|]. split; [done|]. eapply acct_trans; [exact A1|exact A2|]. intros x. rewrite !cnt_nil. lia.
  - split; [done|]. split; [done|]. by rewrite -(de_ents _ _ X1).
Qed.

(** ** Reading and writing *)
Lemma get_mut_r w e c : rinv w →
  match get_component_mut e c w with
  | Done o w' ev => w' = w ∧ ev = [] ∧ ∀ l, o = Some l → alive (w_ents w) c ∧ ∃ a v i cm,
      w_archs w !! loc_arch l = Some a ∧ a_storages a !! loc_storage l = Some (c, v) ∧ uv_wf v ∧
      comp_of w c = Some cm ∧ uv_ti v = cm_type_info cm ∧ i < length (uv_vals v) ∧ loc_off l = i * uv_size v
  | Panicked _ w' ev => w' = w ∧ ev = []
  | _ => False
  end.
Proof.
  intros Hw. rewrite /get_component_mut.
  pose proof (is_alive_cases w e) as He. destruct (is_alive e w) as [b w' ev|r w' ev| |] eqn:E; [| |done..].
  2:{ destruct He as (-> & -> & _). by rewrite /bind E. }
  destruct He as (-> & -> & _). rewrite (bind_done_nil _ _ _ _ _ E). destruct b; [|done]. cbn [negb].
  pose proof (is_alive_cases w c) as Hc. destruct (is_alive c w) as [b w' ev|r w' ev| |] eqn:E2; [| |done..].
  2:{ destruct Hc as (-> & -> & _). by rewrite /bind E2. }
  destruct Hc as (-> & -> & Hc & _). rewrite (bind_done_nil _ _ _ _ _ E2). destruct b; [|done]. cbn [negb].
  destruct Hc as [Hc _]. specialize (Hc eq_refl).
  pose proof (get_entity_meta_cases w e) as Hm. destruct (get_entity_meta e w) as [o w' ev|r w' ev| |] eqn:E3; [| |done..].
  2:{ destruct Hm as (-> & -> & _). by rewrite /bind E3. }
  destruct Hm as (-> & -> & _). rewrite (bind_done_nil _ _ _ _ _ E3). destruct o as [em|]; [|done].
  destruct (w_archs w !! im_arch (em_inst em)) as [a|] eqn:Ha.
  2:{ rewrite /get_arch /bind /gets /= Ha. done. }
  rewrite (bind_done_nil _ _ _ _ _ (get_arch_done _ _ _ Ha)). destruct (a_lookup a !! c) as [si|] eqn:Hl; [|done].
  rewrite (bind_done_nil _ _ w si w eq_refl).
  apply (as_lookup _ (ri_shape _ Hw _ _ Ha)) in Hl. rewrite -(as_storages _ (ri_shape _ Hw _ _ Ha)) in Hl.
  destruct (fst_lookup _ _ _ Hl) as [v Hv].
  destruct (ri_cols _ Hw _ _ Ha c v) as (Hwf & cm & Hcm & Hti); [by eapply elem_of_list_lookup_2|].
  assert (in_arch (im_arch (em_inst em)) (in_storage si (uv_get_raw (im_index (em_inst em)))) w =
    Done (if decide (im_index (em_inst em) < length (uv_vals v)) then Some (im_index (em_inst em) * uv_size v) else None) w []) as Hrun.
  { rewrite /in_arch /zoom Ha /in_storage /zoom Hv /= (uv_get_raw_rep _ _ _ Hwf). f_equal.
    rewrite (alter_snd _ _ _ _ _ Hv) (list_insert_id (a_storages a)) //. rewrite a_set_storages_id list_insert_id // set_archs_id. done. }
  rewrite (bind_done_nil _ _ _ _ _ Hrun). case_decide as Hlt; [|done].
  split; [done|]. split; [done|]. intros l [= <-]. split; [done|]. by exists a, v, (im_index (em_inst em)), cm.
Qed.
Lemma write_vstep v i (y : value) : uv_wf v → i < length (uv_vals v) → length y = uv_size v →
  rp (let* v := gets id in let* p := or_ub (mem_write (uv_data v) (i * uv_size v) y) in modify (uv_set_data p (uv_cap v))) v
     (λ _ v' ev, vstep (ldrop (ti_drop (uv_ti v)) y) v v' ev) (λ _ v' ev, vstep (ldrop (ti_drop (uv_ti v)) y) v v' ev).
Proof.
  intros Hwf Hi Hy. destruct (uv_write_rep v _ i y Hwf Hi Hy) as (p & Hp & Hr).
  rewrite /rp /bind /gets /= Hp /=. split; [by eapply uv_rep_wf|]. split; [done|]. intros x.
  rewrite (owed_vec_rep _ _ Hwf) (owed_vec_rep _ _ Hr). cbn [uv_set_data uv_ti]. rewrite /owed_list.
  destruct (lookup_lt_is_Some_2 _ _ Hi) as [z Hz].
  pose proof (cnt_bind_insert (ldrop (ti_drop (uv_ti v))) x _ i z y Hz). rewrite cnt_nil. rewrite /value in H |- *. lia.
Qed.
Lemma value_fits_size w c v cm : value_fits w c v → alive (w_ents w) c → comp_of w c = Some cm → length v = cm_size cm.
Proof.
  rewrite /comp_of. intros Hv Hc (em & Hem & ->)%fmap_Some. apply (Hv w). by rewrite (get_entity_meta_alive _ _ Hc) Hem.
Qed.
Lemma write_r w e c v : rinv w → value_fits w c v →
  gp gext (step (OWrite e c v)) w (dropping w c v) (λ _ _, True).
Proof.
  intros Hw Hv. cbn [step]. pose proof (get_mut_r w e c Hw) as Hg. rewrite /gp /rp {1}/bind.
  destruct (get_component_mut e c w) as [o w' ev|r w' ev| |]; [| |done..].
  2:{ destruct Hg as [-> ->]. by apply gm_refl; [apply _|]. }
  destruct Hg as (-> & -> & Hg). destruct o as [l|]; [|split; [by apply gm_refl; [apply _|]|done]].
  destruct (Hg l eq_refl) as (Hc & a & u & i & cm & Ha & Hu & Hwf & Hcm & Hti & Hi & Hoff).
  rewrite (owe_dropping _ _ _ Hc). assert (gp gext (do* write_loc l v in ret (RBool true)) w (owe w c v) (λ _ _, True)) as H.
  { eapply gp_then_r; [apply _| |intros; by apply gp_ret; [apply _|..]].
    apply gp_cw, gp_storage; [done|]. intros a' c' v' cm' Ha' Hv' _ _ _. rewrite Ha in Ha'. injection Ha' as <-. rewrite Hu in Hv'. injection Hv' as <- <-.
    rewrite Hoff. eapply rp_mono; [apply (write_vstep u i v Hwf Hi)| |].
    - rewrite /uv_size Hti. by apply (value_fits_size w c).
    - rewrite /owe Hcm Hti. done.
    - rewrite /owe Hcm Hti. done. }
  rewrite /gp /rp in H. destruct ((do* write_loc l v in ret (RBool true)) w); done.
Qed.
