(** * Adding and removing a component *)
From Verif Require Import ProofBase SpecSmall World History ProofEntities ProofBitset ProofArrayVec ProofUVec.
From Verif Require Export ProofMove.

(** ** The contents of the world as a table: entity, component, value *)
Notation table := (gmap ecsid (gmap ecsid value)).
Definition rowof (R : list (list row)) (e : ecsid) (m : gmap ecsid value) : Prop :=
  ∃ k i rs, R !! k = Some rs ∧ rs !! i = Some (e, m).
Definition reps (R : list (list row)) (T : table) : Prop := ∀ e m, T !! e = Some m ↔ rowof R e m.
Definition winvT (w : world) (T : table) : Prop := ∃ R, winv w R ∧ reps R T.

Lemma reps_exists (l : list row) : 
  (∀ e m m', (e, m) ∈ l → (e, m') ∈ l → m = m') → ∃ T : table, ∀ e m, T !! e = Some m ↔ (e, m) ∈ l.
Proof.
  induction l as [|[e m] l IH]; intros Hu.
  { exists ∅. intros e m. rewrite lookup_empty. split; [done|by intros ?%elem_of_nil]. }
  destruct IH as [T HT]; [intros e' m1 m2 ? ?; apply (Hu e'); by right|].
  exists (<[e := m]> T). intros e' m'. rewrite lookup_insert_Some HT elem_of_cons. split.
  - intros [[<- <-]|[_ ?]]; [by left|by right].
  - intros [[= -> ->]|Hin]; [by left|]. destruct (decide (e = e')) as [->|]; [|by right].
    left. split; [done|]. eapply (Hu e'); [left|by right].
Qed.
Lemma winv_table w R : winv w R → ∃ T, reps R T.
Proof.
  intros Hw. destruct (reps_exists (concat R)) as [T HT].
  - intros e m m' H H'. apply elem_of_list_In, in_concat in H as (rs & H1%elem_of_list_In & H2%elem_of_list_In).
    apply elem_of_list_In, in_concat in H' as (rs' & H1'%elem_of_list_In & H2'%elem_of_list_In).
    apply elem_of_list_lookup in H1 as [k H1], H2 as [i H2], H1' as [k' H1'], H2' as [i' H2'].
    by destruct (winv_row_unique _ _ Hw _ _ _ _ _ _ _ _ _ H1 H2 H1' H2') as (_ & _ & ?).
  - exists T. intros e m. rewrite HT elem_of_list_In in_concat. split.
    + intros (rs & H1%elem_of_list_In & H2%elem_of_list_In).
      apply elem_of_list_lookup in H1 as [k H1], H2 as [i H2]. by exists k, i, rs.
    + intros (k & i & rs & H1 & H2). exists rs. split; apply elem_of_list_In; by eapply elem_of_list_lookup_2.
Qed.
Lemma WInv_table w : WInv w ↔ ∃ T, winvT w T.
Proof.
  split.
  - intros [R HR]. destruct (winv_table _ _ HR) as [T HT]. by exists T, R.
  - intros (T & R & HR & _). by exists R.
Qed.
Lemma rowof_ext R n e m : rowof (R ++ replicate n []) e m ↔ rowof R e m.
Proof.
  split.
  - intros (k & i & rs & H1 & H2). apply lookup_app_Some in H1 as [H1|[_ H1]]; [by exists k, i, rs|].
    apply lookup_replicate in H1 as [-> _]. done.
  - intros (k & i & rs & H1 & H2). exists k, i, rs. split; [|done]. by apply lookup_app_l_Some.
Qed.
Lemma wext_reps w R w' R' T : wext w R w' R' → reps R T → reps R' T.
Proof. intros [_ (n & -> & _) _ _ _ _ _] H e m. rewrite rowof_ext. apply H. Qed.

(** ** What stays the same in every operation on components *)
Record keeps (w w' : world) : Prop := {
  kp_ents : w_ents w' = w_ents w;
  kp_comp : ∀ i, em_comp <$> meta_at w' i = em_comp <$> meta_at w i;
  kp_types : w_types w' = w_types w;
  kp_reuse : w_reuse w' = w_reuse w;
  kp_locks : ∀ c i, w_lock_lookup w !! c = Some i → w_lock_lookup w' !! c = Some i ∧ w_locks w' !! i = w_locks w !! i;
  kp_ids : ∀ k L, arch_ids w !! k = Some L → arch_ids w' !! k = Some L
}.
Lemma keeps_refl w : keeps w w.
Proof. constructor; naive_solver. Qed.
Lemma keeps_trans w1 w2 w3 : keeps w1 w2 → keeps w2 w3 → keeps w1 w3.
Proof.
  intros [A1 A2 A3 A4 A5 A6] [B1 B2 B3 B4 B5 B6]. constructor; try congruence.
  - intros c i Hc. destruct (A5 c i Hc) as [Hc' E]. destruct (B5 c i Hc') as [? E']. split; [done|congruence].
  - intros k L HL. by apply B6, A6.
Qed.
Lemma wext_keeps w R w' R' : wext w R w' R' → keeps w w'.
Proof.
  intros H. constructor; try apply H.
  - intros i. by rewrite /meta_at (we_meta _ _ _ _ H).
  - intros k L HL. by eapply wext_ids.
Qed.
Lemma keeps_comp w w' c : keeps w w' → comp_of w' c = comp_of w c.
Proof. intros H. apply (kp_comp _ _ H). Qed.

(** ** The state after a move *)
Definition new_inst (rs_c' : list row) (row0 tar pos : nat) (e : ecsid) (i : nat) (im : instance_meta) : instance_meta :=
  if decide (i = uindex e) then InstMeta tar pos
  else match rs_c' !! row0 with
       | Some r => if decide (i = uindex r.1) then InstMeta (im_arch im) row0 else im
       | None => im
       end.
Lemma winv_move w R cur tar row0 ca ta ca' ta' rs_c rs_t rs_c' e m m' w' :
  winv w R → cur ≠ tar →
  w_archs w !! cur = Some ca → w_archs w !! tar = Some ta →
  R !! cur = Some rs_c → R !! tar = Some rs_t →
  rs_c !! row0 = Some (e, m) → vec_swap_remove row0 rs_c = Some rs_c' →
  w_archs w' = <[cur := ca']> (<[tar := ta']> (w_archs w)) →
  a_lookup ca' = a_lookup ca → a_comp_ids ca' = a_comp_ids ca → a_cache ca' = a_cache ca →
  a_lookup ta' = a_lookup ta → a_comp_ids ta' = a_comp_ids ta → a_cache ta' = a_cache ta →
  a_entities ca' = rs_c'.*1 → a_entities ta' = (rs_t ++ [(e, m')]).*1 →
  (a_storages ca').*1 = a_comp_ids ca → (a_storages ta').*1 = a_comp_ids ta →
  cols (comp_of w) (a_storages ca') (λ d, col d rs_c') →
  cols (comp_of w) (a_storages ta') (λ d, col d (rs_t ++ [(e, m')])) →
  (∀ c, is_Some (m' !! c) ↔ c ∈ a_comp_ids ta) →
  w_ents w' = w_ents w → w_bitset w' = w_bitset w → w_entbits w' = w_entbits w →
  w_lock_lookup w' = w_lock_lookup w → w_locks w' = w_locks w → w_types w' = w_types w → w_reuse w' = w_reuse w →
  (∀ i, meta_at w' i = (λ em, EntMeta (new_inst rs_c' row0 tar (length rs_t) e i (em_inst em)) (em_comp em)) <$> meta_at w i) →
  winv w' (<[cur := rs_c']> (<[tar := rs_t ++ [(e, m')]]> R)) ∧
  (∀ e0 m0, rowof (<[cur := rs_c']> (<[tar := rs_t ++ [(e, m')]]> R)) e0 m0 ↔
            (e0 = e ∧ m0 = m') ∨ (e0 ≠ e ∧ rowof R e0 m0)).
Proof.
  intros Hw Hne Hca Hta Hrc Hrt Hrow Hsr HA Lc Ic Cc Lt It Ct Ec Et Sc St Colc Colt Hdom He Hb Heb Hll Hlk Hty Hre Hmeta.
  assert (cur < length R) as HlR by by eapply lookup_lt_Some.
  assert (tar < length R) as HlRt by by eapply lookup_lt_Some.
  set (R' := <[cur := rs_c']> (<[tar := rs_t ++ [(e, m')]]> R)).
  assert (∀ k rs, R' !! k = Some rs ↔
    (k = cur ∧ rs = rs_c') ∨ (k = tar ∧ rs = rs_t ++ [(e, m')]) ∨ (k ≠ cur ∧ k ≠ tar ∧ R !! k = Some rs)) as HR'.
  { intros k rs. rewrite /R' !list_lookup_insert_Some insert_length. split.
    - intros [(<- & <- & _)|(? & [(<- & <- & _)|(? & ?)])]; naive_solver.
    - intros [(-> & ->)|[(-> & ->)|(? & ? & ?)]]; [left; split_and!; done|right; split; [done|]; left; split_and!; done|].
      right. split; [done|]. right. done. }
  assert (∀ k a, w_archs w' !! k = Some a → (k = cur ∧ a = ca') ∨ (k = tar ∧ a = ta') ∨ (k ≠ cur ∧ k ≠ tar ∧ w_archs w !! k = Some a)) as HA'.
  { intros k a. rewrite HA !list_lookup_insert_Some. naive_solver. }
  (* where e is *)
  assert (∀ k i rs m0, R !! k = Some rs → rs !! i = Some (e, m0) → k = cur ∧ i = row0 ∧ m0 = m) as Huniq.
  { intros k i rs m0 H1 H2. by destruct (winv_row_unique _ _ Hw _ _ _ _ _ _ _ _ _ H1 H2 Hrc Hrow) as (-> & -> & ->). }
  assert (∀ k i rs e0 m0, R !! k = Some rs → rs !! i = Some (e0, m0) → (k, i) ≠ (cur, row0) → uindex e0 ≠ uindex e) as Hidx.
  { intros k i rs e0 m0 H1 H2 Hki Hu. assert (e0 = e) as -> by exact (winv_row_index _ _ Hw _ _ _ _ _ _ _ _ _ _ H1 H2 Hrc Hrow Hu).
    destruct (Huniq _ _ _ _ H1 H2) as (-> & -> & _). done. }
  (* the rows of R' come from R *)
  assert (∀ k i rs e0 m0, R' !! k = Some rs → rs !! i = Some (e0, m0) →
     (k = tar ∧ i = length rs_t ∧ e0 = e ∧ m0 = m') ∨
     (∃ i0 rs0, R !! k = Some rs0 ∧ rs0 !! i0 = Some (e0, m0) ∧ (k, i0) ≠ (cur, row0) ∧
        (i0 = i ∨ (k = cur ∧ i = row0 ∧ i0 = length rs_c - 1 ∧ rs_c' !! row0 = Some (e0, m0))) ∧
        (k = cur → rs_c' !! i = Some (e0, m0)))) as Hfrom.
  { intros k i rs e0 m0 [(-> & ->)|[(-> & ->)|(? & ? & Hk)]]%HR' Hi.
    - right. destruct (swap_remove_from _ _ _ _ _ Hsr Hi) as (i0 & Hi0 & Hne0 & Hcase). exists i0, rs_c.
      split_and!; [done|done|congruence| |done]. destruct Hcase as [->|[-> ->]]; [by left|]. right. done.
    - apply lookup_app_Some in Hi as [Hi|[Hge Hi]].
      + right. exists i, rs_t. split_and!; [done|done|congruence|by left|congruence].
      + left. apply list_lookup_singleton_Some in Hi as [Hz [= -> ->]]. split_and!; [done|lia|done|done].
    - right. exists i, rs. split_and!; [done|done|congruence|by left|congruence]. }
  (* and every row other than e's survives *)
  assert (∀ k i rs e0 m0, R !! k = Some rs → rs !! i = Some (e0, m0) → (k, i) ≠ (cur, row0) →
     ∃ rs' i', R' !! k = Some rs' ∧ rs' !! i' = Some (e0, m0) ∧
       (if decide (k = cur ∧ i = length rs_c - 1) then i' = row0 ∧ rs_c' !! row0 = Some (e0, m0) else i' = i)) as Hto.
  { intros k i rs e0 m0 Hk Hi Hki. destruct (decide (k = cur)) as [->|Hkc].
    - rewrite Hrc in Hk. simplify_eq. assert (i ≠ row0) as Hir by congruence.
      pose proof (swap_remove_to _ _ _ _ _ Hsr Hi Hir) as Hto'. case_decide as Hl.
      + exists rs_c', row0. rewrite decide_True //. split_and!; [apply HR'; by left|done|done|done].
      + exists rs_c', i. rewrite decide_False; [|naive_solver]. split_and!; [apply HR'; by left|done|done].
    - destruct (decide (k = tar)) as [->|Hkt].
      + rewrite Hrt in Hk. simplify_eq. exists (rs ++ [(e, m')]), i. rewrite decide_False; [|naive_solver]. split_and!; [apply HR'; right; by left|by apply lookup_app_l_Some|done].
      + exists rs, i. rewrite decide_False; [|naive_solver]. split_and!; [apply HR'; right; by right|done|done]. }
  (* the swapped entity, if any, was in the last row *)
  assert (∀ r, rs_c' !! row0 = Some r → rs_c !! (length rs_c - 1) = Some r ∧ length rs_c - 1 ≠ row0) as Hswap.
  { intros r Hr. destruct (swap_remove_from _ _ _ _ _ Hsr Hr) as (j0 & Hj0 & Hne0 & [->|[_ ->]]); [done|done]. }
  split.
  2:{ intros e0 m0. split.
      - intros (k & i & rs & Hk & Hi). destruct (Hfrom _ _ _ _ _ Hk Hi) as [(-> & -> & -> & ->)|(i0 & rs0 & H1 & H2 & H3 & _)]; [by left|].
        right. split; [|by exists k, i0, rs0]. intros ->. destruct (Huniq _ _ _ _ H1 H2) as (-> & -> & _). done.
      - intros [(-> & ->)|(Hne0 & k & i & rs & Hk & Hi)].
        + exists tar, (length rs_t), (rs_t ++ [(e, m')]). split; [apply HR'; right; by left|].
          by rewrite lookup_app_r // Nat.sub_diag.
        + destruct (Hto _ _ _ _ _ Hk Hi) as (rs' & i' & H1 & H2 & _); [|by exists k, i', rs'].
          intros [= -> ->]. rewrite Hrc in Hk. simplify_eq. }
  eapply winv_rows_move; try done.
  - (* arch_ids *)
    rewrite /arch_ids HA !list_fmap_insert It Ic.
    rewrite (list_insert_id _ tar); [|by rewrite list_lookup_fmap Hta].
    by rewrite list_insert_id; [|by rewrite list_lookup_fmap Hca].
  - intros i. rewrite Hmeta. by destruct (meta_at w i).
  - by rewrite /R' !insert_length.
  - intros k a [(-> & ->)|[(-> & ->)|(_ & _ & Ha)]]%HA'.
    + destruct (wi_shape _ _ Hw _ _ Hca) as [S1 S2 S3 S4]. split.
      * constructor; rewrite ?Lc ?Ic ?Cc //.
      * rewrite /cache_ok Cc Ic. by eapply wi_cache.
    + destruct (wi_shape _ _ Hw _ _ Hta) as [S1 S2 S3 S4]. split.
      * constructor; rewrite ?Lt ?It ?Ct //.
      * rewrite /cache_ok Ct It. by eapply wi_cache.
    + split; [by eapply wi_shape|by eapply wi_cache].
  - intros k a rs Ha Hk. apply HR' in Hk. apply HA' in Ha.
    destruct (decide (k = cur)) as [->|Hkc]; [|destruct (decide (k = tar)) as [->|Hkt]].
    + destruct Ha as [[_ ->]|[[? _]|(? & _)]]; [|done..]. destruct Hk as [[_ ->]|[[? _]|(? & _)]]; [|done..].
      constructor; [done|exact Colc|]. rewrite Ic. intros r c Hr. apply elem_of_list_lookup in Hr as [j Hj].
      destruct (swap_remove_from _ _ _ _ _ Hsr Hj) as (j0 & Hj0 & _).
      apply (ar_dom _ _ _ (wi_rows _ _ Hw _ _ _ Hca Hrc)). by eapply elem_of_list_lookup_2.
    + destruct Ha as [[? _]|[[_ ->]|(_ & ? & _)]]; [done| |done]. destruct Hk as [[? _]|[[_ ->]|(_ & ? & _)]]; [done| |done].
      constructor; [done|exact Colt|]. rewrite It. intros r c [Hr|Hr]%elem_of_app.
      * by apply (ar_dom _ _ _ (wi_rows _ _ Hw _ _ _ Hta Hrt)).
      * apply elem_of_list_singleton in Hr as ->. apply Hdom.
    + destruct Ha as [[? _]|[[? _]|(_ & _ & Ha)]]; [done..|]. destruct Hk as [[? _]|[[? _]|(_ & _ & Hk)]]; [done..|].
      by eapply wi_rows.
  - (* row to metadata *)
    intros k i rs e0 m0 Hk Hi. rewrite Hmeta.
    destruct (Hfrom _ _ _ _ _ Hk Hi) as [(-> & -> & -> & ->)|(i0 & rs0 & H1 & H2 & H3 & Hcase & Hin)].
    + destruct (wi_row _ _ Hw _ _ _ _ _ Hrc Hrow) as [? Hm]. split; [done|].
      apply fmap_Some in Hm as (em & Hem & _). rewrite Hem /= /new_inst decide_True //.
    + destruct (wi_row _ _ Hw _ _ _ _ _ H1 H2) as [Hal Hm]. split; [done|].
      apply fmap_Some in Hm as (em & Hem & HE). rewrite Hem /= /new_inst -HE.
      rewrite decide_False; [|by eapply Hidx]. f_equal.
      destruct (rs_c' !! row0) as [[s ms]|] eqn:Hs.
      * destruct (Hswap _ eq_refl) as [Hlast Hlne]. simpl. case_decide as Hu.
        -- assert (e0 = s) as -> by (eapply winv_row_index; [exact Hw|exact H1|exact H2|exact Hrc|exact Hlast|done]).
           destruct (winv_row_unique _ _ Hw _ _ _ _ _ _ _ _ _ H1 H2 Hrc Hlast) as (-> & -> & _).
           destruct Hcase as [<-|(_ & -> & _)]; [|done]. simpl. f_equal.
           specialize (Hin eq_refl). apply lookup_lt_Some in Hin.
           rewrite (vec_swap_remove_length _ _ _ Hsr) in Hin. lia.
        -- destruct Hcase as [->|(-> & -> & -> & E)]; [done|]. by simplify_eq.
      * destruct Hcase as [->|(-> & -> & -> & E)]; [done|]. done.
  - (* metadata to row *)
    intros i em' Hem'. rewrite Hmeta in Hem'. apply fmap_Some in Hem' as (em & Hem & ->). simpl.
    destruct (wi_meta _ _ Hw _ _ Hem) as (rs0 & e0 & m0 & H1 & H2 & Hu).
    rewrite /new_inst. destruct (decide (i = uindex e)) as [Hie|Hie].
    { exists (rs_t ++ [(e, m')]), e, m'. simpl. split_and!; [apply HR'; right; by left| |done].
      by rewrite lookup_app_r // Nat.sub_diag. }
    assert ((im_arch (em_inst em), im_index (em_inst em)) ≠ (cur, row0)) as Hki.
    { intros [= E1 E2]. rewrite E1 Hrc in H1. injection H1 as <-. rewrite E2 Hrow in H2. injection H2 as <- <-. done. }
    destruct (Hto _ _ _ _ _ H1 H2 Hki) as (rs' & i' & H1' & H2' & Hcase).
    case_decide as Hlast.
    + destruct Hlast as [Hk Hl], Hcase as [-> Hs]. rewrite Hs /=. rewrite decide_True; [|by rewrite Hu]. by exists rs', e0, m0.
    + subst i'. assert (match rs_c' !! row0 with
         | Some r => if decide (i = uindex r.1) then InstMeta (im_arch (em_inst em)) row0 else em_inst em
         | None => em_inst em end = em_inst em) as ->; [|by exists rs', e0, m0].
      destruct (rs_c' !! row0) as [[s ms]|] eqn:Hs; [|done]. simpl. case_decide as Hus; [|done]. exfalso.
      destruct (Hswap _ eq_refl) as [Hl Hlne].
      assert (e0 = s) as -> by (eapply winv_row_index; [exact Hw|exact H1|exact H2|exact Hrc|exact Hl|congruence]).
      destruct (winv_row_unique _ _ Hw _ _ _ _ _ _ _ _ _ H1 H2 Hrc Hl) as (? & ? & _). by apply Hlast.
Qed.

(** ** The last two steps of a move *)
Lemma push_row_run w tar a e em : w_archs w !! tar = Some a → meta_at w (uindex e) = Some em →
  push_row tar e w =
    Done () (set_meta (<[uindex e := Some (EntMeta (InstMeta tar (length (a_entities a))) (em_comp em))]> (w_meta w))
              (set_archs (<[tar := a_set_entities (a_entities a ++ [e]) a]> (w_archs w)) w)) [].
Proof.
  intros Ha Hem. rewrite /push_row.
  set (w1 := set_archs (<[tar := a_set_entities (a_entities a ++ [e]) a]> (w_archs w)) w).
  assert (in_arch tar (modify (λ a, a_set_entities (a_entities a ++ [e]) a)) w = Done () w1 []) as H1.
  { rewrite /in_arch /zoom Ha. done. }
  rewrite (bind_done_nil _ _ _ _ _ H1).
  assert (w_archs w1 !! tar = Some (a_set_entities (a_entities a ++ [e]) a)) as Ha1.
  { rewrite /= list_lookup_insert //. by eapply lookup_lt_Some. }
  rewrite (bind_done_nil _ _ _ _ _ (get_arch_done _ _ _ Ha1)).
  rewrite (update_meta_run w1 _ em) //. cbn [a_set_entities a_entities]. rewrite app_length /=.
  by rewrite Nat.add_sub.
Qed.
Definition moved_inst (row0 : nat) (em : entity_meta) : entity_meta :=
  EntMeta (InstMeta (im_arch (em_inst em)) row0) (em_comp em).
Lemma remove_row_run w cur a row0 es : w_archs w !! cur = Some a → vec_swap_remove row0 (a_entities a) = Some es →
  (∀ s, es !! row0 = Some s → is_Some (meta_at w (uindex s))) →
  ∃ M, remove_row cur row0 w = Done () (set_meta M (set_archs (<[cur := a_set_entities es a]> (w_archs w)) w)) [] ∧
    ∀ i, mjoin (M !! i) = match es !! row0 with
           | Some s => if decide (i = uindex s) then moved_inst row0 <$> meta_at w i else meta_at w i
           | None => meta_at w i
           end.
Proof.
  intros Ha Hes Hs. rewrite /remove_row (bind_done_nil _ _ _ _ _ (get_arch_done _ _ _ Ha)) Hes.
  cbn [unwrap]. rewrite (bind_done_nil _ _ w es w eq_refl).
  set (w1 := set_archs (<[cur := a_set_entities es a]> (w_archs w)) w).
  assert (in_arch cur (modify (a_set_entities es)) w = Done () w1 []) as H1.
  { rewrite /in_arch /zoom Ha. done. }
  rewrite (bind_done_nil _ _ _ _ _ H1). destruct (es !! row0) as [s|] eqn:E.
  - destruct (Hs s eq_refl) as [em Hem]. rewrite (update_meta_run w1 _ em) //.
    eexists. split; [done|]. intros i. pose proof (meta_at_insert w (uindex s) (Some (moved_inst row0 em)) i (meta_at_lt _ _ _ Hem)) as Hi.
    etrans; [exact Hi|]. case_decide; [|done]. subst i. by rewrite Hem.
  - exists (w_meta w). split; [|done]. by destruct w.
Qed.

Lemma finish_move w R cur tar row0 ca ta rs_c rs_t rs_c' e m m' sc st :
  winv w R → cur ≠ tar →
  w_archs w !! cur = Some ca → w_archs w !! tar = Some ta →
  R !! cur = Some rs_c → R !! tar = Some rs_t →
  rs_c !! row0 = Some (e, m) → vec_swap_remove row0 rs_c = Some rs_c' →
  sc.*1 = a_comp_ids ca → st.*1 = a_comp_ids ta →
  cols (comp_of w) sc (λ d, col d rs_c') →
  cols (comp_of w) st (λ d, col d (rs_t ++ [(e, m')])) →
  (∀ c, is_Some (m' !! c) ↔ c ∈ a_comp_ids ta) →
  ∃ w' R', (do* push_row tar e in remove_row cur row0) (mv w cur tar ca ta sc st) = Done () w' [] ∧
    winv w' R' ∧ keeps w w' ∧ arch_ids w' = arch_ids w ∧
    (∀ e0 m0, rowof R' e0 m0 ↔ (e0 = e ∧ m0 = m') ∨ (e0 ≠ e ∧ rowof R e0 m0)).
Proof.
  intros Hw Hne Hca Hta Hrc Hrt Hrow Hsr Hsc Hst Colc Colt Hdom.
  assert (cur < length (w_archs w)) as Hlc by by eapply lookup_lt_Some.
  assert (tar < length (w_archs w)) as Hlt by by eapply lookup_lt_Some.
  destruct (wi_row _ _ Hw _ _ _ _ _ Hrc Hrow) as [Hal Hm]. apply fmap_Some in Hm as (em & Hem & HE).
  pose proof (ar_ents _ _ _ (wi_rows _ _ Hw _ _ _ Hca Hrc)) as Entc.
  pose proof (ar_ents _ _ _ (wi_rows _ _ Hw _ _ _ Hta Hrt)) as Entt.
  set (w1 := mv w cur tar ca ta sc st).
  assert (meta_at w1 (uindex e) = Some em) as Hem1 by done.
  rewrite (bind_done_nil _ _ _ _ _ (push_row_run w1 tar (a_set_storages st ta) e em
    (mv_tar w cur tar ca ta Hne Hlc Hlt sc st) Hem1)).
  set (M1 := <[uindex e := _]> (w_meta w1)).
  set (ta2 := a_set_entities _ _). set (w2 := set_meta M1 _).
  assert (w_archs w2 !! cur = Some (a_set_storages sc ca)) as Hc2.
  { rewrite /w2 /= list_lookup_insert_ne //. by apply mv_cur. }
  assert (∀ i, meta_at w2 i = if decide (i = uindex e) then Some (EntMeta (InstMeta tar (length rs_t)) (em_comp em)) else meta_at w i) as Hm2.
  { intros i. etrans; [exact (meta_at_insert w (uindex e) _ i (meta_at_lt _ _ _ Hem))|].
    cbn [a_set_storages a_entities]. by rewrite Entt fmap_length. }
  assert (vec_swap_remove row0 (a_entities (a_set_storages sc ca)) = Some (rs_c'.*1)) as Hes.
  { cbn [a_set_storages a_entities]. rewrite Entc. by apply vec_swap_remove_fmap. }
  (* the entity that takes the freed row has metadata and is not e *)
  assert (∀ r, rs_c' !! row0 = Some r → uindex r.1 ≠ uindex e ∧ is_Some (meta_at w (uindex r.1))) as Hsw.
  { intros [s ms] Hr. destruct (swap_remove_from _ _ _ _ _ Hsr Hr) as (j0 & Hj0 & Hne0 & _). simpl.
    destruct (wi_row _ _ Hw _ _ _ _ _ Hrc Hj0) as [Hals Hms]. split.
    - intros Hu. assert (s = e) as -> by exact (winv_row_index _ _ Hw _ _ _ _ _ _ _ _ _ _ Hrc Hj0 Hrc Hrow Hu).
      by destruct (winv_row_unique _ _ Hw _ _ _ _ _ _ _ _ _ Hrc Hj0 Hrc Hrow) as (_ & ? & _).
    - apply fmap_Some in Hms as (ems & -> & _). eauto. }
  destruct (remove_row_run w2 cur (a_set_storages sc ca) row0 (rs_c'.*1) Hc2 Hes) as (M & Hrun & HM).
  { intros s. rewrite list_lookup_fmap. intros (r & Hr & ->)%fmap_Some. destruct (Hsw r Hr) as [Hu ?].
    rewrite Hm2 decide_False //. }
  set (w' := set_meta M _) in Hrun. exists w'.
  destruct (winv_move w R cur tar row0 ca ta (a_set_entities rs_c'.*1 (a_set_storages sc ca)) ta2 rs_c rs_t rs_c' e m m' w') as [Hw' Hrowof]; try done.
  - rewrite /w' /w2 /w1 /mv /=. rewrite list_insert_insert.
    by rewrite (list_insert_commute (w_archs w) tar cur) // list_insert_insert.
  - rewrite /ta2 /= Entt fmap_app. done.
  - intros i. change (meta_at w' i) with (mjoin (M !! i)). rewrite HM list_lookup_fmap Hm2.
    rewrite /new_inst. destruct (rs_c' !! row0) as [r|] eqn:Hr; simpl.
    + destruct (Hsw r eq_refl) as [Hu _]. destruct (decide (i = uindex e)) as [->|Hie].
      * rewrite decide_False; [|done]. by rewrite Hem.
      * destruct (meta_at w i) as [em0|]; simpl; [|by case_decide]. rewrite /moved_inst. case_decide; [done|]. by destruct em0.
    + destruct (decide (i = uindex e)) as [->|Hie]; [by rewrite Hem|].
      by destruct (meta_at w i) as [[]|].
  - assert (arch_ids w' = arch_ids w) as Hids.
    { rewrite /w' /w2 /w1 /mv /arch_ids /=. rewrite !list_fmap_insert /=.
      rewrite (list_insert_id (a_comp_ids <$> w_archs w) cur); [|by rewrite list_lookup_fmap Hca].
      rewrite (list_insert_id (a_comp_ids <$> w_archs w) tar); [|by rewrite list_lookup_fmap Hta].
      rewrite (list_insert_id (a_comp_ids <$> w_archs w) tar); [|by rewrite list_lookup_fmap Hta].
      rewrite (list_insert_id (a_comp_ids <$> w_archs w) cur); [|by rewrite list_lookup_fmap Hca]. done. }
    eexists. split; [exact Hrun|]. split; [exact Hw'|]. split; [|split; [done|exact Hrowof]].
    constructor; try done.
    + intros i. change (meta_at w' i) with (mjoin (M !! i)). rewrite HM list_lookup_fmap Hm2.
      destruct (rs_c' !! row0) as [r|] eqn:Hr; simpl.
      * destruct (Hsw r eq_refl) as [Hu _]. destruct (decide (i = uindex e)) as [->|Hie].
        -- rewrite decide_False; [|done]. by rewrite Hem.
        -- case_decide; [|done]. by destruct (meta_at w i).
      * case_decide as Hie; [subst i; by rewrite Hem|done].
    + by rewrite Hids.
Qed.

(** ** Finding or making the target archetype *)
(** The archetype of the ids [L] is there or is added at the end; no other one is added. *)
Definition adds_one (w w' : world) (L : list ecsid) : Prop :=
  (arch_ids w' = arch_ids w ∧ L ∈ arch_ids w) ∨ arch_ids w' = arch_ids w ++ [L].
Lemma adds_one_len w w' L : adds_one w w' L → length (w_archs w') ≤ S (length (w_archs w)).
Proof. rewrite -!arch_ids_length. intros [[-> _]| ->]; [lia|]. rewrite app_length /=. lia. Qed.
Lemma adds_one_in w w' L : adds_one w w' L → L ∈ arch_ids w'.
Proof. intros [[-> ?]| ->]; [done|]. set_solver. Qed.
Definition toggles_to (c : ecsid) (L : list ecsid) (w : world) (r : option nat) : Prop :=
  match r with
  | Some j => ∃ L', arch_ids w !! j = Some L' ∧ toggle c L L'
  | None => ∀ j L', arch_ids w !! j = Some L' → ¬ toggle c L L'
  end.
Lemma target_spec {B} (find : M world (option nat)) (make : M world nat) (K : nat → M world B)
    w R cur a c (Q : post world B) (P : ppost world) :
  winv w R → w_archs w !! cur = Some a →
  (∀ w1, winv w1 R → wext w R w1 R → arch_ids w1 = arch_ids w →
     ∃ r, find w1 = Done r w1 [] ∧ toggles_to c (a_comp_ids a) w1 r) →
  (∀ w1, winv w1 R → wext w R w1 R → arch_ids w1 = arch_ids w → toggles_to c (a_comp_ids a) w1 None →
     wp make w1 (λ n w2 ev, ev = [] ∧ ∃ R' ta, winv w2 R' ∧ wext w R w2 R' ∧ adds_one w w2 (a_comp_ids ta) ∧
        w_archs w2 !! n = Some ta ∧ toggle c (a_comp_ids a) (a_comp_ids ta)) P) →
  (∀ tar w' R' ta, winv w' R' → wext w R w' R' → adds_one w w' (a_comp_ids ta) →
     w_archs w' !! tar = Some ta → toggle c (a_comp_ids a) (a_comp_ids ta) → wp (K tar) w' Q P) →
  wp (let* cached := in_arch cur (in_cache (rc_lookup_id c)) in
      let* found :=
        match cached with
        | Some k => ret (Some k)
        | None =>
            let* idx := find in
            match idx with
            | Some k => do* in_arch cur (in_cache (rc_insert_id c k)) in ret (Some k)
            | None => ret None
            end
        end in
      let* tar := match found with Some k => ret k | None => make end in
      K tar) w Q P.
Proof.
  intros Hw Ha Hfind Hmake HK.
  destruct (winv_cache_lookup w R cur a c Hw Ha) as (r & w1 & Hrun & Hw1 & X1 & Hids1 & Hr).
  apply wp_bind. rewrite {1}/wp Hrun. rewrite -Hids1 in Hr.
  destruct (we_archs _ _ _ _ X1 _ _ Ha) as [s1 Ha1].
  (* found *)
  apply (wp_bind' _ _ _ (λ r w2 ev, ev = [] ∧ winv w2 R ∧ wext w R w2 R ∧ arch_ids w2 = arch_ids w ∧
     toggles_to c (a_comp_ids a) w2 r)).
  { destruct r as [k|].
    { apply wp_ret. split_and!; done. }
    destruct (Hfind w1 Hw1 X1 Hids1) as (r & Hf & Ht). apply wp_bind. rewrite {1}/wp Hf. destruct r as [k|].
    - destruct Ht as (L' & HL' & Ht).
      destruct (winv_cache_insert w1 R cur _ c k L' Hw1 Ha1 HL' Ht) as (w2 & Hrun2 & Hw2 & X2 & Hids2).
      apply wp_bind. rewrite {1}/wp Hrun2. apply wp_ret. split_and!; [done|done|by eapply wext_trans|congruence|].
      exists L'. by rewrite Hids2.
    - apply wp_ret. split_and!; done. }
  intros found w2 ev (-> & Hw2 & X2 & Hids2 & Ht).
  assert (length (w_archs w2) = length (w_archs w)) as Hlen2 by by rewrite -!arch_ids_length Hids2.
  apply (wp_bind' _ _ _ (λ n w3 ev, ev = [] ∧ ∃ R' ta, winv w3 R' ∧ wext w R w3 R' ∧ adds_one w w3 (a_comp_ids ta) ∧
        w_archs w3 !! n = Some ta ∧ toggle c (a_comp_ids a) (a_comp_ids ta))).
  { destruct found as [k|].
    - destruct Ht as (L' & (ta & Hta & <-)%arch_ids_lookup & Ht). apply wp_ret. split; [done|]. exists R, ta. split_and!; try done. left. split; [done|]. rewrite -Hids2. apply elem_of_list_lookup. exists k. apply arch_ids_lookup. by exists ta.
    - by apply Hmake. }
  intros n w3 ev (-> & R' & ta & Hw3 & X3 & Hlen3 & Hta & Htg). by apply (HK n w3 R' ta).
Qed.

Lemma push_target_spec w R w1 cur a c na :
  winv w R → winv w1 R → wext w R w1 R → arch_ids w1 = arch_ids w → w_archs w !! cur = Some a →
  arch_shape na → arch_rows (comp_of w1) na [] → a_cache na = rc_new → toggle c (a_comp_ids a) (a_comp_ids na) →
  toggles_to c (a_comp_ids a) w1 None →
  (∀ d, d ∈ a_comp_ids na → alive (w_ents w1) d ∧ is_Some (comp_of w1 d) ∧ is_Some (w_lock_lookup w1 !! d)) →
  ∀ P, wp (let* n := push_archetype na in do* in_arch cur (in_cache (rc_insert_id c n)) in ret n) w1
    (λ n w2 ev, ev = [] ∧ ∃ R' ta, winv w2 R' ∧ wext w R w2 R' ∧ adds_one w w2 (a_comp_ids ta) ∧
        w_archs w2 !! n = Some ta ∧ toggle c (a_comp_ids a) (a_comp_ids ta)) P.
Proof.
  intros Hw Hw1 X1 Hids Ha Hsh Hrows Hcache Ht Hnone Hcomps P.
  assert (length (w_archs w1) = length (w_archs w)) as Hlen1 by by rewrite -!arch_ids_length Hids.
  destruct (winv_push_empty w1 R na Hw1 Hsh Hrows Hcache Hcomps) as (w2 & Hrun & Hw2 & X2 & HA & _).
  { intros k L HL Heq. apply (Hnone k L HL). intros d. rewrite (Heq d). apply Ht. }
  { intros E. apply lookup_lt_Some in Ha. rewrite E /= in Hlen1. lia. }
  apply wp_bind. rewrite {1}/wp Hrun.
  destruct (we_archs _ _ _ _ (wext_trans _ _ _ _ _ _ X1 X2) _ _ Ha) as [s2 Ha2].
  assert (w_archs w2 !! length (w_archs w1) = Some na) as Hna by by rewrite HA list_lookup_middle.
  destruct (winv_cache_insert w2 _ cur _ c (length (w_archs w1)) (a_comp_ids na) Hw2 Ha2) as (w3 & Hrun3 & Hw3 & X3 & Hids3).
  { apply arch_ids_lookup. by exists na. }
  { done. }
  apply wp_bind. rewrite {1}/wp Hrun3. apply wp_ret. split; [done|].
  destruct (we_archs _ _ _ _ X3 _ _ Hna) as [s3 Hna3].
  eexists _, _. split_and!; [exact Hw3| | |exact Hna3|done].
  - eapply wext_trans; [exact X1|]. by eapply wext_trans.
  - right. rewrite Hids3 -Hids /arch_ids HA fmap_app. done.
Qed.

Lemma add_make_spec w R w1 cur a c (P : ppost world) :
  winv w R → winv w1 R → wext w R w1 R → arch_ids w1 = arch_ids w → w_archs w !! cur = Some a →
  alive (w_ents w) c → c ∉ a_comp_ids a → toggles_to c (a_comp_ids a) w1 None →
  (∀ w', winv w' R → wext w R w' R → arch_ids w' = arch_ids w → comp_of w c = None → P RUnwrap w' []) →
  wp (do* ensure_lock c in
      let* ocm := get_entity_meta c in
      let* cm := unwrap ocm RUnwrap in
      let* a1 := get_arch cur in
      let* na := unwrap (from_archetype_with a1 (cm_type_info (em_comp cm)) c) RAssert in
      let* n := push_archetype na in
      do* in_arch cur (in_cache (rc_insert_id c n)) in
      ret n) w1
    (λ n w2 ev, ev = [] ∧ ∃ R' ta, winv w2 R' ∧ wext w R w2 R' ∧ adds_one w w2 (a_comp_ids ta) ∧
        w_archs w2 !! n = Some ta ∧ toggle c (a_comp_ids a) (a_comp_ids ta)) P.
Proof.
  intros Hw Hw1 X1 Hids Ha Hc Hnc Hnone HP.
  apply wp_bind. rewrite {1}/wp ensure_lock_run. set (w2 := lock_world c w1).
  destruct (winv_lock c w1 R Hw1) as [Hw2 Hlk]. fold w2 in Hw2, Hlk.
  pose proof (wext_locks _ _ _ Hw1 (lock_world_same c w1 R Hw1)) as X12. fold w2 in X12.
  assert (wext w R w2 R) as X2 by by eapply wext_trans.
  assert (w_archs w2 = w_archs w1) as HA by by destruct (lock_world_same c w1 R Hw1).
  assert (arch_ids w2 = arch_ids w) as Hids2 by by rewrite /arch_ids HA.
  assert (alive (w_ents w2) c) as Hc2 by by rewrite (we_ents _ _ _ _ X2).
  apply wp_bind, wp_get_entity_meta; [done|]. simpl.
  assert (meta_at w2 (uindex c) = meta_at w (uindex c)) as Hm2 by by rewrite /meta_at (we_meta _ _ _ _ X2).
  apply wp_bind, wp_unwrap.
  2:{ intros E. apply (HP w2); [done..|]. by rewrite /comp_of -Hm2 E. }
  intros em Hem. assert (comp_of w2 c = Some (em_comp em)) as Hcm by by rewrite /comp_of Hem.
  destruct (we_archs _ _ _ _ X2 _ _ Ha) as [s2 Ha2].
  apply wp_bind. rewrite {1}/wp (get_arch_done _ _ _ Ha2).
  destruct (winv_get_rows _ _ Hw2 _ _ Ha2) as (rs & Hrs & Hrows).
  destruct (from_with_spec (comp_of w2) _ rs c (em_comp em) (wi_shape _ _ Hw2 _ _ Ha2) Hrows Hnc Hcm) as (na & Hna & Hsh & Hr & Hca & Ht).
  apply wp_bind, (wp_unwrap_some _ _ _ _ _ _ Hna).
  apply (push_target_spec w R w2 cur a c na); try done.
  - intros j L HL. apply (Hnone j). by rewrite Hids -Hids2.
  - intros d Hd. destruct (decide (d = c)) as [->|Hdc]; [by rewrite Hcm; eauto|].
    apply Ht in Hd. destruct Hd as [[_ Hd]|[-> _]]; [|done].
    apply (wi_comps _ _ Hw2 cur (a_comp_ids a)); [|done]. apply arch_ids_lookup. by exists (a_set_cache s2 a).
Qed.
Lemma rem_make_spec w R w1 cur a c (P : ppost world) :
  winv w R → winv w1 R → wext w R w1 R → arch_ids w1 = arch_ids w → w_archs w !! cur = Some a →
  c ∈ a_comp_ids a → toggles_to c (a_comp_ids a) w1 None →
  wp (let* a1 := get_arch cur in
      let* na := unwrap (from_archetype_without a1 c) RAssert in
      let* n := push_archetype na in
      do* in_arch cur (in_cache (rc_insert_id c n)) in
      ret n) w1
    (λ n w2 ev, ev = [] ∧ ∃ R' ta, winv w2 R' ∧ wext w R w2 R' ∧ adds_one w w2 (a_comp_ids ta) ∧
        w_archs w2 !! n = Some ta ∧ toggle c (a_comp_ids a) (a_comp_ids ta)) P.
Proof.
  intros Hw Hw1 X1 Hids Ha Hc Hnone.
  destruct (we_archs _ _ _ _ X1 _ _ Ha) as [s1 Ha1].
  apply wp_bind. rewrite {1}/wp (get_arch_done _ _ _ Ha1).
  destruct (winv_get_rows _ _ Hw1 _ _ Ha1) as (rs & Hrs & Hrows).
  destruct (from_without_spec (comp_of w1) _ rs c (wi_shape _ _ Hw1 _ _ Ha1) Hrows Hc) as (na & Hna & Hsh & Hr & Hca & Ht).
  apply wp_bind, (wp_unwrap_some _ _ _ _ _ _ Hna).
  apply (push_target_spec w R w1 cur a c na); try done.
  intros d Hd. apply (proj1 (toggle_filter _ _ _ Hc) Ht), elem_of_list_filter in Hd as [_ Hd].
  apply (wi_comps _ _ Hw1 cur (a_comp_ids a)); [|done]. apply arch_ids_lookup. by exists (a_set_cache s1 a).
Qed.

(** ** One storage of an archetype *)
Lemma wp_in_storage {A} w k a i d v (m : M uvec A) (Q : post world A) (P : ppost world) :
  w_archs w !! k = Some a → a_storages a !! i = Some (d, v) →
  wp m v (λ r v' ev, Q r (set_archs (<[k := a_set_storages (<[i := (d, v')]> (a_storages a)) a]> (w_archs w)) w) ev)
         (λ r v' ev, P r (set_archs (<[k := a_set_storages (<[i := (d, v')]> (a_storages a)) a]> (w_archs w)) w) ev) →
  wp (in_arch k (in_storage i m)) w Q P.
Proof.
  intros Ha Hi Hwp. rewrite /in_arch. eapply wp_zoom; [exact Ha|].
  rewrite /in_storage. eapply wp_zoom; [by rewrite Hi|]. eapply wp_mono; [exact Hwp| |].
  - intros r v' ev. by rewrite (alter_snd _ _ _ _ _ Hi).
  - intros r v' ev. by rewrite (alter_snd _ _ _ _ _ Hi).
Qed.
Lemma arch_rows_cols cmo a rs : arch_rows cmo a rs → cols cmo (a_storages a) (λ d, col d rs).
Proof. intros H. exact (ar_cols _ _ _ H). Qed.

Lemma swap_remove_exists {A} (l : list A) i x : l !! i = Some x → ∃ l', vec_swap_remove i l = Some l'.
Proof. intros H. apply vec_swap_remove_some. by eapply lookup_lt_Some. Qed.

(** ** [add_component_dynamic_with_data] *)
Lemma add_spec w R k row0 rs e m c src :
  winv w R → room 1 w → alive (w_ents w) c →
  R !! k = Some rs → rs !! row0 = Some (e, m) →
  (∀ cm, comp_of w c = Some cm → cm_size cm ≤ length src) →
  wp (add_component_with_data e c src) w
     (λ _ w' ev, ev = [] ∧ keeps w w' ∧ (∃ L, adds_one w w' L ∧ ∀ d, d ∈ L ↔ d = c ∨ is_Some (m !! d)) ∧ m !! c = None ∧
        ∃ R' cm, comp_of w c = Some cm ∧ winv w' R' ∧
          ∀ e0 m0, rowof R' e0 m0 ↔ (e0 = e ∧ m0 = <[c := take (cm_size cm) src]> m) ∨ (e0 ≠ e ∧ rowof R e0 m0))
     (λ r w' ev, ev = [] ∧
        ((r = RAssert ∧ w' = w ∧ is_Some (m !! c)) ∨
         (r = RUnwrap ∧ comp_of w c = None ∧ m !! c = None ∧ winv w' R ∧ wext w R w' R ∧ arch_ids w' = arch_ids w))).
Proof.
  intros Hw Hroom Hc Hrs Hrow Hsrc. rewrite /add_component_with_data.
  destruct (wi_row _ _ Hw _ _ _ _ _ Hrs Hrow) as [He (em & Hem & Hinst)%fmap_Some].
  apply wp_bind, wp_is_alive_true; [done|]. apply wp_bind, wp_is_alive_true; [done|].
  apply wp_bind, wp_get_entity_meta; [done|]. rewrite Hem. apply wp_bind, (wp_unwrap_some _ em); [done|].
  rewrite -Hinst. cbn [im_arch im_index].
  destruct (proj1 (winv_rows_len _ _ Hw k)) as [a Ha]; [by eexists|].
  pose proof (wi_rows _ _ Hw _ _ _ Ha Hrs) as Hrows. pose proof (wi_shape _ _ Hw _ _ Ha) as Hsh.
  apply wp_bind. rewrite {1}/wp (get_arch_done _ _ _ Ha).
  pose proof (λ d, ar_dom _ _ _ Hrows (e, m) d (elem_of_list_lookup_2 _ _ _ Hrow)) as Hdom. cbn [snd] in Hdom.
  apply wp_bind, wp_massert.
  2:{ intros Hb. split; [done|]. left. split_and!; [done..|]. apply Hdom. by apply negb_false_iff, bool_decide_eq_true in Hb. }
  intros Hnc%negb_true_iff%bool_decide_eq_false.
  assert (m !! c = None) as Hmc. { destruct (m !! c) eqn:E; [|done]. destruct Hnc. apply Hdom. by rewrite E. }
  apply (target_spec _ _ _ w R k a c); [done|done| | |].
  { intros w1 Hw1 X1 Hids. destruct (find_plus_spec w1 R k (a_comp_ids a) c Hw1) as (r & Hr & Ht); [| | |done|].
    - rewrite /room in Hroom |- *. rewrite -arch_ids_length Hids arch_ids_length. lia.
    - rewrite Hids. apply arch_ids_lookup. by exists a.
    - by rewrite (we_ents _ _ _ _ X1).
    - by exists r. }
  { intros w1 Hw1 X1 Hids Ht. apply (add_make_spec w R w1 k a c); try done.
    intros w' ????. split; [done|]. by right. }
  intros tar w1 R1 ta Hw1 X1 Hlen1 Hta Ht.
  destruct (we_archs _ _ _ _ X1 _ _ Ha) as [s1 Ha1]. set (ca := a_set_cache s1 a) in *.
  pose proof (wext_rows _ _ _ _ _ _ X1 Hrs) as Hrs1.
  destruct (winv_get_rows _ _ Hw1 _ _ Hta) as (rs_t & Hrt & Hrowst).
  pose proof (wi_rows _ _ Hw1 _ _ _ Ha1 Hrs1) as Hrowsc.
  pose proof (wi_shape _ _ Hw1 _ _ Ha1) as Hshc. pose proof (wi_shape _ _ Hw1 _ _ Hta) as Hsht.
  assert (c ∈ a_comp_ids ta) as Hct by (apply Ht; by right).
  assert (k ≠ tar) as Hne. { intros ->. rewrite Ha1 in Hta. by simplify_eq. }
  destruct (wi_comps _ _ Hw1 tar (a_comp_ids ta) c) as (_ & [cm Hcm] & _); [apply arch_ids_lookup; by exists ta|done|].
  assert (comp_of w c = Some cm) as Hcmw. { by rewrite -Hcm /comp_of /meta_at (we_meta _ _ _ _ X1). }
  apply wp_bind, wp_gets. simpl.
  apply wp_bind, (wp_unwrap_some _ (ca, ta)).
  { apply index_twice_spec. done. }
  assert (k < length (w_archs w1)) as Hlk by by eapply lookup_lt_Some.
  assert (tar < length (w_archs w1)) as Hlt by by eapply lookup_lt_Some.
  destruct (swap_remove_exists _ _ _ Hrow) as [rs_c' Hsr].
  assert (filter (λ x, x ≠ c) (a_comp_ids ta) = a_comp_ids ca) as Hfilter.
  { apply sorted_ext; [by apply sorted_filter, Hsht|apply Hshc|].
    intros d. rewrite elem_of_list_filter (Ht d). change (a_comp_ids ca) with (a_comp_ids a).
    split; [naive_solver|]. intros Hd. assert (d ≠ c) by congruence. naive_solver. }
  (* the loop *)
  rewrite -{1}(mv_id w1 k tar ca ta Ha1 Hta).
  apply wp_bind. eapply wp_mono.
  { apply (add_zip_spec w1 k tar ca ta Hne Hlk Hlt (comp_of w1) rs rs_t rs_c' row0 e m Hrow Hsr c
      (length (a_storages ta)) 0 0 ∅ (a_storages ca) (a_storages ta) None).
    - lia.
    - rewrite (as_storages _ Hshc). by apply sorted_NoDup, Hshc.
    - rewrite (as_storages _ Hsht). by apply sorted_NoDup, Hsht.
    - by rewrite !drop_0 (as_storages _ Hshc) (as_storages _ Hsht).
    - set_solver.
    - by rewrite drop_0 (as_storages _ Hsht).
    - eapply cols_ext; [|by apply arch_rows_cols]. intros d _. rewrite /fc. case_decide; [set_solver|done].
    - eapply cols_ext; [|by apply arch_rows_cols]. intros d _. rewrite /ft. case_decide; [set_solver|done]. }
  2:{ done. }
  intros sk w2 ev (-> & sc & st & -> & Esc & Est & Cc & Ct & Hsk).
  rewrite (as_storages _ Hsht) in Est. rewrite (as_storages _ Hshc) in Esc.
  rewrite drop_0 (as_storages _ Hshc) (right_id_L ∅ _) in Cc. rewrite drop_0 (as_storages _ Hshc) (right_id_L ∅ _) in Ct.
  rewrite (as_storages _ Hsht) in Hsk.
  (* the position of the new component *)
  set (w2 := mv w1 k tar ca ta sc st).
  apply (wp_bind' _ _ _ (λ j w' ev, ev = [] ∧ w' = w2 ∧ st.*1 !! j = Some c)).
  { destruct sk as [j|].
    - apply wp_ret. by rewrite Est.
    - apply wp_bind, (wp_unwrap_some _ c); [done|]. apply wp_bind, wp_massert_true; [by apply bool_decide_eq_true|].
      apply wp_ret. split_and!; [done..|]. rewrite Est. rewrite -Hsk last_lookup -(as_storages _ Hsht) fmap_length.
      f_equal. lia. }
  intros j w' ev (-> & -> & Hj). destruct (fst_lookup _ _ _ Hj) as [v Hv].
  destruct (cols_lookup _ _ _ _ _ _ Ct Hv) as (cm' & Hcm' & Hti & Hrep). rewrite Hcm in Hcm'. simplify_eq.
  rewrite /ft decide_False in Hrep; [|rewrite elem_of_list_to_set; done].
  assert (uv_size v = cm_size cm') as Hsz by by rewrite /uv_size Hti.
  apply wp_bind. eapply wp_in_storage; [by apply mv_tar|exact Hv|]. eapply wp_mono.
  { apply (uv_push_rep v _ src Hrep). rewrite Hsz. by apply Hsrc. }
  2:{ done. }
  intros [] v' ev (-> & Hti' & Hrep'). rewrite Hsz in Hrep'.
  set (m' := <[c := take (cm_size cm') src]> m).
  assert (set_archs (<[tar := a_set_storages (<[j := (c, v')]> (a_storages (a_set_storages st ta))) (a_set_storages st ta)]> (w_archs w2)) w2
    = mv w1 k tar ca ta sc (<[j := (c, v')]> st)) as ->.
  { rewrite /w2 /mv /set_archs /=. f_equal. by rewrite list_insert_insert. }
  assert (NoDup st.*1) as Hnt. { rewrite Est. by apply sorted_NoDup, Hsht. }
  destruct (finish_move w1 R1 k tar row0 ca ta rs rs_t rs_c' e m m' sc (<[j := (c, v')]> st)) as (w3 & R3 & Hrun & Hw3 & K3 & Hids3 & Hro); try done.
  - by rewrite (fst_insert _ _ _ _ _ Hv).
  - eapply cols_ext; [|exact Cc]. intros d Hd. rewrite /fc decide_True //. rewrite elem_of_list_to_set. by rewrite Esc in Hd.
  - eapply cols_ext; [|eapply cols_insert; [done|exact Hv|exact Ct|congruence|exact Hrep']].
    intros d Hd. rewrite (fst_insert _ _ _ _ _ Hv) Est in Hd. simpl. rewrite col_app /=. destruct (decide (d = c)) as [->|Hdc].
    + by rewrite /m' lookup_insert.
    + rewrite /ft decide_True; [|rewrite elem_of_list_to_set; apply Ht in Hd as [[_ Hd]|[-> _]]; done].
      by rewrite /m' lookup_insert_ne.
  - intros d. rewrite (Ht d) -(Hdom d) /m'. destruct (decide (d = c)) as [->|Hdc].
    + rewrite lookup_insert. split; [by right|eauto].
    + rewrite lookup_insert_ne //. naive_solver.
  - rewrite /wp Hrun. split; [done|]. split; [|split; [|split; [done|]]].
    + eapply keeps_trans; [by eapply wext_keeps|done].
    + exists (a_comp_ids ta). split; [by rewrite /adds_one Hids3|]. intros d. rewrite (Ht d) -(Hdom d). naive_solver.
    + exists R3, cm'. split_and!; [done|done|]. intros e0 m0. rewrite Hro.
      destruct (we_rows _ _ _ _ X1) as (n & -> & _). by rewrite rowof_ext.
Qed.

(** ** [remove_component_dynamic] *)
Lemma remove_spec w R k row0 rs e m c :
  winv w R → room 1 w → alive (w_ents w) c →
  R !! k = Some rs → rs !! row0 = Some (e, m) →
  wp (remove_component_dynamic e c) w
     (λ _ w' ev, keeps w w' ∧ (∃ L, adds_one w w' L ∧ ∀ d, d ∈ L ↔ d ≠ c ∧ is_Some (m !! d)) ∧
        ∃ R' cm v, comp_of w c = Some cm ∧ m !! c = Some v ∧ ev = drop_event (cm_drop cm) v ∧ winv w' R' ∧
          ∀ e0 m0, rowof R' e0 m0 ↔ (e0 = e ∧ m0 = delete c m) ∨ (e0 ≠ e ∧ rowof R e0 m0))
     (λ r w' ev, ev = [] ∧ r = RAssert ∧ w' = w ∧ m !! c = None).
Proof.
  intros Hw Hroom Hc Hrs Hrow. rewrite /remove_component_dynamic.
  destruct (wi_row _ _ Hw _ _ _ _ _ Hrs Hrow) as [He (em & Hem & Hinst)%fmap_Some].
  apply wp_bind, wp_is_alive_true; [done|]. apply wp_bind, wp_is_alive_true; [done|].
  apply wp_bind, wp_get_entity_meta; [done|]. rewrite Hem. apply wp_bind, (wp_unwrap_some _ em); [done|].
  rewrite -Hinst. cbn [im_arch im_index].
  destruct (proj1 (winv_rows_len _ _ Hw k)) as [a Ha]; [by eexists|].
  pose proof (wi_rows _ _ Hw _ _ _ Ha Hrs) as Hrows. pose proof (wi_shape _ _ Hw _ _ Ha) as Hsh.
  apply wp_bind. rewrite {1}/wp (get_arch_done _ _ _ Ha).
  pose proof (λ d, ar_dom _ _ _ Hrows (e, m) d (elem_of_list_lookup_2 _ _ _ Hrow)) as Hdom. cbn [snd] in Hdom.
  apply wp_bind, wp_massert.
  2:{ intros Hb%bool_decide_eq_false. split_and!; [done..|]. destruct (m !! c) eqn:E; [|done]. destruct Hb. apply Hdom. by rewrite E. }
  intros Hca%bool_decide_eq_true.
  destruct (proj2 (Hdom c) Hca) as [v Hmc].
  apply (target_spec _ _ _ w R k a c); [done|done| | |].
  { intros w1 Hw1 X1 Hids. destruct (find_minus_spec w1 R k (a_comp_ids a) c Hw1) as (r & Hr & Ht); [| |done|].
    - rewrite /room in Hroom |- *. rewrite -arch_ids_length Hids arch_ids_length. lia.
    - rewrite Hids. apply arch_ids_lookup. by exists a.
    - by exists r. }
  { intros w1 Hw1 X1 Hids Ht. by apply (rem_make_spec w R w1 k a c). }
  intros tar w1 R1 ta Hw1 X1 Hlen1 Hta Ht.
  destruct (we_archs _ _ _ _ X1 _ _ Ha) as [s1 Ha1]. set (ca := a_set_cache s1 a) in *.
  pose proof (wext_rows _ _ _ _ _ _ X1 Hrs) as Hrs1.
  destruct (winv_get_rows _ _ Hw1 _ _ Hta) as (rs_t & Hrt & Hrowst).
  pose proof (wi_rows _ _ Hw1 _ _ _ Ha1 Hrs1) as Hrowsc.
  pose proof (wi_shape _ _ Hw1 _ _ Ha1) as Hshc. pose proof (wi_shape _ _ Hw1 _ _ Hta) as Hsht.
  assert (k ≠ tar) as Hne. { intros ->. rewrite Ha1 in Hta. simplify_eq. destruct (proj1 (Ht c) Hca) as [[]|[]]; done. }
  destruct (wi_comps _ _ Hw1 k (a_comp_ids a) c) as (_ & [cm Hcm] & _); [apply arch_ids_lookup; by exists ca|done|].
  assert (comp_of w c = Some cm) as Hcmw. { by rewrite -Hcm /comp_of /meta_at (we_meta _ _ _ _ X1). }
  apply wp_bind, wp_gets. simpl.
  apply wp_bind, (wp_unwrap_some _ (ca, ta)).
  { apply index_twice_spec. done. }
  assert (k < length (w_archs w1)) as Hlk by by eapply lookup_lt_Some.
  assert (tar < length (w_archs w1)) as Hlt by by eapply lookup_lt_Some.
  destruct (swap_remove_exists _ _ _ Hrow) as [rs_c' Hsr].
  assert (filter (λ x, x ≠ c) (a_comp_ids ca) = a_comp_ids ta) as Hfilter.
  { apply sorted_ext; [by apply sorted_filter, Hshc|apply Hsht|].
    intros d. by rewrite (proj1 (toggle_filter _ _ _ Hca) Ht d). }
  (* the loop *)
  rewrite -{1}(mv_id w1 k tar ca ta Ha1 Hta).
  apply wp_bind. eapply wp_mono.
  { apply (rem_zip_spec w1 k tar ca ta Hne Hlk Hlt (comp_of w1) rs rs_t rs_c' row0 e m Hrow Hsr c
      (length (a_storages ca)) 0 0 ∅ (a_storages ca) (a_storages ta) None).
    - lia.
    - rewrite (as_storages _ Hshc). by apply sorted_NoDup, Hshc.
    - rewrite (as_storages _ Hsht). by apply sorted_NoDup, Hsht.
    - by rewrite !drop_0 (as_storages _ Hshc) (as_storages _ Hsht).
    - set_solver.
    - by rewrite drop_0 (as_storages _ Hshc).
    - eapply cols_ext; [|by apply arch_rows_cols]. intros d _. rewrite /fc. case_decide; [set_solver|done].
    - eapply cols_ext; [|by apply arch_rows_cols]. intros d _. rewrite /ft. case_decide; [set_solver|done]. }
  2:{ done. }
  intros sk w2 ev (-> & sc & st & i0 & -> & Esc & Est & Cc & Ct & -> & Hsk).
  rewrite (as_storages _ Hsht) in Est. rewrite (as_storages _ Hshc) in Esc.
  rewrite drop_0 (as_storages _ Hsht) (right_id_L ∅ _) in Cc. rewrite drop_0 (as_storages _ Hsht) (right_id_L ∅ _) in Ct.
  rewrite (as_storages _ Hshc) -Esc in Hsk.
  assert (c ∉ a_comp_ids ta) as Hct. { rewrite -Hfilter elem_of_list_filter. naive_solver. }
  set (w2 := mv w1 k tar ca ta sc st).
  apply wp_bind, wp_ret. destruct (fst_lookup _ _ _ Hsk) as [u Hu].
  destruct (cols_lookup _ _ _ _ _ _ Cc Hu) as (cm' & Hcm' & Hti & Hrep). rewrite Hcm in Hcm'. simplify_eq.
  rewrite /fc decide_False in Hrep; [|rewrite elem_of_list_to_set; done].
  destruct (uv_swap_remove_rep u (col c rs) row0 v (col c rs_c') Hrep) as (u' & Hurun & Hti' & Hrep').
  { by rewrite col_lookup Hrow /= Hmc. }
  { by apply col_swap_remove. }
  apply wp_bind. eapply wp_in_storage; [by apply mv_cur|exact Hu|]. rewrite {1}/wp Hurun.
  assert (set_archs (<[k := a_set_storages (<[i0 := (c, u')]> (a_storages (a_set_storages sc ca))) (a_set_storages sc ca)]> (w_archs w2)) w2
    = mv w1 k tar ca ta (<[i0 := (c, u')]> sc) st) as ->.
  { rewrite /w2 /mv /set_archs /=. f_equal. rewrite (list_insert_commute (<[k := _]> (w_archs w1)) k tar) //. by rewrite list_insert_insert. }
  assert (NoDup sc.*1) as Hnt. { rewrite Esc. by apply sorted_NoDup, Hshc. }
  set (m' := delete c m).
  destruct (finish_move w1 R1 k tar row0 ca ta rs rs_t rs_c' e m m' (<[i0 := (c, u')]> sc) st) as (w3 & R3 & Hrun & Hw3 & K3 & Hids3 & Hro); try done.
  - by rewrite (fst_insert _ _ _ _ _ Hu).
  - eapply cols_ext; [|eapply cols_insert; [done|exact Hu|exact Cc|congruence|exact Hrep']].
    intros d Hd. rewrite (fst_insert _ _ _ _ _ Hu) Esc in Hd. simpl. destruct (decide (d = c)) as [->|Hdc]; [done|].
    rewrite /fc decide_True //. rewrite elem_of_list_to_set -Hfilter elem_of_list_filter. done.
  - eapply cols_ext; [|exact Ct]. intros d Hd. rewrite Est in Hd. rewrite /ft decide_True; [|by rewrite elem_of_list_to_set].
    rewrite col_app /= /m' lookup_delete_ne //. by intros ->.
  - intros d. rewrite (proj1 (toggle_filter _ _ _ Hca) Ht d) elem_of_list_filter -(Hdom d) /m'. destruct (decide (d = c)) as [->|Hdc].
    + rewrite lookup_delete. split; [by intros []|naive_solver].
    + rewrite lookup_delete_ne //. naive_solver.
  - rewrite /wp Hrun. split; [|split].
    + eapply keeps_trans; [by eapply wext_keeps|done].
    + exists (a_comp_ids ta). split; [by rewrite /adds_one Hids3|]. intros d. by rewrite (proj1 (toggle_filter _ _ _ Hca) Ht d) elem_of_list_filter -(Hdom d).
    + exists R3, cm', v. split_and!; [done|done| |done|].
      { rewrite app_nil_r Hti. done. }
      intros e0 m0. rewrite Hro.
      destruct (we_rows _ _ _ _ X1) as (n & -> & _). by rewrite rowof_ext.
Qed.
