(** * Moving a row from one archetype to another *)
From Verif Require Import ProofBase SpecSmall World History ProofEntities ProofBitset ProofArrayVec ProofUVec.
From Verif Require Export ProofTarget.

(** ** Metadata updates *)
Lemma meta_at_some w i em : meta_at w i = Some em ↔ w_meta w !! i = Some (Some em).
Proof. rewrite /meta_at. destruct (w_meta w !! i) as [[|]|]; simpl; naive_solver. Qed.
Lemma meta_at_insert w i o j : i < length (w_meta w) →
  meta_at (set_meta (<[i := o]> (w_meta w)) w) j = if decide (j = i) then o else meta_at w j.
Proof.
  intros Hi. rewrite /meta_at /=. case_decide as E.
  - subst. by rewrite list_lookup_insert.
  - by rewrite list_lookup_insert_ne.
Qed.
Lemma update_meta_run w i em f : meta_at w i = Some em →
  update_meta i f w = Done () (set_meta (<[i := Some (EntMeta (f (em_inst em)) (em_comp em))]> (w_meta w)) w) [].
Proof.
  intros H%meta_at_some. rewrite /update_meta (bind_done_nil _ _ w (w_meta w !! i) w eq_refl) H.
  cbn [unwrap]. rewrite (bind_done_nil _ _ w (Some em) w eq_refl) (bind_done_nil _ _ w em w eq_refl). done.
Qed.
Lemma meta_at_lt w i em : meta_at w i = Some em → i < length (w_meta w).
Proof. intros H%meta_at_some. by eapply lookup_lt_Some. Qed.

(** ** Swap-removing a row *)
Lemma swap_remove_from {A} i (l l' : list A) j x : vec_swap_remove i l = Some l' → l' !! j = Some x →
  ∃ j0, l !! j0 = Some x ∧ j0 ≠ i ∧ (j0 = j ∨ (j = i ∧ j0 = length l - 1)).
Proof.
  intros Hs Hj. assert (i < length l) as Hi by (rewrite /vec_swap_remove in Hs; by case_decide).
  rewrite (vec_swap_remove_lookup _ _ _ _ Hs) in Hj. case_decide; [|done]. case_decide.
  - subst. exists (length l - 1). split_and!; [done|lia|by right].
  - exists j. split_and!; [done|done|by left].
Qed.
Lemma swap_remove_to {A} i (l l' : list A) j x : vec_swap_remove i l = Some l' → l !! j = Some x → j ≠ i →
  if decide (j = length l - 1) then l' !! i = Some x else l' !! j = Some x.
Proof.
  intros Hs Hj Hne. assert (i < length l) as Hi by (rewrite /vec_swap_remove in Hs; by case_decide).
  assert (j < length l) as Hjl by by eapply lookup_lt_Some.
  case_decide; rewrite (vec_swap_remove_lookup _ _ _ _ Hs).
  - subst. rewrite decide_True; [|lia]. by rewrite decide_True.
  - rewrite decide_True; [|lia]. by rewrite decide_False.
Qed.

Lemma NoDup_drop {A} n (l : list A) : NoDup l → NoDup (drop n l).
Proof. intros H. rewrite -(take_drop n l) in H. by apply NoDup_app in H as (_ & _ & ?). Qed.

(** ** Columns of a list of storages *)
Definition cols (cmo : ecsid → option component_meta) (ss : list (ecsid * uvec)) (f : ecsid → list value) : Prop :=
  ∀ d v, (d, v) ∈ ss → ∃ cm, cmo d = Some cm ∧ uv_ti v = cm_type_info cm ∧ uv_rep v (f d).
Lemma cols_ext cmo ss f g : (∀ d, d ∈ ss.*1 → f d = g d) → cols cmo ss f → cols cmo ss g.
Proof.
  intros Hfg H d v Hd. destruct (H d v Hd) as (cm & ? & ? & ?). exists cm. split_and!; [done..|].
  rewrite -Hfg //. apply elem_of_list_fmap. by exists (d, v).
Qed.
Lemma cols_lookup cmo ss f i d v : cols cmo ss f → ss !! i = Some (d, v) →
  ∃ cm, cmo d = Some cm ∧ uv_ti v = cm_type_info cm ∧ uv_rep v (f d).
Proof. intros H Hi. apply H. by eapply elem_of_list_lookup_2. Qed.
Lemma fst_insert (ss : list (ecsid * uvec)) i d v v' : ss !! i = Some (d, v) → (<[i := (d, v')]> ss).*1 = ss.*1.
Proof. intros Hi. rewrite list_fmap_insert. apply list_insert_id. by rewrite list_lookup_fmap Hi. Qed.
Lemma cols_insert cmo ss f i d v v' l' : NoDup ss.*1 → ss !! i = Some (d, v) → cols cmo ss f →
  uv_ti v' = uv_ti v → uv_rep v' l' →
  cols cmo (<[i := (d, v')]> ss) (λ d', if decide (d' = d) then l' else f d').
Proof.
  intros Hn Hi Hc Hti Hrep d' u Hd'. apply elem_of_list_lookup in Hd' as [j Hj].
  apply list_lookup_insert_Some in Hj as [(-> & [= <- <-] & _)|(Hne & Hj)].
  - destruct (cols_lookup _ _ _ _ _ _ Hc Hi) as (cm & ? & ? & _). exists cm. rewrite decide_True //.
    split_and!; [done|congruence|done].
  - destruct (cols_lookup _ _ _ _ _ _ Hc Hj) as (cm & ? & ? & ?). exists cm. rewrite decide_False; [done|].
    intros ->. apply Hne. eapply NoDup_lookup; [exact Hn|..]; rewrite list_lookup_fmap; [by rewrite Hi|by rewrite Hj].
Qed.
Lemma fst_lookup (ss : list (ecsid * uvec)) i d : ss.*1 !! i = Some d → ∃ v, ss !! i = Some (d, v).
Proof. rewrite list_lookup_fmap. destruct (ss !! i) as [[d' v]|]; [|done]. intros [= <-]. eauto. Qed.
Lemma alter_snd (ss : list (ecsid * uvec)) i d v v' : ss !! i = Some (d, v) →
  alter (λ s : ecsid * uvec, (s.1, v')) i ss = <[i := (d, v')]> ss.
Proof.
  intros Hi. apply list_eq. intros j. destruct (decide (i = j)) as [->|Hne].
  - rewrite list_lookup_alter Hi list_lookup_insert //. by eapply lookup_lt_Some.
  - by rewrite list_lookup_alter_ne // list_lookup_insert_ne.
Qed.

(** ** The world with other storages in two archetypes *)
Definition mv (w : world) (cur tar : nat) (ca ta : archetype) (sc st : list (ecsid * uvec)) : world :=
  set_archs (<[tar := a_set_storages st ta]> (<[cur := a_set_storages sc ca]> (w_archs w))) w.
Lemma a_set_storages_id a : a_set_storages (a_storages a) a = a.
Proof. by destruct a. Qed.
Lemma set_archs_id w : set_archs (w_archs w) w = w.
Proof. by destruct w. Qed.
Lemma mv_id w cur tar ca ta : w_archs w !! cur = Some ca → w_archs w !! tar = Some ta →
  mv w cur tar ca ta (a_storages ca) (a_storages ta) = w.
Proof.
  intros Hc Ht. rewrite /mv !a_set_storages_id. rewrite (list_insert_id _ cur ca) //.
  by rewrite list_insert_id // set_archs_id.
Qed.
Section move.
  Context (w : world) (cur tar : nat) (ca ta : archetype).
  Context (Hne : cur ≠ tar) (Hcur : cur < length (w_archs w)) (Htar : tar < length (w_archs w)).
  Local Set Default Proof Using "Hne Hcur Htar".
  Local Notation mv' := (mv w cur tar ca ta).

  Lemma mv_cur sc st : w_archs (mv' sc st) !! cur = Some (a_set_storages sc ca).
  Proof. rewrite /= list_lookup_insert_ne // list_lookup_insert //. Qed.
  Lemma mv_tar sc st : w_archs (mv' sc st) !! tar = Some (a_set_storages st ta).
  Proof. rewrite /= list_lookup_insert // insert_length //. Qed.
  Lemma mv_mv sc st sc' st' : mv (mv' sc st) cur tar ca ta sc' st' = mv' sc' st'.
  Proof.
    rewrite /mv /set_archs /=. f_equal.
    rewrite (list_insert_commute (<[cur := _]> (w_archs w)) cur tar) //.
    by rewrite !list_insert_insert.
  Qed.
  Lemma move_element_spec i j row d sc st cv tv l lo x l' :
    sc !! i = Some (d, cv) → st !! j = Some (d, tv) → uv_ti cv = uv_ti tv →
    uv_rep cv l → uv_rep tv lo → l !! row = Some x → vec_swap_remove row l = Some l' →
    wp (move_element cur i tar j row) (mv' sc st)
       (λ _ w' ev, ev = [] ∧ ∃ cv' tv', w' = mv' (<[i := (d, cv')]> sc) (<[j := (d, tv')]> st) ∧
          uv_ti cv' = uv_ti cv ∧ uv_ti tv' = uv_ti tv ∧ uv_rep cv' l' ∧ uv_rep tv' (lo ++ [x])) no_panic.
  Proof.
    intros Hi Hj Hti Hc Ht Hrow Hl'. rewrite /wp /move_element mv_cur mv_tar /= Hi Hj.
    pose proof (uv_swap_move_rep cv tv l lo row x l' Hc Ht ltac:(by rewrite Hti) Hrow Hl') as Hwp.
    rewrite /wp in Hwp. destruct (uv_swap_move row (cv, tv)) as [[] [cv' tv'] ev|r [cv' tv'] ev| |]; [| |done..].
    - destruct Hwp as (-> & ? & ? & ? & ?). simpl in *. split; [done|]. exists cv', tv'. split_and!; [|done..].
      apply (mv_mv sc st).
    - destruct Hwp as [->|[]]. by left.
  Qed.
  Lemma storage_id_tar sc st j d v : st !! j = Some (d, v) → storage_id tar j (mv' sc st) = Done d (mv' sc st) [].
  Proof.
    intros Hj. rewrite /storage_id (bind_done_nil _ _ _ _ _ (get_arch_done _ _ _ (mv_tar sc st))).
    cbn [a_set_storages a_storages]. rewrite Hj. done.
  Qed.
  Lemma storage_id_cur sc st j d v : sc !! j = Some (d, v) → storage_id cur j (mv' sc st) = Done d (mv' sc st) [].
  Proof.
    intros Hj. rewrite /storage_id (bind_done_nil _ _ _ _ _ (get_arch_done _ _ _ (mv_cur sc st))).
    cbn [a_set_storages a_storages]. rewrite Hj. done.
  Qed.

  Context (cmo : ecsid → option component_meta) (rs_c rs_t rs_c' : list row) (row0 : nat) (e : ecsid) (m : gmap ecsid value).
  Context (Hrow : rs_c !! row0 = Some (e, m)) (Hsr : vec_swap_remove row0 rs_c = Some rs_c').
  Definition fc (D : gset ecsid) (d : ecsid) : list value := if decide (d ∈ D) then col d rs_c' else col d rs_c.
  Definition ft (D : gset ecsid) (d : ecsid) : list value :=
    if decide (d ∈ D) then col d rs_t ++ [default [] (m !! d)] else col d rs_t.
  Local Set Default Proof Using "Hne Hcur Htar Hrow Hsr".

  (** One step: component [d] moves. *)
  Lemma move_step i j d D sc st :
    NoDup sc.*1 → NoDup st.*1 → sc.*1 !! i = Some d → st.*1 !! j = Some d → d ∉ D →
    cols cmo sc (fc D) → cols cmo st (ft D) →
    wp (move_element cur i tar j row0) (mv' sc st)
       (λ _ w' ev, ev = [] ∧ ∃ sc' st', w' = mv' sc' st' ∧ sc'.*1 = sc.*1 ∧ st'.*1 = st.*1 ∧
          cols cmo sc' (fc ({[d]} ∪ D)) ∧ cols cmo st' (ft ({[d]} ∪ D))) no_panic.
  Proof.
    intros Hnc Hnt Hi Hj Hd Hcc Hct.
    destruct (fst_lookup _ _ _ Hi) as [cv Hcv]. destruct (fst_lookup _ _ _ Hj) as [tv Htv].
    destruct (cols_lookup _ _ _ _ _ _ Hcc Hcv) as (cm & Hcm & Htc & Hrc).
    destruct (cols_lookup _ _ _ _ _ _ Hct Htv) as (cm' & Hcm' & Htt & Hrt).
    rewrite Hcm in Hcm'. simplify_eq. rewrite /fc decide_False // in Hrc. rewrite /ft decide_False // in Hrt.
    eapply wp_mono.
    - eapply (move_element_spec i j row0 d sc st cv tv); [done|done|congruence|done|done| |].
      + rewrite col_lookup Hrow. done.
      + by apply col_swap_remove.
    - intros [] w' ev (-> & cv' & tv' & -> & Hti1 & Hti2 & Hr1 & Hr2). split; [done|]. eexists _, _. split; [done|].
      split_and!.
      + by eapply fst_insert.
      + by eapply fst_insert.
      + eapply cols_ext; [|by eapply cols_insert]. intros d' _. rewrite /fc /=. repeat case_decide; set_solver.
      + eapply cols_ext; [|by eapply cols_insert]. intros d' _. rewrite /ft /=. repeat case_decide; set_solver.
    - done.
  Qed.

  Lemma filter_cons_head (c : ecsid) (l : list ecsid) d l' : filter (λ x, x ≠ c) l = d :: l' → d ≠ c.
  Proof using Type. intros H. assert (d ∈ filter (λ x, x ≠ c) l) as [? _]%elem_of_list_filter by (rewrite H; left). done. Qed.

  Lemma add_zip_spec c n i j D sc st sk :
    n = length st - j → NoDup sc.*1 → NoDup st.*1 →
    filter (λ x, x ≠ c) (drop j st.*1) = drop i sc.*1 →
    (∀ d, d ∈ drop i sc.*1 → d ∉ D) →
    match sk with Some j0 => st.*1 !! j0 = Some c ∧ j0 < j | None => c ∈ drop j st.*1 end →
    cols cmo sc (fc D) → cols cmo st (ft D) →
    wp (add_zip c cur tar row0 (length sc) i (seq j n) sk) (mv' sc st)
       (λ r w' ev, ev = [] ∧ ∃ sc' st', w' = mv' sc' st' ∧ sc'.*1 = sc.*1 ∧ st'.*1 = st.*1 ∧
          cols cmo sc' (fc (list_to_set (drop i sc.*1) ∪ D)) ∧ cols cmo st' (ft (list_to_set (drop i sc.*1) ∪ D)) ∧
          match r with Some j0 => st.*1 !! j0 = Some c | None => last st.*1 = Some c end) no_panic.
  Proof.
    revert i j D sc st sk. induction n as [|n IH]; intros i j D sc st sk Hn Hnc Hnt Hrel HD Hsk Hcc Hct.
    - (* the right iterator is exhausted *)
      cbn [seq add_zip]. assert (length st ≤ j) as Hj by lia.
      rewrite (drop_ge (st.*1)) in Hrel; [|by rewrite fmap_length]. rewrite filter_nil in Hrel.
      rewrite -Hrel. rewrite (drop_ge (st.*1)) in Hsk; [|by rewrite fmap_length].
      assert (wp (ret sk) (mv' sc st) (λ r w' ev, ev = [] ∧ ∃ sc' st', w' = mv' sc' st' ∧ sc'.*1 = sc.*1 ∧ st'.*1 = st.*1 ∧
          cols cmo sc' (fc (list_to_set [] ∪ D)) ∧ cols cmo st' (ft (list_to_set [] ∪ D)) ∧
          match r with Some j0 => st.*1 !! j0 = Some c | None => last st.*1 = Some c end) no_panic) as Hfin.
      { apply wp_ret. split; [done|]. exists sc, st. split_and!; [done..| | |].
        - eapply cols_ext; [|exact Hcc]. intros d _. rewrite /fc. repeat case_decide; set_solver.
        - eapply cols_ext; [|exact Hct]. intros d _. rewrite /ft. repeat case_decide; set_solver.
        - destruct sk; [by destruct Hsk|]. by apply elem_of_nil in Hsk. }
      case_decide; exact Hfin.
    - cbn [seq add_zip]. assert (j < length st) as Hj by lia. case_decide as Hi.
      + (* the left iterator is exhausted *)
        rewrite (drop_ge (sc.*1)) in Hrel |- *; [|by rewrite fmap_length..].
        apply wp_ret. split; [done|]. exists sc, st. split_and!; [done..| | |].
        * eapply cols_ext; [|exact Hcc]. intros d _. rewrite /fc. repeat case_decide; set_solver.
        * eapply cols_ext; [|exact Hct]. intros d _. rewrite /ft. repeat case_decide; set_solver.
        * destruct sk as [j0|]; [by destruct Hsk|].
          assert (∀ d, d ∈ drop j st.*1 → d = c) as Hall.
          { intros d Hd. destruct (decide (d = c)); [done|]. exfalso.
            assert (d ∈ filter (λ x, x ≠ c) (drop j st.*1)) as Hf by by apply elem_of_list_filter.
            rewrite Hrel in Hf. by apply elem_of_nil in Hf. }
          rewrite -(take_drop j (st.*1)). rewrite last_app.
          destruct (last (drop j st.*1)) as [d|] eqn:Hl.
          -- f_equal. apply Hall. by apply last_Some_elem_of.
          -- apply last_None in Hl. rewrite Hl in Hsk. by apply elem_of_nil in Hsk.
      + destruct (lookup_lt_is_Some_2 (st.*1) j) as [d Hd]; [by rewrite fmap_length|].
        destruct (fst_lookup _ _ _ Hd) as [tv Htv].
        apply wp_bind. rewrite /wp (storage_id_tar sc st j d tv Htv).
        rewrite (drop_S _ _ _ Hd) filter_cons in Hrel.
        destruct (decide (d = c)) as [->|Hdc].
        * rewrite decide_False in Hrel; [|naive_solver].
          assert (sk = None) as ->.
          { destruct sk as [j0|]; [|done]. destruct Hsk as [Hj0 Hlt].
            assert (j0 = j) by by eapply (NoDup_lookup st.*1). lia. }
          apply wp_bind, wp_massert_true; [done|]. eapply wp_mono.
          -- apply (IH i (S j) D sc st (Some j)); try done; [lia|]. split; [done|lia].
          -- intros r w' ev (-> & H). by split.
          -- done.
        * rewrite decide_True in Hrel; [|done].
          assert (sc.*1 !! i = Some d) as Hid.
          { rewrite -(Nat.add_0_r i) -lookup_drop -Hrel. done. }
          rewrite (drop_S _ _ _ Hid) in HD. rewrite (drop_S _ _ _ Hid) in Hrel. injection Hrel as Hrel.
          apply wp_bind. eapply wp_mono.
          -- apply (move_step i j d D sc st); try done. apply HD. left.
          -- intros [] w' ev (-> & sc1 & st1 & -> & E1 & E2 & Hc1 & Ht1).
             assert (length sc = length sc1) as HL by by rewrite -(fmap_length fst sc) -(fmap_length fst sc1) E1.
             assert (length st = length st1) as HLt by by rewrite -(fmap_length fst st) -(fmap_length fst st1) E2.
             rewrite HL. eapply wp_mono.
             ++ apply (IH (S i) (S j) ({[d]} ∪ D) sc1 st1 sk); rewrite ?E1 ?E2; try done.
                ** lia.
                ** intros d' Hd' [->%elem_of_singleton|Hin]%elem_of_union; [|by apply (HD d'); [right|]].
                   pose proof (NoDup_drop i _ Hnc) as Hnd. rewrite (drop_S _ _ _ Hid) in Hnd.
                   by apply NoDup_cons in Hnd as [? _].
                ** destruct sk as [j0|]; [split; [tauto|lia]|].
                   rewrite (drop_S _ _ _ Hd) in Hsk. by apply elem_of_cons in Hsk as [?|?].
             ++ intros r w' ev (-> & sc2 & st2 & -> & E3 & E4 & Hc2 & Ht2 & Hres).
                split; [done|]. exists sc2, st2. rewrite E3 E4 E1 E2. split_and!; [done..| | |].
                ** eapply cols_ext; [|exact Hc2]. intros d' _. rewrite E1 (drop_S _ _ _ Hid) /fc. repeat case_decide; set_solver.
                ** eapply cols_ext; [|exact Ht2]. intros d' _. rewrite E1 (drop_S _ _ _ Hid) /ft. repeat case_decide; set_solver.
                ** by rewrite E2 in Hres.
             ++ done.
          -- done.
  Qed.

  Lemma rem_zip_spec c n i j D sc st sk :
    n = length sc - i → NoDup sc.*1 → NoDup st.*1 →
    filter (λ x, x ≠ c) (drop i sc.*1) = drop j st.*1 →
    (∀ d, d ∈ drop j st.*1 → d ∉ D) →
    match sk with Some i0 => sc.*1 !! i0 = Some c ∧ i0 < i | None => c ∈ drop i sc.*1 end →
    cols cmo sc (fc D) → cols cmo st (ft D) →
    wp (rem_zip c cur tar row0 (length st) (seq i n) j sk) (mv' sc st)
       (λ r w' ev, ev = [] ∧ ∃ sc' st' i0, w' = mv' sc' st' ∧ sc'.*1 = sc.*1 ∧ st'.*1 = st.*1 ∧
          cols cmo sc' (fc (list_to_set (drop j st.*1) ∪ D)) ∧ cols cmo st' (ft (list_to_set (drop j st.*1) ∪ D)) ∧
          r = Some i0 ∧ sc.*1 !! i0 = Some c) no_panic.
  Proof.
    revert i j D sc st sk. induction n as [|n IH]; intros i j D sc st sk Hn Hnc Hnt Hrel HD Hsk Hcc Hct.
    - cbn [seq rem_zip]. assert (length sc ≤ i) as Hi by lia.
      rewrite (drop_ge (sc.*1)) in Hrel; [|by rewrite fmap_length]. rewrite filter_nil in Hrel.
      rewrite -Hrel. rewrite (drop_ge (sc.*1)) in Hsk; [|by rewrite fmap_length].
      apply wp_ret. split; [done|]. destruct sk as [i0|]; [|by apply elem_of_nil in Hsk].
      exists sc, st, i0. split_and!; [done..| | |done|by destruct Hsk].
      + eapply cols_ext; [|exact Hcc]. intros d _. rewrite /fc. repeat case_decide; set_solver.
      + eapply cols_ext; [|exact Hct]. intros d _. rewrite /ft. repeat case_decide; set_solver.
    - cbn [seq rem_zip]. assert (i < length sc) as Hi by lia.
      destruct (lookup_lt_is_Some_2 (sc.*1) i) as [d Hd]; [by rewrite fmap_length|].
      destruct (fst_lookup _ _ _ Hd) as [cv Hcv].
      apply wp_bind. rewrite /wp (storage_id_cur sc st i d cv Hcv).
      rewrite (drop_S _ _ _ Hd) filter_cons in Hrel.
      destruct (decide (d = c)) as [->|Hdc].
      + rewrite decide_False in Hrel; [|naive_solver].
        assert (sk = None) as ->.
        { destruct sk as [i0|]; [|done]. destruct Hsk as [Hi0 Hlt].
          assert (i0 = i) by by eapply (NoDup_lookup sc.*1). lia. }
        apply wp_bind, wp_massert_true; [done|]. eapply wp_mono.
        * apply (IH (S i) j D sc st (Some i)); try done; [lia|]. split; [done|lia].
        * intros r w' ev (-> & H). by split.
        * done.
      + rewrite decide_True in Hrel; [|done].
        assert (st.*1 !! j = Some d) as Hjd.
        { rewrite -(Nat.add_0_r j) -lookup_drop -Hrel. done. }
        assert (j < length st) as Hj. { apply lookup_lt_Some in Hjd. by rewrite fmap_length in Hjd. }
        case_decide; [lia|].
        rewrite (drop_S _ _ _ Hjd) in HD. rewrite (drop_S _ _ _ Hjd) in Hrel. injection Hrel as Hrel.
        apply wp_bind. eapply wp_mono.
        * apply (move_step i j d D sc st); try done. apply HD. left.
        * intros [] w' ev (-> & sc1 & st1 & -> & E1 & E2 & Hc1 & Ht1).
          assert (length sc = length sc1) as HL by by rewrite -(fmap_length fst sc) -(fmap_length fst sc1) E1.
          assert (length st = length st1) as HLt by by rewrite -(fmap_length fst st) -(fmap_length fst st1) E2.
          rewrite HLt. eapply wp_mono.
          -- apply (IH (S i) (S j) ({[d]} ∪ D) sc1 st1 sk); rewrite ?E1 ?E2; try done.
             ++ lia.
             ++ intros d' Hd' [->%elem_of_singleton|Hin]%elem_of_union; [|by apply (HD d'); [right|]].
                pose proof (NoDup_drop j _ Hnt) as Hnd. rewrite (drop_S _ _ _ Hjd) in Hnd.
                by apply NoDup_cons in Hnd as [? _].
             ++ destruct sk as [j0|]; [split; [tauto|lia]|].
                rewrite (drop_S _ _ _ Hd) in Hsk. by apply elem_of_cons in Hsk as [?|?].
          -- intros r w' ev (-> & sc2 & st2 & i0 & -> & E3 & E4 & Hc2 & Ht2 & -> & Hres).
             split; [done|]. exists sc2, st2, i0. rewrite E3 E4 E1 E2. split_and!; [done..| | |done|].
             ++ eapply cols_ext; [|exact Hc2]. intros d' _. rewrite E2 (drop_S _ _ _ Hjd) /fc. repeat case_decide; set_solver.
             ++ eapply cols_ext; [|exact Ht2]. intros d' _. rewrite E2 (drop_S _ _ _ Hjd) /ft. repeat case_decide; set_solver.
             ++ by rewrite E1 in Hres.
          -- done.
        * done.
  Qed.
End move.
Local Set Default Proof Using "Type".
