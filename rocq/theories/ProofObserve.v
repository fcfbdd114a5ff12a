(** * Reading and writing components *)
From Verif Require Import ProofBase SpecSmall World History ProofEntities ProofBitset ProofArrayVec ProofUVec.
From Verif Require Export ProofSpawn SpecWorld.

Section observe.
  Context (w : world) (R : list (list row)) (Hw : winv w R).
  Local Set Default Proof Using "Hw".

  Lemma lives_alive e : lives w e ↔ alive (w_ents w) e.
  Proof.
    split; [|apply is_alive_alive]. rewrite /lives. pose proof (is_alive_cases w e) as H. intros E. rewrite E in H. tauto.
  Qed.

  Lemma placed_row e k i : placed w e k i ↔ ∃ rs m, R !! k = Some rs ∧ rs !! i = Some (e, m).
  Proof.
    split.
    - intros (a & Ha & He). destruct (winv_get_rows _ _ Hw _ _ Ha) as (rs & Hrs & Hrows). exists rs.
      rewrite (ar_ents _ _ _ Hrows) list_lookup_fmap in He. destruct (rs !! i) as [[e' m]|] eqn:E; [|done].
      injection He as ->. by exists m.
    - intros (rs & m & Hrs & Hr). destruct (proj1 (winv_rows_len _ _ Hw k)) as [a Ha]; [by eexists|].
      exists a. split; [done|]. rewrite (ar_ents _ _ _ (wi_rows _ _ Hw _ _ _ Ha Hrs)) list_lookup_fmap Hr. done.
  Qed.
  Lemma stored_row e : stored w e ↔ ∃ m, rowof R e m.
  Proof.
    split.
    - intros (k & i & (rs & m & H1 & H2)%placed_row). by exists m, k, i, rs.
    - intros (m & k & i & rs & H1 & H2). exists k, i. apply placed_row. eauto.
  Qed.

  (** The column of a component of a row. *)
  Lemma row_column k i rs e m c a : R !! k = Some rs → rs !! i = Some (e, m) → w_archs w !! k = Some a →
    is_Some (m !! c) ↔ ∃ j u, a_storages a !! j = Some (c, u).
  Proof.
    intros Hrs Hr Ha. pose proof (wi_rows _ _ Hw _ _ _ Ha Hrs) as Hrows.
    rewrite (ar_dom _ _ _ Hrows (e, m) c (elem_of_list_lookup_2 _ _ _ Hr)).
    rewrite -(as_storages _ (wi_shape _ _ Hw _ _ Ha)) elem_of_list_fmap. split.
    - intros ([c' u] & -> & (j & Hj)%elem_of_list_lookup). eauto.
    - intros (j & u & Hj). exists (c, u). split; [done|]. by eapply elem_of_list_lookup_2.
  Qed.
  Lemma column_value k i rs e m c a j u : R !! k = Some rs → rs !! i = Some (e, m) → w_archs w !! k = Some a →
    a_storages a !! j = Some (c, u) →
    ∃ v cm, m !! c = Some v ∧ comp_of w c = Some cm ∧ uv_ti u = cm_type_info cm ∧ uv_rep u (col c rs) ∧
      col c rs !! i = Some v ∧ length v = uv_size u ∧
      mem_read (uv_data u) (i * uv_size u) (uv_size u) = Some v.
  Proof.
    intros Hrs Hr Ha Hj. destruct (proj2 (row_column _ _ _ _ _ c _ Hrs Hr Ha)) as [v Hv]; [eauto|].
    pose proof (wi_rows _ _ Hw _ _ _ Ha Hrs) as Hrows.
    destruct (ar_cols _ _ _ Hrows c u (elem_of_list_lookup_2 _ _ _ Hj)) as (cm & Hcm & Hti & Hrep).
    assert (col c rs !! i = Some v) as Hi by (rewrite col_lookup Hr /= Hv; done).
    exists v, cm. split_and!; [done..| |]; [by eapply uv_rep_size|by eapply uv_read_rep].
  Qed.

  Lemma holds_row e c v : holds w e c v ↔ ∃ m, rowof R e m ∧ m !! c = Some v.
  Proof.
    split.
    - intros (k & i & a & j & u & Ha & He & Hj & Hv).
      destruct (proj1 (placed_row e k i)) as (rs & m & Hrs & Hr); [by exists a|].
      destruct (column_value _ _ _ _ _ _ _ _ _ Hrs Hr Ha Hj) as (v' & cm & Hm & _ & _ & _ & _ & _ & Hv').
      rewrite Hv in Hv'. injection Hv' as <-. exists m. split; [by exists k, i, rs|done].
    - intros (m & (k & i & rs & Hrs & Hr) & Hm).
      destruct (proj1 (winv_rows_len _ _ Hw k)) as [a Ha]; [by eexists|].
      destruct (proj1 (row_column _ _ _ _ _ c _ Hrs Hr Ha)) as (j & u & Hj); [by eexists|].
      destruct (column_value _ _ _ _ _ _ _ _ _ Hrs Hr Ha Hj) as (v' & cm & Hm' & _ & _ & _ & _ & _ & Hv').
      rewrite Hm in Hm'. injection Hm' as <-. exists k, i, a, j, u. split_and!; try done.
      by rewrite (ar_ents _ _ _ (wi_rows _ _ Hw _ _ _ Ha Hrs)) list_lookup_fmap Hr.
  Qed.
  Lemma row_fun e m m' : rowof R e m → rowof R e m' → m = m'.
  Proof.
    intros (k & i & rs & H1 & H2) (k' & i' & rs' & H3 & H4).
    by destruct (winv_row_unique _ _ Hw _ _ _ _ _ _ _ _ _ H1 H2 H3 H4) as (_ & _ & ?).
  Qed.
  Lemma row_alive e m : rowof R e m → alive (w_ents w) e.
  Proof. intros (k & i & rs & H1 & H2). by eapply wi_row. Qed.
  Lemma row_meta e m : rowof R e m → is_Some (meta_at w (uindex e)).
  Proof.
    intros (k & i & rs & H1 & H2). destruct (wi_row _ _ Hw _ _ _ _ _ H1 H2) as [_ H].
    destruct (meta_at w (uindex e)); [eauto|done].
  Qed.
  Lemma holds_size e c v : holds w e c v → alive (w_ents w) c ∧ ∃ cm, comp_of w c = Some cm ∧ length v = cm_size cm.
  Proof.
    intros (m & (k & i & rs & Hrs & Hr) & Hm)%holds_row.
    destruct (proj1 (winv_rows_len _ _ Hw k)) as [a Ha]; [by eexists|].
    destruct (proj1 (row_column _ _ _ _ _ c _ Hrs Hr Ha)) as (j & u & Hj); [by eexists|].
    destruct (column_value _ _ _ _ _ _ _ _ _ Hrs Hr Ha Hj) as (v' & cm & Hm' & Hcm & Hti & _ & _ & Hlen & _).
    rewrite Hm in Hm'. injection Hm' as <-. split.
    - eapply (wi_comps _ _ Hw k (a_comp_ids a)); [apply arch_ids_lookup; eauto|].
      rewrite -(as_storages _ (wi_shape _ _ Hw _ _ Ha)). apply elem_of_list_fmap. exists (c, u). split; [done|].
      by eapply elem_of_list_lookup_2.
    - exists cm. split; [done|]. by rewrite Hlen /uv_size Hti.
  Qed.

  (** *** [get_component_mut_dynamic] *)
  Lemma get_mut_row k i rs e m c v : R !! k = Some rs → rs !! i = Some (e, m) → m !! c = Some v →
    ∃ a j u, w_archs w !! k = Some a ∧ a_storages a !! j = Some (c, u) ∧
      get_component_mut e c w = Done (Some (Loc k j (i * uv_size u))) w [].
  Proof.
    intros Hrs Hr Hm.
    destruct (proj1 (winv_rows_len _ _ Hw k)) as [a Ha]; [by eexists|].
    destruct (proj1 (row_column _ _ _ _ _ c _ Hrs Hr Ha)) as (j & u & Hj); [by eexists|].
    destruct (column_value _ _ _ _ _ _ _ _ _ Hrs Hr Ha Hj) as (v' & cm & Hm' & Hcm & Hti & Hrep & Hi & Hlen & _).
    destruct (wi_row _ _ Hw _ _ _ _ _ Hrs Hr) as [He (em & Hem & Hinst)%fmap_Some].
    assert (alive (w_ents w) c) as Hc. { eapply holds_size, holds_row. exists m. split; [by exists k, i, rs|done]. }
    exists a, j, u. split_and!; [done..|]. rewrite /get_component_mut.
    rewrite (bind_done_nil _ _ _ _ _ (is_alive_alive _ _ He)) /=.
    rewrite (bind_done_nil _ _ _ _ _ (is_alive_alive _ _ Hc)) /=.
    rewrite (bind_done_nil _ _ _ _ _ (get_entity_meta_alive _ _ He)) Hem -Hinst. cbn [im_arch im_index].
    rewrite (bind_done_nil _ _ _ _ _ (get_arch_done _ _ _ Ha)).
    assert (a_lookup a !! c = Some j) as ->.
    { apply (as_lookup _ (wi_shape _ _ Hw _ _ Ha)). rewrite -(as_storages _ (wi_shape _ _ Hw _ _ Ha)) list_lookup_fmap Hj. done. }
    rewrite (bind_done_nil _ _ w j w eq_refl).
    assert (in_arch k (in_storage j (uv_get_raw i)) w = Done (Some (i * uv_size u)) w []) as Hin.
    { rewrite /in_arch /zoom Ha /in_storage /zoom Hj /= (uv_get_raw_rep _ _ i Hrep).
      rewrite decide_True; [|by eapply lookup_lt_Some]. f_equal.
      assert (a_set_storages (alter (λ s, (s.1, u)) j (a_storages a)) a = a) as ->.
      { rewrite (alter_snd _ _ _ _ _ Hj) list_insert_id //. by destruct a. }
      rewrite list_insert_id //. by destruct w. }
    rewrite (bind_done_nil _ _ _ _ _ Hin). done.
  Qed.

  Lemma get_mut_cases e c :
    match get_component_mut e c w with
    | Done (Some l) w' ev => w' = w ∧ ev = [] ∧
        ∃ k i rs m v a j u, R !! k = Some rs ∧ rs !! i = Some (e, m) ∧ m !! c = Some v ∧
          w_archs w !! k = Some a ∧ a_storages a !! j = Some (c, u) ∧ l = Loc k j (i * uv_size u)
    | Done None w' ev => w' = w ∧ ev = [] ∧
        (ents_is_alive (w_ents w) e = Some false ∨ ents_is_alive (w_ents w) c = Some false ∨ meta_at w (uindex e) = None)
    | Panicked r w' ev => w' = w ∧ ev = [] ∧
        ((r = RNoGeneration ∧ (ents_is_alive (w_ents w) e = None ∨ ents_is_alive (w_ents w) c = None)) ∨
         (r = RIndex ∧ alive (w_ents w) c ∧ ∃ m, rowof R e m ∧ m !! c = None))
    | _ => False
    end.
  Proof.
    destruct (decide (is_Some (meta_at w (uindex e)))) as [[em Hem]|Hnm]; last first.
    { rewrite -eq_None_not_Some in Hnm. rewrite /get_component_mut /bind.
      pose proof (is_alive_cases w e) as He. destruct (is_alive e w) as [be we eve|re we eve| |]; [| |done..].
      2:{ destruct He as (-> & -> & -> & He). simpl. tauto. }
      destruct He as (-> & -> & Hbe & He). destruct be; simpl; [|tauto].
      pose proof (is_alive_cases w c) as Hc. destruct (is_alive c w) as [bc wc evc|rc wc evc| |]; [| |done..].
      2:{ destruct Hc as (-> & -> & -> & Hc). simpl. tauto. }
      destruct Hc as (-> & -> & Hbc & Hc). destruct bc; simpl; [|tauto].
      rewrite get_entity_meta_alive; [|tauto]. rewrite Hnm. simpl. tauto. }
    pose proof (is_alive_cases w e) as He. destruct (is_alive e w) as [be we eve|re we eve| |] eqn:Ee; [| |done..].
    2:{ destruct He as (-> & -> & -> & He). rewrite /get_component_mut /bind Ee /=. tauto. }
    destruct He as (-> & -> & Hbe & He). destruct be; simpl.
    2:{ rewrite /get_component_mut /bind Ee /=. tauto. }
    pose proof (is_alive_cases w c) as Hc. destruct (is_alive c w) as [bc wc evc|rc wc evc| |] eqn:Ec; [| |done..].
    2:{ destruct Hc as (-> & -> & -> & Hc). rewrite /get_component_mut /bind Ee /= Ec /=. tauto. }
    destruct Hc as (-> & -> & Hbc & Hc). destruct bc; simpl.
    2:{ rewrite /get_component_mut /bind Ee /= Ec /=. tauto. }
    assert (alive (w_ents w) e) as Hae by tauto. assert (alive (w_ents w) c) as Hac by tauto.
    destruct (winv_meta_row _ _ Hw e em Hae Hem) as (rs & m & Hrs & Hr).
    destruct (m !! c) as [v|] eqn:Hmc.
    - destruct (get_mut_row _ _ _ _ _ _ _ Hrs Hr Hmc) as (a & j & u & Ha & Hj & Heq). rewrite Heq. split_and!; [done..|].
      by exists (im_arch (em_inst em)), (im_index (em_inst em)), rs, m, v, a, j, u.
    - assert (get_component_mut e c w = Panicked RIndex w []) as ->.
      { rewrite /get_component_mut.
        rewrite (bind_done_nil _ _ _ _ _ Ee) /= (bind_done_nil _ _ _ _ _ Ec) /=.
        rewrite (bind_done_nil _ _ _ _ _ (get_entity_meta_alive _ _ Hae)) Hem.
        destruct (proj1 (winv_rows_len _ _ Hw (im_arch (em_inst em)))) as [a Ha]; [by eexists|].
        rewrite (bind_done_nil _ _ _ _ _ (get_arch_done _ _ _ Ha)).
        destruct (a_lookup a !! c) as [j|] eqn:Hj; [|done]. exfalso.
        apply (as_lookup _ (wi_shape _ _ Hw _ _ Ha)) in Hj. destruct (winv_storage _ _ Hw _ _ _ _ Ha Hj) as [u Hu].
        destruct (proj2 (row_column _ _ _ _ _ c _ Hrs Hr Ha)) as [v Hv]; [eauto|]. congruence. }
      split_and!; [done..|]. right. split_and!; [done..|]. exists m. split; [|done]. eexists _, _, _. split; done.
  Qed.

  (** *** [has_component] *)
  Lemma has_cases e t :
    match has_component e t w with
    | Done b w' ev => w' = w ∧ ev = [] ∧ (b = true ↔ ∃ c m, w_types w !! t = Some c ∧ rowof R e m ∧ is_Some (m !! c))
    | Panicked r w' ev => w' = w ∧ ev = [] ∧ r = RNoGeneration ∧ ents_is_alive (w_ents w) e = None
    | _ => False
    end.
  Proof.
    rewrite /has_component. rewrite (bind_done_nil _ _ w (w_types w !! t) w eq_refl).
    destruct (w_types w !! t) as [c|] eqn:Et.
    2:{ simpl. split_and!; [done..|]. split; [done|]. by intros (c & m & ? & _). }
    pose proof (get_entity_meta_cases w e) as H.
    destruct (get_entity_meta e w) as [om w' ev|r w' ev| |] eqn:E; [| |done..].
    2:{ rewrite /bind E /=. tauto. }
    destruct H as (-> & -> & b & Hb & ->). rewrite (bind_done_nil _ _ _ _ _ E).
    destruct b; last first.
    { simpl. split_and!; [done..|]. split; [done|]. intros (c' & m & _ & Hrow & _). apply row_alive in Hrow.
      rewrite /alive in Hrow. congruence. }
    destruct (meta_at w (uindex e)) as [em|] eqn:Hem; last first.
    { simpl. split_and!; [done..|]. split; [done|]. intros (c' & m & _ & Hrow & _). apply row_meta in Hrow as [? ?].
      congruence. }
    destruct (winv_meta_row _ _ Hw e em Hb Hem) as (rs & m & Hrs & Hr).
    destruct (proj1 (winv_rows_len _ _ Hw (im_arch (em_inst em)))) as [a Ha]; [by eexists|].
    rewrite (bind_done_nil _ _ _ _ _ (get_arch_done _ _ _ Ha)) /=. split_and!; [done..|]. rewrite bool_decide_eq_true.
    assert (rowof R e m) as Hrow by (eexists _, _, _; done).
    assert (is_Some (a_lookup a !! c) ↔ is_Some (m !! c)) as ->.
    { rewrite (row_column _ _ _ _ _ c _ Hrs Hr Ha). split.
      - intros [j Hj]. apply (as_lookup _ (wi_shape _ _ Hw _ _ Ha)) in Hj.
        destruct (winv_storage _ _ Hw _ _ _ _ Ha Hj) as [u Hu]. eauto.
      - intros (j & u & Hj). exists j. apply (as_lookup _ (wi_shape _ _ Hw _ _ Ha)).
        rewrite -(as_storages _ (wi_shape _ _ Hw _ _ Ha)) list_lookup_fmap Hj. done. }
    split; [by intros; exists c, m|]. intros (c' & m' & [= <-] & Hrow' & H). by rewrite (row_fun _ _ _ Hrow Hrow').
  Qed.

  (** *** Writing through a pointer to a component *)
  Lemma write_row k i rs e m c v v' a j u :
    R !! k = Some rs → rs !! i = Some (e, m) → m !! c = Some v →
    w_archs w !! k = Some a → a_storages a !! j = Some (c, u) → length v' = uv_size u →
    ∃ a', let w' := set_archs (<[k := a']> (w_archs w)) w in
      write_loc (Loc k j (i * uv_size u)) v' w = Done () w' [] ∧
      a_comp_ids a' = a_comp_ids a ∧
      winv w' (<[k := <[i := (e, <[c := v']> m)]> rs]> R) ∧ keeps w w'.
  Proof.
    intros Hrs Hr Hm Ha Hj Hv'.
    destruct (column_value _ _ _ _ _ _ _ _ _ Hrs Hr Ha Hj) as (v0 & cm & Hm' & Hcm & Hti & Hrep & Hi & Hlen & _).
    destruct (uv_write_rep u (col c rs) i v' Hrep) as (p & Hp & Hrep'); [by eapply lookup_lt_Some|done|].
    set (u' := uv_set_data p (uv_cap u) u) in *.
    set (a' := a_set_storages (<[j := (c, u')]> (a_storages a)) a).
    assert (k < length (w_archs w)) as Hk by by eapply lookup_lt_Some.
    assert (i < length rs) as Hil by by eapply lookup_lt_Some.
    assert (k < length R) as HkR by by eapply lookup_lt_Some.
    assert (a_comp_ids a' = a_comp_ids a) as Hids by done.
    pose proof (wi_shape _ _ Hw _ _ Ha) as Hsh. pose proof (wi_rows _ _ Hw _ _ _ Ha Hrs) as Hrows.
    assert (NoDup (a_storages a).*1) as Hnd.
    { rewrite (as_storages _ Hsh). apply sorted_NoDup. apply (as_sorted _ Hsh). }
    exists a'. cbn zeta. split_and!.
    - rewrite /write_loc. cbn [loc_arch loc_storage loc_off]. rewrite /in_arch /zoom Ha /in_storage /zoom Hj /=.
      rewrite /bind /gets /= Hp /=. rewrite (alter_snd _ _ _ _ _ Hj). done.
    - done.
    - eapply winv_rows_move; try done.
      + by eapply arch_ids_insert.
      + by rewrite insert_length.
      + intros k' a0. simpl. rewrite list_lookup_insert_Some.
        intros [(-> & <- & _)|(_ & Ha')]; [|split; [by eapply wi_shape|by eapply wi_cache]]. split.
        * destruct Hsh as [H1 H2 H3 H4]. constructor; try done. simpl. rewrite list_fmap_insert /= list_insert_id //.
          by rewrite list_lookup_fmap Hj.
        * by apply (wi_cache _ _ Hw _ _ Ha).
      + intros k' a0 rs0. simpl. rewrite !list_lookup_insert_Some.
        intros [(-> & <- & _)|(Hne & Ha')] [(Hk0 & <- & _)|(Hne' & Hrs')]; [|by destruct Hne'|by destruct Hne|by eapply wi_rows].
        destruct Hrows as [H1 H2 H3]. constructor.
        * simpl. rewrite H1 list_fmap_insert /= list_insert_id //. by rewrite list_lookup_fmap Hr.
        * intros d u0 Hin. simpl in Hin. apply elem_of_list_lookup in Hin as [j0 Hj0].
          destruct (decide (d = c)) as [->|Hd].
          { assert (j0 = j) as ->.
            { eapply NoDup_lookup; [exact Hnd| |]; rewrite list_lookup_fmap; [|by rewrite Hj].
              apply list_lookup_insert_Some in Hj0 as [(-> & _ & _)|(_ & Hj0)]; [by rewrite Hj|by rewrite Hj0]. }
            rewrite list_lookup_insert in Hj0; [|by eapply lookup_lt_Some]. injection Hj0 as <-.
            exists cm. split_and!; [done|done|]. rewrite /col list_fmap_insert /= lookup_insert /=. done. }
          { apply list_lookup_insert_Some in Hj0 as [(-> & [= -> _] & _)|(_ & Hj0)]; [done|].
            destruct (H2 d u0) as (cmd & ? & ? & Hrep0); [by eapply elem_of_list_lookup_2|]. exists cmd. split_and!; [done..|].
            rewrite /col list_fmap_insert /= lookup_insert_ne // list_insert_id //. by rewrite list_lookup_fmap Hr. }
        * intros r d [i0 Hi0]%elem_of_list_lookup. rewrite Hids.
          apply list_lookup_insert_Some in Hi0 as [(-> & <- & _)|(_ & Hi0)]; [|by apply H3; eapply elem_of_list_lookup_2].
          cbn [snd]. rewrite lookup_insert_is_Some'.
          rewrite -(H3 (e, m) d (elem_of_list_lookup_2 _ _ _ Hr)). cbn [snd]. split; [|by auto]. intros [<-|?]; [|done]. by eexists.
      + intros k' i' rs' e' m'. rewrite list_lookup_insert_Some. intros [(-> & <- & _)|(_ & Hrs')]; [|by apply (wi_row _ _ Hw)].
        rewrite list_lookup_insert_Some. intros [(-> & [= <- <-] & _)|(_ & Hr')]; [exact (wi_row _ _ Hw _ _ _ _ _ Hrs Hr)|exact (wi_row _ _ Hw _ _ _ _ _ Hrs Hr')].
      + intros i' em Hem. destruct (wi_meta _ _ Hw _ _ Hem) as (rs0 & e0 & m0 & H1 & H2 & H3).
        destruct (decide (im_arch (em_inst em) = k)) as [Hk'|Hk'].
        * rewrite Hk' in H1 |- *. rewrite H1 in Hrs. injection Hrs as ->. rewrite list_lookup_insert //.
          destruct (decide (im_index (em_inst em) = i)) as [Hi'|Hi'].
          -- rewrite Hi' in H2 |- *. rewrite H2 in Hr. injection Hr as -> ->. eexists _, _, _. split_and!; [done| |done].
             by rewrite list_lookup_insert.
          -- eexists _, _, _. split_and!; [done| |done]. by rewrite list_lookup_insert_ne.
        * rewrite list_lookup_insert_ne //. by exists rs0, e0, m0.
    - constructor; try done. intros k' L. by rewrite (arch_ids_insert _ _ _ _ Ha Hids).
  Qed.
  Lemma write_rows k i rs e m m' : R !! k = Some rs → rs !! i = Some (e, m) →
    ∀ e0 m0, rowof (<[k := <[i := (e, m')]> rs]> R) e0 m0 ↔ (e0 = e ∧ m0 = m') ∨ (e0 ≠ e ∧ rowof R e0 m0).
  Proof.
    intros Hrs Hr e0 m0. assert (k < length R) as HkR by by eapply lookup_lt_Some.
    assert (i < length rs) as Hil by by eapply lookup_lt_Some. split.
    - intros (k' & i' & rs' & H1 & H2). apply list_lookup_insert_Some in H1 as [(-> & <- & _)|(Hne & H1)].
      + apply list_lookup_insert_Some in H2 as [(-> & [= -> ->] & _)|(Hne & H2)]; [by left|]. right. split; [|by eexists _, _, _].
        intros ->. destruct (winv_row_unique _ _ Hw _ _ _ _ _ _ _ _ _ Hrs Hr Hrs H2) as (_ & ? & _). done.
      + right. split; [|by eexists _, _, _].
        intros ->. destruct (winv_row_unique _ _ Hw _ _ _ _ _ _ _ _ _ Hrs Hr H1 H2) as (? & _ & _). done.
    - intros [(-> & ->)|(Hne & k' & i' & rs' & H1 & H2)].
      + exists k, i, (<[i := (e, m')]> rs). by rewrite !list_lookup_insert.
      + destruct (decide (k' = k)) as [->|].
        * rewrite H1 in Hrs. injection Hrs as ->. exists k, i', (<[i := (e, m')]> rs). rewrite list_lookup_insert //. split; [done|].
          rewrite list_lookup_insert_ne //. intros ->. congruence.
        * exists k', i', rs'. rewrite list_lookup_insert_ne //.
  Qed.
End observe.
