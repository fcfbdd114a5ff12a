(** * What a repeated component leaves of a world (C34) *)
From Verif Require Import ProofBase SpecSmall World History ProofEntities ProofBitset ProofArrayVec ProofUVec.
From Verif Require Export ProofConsist.

Lemma rep_filled u l : uv_rep u l → filled u (length l).
Proof. intros [_ H]. rewrite /filled. case_decide as E; [destruct H as (_ & _ & ->); rewrite E; lia|destruct H as (-> & _); f_equal; lia]. Qed.
Lemma occurrences (D1 : list (ecsid * value)) c d : NoDup D1.*1 →
  length (filter (d =.) (D1.*1 ++ [c])) = (if decide (d ∈ D1.*1) then 1 else 0) + if decide (d = c) then 1 else 0.
Proof.
  intros Hnd. rewrite filter_app app_length. f_equal; [|rewrite filter_cons filter_nil; by case_decide].
  induction D1.*1 as [|x l IH]; [done|]. apply NoDup_cons in Hnd as [Hx Hnd]. specialize (IH Hnd).
  destruct (decide (d = x)) as [->|E].
  - rewrite decide_False // in IH. rewrite filter_cons_True //= IH decide_True //. left.
  - rewrite filter_cons_False // IH. case_decide as H1; case_decide as H2; set_solver.
Qed.

Lemma torn_view w R e D w' : winv w R → alive (w_ents w) e → meta_at w (uindex e) = None → torn w R e D w' →
  (∀ e0, stored w' e0 ↔ e0 = e ∨ stored w e0) ∧
  (∀ e0 c v, e0 ≠ e → holds w' e0 c v ↔ holds w e0 c v) ∧
  get_entity_meta e w' = Done None w' [] ∧
  ∃ k rows a D1 c v D2, D = D1 ++ (c, v) :: D2 ∧ NoDup D1.*1 ∧ c ∈ D1.*1 ∧
    w_archs w' !! k = Some a ∧ a_entities a = rows ++ [e] ∧
    (∀ d, d ∈ D.*1 → d ∈ (a_storages a).*1) ∧
    (∀ d u, (d, u) ∈ a_storages a → filled u (length rows + length (filter (d =.) (D1.*1 ++ [c])))) ∧
    (∀ k' a' d u, k' ≠ k → w_archs w' !! k' = Some a' → (d, u) ∈ a_storages a' → filled u (length (a_entities a'))).
Proof.
  intros Hw Hal Hm (k & a & rs & Ha & Hrs & Hin & ss & D1 & c & v & D2 & HD & Hnd & Hc & Hss & (r & _ & ->) & Hcols).
  cbn in Hss. set (a' := a_set_storages ss (a_set_entities (a_entities a ++ [e]) a)).
  set (w' := set_reuse r _).
  assert (w_archs w' = <[k := a']> (w_archs w)) as HA by done.
  assert (w_archs w' !! k = Some a') as Ha'. { rewrite HA list_lookup_insert //. by eapply lookup_lt_Some. }
  assert (∀ j, j ≠ k → w_archs w' !! j = w_archs w !! j) as Hother. { intros j Hj. by rewrite HA list_lookup_insert_ne. }
  pose proof (wi_rows _ _ Hw _ _ _ Ha Hrs) as Har. pose proof (wi_shape _ _ Hw _ _ Ha) as Hsh.
  assert (length (a_entities a) = length rs) as Hlen by by rewrite (ar_ents _ _ _ Har) fmap_length.
  (* the values of the old rows *)
  assert (∀ i d u, i < length rs → (d, u) ∈ ss → ∃ u0 x, (d, u0) ∈ a_storages a ∧
    mem_read (uv_data u) (i * uv_size u) (uv_size u) = Some x ∧ mem_read (uv_data u0) (i * uv_size u0) (uv_size u0) = Some x) as Hread.
  { intros i d u Hi Hu. destruct (Hcols d u Hu) as (cm & Hcm & Hti & Hrep).
    assert (d ∈ (a_storages a).*1) as ([d' u0] & -> & Hu0)%elem_of_list_fmap. { rewrite (as_storages _ Hsh) -Hss. apply elem_of_list_fmap. by exists (d, u). }
    destruct (ar_cols _ _ _ Har _ _ Hu0) as (cm0 & _ & _ & Hrep0).
    assert (i < length (col d' rs)) as [x Hx]%lookup_lt_is_Some by by rewrite col_length.
    exists u0, x. split_and!; [done| |by eapply uv_read_rep]. eapply uv_read_rep; [exact Hrep|]. cbn [fst].
    rewrite /ft. destruct (decide (d' ∈ list_to_set D1.*1)); rewrite -?app_assoc; by apply lookup_app_l_Some. }
  split_and!.
  - intros e0. split.
    + intros (k0 & i & a0 & Hk0 & Hi). destruct (decide (k0 = k)) as [->|Hne].
      * rewrite Ha' in Hk0. injection Hk0 as <-. cbn in Hi. apply lookup_app_Some in Hi as [Hi|[_ Hi]].
        -- right. exists k, i, a. done.
        -- left. by apply list_lookup_singleton_Some in Hi as [_ ->].
      * rewrite Hother // in Hk0. right. by exists k0, i, a0.
    + intros [->|(k0 & i & a0 & Hk0 & Hi)].
      * exists k, (length (a_entities a)), a'. split; [done|]. cbn. rewrite lookup_app_r // Nat.sub_diag //.
      * destruct (decide (k0 = k)) as [->|Hne].
        -- rewrite Ha in Hk0. injection Hk0 as <-. exists k, i, a'. split; [done|]. cbn. by apply lookup_app_l_Some.
        -- exists k0, i, a0. by rewrite Hother.
  - intros e0 d x Hne0. split.
    + intros (k0 & i & a0 & j & u & Hk0 & Hi & Hj & Hx). destruct (decide (k0 = k)) as [->|Hne].
      * rewrite Ha' in Hk0. injection Hk0 as <-. cbn in Hi, Hj. apply lookup_app_Some in Hi as [Hi|[_ Hi]].
        2:{ by apply list_lookup_singleton_Some in Hi as [_ ->]. }
        destruct (Hread i d u) as (u0 & y & [j0 Hj0]%elem_of_list_lookup & H1 & H2). { rewrite -Hlen. by eapply lookup_lt_Some. } { by eapply elem_of_list_lookup_2. }
        exists k, i, a, j0, u0. split_and!; [done..|]. by rewrite H2 -H1.
      * rewrite Hother // in Hk0. by exists k0, i, a0, j, u.
    + intros (k0 & i & a0 & j & u & Hk0 & Hi & Hj & Hx). destruct (decide (k0 = k)) as [->|Hne].
      * rewrite Ha in Hk0. injection Hk0 as <-.
        assert (d ∈ ss.*1) as ([d' u1] & -> & [j1 Hj1]%elem_of_list_lookup)%elem_of_list_fmap.
        { rewrite Hss -(as_storages _ Hsh). apply elem_of_list_fmap. exists (d, u). split; [done|]. by eapply elem_of_list_lookup_2. }
        destruct (Hread i d' u1) as (u0 & y & [j0 Hj0]%elem_of_list_lookup & H1 & H2). { rewrite -Hlen. by eapply lookup_lt_Some. } { by eapply elem_of_list_lookup_2. }
        assert (j0 = j) as ->.
        { apply (NoDup_lookup (a_storages a).*1 j0 j d'); [|by rewrite list_lookup_fmap ?Hj0 ?Hj..].
          rewrite (as_storages _ Hsh). by apply sorted_NoDup, Hsh. }
        rewrite Hj0 in Hj. injection Hj as ->.
        exists k, i, a', j1, u1. split_and!; [done|cbn; by apply lookup_app_l_Some|done|]. by rewrite H1 -H2.
      * exists k0, i, a0, j, u. by rewrite Hother.
  - rewrite (get_entity_meta_alive w' e) //. change (meta_at w' (uindex e)) with (meta_at w (uindex e)). by rewrite Hm.
  - exists k, (a_entities a), a', D1, c, v, D2. split_and!; [done..| | |].
    + intros d Hd. cbn. rewrite Hss. by apply Hin.
    + intros d u Hu. cbn in Hu. destruct (Hcols d u Hu) as (cm & _ & _ & Hrep%rep_filled). cbn beta in Hrep.
      rewrite (occurrences _ _ _ Hnd) Hlen. rewrite app_length /ft in Hrep.
      destruct (decide (d ∈ D1.*1)) as [H1|H1].
      * rewrite (decide_True (P := d ∈ list_to_set D1.*1)) in Hrep; [|by apply elem_of_list_to_set]. rewrite app_length col_length /= in Hrep.
        destruct (decide (d = c)); by rewrite /= -?Nat.add_assoc in Hrep |- *.
      * rewrite (decide_False (P := d ∈ list_to_set D1.*1)) in Hrep; [|by rewrite elem_of_list_to_set]. rewrite col_length in Hrep.
        destruct (decide (d = c)); done.
    + intros k' a0 d u Hk' Ha0 Hu. rewrite Hother // in Ha0. destruct (winv_get_rows _ _ Hw _ _ Ha0) as (rs0 & Hrs0 & Har0).
      destruct (ar_cols _ _ _ Har0 _ _ Hu) as (cm & _ & _ & Hrep%rep_filled). by rewrite col_length -(fmap_length fst) -(ar_ents _ _ _ Har0) in Hrep.
Qed.

Lemma ok_distinct' w R : winv w R → distinct_sets w.
Proof.
  intros Hw k k' a a' Ha Ha' Hs. rewrite (columns_ids _ _ _ _ Hw Ha) (columns_ids _ _ _ _ Hw Ha') in Hs.
  apply (wi_distinct _ _ Hw k k' (a_comp_ids a)); apply arch_ids_lookup; [eauto|]. exists a'. split; [done|].
  eapply sorted_ext; [by eapply as_sorted, wi_shape..|]. intros c. symmetry. apply Hs.
Qed.
Lemma spawn_torn w cap meta bs fin w' ev : WOk w → op_legal (OSpawn cap meta bs fin) w → op_tame (OSpawn cap meta bs fin) w →
  step (OSpawn cap meta bs fin) w = Panicked RColumnLength w' ev →
  ev = [] ∧ distinct_sets w' ∧ ∃ e D, spawned w w' e ∧ given w' (bops_before bs) D ∧ half_built w w' e D.
Proof.
  intros [[R Hw] _] (Hlay & Hleg) [Hroom Hb] Hp. cbn [step] in Hp. rewrite /bind in Hp.
  pose proof (spawn_program_spec w R cap meta bs fin Hw Hroom Hlay Hleg Hb) as H. rewrite /wp in H.
  destruct (spawn_program cap meta bs fin w) as [e w1 ev1|r w1 ev1| |]; [done| |done..].
  injection Hp as -> -> <-. destruct H as [|H]; [done|].
  destruct H as [(? & _)|[(_ & -> & e & D & HD & w1 & R1 & Hsg & Hw1 & Hun & Ht)|(e & R' & _ & _ & H)]]; [done| |].
  2:{ exfalso. assert (¬ bop_reason RColumnLength) as Hn by (rewrite /bop_reason; set_solver).
      destruct H as [(H & _)|[(H & _)|(H & _)]]; [|done|]; by apply bops_bad_reason in H. }
  split; [done|]. split.
  { pose proof (ok_distinct' _ _ Hw1) as Hd. destruct Ht as (k & a & rs & Ha & _ & _ & ss & D1 & c & v & D2 & _ & _ & _ & Hss & (r & _ & ->) & _).
    cbn in Hss. assert (∀ j b, w_archs (set_reuse r (st_world w1 k (a_set_entities (a_entities a ++ [e]) a) ss)) !! j = Some b →
      ∃ b', w_archs w1 !! j = Some b' ∧ columns b' = columns b) as Hx.
    { intros j b. cbn. destruct (decide (j = k)) as [->|Hne]; [|rewrite list_lookup_insert_ne //; eauto].
      rewrite list_lookup_insert; [|by eapply lookup_lt_Some]. intros [= <-]. exists a. split; [done|].
      by rewrite (columns_ids _ _ _ _ Hw1 Ha) /columns /= Hss. }
    intros j j' b b' (b0 & Hb0 & E0)%Hx (b1 & Hb1 & E1)%Hx. rewrite -E0 -E1. by apply Hd. }
  exists e, D. pose proof (torn_types _ _ _ _ _ Ht) as Htt.
  assert (spawned w w' e) as Hsp.
  { apply sgrow_spawned. eapply sgrow_same; [exact Hsg|..].
    1-4: by destruct Ht as (k & a & rs & _ & _ & _ & ss & D1 & c & v & D2 & _ & _ & _ & _ & (r & _ & ->) & _).
    destruct Ht as (k & a & rs & Ha & _ & _ & ss & D1 & c & v & D2 & _ & _ & _ & _ & (r & _ & ->) & _).
    intros k0 L0. rewrite /arch_ids /= list_fmap_insert list_insert_id //. by rewrite list_lookup_fmap Ha. }
  split_and!; [done|by apply entries_given|].
  destruct (torn_view _ _ _ _ _ Hw1 (proj1 (proj2 (sg_self _ _ _ Hsg))) (proj1 (proj2 Hun)) Ht) as (V1 & V2 & V3 & V4).
  destruct (unbuilt_view _ _ _ _ _ Hw Hw1 Hsg Hun) as (_ & U2 & U3).
  assert (∀ c, new_type w w' c ↔ new_type w w1 c) as Hnt. { intros c. rewrite /new_type /type_id Htt. done. }
  split_and!; [| |done|done].
  - intros e0. by rewrite V1 U2 Hnt.
  - intros e0 c v Hne. by rewrite V2 // U3.
Qed.
