(** * Building the same builder twice (C32) *)
From Verif Require Import ProofBase SpecSmall World History ProofEntities ProofBitset ProofArrayVec ProofUVec.
From Verif Require Import ProofSession ProofObserve ProofReuse ProofLedger SpecTwice.

(** ** The builder after [build] *)
Lemma on_unwind_inv {S A} (m : M S A) o s a s1 ev : on_unwind m o s = Done a s1 ev → m s = Done a s1 ev.
Proof. rewrite /on_unwind. destruct (m s); try done. by destruct o. Qed.
Lemma create_storages_builder ids : ∀ off acc b w a b1 w1 ev,
  create_storages ids off acc (b, w) = Done a (b1, w1) ev → b1 = b.
Proof.
  induction ids as [|c ids IH]; intros off acc b w a b1 w1 ev; cbn [create_storages]; [by intros [= _ <- _ _]|].
  intros (v' & [b2 w2] & e1 & e2 & Hu%on_unwind_inv & Hk & ->)%bind_done_inv.
  apply bind_done_inv in Hu as (ocm & [b3 w3] & e3 & e4 & [-> _]%in_world_inv & Hu & _).
  apply bind_done_inv in Hu as (cm & s2 & e5 & e6 & [_ ->]%unwrap_inv & Hu & _).
  rewrite (bind_done_nil _ _ (b, w3) b (b, w3) eq_refl) in Hu. cbv zeta in Hu.
  destruct (uv_push_raw _ _); [|done..]. destruct (offset_ok _ _); [|done]. injection Hu as _ <- _ _. by eapply IH.
Qed.
Lemma build_builder b w id b1 w1 ev r : build (b, w) = Done id (b1, w1) ev →
  find_archetype_dynamic (eb_ids b) w = Done r w [] →
  b1 = if r is Some _ then b else set_ids [] b.
Proof.
  rewrite /build (bind_done_nil _ _ (b, w) b (b, w) eq_refl). intros H Hf.
  rewrite (bind_done_nil _ _ _ _ _ (in_world_done _ _ _ _ _ _ Hf)) in H. destruct r as [k|].
  - apply bind_done_inv in H as ([] & [b2 w2] & e1 & e2 & [-> _]%in_world_inv & H & _).
    apply bind_done_inv in H as ([] & [b3 w3] & e3 & e4 & ->%build_push_builder & H & _).
    apply bind_done_inv in H as (a & [b4 w4] & e5 & e6 & [-> _]%in_world_inv & H & _).
    apply bind_done_inv in H as ([] & [b5 w5] & e7 & e8 & [-> _]%in_world_inv & H & _). by injection H.
  - apply bind_done_inv in H as ([] & [b2 w2] & e1 & e2 & [-> _]%in_world_inv & H & _).
    apply bind_done_inv in H as (na & [b3 w3] & e3 & e4 & Hc & H & _).
    apply bind_done_inv in H as (n & [b4 w4] & e5 & e6 & [-> _]%in_world_inv & H & _).
    apply bind_done_inv in H as ([] & [b5 w5] & e7 & e8 & [-> _]%in_world_inv & H & _). injection H as _ -> _ _.
    rewrite /create_archetype (bind_done_nil _ _ (b, w2) b (b, w2) eq_refl) in Hc.
    apply bind_done_inv in Hc as (ss & [b6 w6] & e9 & e10 & ->%create_storages_builder & Hc & _).
    rewrite (bind_done_nil _ _ (b, w6) () (set_ids (sort_by ecsid_leb (eb_ids b)) b, w6) eq_refl) in Hc. cbv zeta in Hc.
    set (b7 := set_ids (sort_by ecsid_leb (eb_ids b)) b) in Hc.
    rewrite (bind_done_nil _ _ (b7, w6) (eb_ids b7) (b7, w6) eq_refl) in Hc.
    apply bind_done_inv in Hc as (lk & s7 & e11 & e12 & [_ ->]%on_unwind_inv%unwrap_inv & Hc & _).
    apply bind_done_inv in Hc as ([] & s8 & e13 & e14 & ->%on_unwind_inv%massert_state & Hc & _).
    apply bind_done_inv in Hc as ([] & s9 & e15 & e16 & Hm & Hc & _). injection Hm as <- _. by injection Hc as _ <- _ _.
Qed.

(** ** The calls before [build] *)
Lemma bops_pend bs : ∀ w R b D, winv w R → room 0 w → bbuf b → pending w b D →
  bops_legal bs (b, w) → bops_builds bs = 0 →
  wp (run_bops bs) (b, w)
     (λ _ s ev, ev = [] ∧ bbuf s.1 ∧ same_target b s.1 ∧ grow w s.2 ∧ ∃ R' D', winv s.2 R' ∧ pending s.2 s.1 D')
     (λ _ _ _, True).
Proof.
  induction bs as [|o bs IH]; intros w R b D Hw Hroom Hb Hp Hleg Hn; cbn [run_bops].
  { apply wp_ret. split; [done|]. split; [done|]. split; [done|]. split; [apply grow_refl|]. by exists R, D. }
  destruct Hleg as [Ho Hleg].
  assert (o ≠ BBuild ∧ bops_builds bs = 0) as [Hnb Hn'] by by destruct o.
  apply wp_bind. eapply wp_mono; [apply wp_and_run; by apply (bop_spec w R)| |done].
  intros [] [b1 w1] ev [(-> & Hb1 & [T1 T2] & Hg & (R1 & Hw1 & HR1) & d & _ & Hd) Hrun]. cbn [fst snd] in *. rewrite Hrun in Hleg.
  eapply wp_mono; [apply (IH w1 R1 b1 (D ++ [d])); try done| |done].
  - by eapply grow_room.
  - by apply Hd.
  - intros [] [b2 w2] ev (-> & Hb2 & [U1 U2] & Hg2 & HR). cbn [fst snd] in *. split; [done|]. split; [done|].
    split; [split; congruence|]. split; [by eapply grow_trans|done].
Qed.
Lemma run_bops_app bs1 bs2 s : run_bops (bs1 ++ bs2) s = bind (run_bops bs1) (λ _, run_bops bs2) s.
Proof.
  revert s. induction bs1 as [|o bs1 IH]; intros s; cbn [app run_bops].
  - by rewrite (bind_done_nil _ _ s () s eq_refl).
  - rewrite /bind. destruct (run_bop o s) as [[] s1 ev|? ? ?| |]; try done. rewrite IH /bind /=.
    destruct (run_bops bs1 s1) as [[] s2 ev2|? ? ?| |]; try done. cbn. destruct (run_bops bs2 s2); try done; cbn; by rewrite app_assoc.
Qed.

(** ** The second [build] *)
(** [w2] is [w1] with one more row [(e, m2)] at the end of archetype [k2]. *)
Record extra_row (w1 : world) (R1 : list (list row)) (e : ecsid) (k1 i1 k2 : nat) (w2 : world) : Prop := {
  xr_first : ∃ rs1 m1, R1 !! k1 = Some rs1 ∧ rs1 !! i1 = Some (e, m1);
  xr_more : ∃ a rs m2 ss, w_archs w1 !! k2 = Some a ∧ R1 !! k2 = Some rs ∧
    w_archs w2 = <[k2 := a_set_storages ss (a_set_entities (a_entities a ++ [e]) a)]> (w_archs w1) ∧
    ss.*1 = a_comp_ids a ∧ cols (comp_of w1) ss (λ c, col c (rs ++ [(e, m2)])) ∧
    (∀ c, is_Some (m2 !! c) ↔ c ∈ a_comp_ids a) ∧
    (k2 = k1 → ∃ m1, rs !! i1 = Some (e, m1) ∧ m2 = m1) ∧ (k2 ≠ k1 → m2 = ∅) ∧
    ∃ cm, ∀ i, meta_at w2 i = if decide (i = uindex e) then Some (EntMeta (InstMeta k2 (length rs)) cm) else meta_at w1 i;
  xr_ents : w_ents w2 = w_ents w1;
  xr_types : w_types w2 = w_types w1;
  xr_unused : ∀ k L, arch_ids w1 !! k = Some L → e ∉ L;
  xr_reuse : reuse_ok (w_reuse w2)
}.
Lemma extra_reuse w1 R1 e k1 i1 k2 w2 r1 r2 :
  extra_row w1 R1 e k1 i1 k2 w2 → reuse_ok r2 → extra_row (set_reuse r1 w1) R1 e k1 i1 k2 (set_reuse r2 w2).
Proof. intros [H1 H2 H3 H4 H5 H6] Hr. by constructor. Qed.

Lemma build_more w R b D k a rs e em :
  winv w R → bbuf b → pending w b D → NoDup D.*1 → eb_entity b = e → alive (w_ents w) e →
  find_archetype_dynamic (eb_ids b) w = Done (Some k) w [] →
  w_archs w !! k = Some a → R !! k = Some rs → (∀ c, c ∈ D.*1 ↔ c ∈ a_comp_ids a) → meta_at w (uindex e) = Some em →
  wp build (b, w)
     (λ id s ev, ev = [] ∧ s.1 = b ∧ w_ents s.2 = w_ents w ∧ w_types s.2 = w_types w ∧ w_reuse s.2 = w_reuse w ∧ ∃ ss,
        w_archs s.2 = <[k := a_set_storages ss (a_set_entities (a_entities a ++ [e]) a)]> (w_archs w) ∧
        ss.*1 = a_comp_ids a ∧ cols (comp_of w) ss (λ c, col c (rs ++ [(e, list_to_map D)])) ∧
        ∀ i, meta_at s.2 i = if decide (i = uindex e) then Some (EntMeta (InstMeta k (length rs)) (eb_meta b)) else meta_at w i)
     (λ _ _ _, False).
Proof.
  intros Hw Hb Hp Hnd He Hal Hf Ha Hrs Hset Hem. rewrite /build. apply wp_bind, wp_gets. cbn [fst].
  apply wp_bind. rewrite {1}/wp (in_world_done _ _ _ _ _ _ Hf). rewrite (pe_ids _ _ _ Hp) He.
  pose proof (wi_rows _ _ Hw _ _ _ Ha Hrs) as Hrows. pose proof (wi_shape _ _ Hw _ _ Ha) as Hsh.
  assert (k < length (w_archs w)) as Hk by by eapply lookup_lt_Some.
  set (a1 := a_set_entities (a_entities a ++ [e]) a).
  assert (in_world (in_arch k (modify (λ a, a_set_entities (a_entities a ++ [e]) a))) (b, w) =
    Done () (b, st_world w k a1 (a_storages a)) []) as Hpush.
  { apply in_world_done. by rewrite /in_arch /zoom Ha. }
  apply wp_bind. rewrite {1}/wp Hpush.
  apply wp_bind. eapply wp_mono.
  { apply (build_push_spec w k a1 rs b D [] D (a_storages a) 0); try done.
    - by destruct Hsh; constructor.
    - rewrite /a1 /= app_length (ar_ents _ _ _ Hrows) fmap_length /=. lia.
    - intros c Hc. by apply Hset.
    - constructor.
    - apply (as_storages _ Hsh).
    - eapply cols_ext; [|by apply arch_rows_cols]. intros d _. rewrite /ft. case_decide; [set_solver|done]. }
  2:{ intros r s ev (-> & -> & Ho).
      assert (torn w R e D s.2) as Ht. { exists k, a, rs. split_and!; [done..| |done]. intros c Hc. by apply Hset. }
      by apply torn_nodup in Ht. }
  intros [] s ev (-> & _ & ss' & -> & Hfst & Hcols).
  set (w1 := st_world w k a1 ss').
  assert (w_archs w1 !! k = Some (a_set_storages ss' a1)) as Ha1 by by apply list_lookup_insert.
  apply wp_bind, wp_in_world. rewrite {1}/wp (get_arch_done _ _ _ Ha1).
  change (a_entities (a_set_storages ss' a1)) with (a_entities a ++ [e]).
  assert (length (a_entities a ++ [e]) - 1 = length rs) as ->.
  { rewrite app_length (ar_ents _ _ _ Hrows) fmap_length /=. lia. }
  destruct (set_entity_meta_run w1 e (EntMeta (InstMeta k (length rs)) (eb_meta b))) as (M & HMrun & HM); [done|].
  apply wp_bind, wp_in_world. rewrite {1}/wp HMrun. apply wp_ret. cbn [fst snd].
  split; [done|]. split; [done|]. split; [done|]. split; [done|]. split; [done|]. exists ss'. split; [done|].
  split; [by rewrite Hfst (as_storages _ Hsh)|]. split.
  - eapply cols_ext; [|exact Hcols]. intros d Hd. rewrite /ft decide_True.
    + rewrite col_app. done.
    + apply elem_of_list_to_set, Hset. by rewrite Hfst (as_storages _ Hsh) in Hd.
  - intros i. etrans; [apply HM|]. done.
Qed.
Lemma build_more_nil w R b k a rs e :
  winv w R → eb_ids b = [] → eb_entity b = e → alive (w_ents w) e →
  find_archetype_dynamic [] w = Done (Some k) w [] →
  w_archs w !! k = Some a → R !! k = Some rs → a_comp_ids a = [] →
  wp build (b, w)
     (λ id s ev, ev = [] ∧ s.1 = b ∧ w_ents s.2 = w_ents w ∧ w_types s.2 = w_types w ∧ w_reuse s.2 = w_reuse w ∧ ∃ ss,
        w_archs s.2 = <[k := a_set_storages ss (a_set_entities (a_entities a ++ [e]) a)]> (w_archs w) ∧
        ss.*1 = a_comp_ids a ∧ cols (comp_of w) ss (λ c, col c (rs ++ [(e, ∅)])) ∧
        ∀ i, meta_at s.2 i = if decide (i = uindex e) then Some (EntMeta (InstMeta k (length rs)) (eb_meta b)) else meta_at w i)
     (λ _ _ _, False).
Proof.
  intros Hw Hids He Hal Hf Ha Hrs Hnil. rewrite /build. apply wp_bind, wp_gets. cbn [fst]. rewrite Hids.
  apply wp_bind. rewrite {1}/wp (in_world_done _ _ _ _ _ _ Hf). rewrite He.
  pose proof (wi_rows _ _ Hw _ _ _ Ha Hrs) as Hrows. pose proof (wi_shape _ _ Hw _ _ Ha) as Hsh.
  assert (k < length (w_archs w)) as Hk by by eapply lookup_lt_Some.
  set (a1 := a_set_entities (a_entities a ++ [e]) a).
  assert (in_world (in_arch k (modify (λ a, a_set_entities (a_entities a ++ [e]) a))) (b, w) =
    Done () (b, st_world w k a1 (a_storages a)) []) as Hpush.
  { apply in_world_done. by rewrite /in_arch /zoom Ha. }
  apply wp_bind. rewrite {1}/wp Hpush. apply wp_bind. cbn [build_push]. apply wp_ret.
  set (w1 := st_world w k a1 (a_storages a)).
  assert (w_archs w1 !! k = Some (a_set_storages (a_storages a) a1)) as Ha1 by by apply list_lookup_insert.
  apply wp_bind, wp_in_world. rewrite {1}/wp (get_arch_done _ _ _ Ha1).
  change (a_entities (a_set_storages (a_storages a) a1)) with (a_entities a ++ [e]).
  assert (length (a_entities a ++ [e]) - 1 = length rs) as ->.
  { rewrite app_length (ar_ents _ _ _ Hrows) fmap_length /=. lia. }
  destruct (set_entity_meta_run w1 e (EntMeta (InstMeta k (length rs)) (eb_meta b))) as (M & HMrun & HM); [done|].
  apply wp_bind, wp_in_world. rewrite {1}/wp HMrun. apply wp_ret. cbn [fst snd].
  split; [done|]. split; [done|]. split; [done|]. split; [done|]. split; [done|]. exists (a_storages a). split; [done|].
  split; [apply (as_storages _ Hsh)|]. split.
  - intros d v Hd. exfalso. assert (d ∈ (a_storages a).*1) as Hin by (apply elem_of_list_fmap; by exists (d, v)).
    rewrite (as_storages _ Hsh) Hnil in Hin. by apply elem_of_nil in Hin.
  - intros i. etrans; [apply HM|]. done.
Qed.

Lemma build_twice w R b D id b1 w1 ev : winv w R → room 1 w → bbuf b → pending w b D →
  alive (w_ents w) (eb_entity b) → meta_at w (uindex (eb_entity b)) = None → layout_wf (cm_layout (eb_meta b)) →
  build (b, w) = Done id (b1, w1) ev →
  ev = [] ∧ ∃ R1, winv w1 R1 ∧ wp build (b1, w1)
     (λ _ s ev, ev = [] ∧ s.1 = b1 ∧ ∃ k1 i1 k2, extra_row w1 R1 (eb_entity b) k1 i1 k2 s.2 ∧
        ((k1 < length (w_archs w) ∧ k2 = k1) ∨ (length (w_archs w) ≤ k1 ∧ k2 = 0)))
     (λ _ _ _, False).
Proof.
  intros Hw Hroom1 Hb Hp Hal Hnone Hlay Hrun.
  assert (room 0 w) as Hroom by (rewrite /room in Hroom1 |- *; lia).
  pose proof (build_spec w R b D Hw Hroom Hb Hp Hal Hnone Hlay) as Hs. rewrite /wp Hrun in Hs.
  destruct Hs as (-> & _ & Hnd & Hbk & Hnew & R1 & Hw1 & HR1). split; [done|]. exists R1. split; [done|].
  cbn [fst snd] in *. set (e := eb_entity b) in *.
  assert (∀ c, c ∈ D.*1 → alive (w_ents w) c) as HalD.
  { intros c ([c' v] & -> & Hin)%elem_of_list_fmap. by apply (pe_comp _ _ _ Hp c' v). }
  assert (∀ k L, arch_ids w1 !! k = Some L → e ∉ L) as Hunused.
  { intros k L HL Hin. assert (comp_of w e = None) as Hno by by rewrite /comp_of Hnone.
    destruct (Hnew _ _ HL) as [HL'|HD].
    - apply arch_ids_lookup in HL' as (a & Ha & <-). destruct (winv_get_rows _ _ Hw _ _ Ha) as (rs & Hrs & Hrows).
      rewrite -(as_storages _ (wi_shape _ _ Hw _ _ Ha)) in Hin. apply elem_of_list_fmap in Hin as ([c u] & Ec & Hin).
      destruct (ar_cols _ _ _ Hrows _ _ Hin) as (cm & Hcm & _). cbn in Ec. subst c. congruence.
    - apply HD in Hin. apply elem_of_list_fmap in Hin as ([c v] & Ec & Hin). destruct (pe_comp _ _ _ Hp c v Hin) as (_ & cm & Hcm & _).
      cbn in Ec. subst c. congruence. }
  destruct (find_archetype_spec w R (eb_ids b) Hw Hroom) as (r & Hf & Hr). { by rewrite (pe_ids _ _ _ Hp). }
  pose proof (build_builder _ _ _ _ _ _ _ Hrun Hf) as Hb1.
  assert (room 0 w1) as Hroomw1. { pose proof (bk_len _ _ _ _ Hbk). rewrite /room in Hroom1 |- *. lia. }
  assert (alive (w_ents w1) e) as Hal1 by by rewrite (bk_ents _ _ _ _ Hbk).
  (* the first row *)
  assert (rowof R1 e (list_to_map D)) as (k1 & i1 & rs1 & Hrs1 & Hr1) by by apply HR1; left.
  destruct (proj1 (winv_rows_len _ _ Hw1 k1)) as [a1 Ha1]; [by eexists|].
  pose proof (wi_rows _ _ Hw1 _ _ _ Ha1 Hrs1) as Hrows1.
  assert (∀ c, c ∈ D.*1 ↔ c ∈ a_comp_ids a1) as Hset1.
  { intros c. rewrite -(ar_dom _ _ _ Hrows1 _ c (elem_of_list_lookup_2 _ _ _ Hr1)) /=.
    rewrite -not_eq_None_Some -not_elem_of_list_to_map. destruct (decide (c ∈ D.*1)); naive_solver. }
  assert (arch_ids w1 !! k1 = Some (a_comp_ids a1)) as HL1 by (apply arch_ids_lookup; eauto).
  assert (NoDup (a_comp_ids a1)) as Hnd1 by by apply sorted_NoDup, (wi_shape _ _ Hw1 _ _ Ha1).
  assert (length (a_comp_ids a1) = length D.*1) as Hlen1.
  { apply Permutation_length, NoDup_Permutation; [done|done|]. intros c. by rewrite Hset1. }
  destruct (wi_row _ _ Hw1 _ _ _ _ _ Hrs1 Hr1) as [_ (em & Hem & _)%fmap_Some].
  rewrite (pe_ids _ _ _ Hp) in Hr. destruct r as [k|].
  - (* the archetype existed *)
    subst b1. destruct Hr as (L & HL & Hsub & Hlen).
    assert (∀ c, c ∈ D.*1 ↔ c ∈ L) as HsetL.
    { intros c. split; [apply Hsub|]. apply (subset_same_length D.*1 L); [done| |done|done].
      apply sorted_NoDup. by eapply (winv_sorted w R Hw). }
    assert (k = k1) as ->.
    { eapply (winv_distinct_set w1 R1 Hw1); [by apply (bk_ids _ _ _ _ Hbk)|exact HL1|]. intros c. by rewrite -HsetL Hset1. }
    assert (k1 < length (w_archs w)) as Hk. { apply lookup_lt_Some in HL. by rewrite arch_ids_length in HL. }
    assert (pending w1 b D) as Hp1.
    { destruct Hp as [P1 P2 P3 P4]. constructor; [done..|]. intros c v Hc. rewrite (bk_ents _ _ _ _ Hbk).
      destruct (P4 c v Hc) as (H1 & cm & H2 & H3). split; [done|]. exists cm. split; [|done].
      rewrite /comp_of (bk_meta _ _ _ _ Hbk); [done|]. intros E. rewrite /comp_of E Hnone in H2. done. }
    destruct (find_archetype_spec w1 R1 (eb_ids b) Hw1 Hroomw1) as (r & Hf1 & Hr').
    { rewrite (pe_ids _ _ _ Hp) (bk_ents _ _ _ _ Hbk). done. }
    assert (r = Some k1) as ->.
    { rewrite (pe_ids _ _ _ Hp) in Hr'. destruct r as [k'|].
      - destruct Hr' as (L' & HL' & Hsub' & Hlen'). f_equal. eapply (winv_distinct_set w1 R1 Hw1); [exact HL'|exact HL1|].
        intros c. rewrite -Hset1. split; [|apply Hsub']. apply (subset_same_length D.*1 L'); [done| |done|done].
        apply sorted_NoDup. by eapply (winv_sorted w1 R1 Hw1).
      - destruct (Hr' k1 _ HL1); [|done]. intros c. by rewrite Hset1. }
    eapply wp_mono; [by apply (build_more w1 R1 b D k1 a1 rs1 e em)| |done].
    intros id' [b2 w2] ev' (-> & Hb2 & H1 & H2 & Hru & ss & H3 & H4 & H5 & H6). cbn [fst snd] in *.
    split; [done|]. split; [done|]. exists k1, i1, k1. split; [|by left]. constructor; [by eauto| |done|done|done|rewrite Hru; apply (wi_reuse _ _ Hw1)].
    exists a1, rs1, (list_to_map D), ss. split; [done|]. split; [done|]. split; [done|]. split; [done|]. split; [done|]. split_and!.
    + intros c. by rewrite (ar_dom _ _ _ Hrows1 _ c (elem_of_list_lookup_2 _ _ _ Hr1)).
    + intros _. by exists (list_to_map D).
    + done.
    + by exists (eb_meta b).
  - (* it was created *)
    subst b1. assert (length (w_archs w) ≤ k1) as Hk.
    { destruct (decide (length (w_archs w) ≤ k1)) as [|Hlt]; [done|exfalso].
      destruct (lookup_lt_is_Some_2 (arch_ids w) k1) as [L HL]; [rewrite arch_ids_length; lia|].
      pose proof (bk_ids _ _ _ _ Hbk _ _ HL) as HL'. rewrite HL1 in HL'. injection HL' as <-.
      destruct (Hr k1 _ HL); [|done]. intros c. by rewrite Hset1. }
    assert (0 < length (w_archs w1)) as Hpos. { apply lookup_lt_Some in Ha1. lia. }
    destruct (find_zero w1 R1 Hw1 Hpos) as (a0 & Ha0 & Hids0 & HL0).
    destruct (winv_get_rows _ _ Hw1 _ _ Ha0) as (rs0 & Hrs0 & Hrows0).
    destruct (find_archetype_spec w1 R1 [] Hw1 Hroomw1) as (r & Hf1 & Hr'). { intros c Hc. by apply elem_of_nil in Hc. }
    assert (r = Some 0) as ->.
    { destruct r as [k'|].
      - destruct Hr' as (L' & HL' & _ & ->%nil_length_inv). f_equal. by eapply (wi_distinct _ _ Hw1).
      - destruct (Hr' 0 _ HL0); [|done]. intros c Hc. by apply elem_of_nil in Hc. }
    eapply wp_mono; [by apply (build_more_nil w1 R1 (set_ids [] b) 0 a0 rs0 e)| |done].
    intros id' [b2 w2] ev' (-> & Hb2 & H1 & H2 & Hru & ss & H3 & H4 & H5 & H6). cbn [fst snd] in *.
    split; [done|]. split; [done|]. exists k1, i1, 0. split; [|by right]. constructor; [by eauto| |done|done|done|rewrite Hru; apply (wi_reuse _ _ Hw1)].
    exists a0, rs0, ∅, ss. split; [done|]. split; [done|]. split; [done|]. split; [done|]. split; [done|]. split_and!.
    + intros c. rewrite lookup_empty Hids0. split; [by intros []|by intros ?%elem_of_nil].
    + intros <-. rewrite Ha0 in Ha1. injection Ha1 as <-. rewrite Hrs0 in Hrs1. injection Hrs1 as <-.
      exists (list_to_map D). split; [done|]. destruct D as [|d D]; [done|]. exfalso.
      apply (elem_of_nil d.1). rewrite -Hids0. apply Hset1. left.
    + done.
    + by eexists.
Qed.

(** ** The whole call *)
Lemma bops_legal_app bs1 bs2 s : bops_legal (bs1 ++ bs2) s → bops_legal bs1 s.
Proof.
  revert s. induction bs1 as [|o bs1 IH]; intros s; [done|]. cbn [app bops_legal]. intros [H1 H2]. split; [done|].
  destruct (run_bop o s); [|done..]. by apply IH.
Qed.
Lemma bops_builds_app bs1 bs2 : bops_builds (bs1 ++ bs2) = bops_builds bs1 + bops_builds bs2.
Proof. induction bs1 as [|o bs1 IH]; [done|]. cbn [app]. destruct o; cbn; rewrite IH; lia. Qed.
Lemma run_build_inv s s' ev : run_bops [BBuild] s = Done () s' ev → ∃ id, build s = Done id s' ev.
Proof.
  cbn [run_bops run_bop]. intros ([] & s1 & e1 & e2 & H & H2 & ->)%bind_done_inv. injection H2 as <- <-.
  apply bind_done_inv in H as (id & s2 & e3 & e4 & H & H2 & ->). injection H2 as <- <-. exists id. by rewrite !app_nil_r.
Qed.
Lemma with_builder_inv {A} b (m : M bw A) w a w' ev : with_builder b m w = Done a w' ev →
  ∃ b2 w2 e1 e2, m (b, w) = Done a (b2, w2) e1 ∧ builder_drop b2 w2 = Done () w' e2.
Proof.
  rewrite /with_builder. intros H. destruct (m (b, w)) as [a' [b2 w2] e1|x [b2 w2] e1| |]; [| |done..].
  - exists b2, w2, e1. destruct (builder_drop b2 w2) as [[] w3 e2|? ? ?| |]; [|done..]. injection H as -> -> _. by exists e2.
  - by destruct (builder_drop b2 w2) as [[] w3 e2|? ? ?| |].
Qed.
Lemma forget_builder_inv {A} b (m : M bw A) w a w' ev : forget_builder b m w = Done a w' ev →
  ∃ b2 e1, m (b, w) = Done a (b2, w') e1.
Proof.
  rewrite /forget_builder. intros H. destruct (m (b, w)) as [a' [b2 w2] e1|x s2 e1| |] eqn:E.
  - injection H as -> -> _. by exists b2, e1.
  - apply with_builder_inv in H as (? & ? & ? & ? & H & _). congruence.
  - apply with_builder_inv in H as (? & ? & ? & ? & H & _). congruence.
  - apply with_builder_inv in H as (? & ? & ? & ? & H & _). congruence.
Qed.
Lemma spawn_twice w R cap meta bs fin e w1 ev1 : winv w R → room 1 w →
  op_legal (OSpawn cap meta (bs ++ [BBuild]) fin) w → bops_builds bs = 0 →
  step (OSpawn cap meta (bs ++ [BBuild]) fin) w = Done (RId e) w1 ev1 →
  ∃ R1, winv w1 R1 ∧ id_wf e ∧
  match step (OSpawn cap meta (bs ++ [BBuild; BBuild]) fin) w with
  | Done r w2 ev => r = RId e ∧ ev = [] ∧ ∃ k1 i1 k2, extra_row w1 R1 e k1 i1 k2 w2 ∧
      k2 = if decide (k1 < length (w_archs w)) then k1 else 0
  | Panicked r _ _ => r = RCapacity
  | _ => False
  end.
Proof.
  intros Hw Hroom [Hlay Hleg] Hn Hrun. cbn [step] in Hrun.
  apply bind_done_inv in Hrun as (e' & w' & e1 & e2 & Hsp & [= -> -> <-] & ->).
  rewrite /spawn_program in Hsp. apply bind_done_inv in Hsp as (b & w0 & e3 & e4 & Hsb & Hsp & ->).
  rewrite Hsb in Hleg. apply bops_legal_app in Hleg.
  pose proof (spawn_builder_spec w R cap meta Hw) as Hs. rewrite /wp Hsb in Hs.
  destruct Hs as (-> & Hw0 & Hsg & (_ & Hnone & _) & Ea & Et & Hfb & He0 & Hbm & Hbp).
  apply bind_done_inv in Hsp as ([] & w'' & e5 & e6 & Hfin & [= He -> <-] & ->).
  assert (room 0 w0) as Hroom0 by (rewrite /room Ea in Hroom |- *; lia).
  pose proof (bops_pend bs w0 R b [] Hw0 Hroom0 Hfb (Hbp w0) Hleg Hn) as Hpre.
  rewrite /wp in Hpre.
  (* the run of the calls with one build *)
  assert (∃ b2 w2 e7, run_bops (bs ++ [BBuild]) (b, w0) = Done () (b2, w2) e7 ∧
    match fin with BDrop => ∃ e8, builder_drop b2 w2 = Done () w1 e8 | BForget => w1 = w2 end) as (b2 & w2 & e7 & Hr1 & Hend).
  { destruct fin.
    - apply with_builder_inv in Hfin as (b2 & w2 & e7 & e8 & H1 & H2). eauto 10.
    - apply forget_builder_inv in Hfin as (b2 & e7 & H1). eauto 10. }
  rewrite run_bops_app in Hr1. apply bind_done_inv in Hr1 as ([] & [b1 w1'] & e8 & e9 & Hr0 & Hr1 & ->).
  rewrite Hr0 in Hpre. cbn [fst snd] in Hpre. destruct Hpre as (-> & Hb1 & [T1 T2] & Hg & R1' & D & Hw1' & Hp1).
  apply run_build_inv in Hr1 as (id & Hbuild).
  assert (alive (w_ents w0) (eb_entity b)) as Hal0 by apply Hsg.
  destruct (build_twice w1' R1' b1 D id b2 w2 e9 Hw1') as (-> & R1 & Hw2 & Hwp); try done.
  { eapply grow_room; [exact Hg|done|]. by rewrite /room Ea. }
  { rewrite T1. by apply Hg. }
  { rewrite T1 (gr_meta _ _ Hg) //. }
  { by rewrite T2 Hbm. }
  rewrite T1 He in Hwp.
  assert (bbuf b2) as Hb2. { pose proof (bsafe_build b1 w1' Hb1) as Hx. by rewrite Hbuild in Hx. }
  assert (length (w_archs w1') ≤ Nat.max 1 (length (w_archs w)) ∧ length (w_archs w) ≤ length (w_archs w1')) as [Hl1 Hl2].
  { pose proof (gr_len _ _ Hg) as Hl. rewrite Ea in Hl. split; [done|]. rewrite -Ea.
    destruct (decide (length (w_archs w0) ≤ length (w_archs w1'))) as [|Hlt]; [done|exfalso].
    destruct (lookup_lt_is_Some_2 (arch_ids w0) (length (w_archs w1'))) as [L HL]; [rewrite arch_ids_length; lia|].
    apply (gr_ids _ _ Hg), lookup_lt_Some in HL. rewrite arch_ids_length in HL. lia. }
  (* the run with two *)
  assert (run_bops (bs ++ [BBuild; BBuild]) (b, w0) = bind build (λ _, ret ()) (b2, w2)) as Hr2.
  { rewrite run_bops_app (bind_done_nil _ _ _ _ _ Hr0). cbn [run_bops run_bop].
    rewrite (bind_done_nil _ _ (b1, w1') () (b2, w2)).
    2:{ by rewrite (bind_done_nil _ _ _ _ _ Hbuild). }
    rewrite /bind. destruct (build (b2, w2)); try done. cbn. by rewrite !app_nil_r. }
  exists R1. split.
  { destruct fin; [|by rewrite Hend]. destruct (builder_drop_run b2 w2 Hb2) as (r & Hd & Hrr). destruct Hend as (e10 & Hend).
    rewrite Hend in Hd. injection Hd as -> _. apply winv_reuse; [done|]. apply Hrr, (wi_reuse _ _ Hw2). }
  split; [rewrite -He; apply Hsg|].
  cbn [step]. rewrite /spawn_program. rewrite /bind Hsb. cbn [add_events app].
  rewrite /wp in Hwp.
  destruct (build (b2, w2)) as [id3 [b3 w3] e10|x [b3 w3] e10| |] eqn:Hb3; [| |done..].
  2:{ destruct Hwp as [->|[]]. pose proof (bsafe_build b2 w2 Hb2) as Hx. rewrite Hb3 in Hx. cbn in Hx.
      destruct (builder_drop_run b3 w3 Hx) as (r & Hd & _).
      destruct fin; rewrite /forget_builder /with_builder Hr2 /bind Hb3 Hd; done. }
  destruct Hwp as (-> & Hbb & k1 & i1 & k2 & Hx & Hk). cbn [fst snd] in *. subst b3.
  assert (k2 = if decide (k1 < length (w_archs w)) then k1 else 0) as Hk2 by (case_decide; lia).
  destruct fin; rewrite /forget_builder /with_builder Hr2 /bind Hb3 /=.
  - destruct (builder_drop_run b2 w3 Hb2) as (r & -> & Hru). cbn. destruct Hend as (e11 & Hend).
    destruct (builder_drop_run b2 w2 Hb2) as (r' & Hd & _). rewrite Hend in Hd. injection Hd as -> _.
    split; [by rewrite He|]. split; [done|]. exists k1, i1, k2. split; [|done]. apply extra_reuse; [done|]. by apply Hru, Hx.
  - subst w1. split; [by rewrite He|]. split; [done|]. by exists k1, i1, k2.
Qed.

(** ** What it looks like *)
Lemma cols_shows cmo w k a (rs : list row) i c v :
  w_archs w !! k = Some a → length (a_entities a) = length rs → cols cmo (a_storages a) (λ c, col c rs) →
  (∀ r, r ∈ rs → is_Some (r.2 !! c) ↔ c ∈ (a_storages a).*1) →
  shows w k i c v ↔ ∃ e m, rs !! i = Some (e, m) ∧ m !! c = Some v.
Proof.
  intros Ha Hlen Hcols Hdom. split.
  - intros (a' & j & u & Ha' & Hi & Hj & Hv). rewrite Ha in Ha'. injection Ha' as <-. rewrite Hlen in Hi.
    apply lookup_lt_is_Some_2 in Hi as [[e m] Hr]. exists e, m. split; [done|].
    destruct (proj2 (Hdom (e, m) (elem_of_list_lookup_2 _ _ _ Hr))) as [v' Hv'].
    { apply elem_of_list_fmap. exists (c, u). split; [done|]. by eapply elem_of_list_lookup_2. }
    destruct (cols_lookup _ _ _ _ _ _ Hcols Hj) as (cm & _ & _ & Hrep). cbn [snd] in Hv'.
    rewrite (uv_read_rep u (col c rs) i v' Hrep) in Hv; [congruence|]. by rewrite col_lookup Hr /= Hv'.
  - intros (e & m & Hr & Hv). assert (c ∈ (a_storages a).*1) as Hin. { apply (Hdom (e, m) (elem_of_list_lookup_2 _ _ _ Hr)). by exists v. }
    apply elem_of_list_fmap in Hin as ([c' u] & -> & [j Hj]%elem_of_list_lookup). cbn [fst] in *.
    destruct (cols_lookup _ _ _ _ _ _ Hcols Hj) as (cm & _ & _ & Hrep).
    exists a, j, u. split; [done|]. split; [rewrite Hlen; by eapply lookup_lt_Some|]. split; [done|].
    apply (uv_read_rep u (col c' rs)); [done|]. by rewrite col_lookup Hr /= Hv.
Qed.
Lemma winv_shows w R k i c v : winv w R → shows w k i c v ↔ ∃ rs e m, R !! k = Some rs ∧ rs !! i = Some (e, m) ∧ m !! c = Some v.
Proof.
  intros Hw. split.
  - intros Hs. pose proof Hs as (a & _ & _ & Ha & _). destruct (winv_get_rows _ _ Hw _ _ Ha) as (rs & Hrs & Hrows).
    exists rs. apply (cols_shows (comp_of w) w k a rs) in Hs as (e & m & Hr & Hv); [by exists e, m|done| |by apply arch_rows_cols|].
    + by rewrite (ar_ents _ _ _ Hrows) fmap_length.
    + intros r Hr. rewrite (as_storages _ (wi_shape _ _ Hw _ _ Ha)). by apply (ar_dom _ _ _ Hrows).
  - intros (rs & e & m & Hrs & Hr & Hv). destruct (proj1 (winv_rows_len _ _ Hw k)) as [a Ha]; [by eexists|].
    pose proof (wi_rows _ _ Hw _ _ _ Ha Hrs) as Hrows. apply (cols_shows (comp_of w) w k a rs); [done| |by apply arch_rows_cols| |by exists e, m].
    + by rewrite (ar_ents _ _ _ Hrows) fmap_length.
    + intros r' Hr'. rewrite (as_storages _ (wi_shape _ _ Hw _ _ Ha)). by apply (ar_dom _ _ _ Hrows).
Qed.
(** A world whose archetype [k] was replaced by one with the rows [rs']. *)
Lemma replaced_view w1 R1 w2 k a a' rs rs' : winv w1 R1 → w_archs w1 !! k = Some a → R1 !! k = Some rs →
  w_archs w2 = <[k := a']> (w_archs w1) → a_entities a' = rs'.*1 → (a_storages a').*1 = a_comp_ids a →
  cols (comp_of w1) (a_storages a') (λ c, col c rs') → (∀ r c, r ∈ rs' → is_Some (r.2 !! c) ↔ c ∈ a_comp_ids a) →
  (∀ e0 k0 i, placed w2 e0 k0 i ↔ if decide (k0 = k) then rs'.*1 !! i = Some e0 else placed w1 e0 k0 i) ∧
  (∀ k0 i c v, shows w2 k0 i c v ↔ if decide (k0 = k) then ∃ e m, rs' !! i = Some (e, m) ∧ m !! c = Some v else shows w1 k0 i c v).
Proof.
  intros Hw Ha Hrs E Hent Hst Hcols Hdom. assert (k < length (w_archs w1)) as Hk by by eapply lookup_lt_Some.
  assert (w_archs w2 !! k = Some a') as Hk2 by (rewrite E; by apply list_lookup_insert).
  split.
  - intros e0 k0 i. rewrite /placed. case_decide as Hd; [subst k0|by rewrite E list_lookup_insert_ne].
    rewrite Hk2 -Hent. naive_solver.
  - intros k0 i c v. case_decide as Hd; [subst k0|rewrite /shows E list_lookup_insert_ne //].
    apply (cols_shows (comp_of w1) w2 k a' rs'); [done|by rewrite Hent fmap_length|done|]. intros r Hr. rewrite Hst. by apply Hdom.
Qed.

Section extra.
  Context (w1 : world) (R1 : list (list row)) (e : ecsid) (k1 i1 k2 : nat) (w2 : world).
  Context (Hw : winv w1 R1) (Hx : extra_row w1 R1 e k1 i1 k2 w2).
  Local Set Default Proof Using "Hw Hx".

  Lemma extra_first : placed w1 e k1 i1.
  Proof. apply (placed_row _ R1 _ _ _ Hw). destruct (xr_first _ _ _ _ _ _ _ Hx) as (rs & m & H1 & H2). by exists rs, m. Qed.
  Lemma extra_lives : same_lives w1 w2 ∧ same_types w1 w2.
  Proof.
    split.
    - intros e0 _. by rewrite !lives_alive (xr_ents _ _ _ _ _ _ _ Hx).
    - intros t c. by rewrite /type_id (xr_types _ _ _ _ _ _ _ Hx).
  Qed.
  Lemma extra_view : ∃ i2, (∀ e0, ¬ placed w1 e0 k2 i2) ∧
    (∀ e0 k i, placed w2 e0 k i ↔ placed w1 e0 k i ∨ (e0 = e ∧ k = k2 ∧ i = i2)) ∧
    (∀ k i c v, shows w2 k i c v ↔ shows w1 k i c v ∨ (k = k2 ∧ i = i2 ∧ k2 = k1 ∧ shows w1 k1 i1 c v)).
  Proof.
    destruct (xr_more _ _ _ _ _ _ _ Hx) as (a & rs & m2 & ss & Ha & Hrs & E & Hfst & Hcols & Hdom & Hsame & Hother & _).
    destruct (xr_first _ _ _ _ _ _ _ Hx) as (rs1 & m1 & Hrs1 & Hr1).
    pose proof (wi_rows _ _ Hw _ _ _ Ha Hrs) as Hrows.
    destruct (replaced_view w1 R1 w2 k2 a _ rs (rs ++ [(e, m2)]) Hw Ha Hrs E) as [Hp Hs]; [|done|done| |].
    { by rewrite /= (ar_ents _ _ _ Hrows) fmap_app. }
    { intros r c [Hr| ->%elem_of_list_singleton]%elem_of_app; [by apply (ar_dom _ _ _ Hrows)|apply Hdom]. }
    exists (length rs). split_and!.
    - intros e0 (a' & Ha' & Hi). rewrite Ha in Ha'. injection Ha' as <-. rewrite (ar_ents _ _ _ Hrows) in Hi.
      apply lookup_lt_Some in Hi. rewrite fmap_length in Hi. lia.
    - intros e0 k i. rewrite Hp. case_decide as Hk; [subst k|naive_solver].
      rewrite fmap_app lookup_app_Some fmap_length list_lookup_singleton_Some /=. rewrite /placed Ha.
      rewrite -(ar_ents _ _ _ Hrows). split.
      + intros [H|(H1 & H2 & <-)]; [left; eauto|right; split_and!; [done..|lia]].
      + intros [(a' & [= <-] & H)|(-> & _ & ->)]; [by left|right]. split_and!; [done|lia|done].
    - intros k i c v. rewrite Hs. case_decide as Hk; [subst k|naive_solver].
      rewrite !(winv_shows w1 R1) //. split.
      + intros (e0 & m & [H|[H1 [H2 H3]%list_lookup_singleton_Some]]%lookup_app_Some & Hv); [left; by exists rs, e0, m|right].
        injection H3 as <- <-. split; [done|]. split; [lia|].
        destruct (decide (k2 = k1)) as [->|Hne]; [|by rewrite (Hother Hne) lookup_empty in Hv].
        split; [done|]. exists rs1, e, m1. split; [done|]. split; [done|].
        destruct (Hsame eq_refl) as (m1' & Hr1' & ->). rewrite Hrs in Hrs1. injection Hrs1 as <-. congruence.
      + intros [(rs' & e0 & m & Hrs' & Hr & Hv)|(_ & -> & -> & rs' & e0 & m & Hrs' & Hr & Hv)];
          rewrite Hrs' in Hrs; injection Hrs as <-; exists e0, m; [split; [by apply lookup_app_l_Some|done]|].
        split; [|done]. rewrite Hrs' in Hrs1. injection Hrs1 as <-. destruct (Hsame eq_refl) as (m1' & Hr1' & ->).
        rewrite lookup_app_r // Nat.sub_diag. cbn. congruence.
  Qed.

  Lemma extra_despawn : id_wf e → ∃ w3 ev3, step (ODespawn e) w2 = Done (RBool true) w3 ev3 ∧
    (∀ e0 k i, placed w3 e0 k i ↔ placed w1 e0 k i) ∧
    (∀ k i c v, shows w3 k i c v ↔ shows w1 k i c v) ∧
    (∀ e0, lives w3 e0 ↔ e0 ≠ e ∧ lives w1 e0) ∧ same_types w1 w3 ∧
    (∃ l, components w1 e l ∧ ev3 = if decide (k2 = k1) then dropping_all w1 l else []) ∧
    world_drop w3 = world_drop w1.
  Proof.
    intros Hwf.
    destruct (xr_more _ _ _ _ _ _ _ Hx) as (a & rs & m2 & ss & Ha & Hrs & E & Hfst & Hcols & Hdom & Hsame & Hother & cm & Hmeta).
    destruct (xr_first _ _ _ _ _ _ _ Hx) as (rs1 & m1 & Hrs1 & Hr1).
    pose proof (wi_rows _ _ Hw _ _ _ Ha Hrs) as Hrows. pose proof (wi_shape _ _ Hw _ _ Ha) as Hsh.
    assert (alive (w_ents w1) e) as Hal by by eapply wi_row.
    assert (alive (w_ents w2) e) as Hal2 by by rewrite (xr_ents _ _ _ _ _ _ _ Hx).
    destruct (ents_despawn_alive _ _ Hal2) as [s' Hdes].
    assert (k2 < length (w_archs w1)) as Hlk by by eapply lookup_lt_Some.
    assert (k2 < length (w_archs w2)) as Hlk2 by by rewrite E insert_length.
    set (a2 := a_set_storages ss (a_set_entities (a_entities a ++ [e]) a)) in *.
    assert (w_archs w2 !! k2 = Some a2) as Ha2 by (rewrite E; by apply list_lookup_insert).
    set (rs2 := rs ++ [(e, m2)]) in *.
    assert (vec_swap_remove (length rs) rs2 = Some rs) as Hsr.
    { rewrite /vec_swap_remove /rs2 app_length /= decide_True; [|lia]. rewrite last_snoc insert_app_r_alt // Nat.sub_diag /=.
      replace (length rs + 1 - 1) with (length rs) by lia. by rewrite take_app. }
    assert (rs2 !! length rs = Some (e, m2)) as Hrow. { rewrite /rs2 lookup_app_r // Nat.sub_diag //. }
    assert (a_entities a = rs.*1) as Hent by apply (ar_ents _ _ _ Hrows).
    destruct (swap_remove_storages_spec (comp_of w1) w2 k2 (a_set_entities rs.*1 a2) rs2 rs (length rs) e m2 (length ss) 0 ∅ ss)
      as (ss' & Hrun & Hfst' & Hcols'); [done|done|done|lia| |set_solver| |].
    { rewrite Hfst. by apply sorted_NoDup, Hsh. }
    { eapply cols_ext; [|exact Hcols]. intros d _. rewrite /fc. case_decide; [set_solver|done]. }
    rewrite drop_0 Hfst in Hrun. rewrite Hfst in Hfst'. rewrite drop_0 Hfst in Hcols'.
    assert (cols (comp_of w1) ss' (λ c, col c rs)) as Hcols3.
    { eapply cols_ext; [|exact Hcols']. intros d Hd. rewrite Hfst' in Hd. rewrite /fc decide_True //. set_solver. }
    set (w2' := st_world w2 k2 (a_set_entities rs.*1 a2) ss').
    assert (meta_at w2 (uindex e) = Some (EntMeta (InstMeta k2 (length rs)) cm)) as Hme by by rewrite Hmeta decide_True.
    assert (uindex e < length (w_meta w2)) as Hlt by by eapply meta_at_lt.
    set (w3 := set_ents s' (set_meta (<[uindex e := None]> (w_meta w2)) w2')).
    assert (step (ODespawn e) w2 = Done (RBool true) w3 (row_drops (comp_of w1) (a_comp_ids a) m2)) as Hstep.
    { cbn [step]. rewrite /despawn. 
      assert (is_alive e w2 = Done true w2 []) as H1 by by apply is_alive_alive.
      assert (used_as_component w2 e = false) as H2.
      { apply not_true_iff_false. rewrite /used_as_component existsb_exists.
        intros (a0 & Hin%elem_of_list_In & [i Hi]%bool_decide_eq_true). apply elem_of_list_lookup in Hin as [k Hk].
        assert (∃ a1, w_archs w1 !! k = Some a1 ∧ a_lookup a0 = a_lookup a1) as (a1 & Ha1 & El).
        { rewrite E in Hk. destruct (decide (k = k2)) as [->|Hne].
          - rewrite list_lookup_insert // in Hk. injection Hk as <-. by exists a.
          - rewrite list_lookup_insert_ne // in Hk. by exists a0. }
        rewrite El in Hi. apply (as_lookup _ (wi_shape _ _ Hw _ _ Ha1)) in Hi.
        apply (xr_unused _ _ _ _ _ _ _ Hx k (a_comp_ids a1)); [apply arch_ids_lookup; eauto|by eapply elem_of_list_lookup_2]. }
      assert (arch_despawn k2 (length rs) e w2 = Done () (set_meta (<[uindex e := None]> (w_meta w2)) w2') (row_drops (comp_of w1) (a_comp_ids a) m2)) as H3.
      { rewrite /arch_despawn (bind_done_nil _ _ _ _ _ (get_arch_done _ _ _ Ha2)).
        assert (a_entities a2 = rs2.*1) as He2 by by rewrite /= Hent /rs2 fmap_app.
        rewrite He2 list_lookup_fmap Hrow. cbn [unwrap fmap option_fmap option_map fst]. rewrite (bind_done_nil _ _ w2 e w2 eq_refl).
        assert (massert (bool_decide (e = e)) RAssert w2 = Done () w2 []) as Hma by by rewrite bool_decide_true.
        rewrite (bind_done_nil _ _ _ _ _ Hma) (vec_swap_remove_fmap _ _ _ _ Hsr). cbn [unwrap].
        rewrite (bind_done_nil _ _ w2 rs.*1 w2 eq_refl).
        assert (in_arch k2 (modify (a_set_entities rs.*1)) w2 = Done () (st_world w2 k2 (a_set_entities rs.*1 a2) ss) []) as Hie.
        { rewrite /in_arch /zoom Ha2 /modify /st_world. done. }
        rewrite (bind_done_nil _ _ _ _ _ Hie). change (a_storages a2) with ss.
        rewrite {1}/bind Hrun. fold w2'.
        rewrite (bind_done_nil _ _ w2' (length (w_meta w2')) w2' eq_refl).
        assert (massert (bool_decide (uindex e < length (w_meta w2'))) RIndex w2' = Done () w2' []) as Hmb by by rewrite bool_decide_true.
        rewrite (bind_done_nil _ _ _ _ _ Hmb).
        rewrite (bind_done_nil _ _ w2' () (set_meta (<[uindex e := None]> (w_meta w2)) w2') eq_refl).
        assert (rs.*1 !! length rs = None) as -> by (apply lookup_ge_None; by rewrite fmap_length).
        cbn. by rewrite app_nil_r. }
      assert (in_ents (ents_despawn e) (set_meta (<[uindex e := None]> (w_meta w2)) w2') = Done true w3 []) as H4.
      { rewrite /in_ents /zoom /=. by rewrite Hdes. }
      rewrite /bind H1 /=. rewrite H2 /=. rewrite (get_entity_meta_alive _ _ Hal2) Hme /= H3 H4 /=. by rewrite !app_nil_r. }
    exists w3, (row_drops (comp_of w1) (a_comp_ids a) m2). split; [exact Hstep|].
    assert (w_archs w3 = <[k2 := a_set_storages ss' (a_set_entities rs.*1 a2)]> (w_archs w1)) as E3.
    { rewrite /w3 /w2' /st_world. cbn [set_ents set_meta set_archs w_archs]. by rewrite E list_insert_insert. }
    destruct (replaced_view w1 R1 w3 k2 a (a_set_storages ss' (a_set_entities rs.*1 a2)) rs rs Hw Ha Hrs E3) as [Hp Hs]; [done..| |].
    { intros r c Hr. by apply (ar_dom _ _ _ Hrows). }
    split_and!.
    - intros e0 k i. rewrite Hp. case_decide as Hk; [subst k|done]. rewrite /placed Ha -Hent. naive_solver.
    - intros k i c v. rewrite Hs. case_decide as Hk; [subst k|done]. rewrite (winv_shows w1 R1) //. rewrite Hrs. naive_solver.
    - intros e0. rewrite !lives_alive. change (w_ents w3) with s'.
      rewrite -(xr_ents _ _ _ _ _ _ _ Hx). eapply despawn_alive; [|done|exact Hdes].
      rewrite (xr_ents _ _ _ _ _ _ _ Hx). apply (wi_ents _ _ Hw).
    - intros t c. rewrite /type_id. change (w_types w3) with (w_types w2). by rewrite (xr_types _ _ _ _ _ _ _ Hx).
    - assert (rowof R1 e m1) as Hrm by by exists k1, i1, rs1. case_decide as Hk.
      + destruct (Hsame Hk) as (m1' & Hr1' & ->). assert (m1' = m1) as ->. { rewrite Hk Hrs1 in Hrs. injection Hrs as ->. congruence. }
        apply (row_drops_components w1 R1 e m1); [done|done|apply Hsh|]. intros d. by rewrite Hdom.
      + destruct (proj1 (winv_rows_len _ _ Hw k1)) as [a1 Ha1]; [by eexists|].
        destruct (row_drops_components w1 R1 e m1 (a_comp_ids a1)) as (l & Hl & _); [done|done|apply (wi_shape _ _ Hw _ _ Ha1)| |].
        { intros d. symmetry. by apply (ar_dom _ _ _ (wi_rows _ _ Hw _ _ _ Ha1 Hrs1) (e, m1)), (elem_of_list_lookup_2 _ _ _ Hr1). }
        exists l. split; [done|]. assert (a_comp_ids a = []) as ->; [|done].
        destruct (a_comp_ids a) as [|c l']; [done|exfalso]. destruct (proj2 (Hdom c)) as [v Hv]; [left|].
        by rewrite (Hother Hk) lookup_empty in Hv.
    - rewrite /world_drop (reuse_drop _ _ Hw).
      assert (drop_reuse w3 = Some ()) as ->.
      { rewrite /drop_reuse. change (w_reuse w3) with (w_reuse w2). pose proof (xr_reuse _ _ _ _ _ _ _ Hx) as H.
        destruct (w_reuse w2) as [[[ids p] cap]|]; [|done].
        destruct H as (_ & Hc & [(? & _)|(_ & -> & mm & -> & Hm)]); [done|]. rewrite /heap_dealloc /=. by rewrite decide_True. }
      rewrite E3. assert (uv_drop_all (a_storages a).*2 = uv_drop_all ss'.*2) as Hd.
      { assert (∀ j c u, a_storages a !! j = Some (c, u) → ∃ u', ss' !! j = Some (c, u') ∧ uv_drop_events u = uv_drop_events u') as Hone.
        { intros j c u Hj. assert (ss'.*1 !! j = Some c) as Hc by by rewrite Hfst' -(as_storages _ Hsh) list_lookup_fmap Hj.
          rewrite list_lookup_fmap in Hc. apply fmap_Some in Hc as ([c' u'] & Hj' & ->). exists u'. split; [done|].
          destruct (cols_lookup _ _ _ _ _ _ (arch_rows_cols _ _ _ Hrows) Hj) as (cm1 & Hc1 & Ht1 & Hrep1).
          destruct (cols_lookup _ _ _ _ _ _ Hcols3 Hj') as (cm2 & Hc2 & Ht2 & Hrep2). cbn [fst] in *.
          rewrite (uv_drop_events_rep _ _ Hrep1) (uv_drop_events_rep _ _ Hrep2). rewrite Ht1 Ht2. congruence. }
        assert (length ss' = length (a_storages a)) as Hlen. { by rewrite -(fmap_length fst ss') Hfst' -(as_storages _ Hsh) fmap_length. }
        clear -Hone Hlen. revert ss' Hone Hlen. induction (a_storages a) as [|[c u] l IH]; intros [|[c' u'] l'] Hone Hlen; [done..|].
        cbn. destruct (Hone 0 c u eq_refl) as (u2 & [= -> ->] & ->). rewrite (IH l'); [done| |by injection Hlen]. intros j. apply (Hone (S j)). }
      clear -Ha Hd. revert k2 Ha. induction (w_archs w1) as [|b l IH]; intros [|k] Ha; [done..| |]; cbn.
      + injection Ha as ->. by rewrite Hd.
      + by rewrite (IH k).
  Qed.
End extra.

Lemma built_twice_always w cap meta bs fin e w1 ev1 : reachable_world w →
  op_legal (OSpawn cap meta (bs ++ [BBuild]) fin) w → op_tame (OSpawn cap meta (bs ++ [BBuild]) fin) w →
  step (OSpawn cap meta (bs ++ [BBuild]) fin) w = Done (RId e) w1 ev1 →
  match step (OSpawn cap meta (bs ++ [BBuild; BBuild]) fin) w with
  | Done r w2 ev => r = RId e ∧ ev = [] ∧ ∃ k1 i1 k2 i2, placed w1 e k1 i1 ∧
      k2 = (if decide (k1 < length (w_archs w)) then k1 else 0) ∧ row_added w1 e k1 i1 k2 i2 w2 ∧
      same_lives w1 w2 ∧ same_types w1 w2 ∧
      ∃ w3 ev3 l, step (ODespawn e) w2 = Done (RBool true) w3 ev3 ∧ same_rows w1 w3 ∧
        (∀ e0, lives w3 e0 ↔ e0 ≠ e ∧ lives w1 e0) ∧ same_types w1 w3 ∧
        components w1 e l ∧ ev3 = (if decide (k2 = k1) then dropping_all w1 l else []) ∧
        world_drop w3 = world_drop w1
  | Panicked r _ _ => r = RCapacity
  | _ => False
  end.
Proof.
  intros [[R Hw] _]%reachable_world_ok Hleg [Hroom Hb] Hrun. rewrite bops_builds_app in Hb. cbn in Hb.
  destruct (spawn_twice w R cap meta bs fin e w1 ev1 Hw Hroom Hleg ltac:(lia) Hrun) as (R1 & Hw1 & Hwf & H).
  destruct (step (OSpawn cap meta (bs ++ [BBuild; BBuild]) fin) w) as [r w2 ev|r w2 ev| |]; [|done..].
  destruct H as (-> & -> & k1 & i1 & k2 & Hx & Hk). split; [done|]. split; [done|].
  destruct (extra_view _ _ _ _ _ _ _ Hw1 Hx) as (i2 & Hv). exists k1, i1, k2, i2.
  split; [by eapply extra_first|]. split; [done|]. split; [done|].
  destruct (extra_lives _ _ _ _ _ _ _ Hw1 Hx) as [Hl Ht]. split; [done|]. split; [done|].
  destruct (extra_despawn _ _ _ _ _ _ _ Hw1 Hx Hwf) as (w3 & ev3 & H1 & H2 & H3 & H4 & H5 & (l & H6 & H7) & H8).
  exists w3, ev3, l. split; [done|]. split; [done|]. done.
Qed.
