(** * What a panicking destructor leaves behind in [despawn] *)
From Verif Require Import ProofBase SpecSmall World Query History ProofEntities ProofBitset ProofArrayVec ProofUVec ProofLocks.
From Verif Require Export ProofDropPanicOps.

Lemma pre_panic {S A B} (m : M S A) (k : A → M S B) s s1 ev : mute m → bind m k s = Panicked RDestructor s1 ev →
  ∃ a s', m s = Done a s' [] ∧ k a s' = Panicked RDestructor s1 ev.
Proof.
  intros Hm. specialize (Hm s). rewrite /bind. destruct (m s) as [a s' e|r s' e| |]; [|by destruct Hm; intros [= -> _ _]|done..].
  subst e. rewrite add_events_nil. eauto.
Qed.
(** A column after [swap_remove row], or untouched. *)
Definition after (row : nat) (p q : ecsid * uvec) : Prop :=
  q.1 = p.1 ∧ uv_wf q.2 ∧ ∀ i, i ≠ row → S i < length (uv_vals p.2) →
    mem_read (uv_data q.2) (i * uv_size q.2) (uv_size q.2) = mem_read (uv_data p.2) (i * uv_size p.2) (uv_size p.2).
Lemma after_same row p : uv_wf p.2 → after row p p.
Proof. done. Qed.
Lemma owed_insert (ss : list (ecsid * uvec)) i c u u' ev : ss !! i = Some (c, u) → owed_vec u ≡ₚ ev ++ owed_vec u' →
  (ss.*2 ≫= owed_vec) ≡ₚ ev ++ ((<[i := (c, u')]> ss).*2 ≫= owed_vec).
Proof.
  intros Hi Ho. rewrite insert_take_drop; [|by eapply lookup_lt_Some]. rewrite -{1}(take_drop_middle _ _ _ Hi).
  rewrite !fmap_app !fmap_cons !bind_app !bind_cons /= Ho. rewrite -!app_assoc. apply Permutation_app_swap_app.
Qed.
Lemma storages_b bomb w k a row is_ ss s ev : k < length (w_archs w) → NoDup is_ → Forall (λ p : ecsid * uvec, uv_wf p.2) ss →
  swap_remove_storages_b bomb k row is_ (st_world w k a ss) = Panicked RDestructor s ev →
  ∃ ss', s = st_world w k a ss' ∧ length ss' = length ss ∧
    (∀ i p, ss !! i = Some p → ∃ q, ss' !! i = Some q ∧ after row p q ∧ (i ∉ is_ → q = p)) ∧
    (ss.*2 ≫= owed_vec) ≡ₚ ev ++ (ss'.*2 ≫= owed_vec).
Proof.
  intros Hk. revert ss ev. induction is_ as [|i is_ IH]; intros ss ev Hnd Hwf; [done|]. cbn [swap_remove_storages_b]. apply NoDup_cons in Hnd as [Hi Hnd].
  destruct (ss !! i) as [[c u]|] eqn:Hc.
  2:{ rewrite /bind {1}/in_arch {1}/zoom /st_world /= list_lookup_insert // {1}/in_storage {1}/zoom /= Hc //. }
  assert (uv_wf u) as Hu. { by apply (Forall_lookup_1 _ _ _ _ Hwf) in Hc. }
  pose proof (owed_swap_remove u row Hu) as Hsr. pose proof (read_swap_remove u row) as Hrd.
  assert (∀ o : outcome uvec (), uv_swap_remove_b bomb row u = o → in_arch k (in_storage i (uv_swap_remove_b bomb row)) (st_world w k a ss) =
    match o with Done x u' ev => Done x (st_world w k a (<[i := (c, u')]> ss)) ev
    | Panicked r u' ev => Panicked r (st_world w k a (<[i := (c, u')]> ss)) ev | Deadlock => Deadlock | UB => UB end) as Hrun.
  { intros o Ho. rewrite /in_arch /zoom /st_world /= list_lookup_insert // /in_storage /zoom /= Hc /= Ho.
    destruct o; rewrite ?(alter_snd _ _ _ _ _ Hc) ?list_insert_insert //. }
  specialize (Hrun _ eq_refl). rewrite /bind Hrun. rewrite vec_swap_remove_explode.
  destruct (uv_swap_remove row u) as [[] u' ev1|r u' ev1| |] eqn:Eu; cbn [explode]; [| |done..].
  2:{ intros [= -> _ _]. by destruct Hsr. }
  destruct Hsr as (Hwf' & Hti & Howe & _). pose proof (λ j, Hrd _ _ j Hu eq_refl) as Hrd'.
  set (ss1 := <[i := (c, u')]> ss). pose proof (owed_insert ss i c u u' ev1 Hc Howe) as Ho1. fold ss1 in Ho1.
  assert (∀ i' p, ss !! i' = Some p → ∃ q, ss1 !! i' = Some q ∧ after row p q ∧ (i' ≠ i → q = p)) as Hss1.
  { intros i' p Hp. destruct (decide (i' = i)) as [->|Hne].
    - exists (c, u'). rewrite /ss1 list_lookup_insert; [|by eapply lookup_lt_Some]. split; [done|]. split; [|done].
      rewrite Hc in Hp. injection Hp as <-. split; [done|]. split; [done|]. exact Hrd'.
    - exists p. rewrite /ss1 list_lookup_insert_ne //. split; [done|]. split; [|done]. apply after_same. by apply (Forall_lookup_1 _ _ _ _ Hwf) in Hp. }
  case_decide as Hh.
  - fold ss1. destruct (swap_remove_storages_b bomb k row is_ (st_world w k a ss1)) as [? ? ev2|r s2 ev2| |] eqn:E2; [done| |done..].
    cbn. intros [= -> -> <-]. destruct (IH ss1 ev2 Hnd) as (ss' & -> & Hlen & Hss' & Ho').
    { apply Forall_insert; [done|]. done. }
    { done. }
    exists ss'. split; [done|]. split; [rewrite Hlen; apply insert_length|]. split.
    + intros i' p Hp. destruct (Hss1 _ _ Hp) as (q & Hq & Haf & Hsame). destruct (Hss' _ _ Hq) as (q' & Hq' & Haf' & Hsame').
      destruct (decide (i' = i)) as [->|Hne].
      * exists q'. rewrite (Hsame' Hi). rewrite (Hsame' Hi) in Hq'. split; [done|]. split; [done|]. set_solver.
      * rewrite (Hsame Hne) in Haf' Hsame'. exists q'. split; [done|]. split; [done|]. set_solver.
    + by rewrite Ho1 Ho' app_assoc.
  - intros [= <- <-]. exists ss1. split; [done|]. split; [apply insert_length|]. split; [|done].
    intros i' p Hp. destruct (Hss1 _ _ Hp) as (q & Hq & Haf & Hsame). exists q. split; [done|]. split; [done|]. set_solver.
Qed.

(** The columns before the one whose destructor panicked, and that one, have lost the row. *)
Lemma storages_cut bomb w k a row is_ ss s ev : k < length (w_archs w) → NoDup is_ →
  swap_remove_storages_b bomb k row is_ (st_world w k a ss) = Panicked RDestructor s ev → (∀ i u, snd <$> ss !! i = Some u → uv_wf u) →
  ∃ ss' n, s = st_world w k a ss' ∧ n < length is_ ∧ (∀ i, i ∉ is_ → ss' !! i = ss !! i) ∧
    (∀ j i p, is_ !! j = Some i → ss !! i = Some p → ∃ q, ss' !! i = Some q ∧ q.1 = p.1 ∧ if decide (j ≤ n) then ∃ ev', uv_swap_remove row p.2 = Done () q.2 ev' else q = p).
Proof.
  intros Hk. revert ss ev. induction is_ as [|i is_ IH]; intros ss ev Hnd; [done|]. cbn [swap_remove_storages_b]. apply NoDup_cons in Hnd as [Hi Hnd].
  intros H Hwf. revert H. destruct (ss !! i) as [[c u]|] eqn:Hc.
  2:{ rewrite /bind {1}/in_arch {1}/zoom /st_world /= list_lookup_insert // {1}/in_storage {1}/zoom /= Hc //. }
  assert (∀ o : outcome uvec (), uv_swap_remove_b bomb row u = o → in_arch k (in_storage i (uv_swap_remove_b bomb row)) (st_world w k a ss) =
    match o with Done x u' ev => Done x (st_world w k a (<[i := (c, u')]> ss)) ev
    | Panicked r u' ev => Panicked r (st_world w k a (<[i := (c, u')]> ss)) ev | Deadlock => Deadlock | UB => UB end) as Hrun.
  { intros o Ho. rewrite /in_arch /zoom /st_world /= list_lookup_insert // /in_storage /zoom /= Hc /= Ho.
    destruct o; rewrite ?(alter_snd _ _ _ _ _ Hc) ?list_insert_insert //. }
  assert (uv_wf u) as Hu. { apply (Hwf i). by rewrite Hc. }
  pose proof (owed_swap_remove u row Hu) as Hsr.
  specialize (Hrun _ eq_refl). rewrite /bind Hrun. rewrite vec_swap_remove_explode.
  destruct (uv_swap_remove row u) as [[] u' ev1|r u' ev1| |] eqn:Eu; cbn [explode]; [| |done..].
  2:{ intros [= -> _ _]. by destruct Hsr. }
  destruct Hsr as (Hwf' & _).
  set (ss1 := <[i := (c, u')]> ss). pose proof (lookup_lt_Some _ _ _ Hc) as Hlt.
  assert (ss1 !! i = Some (c, u')) as Hs1 by by apply list_lookup_insert.
  assert (∀ i', i' ≠ i → ss1 !! i' = ss !! i') as Hs2. { intros i' Hne. by apply list_lookup_insert_ne. }
  case_decide as Hh.
  - fold ss1. destruct (swap_remove_storages_b bomb k row is_ (st_world w k a ss1)) as [? ? ev2|r s2 ev2| |] eqn:E2; [done| |done..].
    cbn. intros [= -> -> <-]. destruct (IH ss1 ev2 Hnd E2) as (ss' & n & -> & Hn & Hout & Hin).
    { intros i' u0. destruct (decide (i' = i)) as [->|Hne]; [rewrite Hs1; by intros [= <-]|rewrite Hs2 //; apply Hwf]. }
    exists ss', (S n). split; [done|]. split; [cbn; lia|]. split.
    + intros i' Hi'. rewrite Hout; [|set_solver]. apply Hs2. set_solver.
    + intros [|j] i' p Hj Hp.
      * injection Hj as <-. rewrite Hc in Hp. injection Hp as <-. exists (c, u'). rewrite Hout // Hs1. split; [done|]. split; [done|].
        destruct (decide (0 ≤ S n)); [|lia]. by exists ev1.
      * cbn in Hj. assert (i' ≠ i) as Hne. { intros ->. by apply elem_of_list_lookup_2 in Hj. }
        rewrite -(Hs2 _ Hne) in Hp. destruct (Hin _ _ _ Hj Hp) as (q & Hq & Hq1 & Hq2). exists q. split; [done|]. split; [done|].
        destruct (decide (j ≤ n)); destruct (decide (S j ≤ S n)); try lia; done.
  - intros [= <- <-]. exists ss1, 0. split; [done|]. split; [cbn; lia|]. split; [intros i' Hi'; apply Hs2; set_solver|].
    intros [|j] i' p Hj Hp.
    + injection Hj as <-. rewrite Hc in Hp. injection Hp as <-. exists (c, u'). split; [done|]. split; [done|]. by exists ev1.
    + cbn in Hj. assert (i' ≠ i) as Hne. { intros ->. by apply elem_of_list_lookup_2 in Hj. }
      exists p. rewrite Hs2 //.
Qed.

(** The world in which a [despawn] of [e], which was in row [row] of archetype [k], was cut off. *)
Lemma despawn_b_inv bomb w e w1 ev : WOk w → despawn_b bomb e w = Panicked RDestructor w1 ev →
  ∃ k row a es ss', placed w e k row ∧ located w e k row ∧ alive (w_ents w) e ∧ used_as_component w e = false ∧
    w_archs w !! k = Some a ∧ vec_swap_remove row (a_entities a) = Some es ∧
    w1 = st_world w k (a_set_entities es a) ss' ∧ length ss' = length (a_storages a) ∧
    (∀ i p, a_storages a !! i = Some p → ∃ q, ss' !! i = Some q ∧ after row p q) ∧
    ((a_storages a).*2 ≫= owed_vec) ≡ₚ ev ++ (ss'.*2 ≫= owed_vec) ∧
    ∃ n, n < length (a_storages a) ∧ ∀ j p, a_storages a !! j = Some p → ∃ q, ss' !! j = Some q ∧ q.1 = p.1 ∧
      if decide (j ≤ n) then ∃ ev', uv_swap_remove row p.2 = Done () q.2 ev' else q = p.
Proof.
  intros Hok. rewrite /despawn_b. intros (al & w0 & E & H)%pre_panic; [|mute]. pose proof (is_alive_same _ _ _ _ _ E) as ->.
  pose proof (is_alive_cases w e) as Hal. rewrite E in Hal. destruct al; [|done]. cbn [negb] in H.
  rewrite (bind_done_nil _ _ w (used_as_component w e) w eq_refl) in H. destruct (used_as_component w e) eqn:Hu; [done|]. cbn [negb] in H.
  rewrite (bind_done_nil _ _ w () w eq_refl) in H. apply pre_panic in H as (om & w0 & Em & H); [|mute].
  pose proof (get_entity_meta_same _ _ _ _ _ Em) as ->. destruct om as [m|]; [|done]. cbn [unwrap] in H. rewrite (bind_done_nil _ _ w m w eq_refl) in H.
  assert (located w e (im_arch (em_inst m)) (im_index (em_inst m))) as Hloc. { rewrite /located Em. by destruct (em_inst m). }
  revert Hloc H. generalize (im_arch (em_inst m)) (im_index (em_inst m)). intros k row Hloc H.
  apply (co_located _ (ok_consistent _ Hok)) in Hloc as Hpl. pose proof Hpl as (a & Ha & He).
  apply bind_panic_inv in H as [H|([] & w0 & e1 & e2 & _ & H & _)].
  2:{ exfalso. apply pre_panic in H as (? & ? & _ & H); [|mute]. done. }
  rewrite /arch_despawn_b (bind_done_nil _ _ _ _ _ (get_arch_done _ _ _ Ha)) He in H. cbn [unwrap] in H. rewrite (bind_done_nil _ _ w e w eq_refl) in H.
  rewrite bool_decide_true // in H. rewrite (bind_done_nil _ _ w () w eq_refl) in H.
  destruct (vec_swap_remove row (a_entities a)) as [es|] eqn:Hes; [|done]. cbn [unwrap] in H. rewrite (bind_done_nil _ _ w es w eq_refl) in H.
  assert (in_arch k (modify (a_set_entities es)) w = Done () (st_world w k (a_set_entities es a) (a_storages a)) []) as Hie.
  { rewrite /in_arch /zoom Ha /modify /st_world. by rewrite (a_set_storages_id (a_set_entities es a)). }
  rewrite (bind_done_nil _ _ _ _ _ Hie) in H.
  apply bind_panic_inv in H as [H|([] & w0 & e1 & e2 & _ & H & _)].
  2:{ exfalso. apply pre_panic in H as (? & ? & _ & H); [|mute]. apply pre_panic in H as (? & ? & _ & H); [|mute].
      apply pre_panic in H as (? & w3 & _ & H); [|mute]. assert (mute (match es !! row with Some swapped => update_meta (uindex swapped) (λ im, InstMeta (im_arch im) row) | None => ret () end)) as Hm by mute.
      specialize (Hm w3). rewrite H in Hm. by destruct Hm. }
  pose proof Hok as [[R Hw] _].
  pose proof H as Hcut. apply storages_b in H as (ss' & -> & Hlen & Hss & Ho).
  - exists k, row, a, es, ss'. split; [done|]. split; [done|]. split; [tauto|]. split; [done|]. split; [done|]. split; [done|]. split; [done|]. split; [done|]. split; [|split; [done|]].
    { intros i p Hp. destruct (Hss _ _ Hp) as (q & ? & ? & _). eauto. }
    apply storages_cut in Hcut as (ss2 & n & Hs2 & Hn & _ & Hin); [|by eapply lookup_lt_Some|apply NoDup_seq|].
    + assert (ss2 = ss') as ->.
      { apply (f_equal (λ w, w_archs w !! k)) in Hs2. rewrite /st_world /= !list_lookup_insert in Hs2; [|by eapply lookup_lt_Some..].
        by injection Hs2 as ->. }
      rewrite seq_length in Hn. exists n. split; [done|]. intros j p Hp. apply (Hin j j); [|done]. apply lookup_seq. split; [done|]. by eapply lookup_lt_Some.
    + intros i u Hi. destruct (a_storages a !! i) as [[c u']|] eqn:Hiu; [|done]. injection Hi as <-.
      destruct (winv_col _ _ Hw _ _ _ _ Ha (elem_of_list_lookup_2 _ _ _ Hiu)) as (l & Hr & _). by eapply uv_rep_wf.
  - by eapply lookup_lt_Some.
  - apply NoDup_seq.
  - apply Forall_forall. intros [c u] Hc. destruct (winv_col _ _ Hw _ _ _ _ Ha Hc) as (l & Hr & _). by eapply uv_rep_wf.
Qed.
Lemma all_cols_split w k a : w_archs w !! k = Some a →
  ∃ l1 l2, all_cols w = l1 ++ (a_storages a).*2 ++ l2 ∧
    ∀ a', all_cols (set_archs (<[k := a']> (w_archs w)) w) = l1 ++ (a_storages a').*2 ++ l2.
Proof.
  intros Ha. exists (take k (w_archs w) ≫= λ a, (a_storages a).*2), (drop (S k) (w_archs w) ≫= λ a, (a_storages a).*2). split.
  - rewrite /all_cols -{1}(take_drop_middle _ _ _ Ha) bind_app bind_cons. done.
  - intros a'. rewrite /all_cols /= insert_take_drop; [|by eapply lookup_lt_Some]. by rewrite bind_app bind_cons.
Qed.
Lemma despawn_damage bomb w e w1 ev : WOk w → despawn_b bomb e w = Panicked RDestructor w1 ev →
  wrecked w w1 e ev ∧ ((∀ e0, stored w1 e0 ↔ e0 ≠ e ∧ stored w e0) ∧ half_despawned w w1 e) ∧ cols_wf w1 ∧ drop_reuse w1 = Some () ∧
  ∀ bomb', ∃ r, (r = RIndex ∨ r = RAssert) ∧ despawn_b bomb' e w1 = Panicked r w1 [].
Proof.
  intros Hok Hrun. destruct (despawn_b_inv _ _ _ _ _ Hok Hrun) as (k & row & a & es & ss' & Hpl & Hloc & Hal & Hu & Ha & Hes & Hw1 & Hlen & Hss & Ho & n & Hn & Hcut).
  pose proof Hok as [[R Hw] _]. pose proof (ok_consistent _ Hok) as Hco. pose proof Hpl as (a' & Ha' & He). rewrite Ha in Ha'. injection Ha' as <-.
  assert (k < length (w_archs w)) as Hk by by eapply lookup_lt_Some.
  assert (∀ k' b, w_archs w1 !! k' = Some b ↔ (k' = k ∧ b = a_set_storages ss' (a_set_entities es a)) ∨ (k' ≠ k ∧ w_archs w !! k' = Some b)) as Harch.
  { intros k' b. rewrite Hw1 /= list_lookup_insert_Some. naive_solver. }
  assert (∀ i e0, es !! i = Some e0 → e0 ≠ e ∧ e0 ∈ a_entities a ∧ (¬ last_of w k e0 → i ≠ row ∧ a_entities a !! i = Some e0 ∧ S i < length (a_entities a))) as Hback.
  { intros i e0 Hi. rewrite (vec_swap_remove_lookup _ _ _ _ Hes) in Hi. case_decide as Hlt; [|done]. destruct (decide (i = row)) as [->|Hir].
    - split; [|split; [by eapply elem_of_list_lookup_2|]].
      + intros ->. destruct (co_once _ Hco e k row k (length (a_entities a) - 1)) as [_ ?]; [done|by exists a|]. lia.
      + intros Hnl. exfalso. apply Hnl. exists a. split; [done|]. rewrite last_lookup. by replace (Init.Nat.pred _) with (length (a_entities a) - 1) by lia.
    - split; [|split; [by eapply elem_of_list_lookup_2|]].
      + intros ->. destruct (co_once _ Hco e k row k i) as [_ ?]; [done|by exists a|]. done.
      + intros _. split_and!; [done..|lia]. }
  assert (∀ i e0, a_entities a !! i = Some e0 → e0 ≠ e → ¬ last_of w k e0 → i ≠ row ∧ es !! i = Some e0 ∧ S i < length (a_entities a)) as Hforth.
  { intros i e0 Hi Hee Hnl. apply lookup_lt_Some in Hi as Hlt. assert (i ≠ row) as Hir by congruence.
    assert (i ≠ length (a_entities a) - 1) as Hil.
    { intros ->. apply Hnl. exists a. split; [done|]. rewrite last_lookup. by replace (Init.Nat.pred _) with (length (a_entities a) - 1) by lia. }
    split; [done|]. rewrite (vec_swap_remove_lookup _ _ _ _ Hes) decide_True; [|lia]. rewrite decide_False //. split; [done|lia]. }
  assert (∀ e0, stored w1 e0 ↔ e0 ≠ e ∧ stored w e0) as Hst.
  { pose proof (vec_swap_remove_perm _ _ _ _ Hes He) as Hp. intros e0. split.
    - intros (k' & i & b & [(-> & ->)|(Hne & Hb)]%Harch & Hi).
      + destruct (Hback _ _ Hi) as (H1 & [i' H2]%elem_of_list_lookup_1 & _). split; [done|]. by exists k, i', a.
      + split; [|by exists k', i, b]. intros ->. destruct (co_once _ Hco e k row k' i) as [? _]; [done|by exists b|]. done.
    - intros (Hee & k' & i & b & Hb & Hi). destruct (decide (k' = k)) as [->|Hne].
      + rewrite Ha in Hb. injection Hb as <-. apply elem_of_list_lookup_2 in Hi. rewrite Hp in Hi. apply elem_of_cons in Hi as [?|[i' Hi]%elem_of_list_lookup_1]; [done|].
        exists k, i'. eexists. split; [apply Harch; by left|done].
      + exists k', i, b. split; [apply Harch; by right|done]. }
  destruct (all_cols_split w k a Ha) as (l1 & l2 & Hc & Hc'). specialize (Hc' (a_set_storages ss' (a_set_entities es a))).
  assert (all_cols w1 = l1 ++ ss'.*2 ++ l2) as Hc1 by by rewrite Hw1. clear Hc'.
  split; [constructor|split; [split; [done|]|split; [|split]]].
  - intros e0 _. by rewrite !lives_alive Hw1.
  - intros t c. by rewrite /type_id Hw1.
  - rewrite /owed Hc Hc1 !bind_app Ho. rewrite -!app_assoc. apply Permutation_app_swap_app.
  - exists k, row. split; [done|]. intros e0 c v Hee Hnl. split.
    + intros (k' & i & b & j & u & [(-> & ->)|(Hne & Hb)]%Harch & Hi & Hj & Hm); [|by exists k', i, b, j, u]. cbn in Hi, Hj.
      destruct (Hback _ _ Hi) as (_ & _ & Hx). destruct (Hx Hnl) as (Hir & Hi' & Hlt).
      destruct (lookup_lt_is_Some_2 (a_storages a) j) as [[c' u'] Hp]. { rewrite -Hlen. by eapply lookup_lt_Some. }
      destruct (Hss _ _ Hp) as (q & Hq & Hf1 & _ & Hf3). rewrite Hj in Hq. injection Hq as <-. cbn in Hf1, Hf3. subst c'.
      exists k, i, a, j, u'. split; [done|]. split; [done|]. split; [done|]. rewrite -Hm Hf3 //.
      destruct (winv_col _ _ Hw _ _ _ _ Ha (elem_of_list_lookup_2 _ _ _ Hp)) as (l & Hr & Hll & _). by rewrite (uv_rep_vals _ _ Hr) Hll.
    + intros (k' & i & b & j & u & Hb & Hi & Hj & Hm). destruct (decide (k' = k)) as [->|Hne].
      * rewrite Ha in Hb. injection Hb as <-. destruct (Hforth _ _ Hi Hee Hnl) as (Hir & Hi' & Hlt).
        destruct (Hss _ _ Hj) as ([c' u'] & Hq & Hf1 & _ & Hf3). cbn in Hf1, Hf3. subst c'.
        exists k, i. eexists. exists j, u'. split; [apply Harch; by left|]. split; [done|]. split; [done|]. rewrite -Hm Hf3 //.
        destruct (winv_col _ _ Hw _ _ _ _ Ha (elem_of_list_lookup_2 _ _ _ Hj)) as (l & Hr & Hll & _). by rewrite (uv_rep_vals _ _ Hr) Hll.
      * exists k', i, b, j, u. split; [apply Harch; by right|done].
  - assert (w_archs w1 !! k = Some (a_set_storages ss' (a_set_entities es a))) as Hak. { apply Harch. by left. }
    exists k, row, a, (a_set_storages ss' (a_set_entities es a)), n. split; [done|]. split; [done|]. split; [done|]. split; [done|]. split; [|split; [|split]].
    + rewrite /columns. cbn. apply list_eq. intros j. rewrite !list_lookup_fmap. destruct (a_storages a !! j) as [p|] eqn:Hp.
      * destruct (Hcut _ _ Hp) as (q & -> & Hq & _). by rewrite /= Hq.
      * apply lookup_ge_None in Hp. rewrite -Hlen in Hp. apply lookup_ge_None in Hp. by rewrite Hp.
    + intros j d u Hj Hu'. cbn in Hu' |- *. destruct (lookup_lt_is_Some_2 (a_storages a) j) as [[d' u0] Hp]. { rewrite -Hlen. by eapply lookup_lt_Some. }
      destruct (Hcut _ _ Hp) as (q & Hq & Hq1 & Hq2). rewrite Hu' in Hq. injection Hq as <-. cbn in Hq1. subst d'. rewrite decide_True // in Hq2. destruct Hq2 as [ev' Hsr]. cbn [snd] in Hsr.
      destruct (winv_col _ _ Hw _ _ _ _ Ha (elem_of_list_lookup_2 _ _ _ Hp)) as (l & Hr & Hll & _).
      apply lookup_lt_Some in He as Hrow. rewrite -Hll in Hrow. destruct (lookup_lt_is_Some_2 _ _ Hrow) as [x Hx]. destruct (vec_swap_remove_some _ _ Hrow) as [l' Hl'].
      destruct (uv_swap_remove_rep _ _ _ _ _ Hr Hx Hl') as (u' & Hsr' & _ & Hr'). rewrite Hsr in Hsr'. injection Hsr' as -> _.
      pose proof (vec_swap_remove_length _ _ _ Hl') as HL. pose proof (vec_swap_remove_length _ _ _ Hes) as HE.
      split; [by rewrite HE -Hll -HL; apply rep_filled|].
      intros i e0 Hi. assert (i < length l') as Hil. { apply lookup_lt_Some in Hi. lia. } destruct (lookup_lt_is_Some_2 _ _ Hil) as [v Hv].
      exists v. split; [by eapply uv_read_rep|]. rewrite (vec_swap_remove_lookup _ _ _ _ Hes) in Hi. rewrite (vec_swap_remove_lookup _ _ _ _ Hl') Hll in Hv.
      case_decide; [|done]. destruct (decide (i = row)) as [->|Hir].
      * exists k, (length (a_entities a) - 1), a, j, u0. split; [done|]. split; [done|]. split; [done|]. by eapply uv_read_rep.
      * exists k, i, a, j, u0. split; [done|]. split; [done|]. split; [done|]. by eapply uv_read_rep.
    + intros j Hj. cbn. destruct (a_storages a !! j) as [p|] eqn:Hp.
      * destruct (Hcut _ _ Hp) as (q & -> & _ & Hq2). rewrite decide_False in Hq2; [|lia]. by rewrite Hq2.
      * apply lookup_ge_None in Hp. rewrite -Hlen in Hp. by apply lookup_ge_None in Hp.
    + intros k' Hk'. rewrite Hw1 /=. by rewrite list_lookup_insert_ne.
  - pose proof (winv_cols_wf _ _ Hw) as Hwf. rewrite /cols_wf Hc in Hwf. rewrite /cols_wf Hc1. apply Forall_app in Hwf as [Hwf1 [Hwf2 Hwf3]%Forall_app].
    apply Forall_app. split; [done|]. apply Forall_app. split; [|done]. apply Forall_forall. intros u ([c u'] & -> & [j Hj]%elem_of_list_lookup_1)%elem_of_list_fmap.
    destruct (lookup_lt_is_Some_2 (a_storages a) j) as [p Hp]. { rewrite -Hlen. by eapply lookup_lt_Some. }
    destruct (Hss _ _ Hp) as (q & Hq & _ & Hf2 & _). rewrite Hj in Hq. by injection Hq as <-.
  - pose proof (reuse_drop _ _ Hw) as Hd. rewrite /drop_reuse Hw1. exact Hd.
  - intros bomb'. rewrite /despawn_b. assert (is_alive e w1 = Done true w1 []) as E1. { change (lives w1 e). by rewrite lives_alive Hw1. }
    rewrite (bind_done_nil _ _ _ _ _ E1). cbn [negb]. rewrite (bind_done_nil _ _ w1 (used_as_component w1 e) w1 eq_refl).
    assert (used_as_component w1 e = false) as ->.
    { rewrite -Hu /used_as_component. rewrite Hw1 /=. clear -Ha. revert Ha. generalize (w_archs w). intros l Ha.
      rewrite -{2}(take_drop_middle _ _ _ Ha) insert_take_drop; [|by eapply lookup_lt_Some]. rewrite !existsb_app. done. }
    cbn [negb]. rewrite (bind_done_nil _ _ w1 () w1 eq_refl).
    assert (∃ m, get_entity_meta e w1 = Done (Some m) w1 [] ∧ em_inst m = InstMeta k row) as (m & Em & Hm).
    { assert (located w1 e k row) as Hl1. { apply located_meta. rewrite Hw1. by apply located_meta in Hloc. }
      rewrite /located in Hl1. pose proof (get_entity_meta_cases w1 e) as Hgc. destruct (get_entity_meta e w1) as [[m|] w' ev'| | |]; try done.
      destruct Hgc as (-> & -> & _). by exists m. }
    rewrite (bind_done_nil _ _ _ _ _ Em). cbn [unwrap]. rewrite (bind_done_nil _ _ w1 m w1 eq_refl) Hm. cbn [im_arch im_index].
    assert (w_archs w1 !! k = Some (a_set_storages ss' (a_set_entities es a))) as Hak. { apply Harch. by left. }
    rewrite {1}/bind. rewrite {1}/arch_despawn_b (bind_done_nil _ _ _ _ _ (get_arch_done _ _ _ Hak)). cbn [a_set_storages a_set_entities a_entities].
    destruct (es !! row) as [e'|] eqn:Hrow.
    + cbn [unwrap]. rewrite (bind_done_nil _ _ w1 e' w1 eq_refl). destruct (Hback _ _ Hrow) as (Hee & _). rewrite bool_decide_false //.
      exists RAssert. split; [by right|]. done.
    + exists RIndex. split; [by left|]. done.
Qed.
