(** * The benches that loop over static queries (C70) *)
From Verif Require Import ProofBase SpecSmall World History ProofEntities ProofBitset ProofArrayVec ProofUVec.
From Verif Require Export IterBench SpecIterBench ProofBenches ProofForEach.

Lemma written_iff ps : unshared ps → ∀ us t v, written ps us t = Some v ↔ ∃ j, ps !! j = Some (PMut t) ∧ us !! j = Some (Some v).
Proof.
  induction ps as [|p ps IH]; intros Hun us t v.
  { split; [by destruct us|]. intros (j & Hj & _). by rewrite lookup_nil in Hj. }
  assert (unshared ps) as Hun'. { intros j j' t' p' H1 H2 H3. pose proof (Hun (S j) (S j') t' p' H1 H2 H3). lia. }
  specialize (IH Hun'). destruct us as [|u us].
  { split; [by destruct p|]. intros (j & _ & Hj). by rewrite lookup_nil in Hj. }
  assert (p ≠ PMut t → written (p :: ps) (u :: us) t = written ps us t) as Hne. { intros Hp. destruct p as [t'|t'|]; try done. cbn. case_decide; [congruence|done]. }
  assert ((∃ j, (p :: ps) !! j = Some (PMut t) ∧ (u :: us) !! j = Some (Some v)) ↔ (p = PMut t ∧ u = Some v) ∨ ∃ j, ps !! j = Some (PMut t) ∧ us !! j = Some (Some v)) as ->.
  { split; [intros ([|j] & H1 & H2); [left; cbn in *; split; congruence|right; by exists j]|]. intros [[-> ->]|(j & H1 & H2)]; [by exists 0|by exists (S j)]. }
  destruct p as [t'|t'|].
  - destruct (decide (t' = t)) as [->|Hn].
    + cbn. rewrite decide_True; [|done]. split; [by left|]. intros [[_ ?]|(j & H1 & _)]; [done|]. by pose proof (Hun 0 (S j) t (PMut t) eq_refl H1 eq_refl).
    + rewrite Hne; [|congruence]. rewrite IH. split; [by right|]. intros [[? _]|?]; [congruence|done].
  - rewrite Hne; [|done]. rewrite IH. split; [by right|]. by intros [[? _]|?].
  - rewrite Hne; [|done]. rewrite IH. split; [by right|]. by intros [[? _]|?].
Qed.
Lemma updated_types ps g e l : (updated ps g e l).*1 = l.*1.
Proof. rewrite /updated. destruct (mapM _ _); [|done]. rewrite -list_fmap_compose. done. Qed.

(** ** One run *)
Definition one_to_one (w : world) : Prop := ∀ t t' c, type_id w t c → type_id w t' c → t = t'.
Definition all_typed (w : world) (ls : list (list (ty * value))) : Prop := ∀ l t, l ∈ ls → t ∈ l.*1 → ∃ c, type_id w t c.
Lemma tabulates_step w w' ps g es ls : one_to_one w → NoDup es → length es = length ls → Forall (λ l, NoDup l.*1) ls → (∀ e, e ∈ es → stored w e) →
  all_typed w ls → tabulates w es ls → unshared ps → all_updated w w' ps g → tabulates w' es (zip_with (updated ps g) es ls).
Proof.
  intros Hinj Hnd Hlen Hls Hsto Hty Htab Hun (_ & _ & Hst & Hup) e c v. rewrite Hup.
  assert (∀ t1 t2 c1 c2, type_id w t1 c1 → type_id w t2 c2 → t1 = t2 → c1 = c2) as Hfun. { intros t1 t2 c1 c2 H1 H2 <-. rewrite /type_id in H1, H2. congruence. }
  destruct (decide (e ∈ es)) as [[i Hi]%elem_of_list_lookup|Hne].
  2:{ split.
      - intros [(_ & xs & j & t & Hsees & Hj & _)|[Hh _]].
        + destruct (Forall2_lookup_l _ _ _ _ _ Hsees Hj) as (x & _ & Hx). cbn in Hx. destruct Hx as (c1 & v1 & _ & Hh & _). apply Htab in Hh as (i & l & t1 & H1 & _). by destruct Hne; eapply elem_of_list_lookup_2.
        + apply Htab in Hh as (i & l & t1 & H1 & _). by destruct Hne; eapply elem_of_list_lookup_2.
      - intros (i & l & t & H1 & _). by destruct Hne; eapply elem_of_list_lookup_2. }
  destruct (lookup_lt_is_Some_2 ls i) as [l Hl]; [rewrite -Hlen; by eapply lookup_lt_Some|].
  pose proof (elem_of_list_lookup_2 _ _ _ Hl) as Hlin. pose proof (proj1 (Forall_forall _ _) Hls _ Hlin) as Hndl. cbn in Hndl.
  assert (∀ c x, holds w e c x ↔ ∃ t, (t, x) ∈ l ∧ type_id w t c) as Hh.
  { intros c1 x. rewrite (Htab e c1 x). split; [|intros (t & H1 & H2); by exists i, l, t]. intros (i' & l' & t & H1 & H2 & H3 & H4).
    pose proof (NoDup_lookup _ _ _ _ Hnd H1 Hi) as ->. rewrite Hl in H2. injection H2 as <-. by exists t. }
  assert (∀ p x, sees w e p x ↔ item_seen e l p = Some x) as Hsees.
  { intros p x. rewrite /sees /item_seen. destruct (param_ty p) as [t|]; [|split; [by intros ->|by intros [= ->]]]. split.
    - intros (c1 & x1 & H1 & (t1 & H2 & H3)%Hh & ->). pose proof (Hinj _ _ _ H1 H3) as <-. apply (elem_of_list_to_map (M:=gmap ty)) in H2; [|done]. apply fmap_Some. exists x1. split; [exact H2|done].
    - intros (x1 & H1 & ->)%fmap_Some. apply (elem_of_list_to_map (M:=gmap ty)) in H1; [|done]. destruct (Hty l t Hlin) as (c1 & Hc1); [apply elem_of_list_fmap; by exists (t, x1)|].
      exists c1, x1. split; [done|]. split; [|done]. apply Hh. by exists t. }
  assert (∀ c v, new_value w ps g e c v ↔ ∃ xs t, mapM (item_seen e l) ps = Some xs ∧ written ps (g xs) t = Some v ∧ type_id w t c) as Hnv.
  { intros c1 x. split.
    - intros (_ & xs & j & t & H1 & H2 & H3 & H4). exists xs, t. split; [|split; [|done]].
      + apply mapM_Some. eapply Forall2_impl; [exact H1|]. intros p y. apply Hsees.
      + apply (written_iff _ Hun). by exists j.
    - intros (xs & t & H1%mapM_Some & (j & H2 & H3)%(written_iff _ Hun) & H4).
      assert (Forall2 (sees w e) ps xs) as Hs. { eapply Forall2_impl; [exact H1|]. intros p y. apply Hsees. }
      split; [|by exists xs, j, t]. split; [apply Hsto; by eapply elem_of_list_lookup_2|]. intros p t1 [k Hk]%elem_of_list_lookup_1 Ht1.
      destruct (Forall2_lookup_l _ _ _ _ _ Hs Hk) as (y & _ & Hy). rewrite /sees Ht1 in Hy. destruct Hy as (c2 & x2 & H5 & H6 & _). exists c2. split; [done|]. by exists x2. }
  transitivity (∃ t, (t, v) ∈ updated ps g e l ∧ type_id w t c).
  2:{ split.
      - intros (t & H1 & H2). exists i, (updated ps g e l), t. split; [done|]. split; [|split; [done|by apply Hst]]. rewrite lookup_zip_with Hi. cbn. by rewrite Hl.
      - intros (i' & l' & t & H1 & H2 & H3 & H4). pose proof (NoDup_lookup _ _ _ _ Hnd H1 Hi) as ->. rewrite lookup_zip_with Hi in H2. cbn in H2. rewrite Hl in H2. injection H2 as <-. exists t. split; [done|]. by apply Hst. }
  setoid_rewrite Hnv. setoid_rewrite Hh. rewrite /updated. destruct (mapM (item_seen e l) ps) as [xs|] eqn:Exs.
  - split.
    + intros [(xs' & t & [= <-] & H2 & H3)|[(t & H1 & H2) H3]].
      * exists t. split; [|done]. apply (written_iff _ Hun) in H2 as Hj. destruct Hj as (j & Hj & _). apply mapM_Some in Exs. destruct (Forall2_lookup_l _ _ _ _ _ Exs Hj) as (y & _ & Hy).
        cbn in Hy. apply fmap_Some in Hy as (x1 & H4 & _). apply (elem_of_list_to_map (M:=gmap ty)) in H4; [|done]. apply elem_of_list_fmap. exists (t, x1). split; [|done]. cbn. by rewrite H2.
      * exists t. split; [|done]. apply elem_of_list_fmap. exists (t, v). split; [|done]. cbn. destruct (written ps (g xs) t) as [v'|] eqn:E; [|done]. destruct (H3 v'). by exists xs, t.
    + intros (t & ([t1 x1] & [= -> ->] & H1)%elem_of_list_fmap & H2). cbn in *. destruct (written ps (g xs) t1) as [v'|] eqn:E.
      * left. by exists xs, t1.
      * right. split; [by exists t1|]. intros v' (xs' & t2 & [= <-] & H3 & H4). pose proof (Hinj _ _ _ H2 H4) as <-. congruence.
  - split; [intros [(xs & t & ? & _)|[? _]]; done|]. intros ?. right. split; [done|]. intros v' (xs & t & ? & _). done.
Qed.
(** ** Many runs *)
Definition after_runs (m : nat) (ps : list param) (g : list item → list (option value)) (es : list ecsid) (ls : list (list (ty * value))) : list (list (ty * value)) :=
  zip_with (λ e, Nat.iter m (updated ps g e)) es ls.
Lemma after_runs_S m ps g es ls : after_runs (S m) ps g es ls = after_runs m ps g es (zip_with (updated ps g) es ls).
Proof.
  rewrite /after_runs. revert ls. induction es as [|e es IH]; intros [|l ls]; [done..|]. cbn [zip_with]. f_equal; [|apply IH]. by rewrite Nat.iter_succ_r.
Qed.
Lemma after_runs_0 ps g es ls : length es = length ls → after_runs 0 ps g es ls = ls.
Proof. rewrite /after_runs. revert ls. induction es as [|e es IH]; intros [|l ls]; [done..|]. cbn. intros [= H]. f_equal. by apply IH. Qed.
Lemma after_runs_length m ps g es ls : length es = length ls → length (after_runs m ps g es ls) = length ls.
Proof. intros H. rewrite /after_runs zip_with_length. lia. Qed.
Lemma iter_types m ps g e l : (Nat.iter m (updated ps g e) l).*1 = l.*1.
Proof. induction m as [|m IH]; [done|]. cbn. by rewrite updated_types. Qed.
Lemma after_runs_elem m ps g es ls l : l ∈ after_runs m ps g es ls → ∃ l0, l0 ∈ ls ∧ l.*1 = l0.*1.
Proof.
  intros (i & H)%elem_of_list_lookup. apply lookup_zip_with_Some in H as (e & l0 & -> & _ & Hl). exists l0. split; [by eapply elem_of_list_lookup_2|apply iter_types].
Qed.
Lemma tabulates_steps ps g es m : unshared ps → NoDup es → ∀ w w' ls, one_to_one w → length es = length ls → Forall (λ l, NoDup l.*1) ls → (∀ e, e ∈ es → stored w e) →
  all_typed w ls → tabulates w es ls → nsteps (λ w w', all_updated w w' ps g) m w w' →
  tabulates w' es (after_runs m ps g es ls) ∧ same_lives w w' ∧ same_stored w w' ∧ same_types w w'.
Proof.
  intros Hun Hnd. induction m as [|m IH]; intros w w' ls Hinj Hlen Hls Hsto Hty Htab Hs.
  { inversion Hs; subst. by rewrite after_runs_0. }
  inversion Hs as [|n x w1 z H1 H2]; subst. pose proof (tabulates_step _ _ _ _ _ _ Hinj Hnd Hlen Hls Hsto Hty Htab Hun H1) as Htab1. destruct H1 as (L1 & L2 & L3 & _).
  assert (∀ l, l ∈ zip_with (updated ps g) es ls → ∃ l0, l0 ∈ ls ∧ l.*1 = l0.*1) as Hz.
  { intros l (i & H)%elem_of_list_lookup. apply lookup_zip_with_Some in H as (e & l0 & -> & _ & Hl). exists l0. split; [by eapply elem_of_list_lookup_2|apply updated_types]. }
  destruct (IH w1 w' (zip_with (updated ps g) es ls)) as (T & M1 & M2 & M3).
  - intros t t' c ?%L3 ?%L3. by eapply Hinj.
  - rewrite zip_with_length. lia.
  - apply Forall_forall. intros l (l0 & Hin & ->)%Hz. by apply (proj1 (Forall_forall _ _) Hls).
  - intros e He. by apply L2, Hsto.
  - intros l t (l0 & Hin & ->)%Hz Ht. destruct (Hty _ _ Hin Ht) as (c & Hc). exists c. by apply L3.
  - done.
  - done.
  - rewrite after_runs_S. split; [done|]. split; [|split]; [intros e He; by rewrite (M1 e He) (L1 e He)|intros e; by rewrite (M2 e) (L2 e)|intros t c; by rewrite (M3 t c) (L3 t c)].
Qed.
(** ** Dropping the world at the end *)
Lemma drop_ids w es css : reachable_world w → NoDup es → length es = length css → Forall (λ cs, NoDup cs.*1) css →
  (∀ e c x, holds w e c x ↔ ∃ i cs, es !! i = Some e ∧ css !! i = Some cs ∧ (c, x) ∈ cs) →
  ∃ ev, world_drop w = Some ev ∧ ev ≡ₚ css ≫= λ cs, filter (λ p : ecsid * value, p.2 ≠ []) cs ≫= λ p, dropping w p.1 p.2.
Proof.
  intros Hrw Hnd Hlen' Hndc Hh. pose proof (reachable_world_ok _ Hrw) as Hok. destruct (dropped_world w Hrw) as (ev & E & Hev). exists ev. split; [done|]. rewrite Hev.
  assert (∀ e c x, (e, c, x) ∈ concat (zip_with (λ e cs, (λ p : ecsid * value, (e, p.1, p.2)) <$> cs) es css) ↔ ∃ i cs, es !! i = Some e ∧ css !! i = Some cs ∧ (c, x) ∈ cs) as Hin.
  { intros e c x. rewrite elem_of_list_In in_concat. split.
    - intros (l & H1%elem_of_list_In & H2%elem_of_list_In). apply elem_of_list_lookup in H1 as (i & H1). apply lookup_zip_with_Some in H1 as (e' & cs & -> & He & Hc).
      apply elem_of_list_fmap in H2 as ([c' x'] & [= -> -> ->] & H2). by exists i, cs.
    - intros (i & cs & H1 & H2 & H3). exists ((λ p, (e, p.1, p.2)) <$> cs). split; apply elem_of_list_In.
      + apply elem_of_list_lookup. exists i. apply lookup_zip_with_Some. by exists e, cs.
      + apply elem_of_list_fmap. by exists (c, x). }
  assert (held w ≡ₚ concat (zip_with (λ e cs, (λ p, (e, p.1, p.2)) <$> cs) es css)) as Hp.
  { apply NoDup_Permutation; [destruct Hok as [[R HR] _]; by eapply held_nodup| |].
    - clear -Hnd Hlen' Hndc. revert css Hlen' Hndc. induction Hnd as [|e es Hn Hnd IH]; intros [|cs css] Hlen Hndc; [constructor|done|done|]. apply Forall_cons in Hndc as [Hc Hndc]. cbn. apply NoDup_app. split; [|split].
      + apply (NoDup_fmap_1 (λ x : ecsid * ecsid * value, x.1.2)). by rewrite -list_fmap_compose.
      + intros y (p & -> & _)%elem_of_list_fmap H. apply elem_of_list_In, in_concat in H as (l & H1%elem_of_list_In & H2%elem_of_list_In).
        apply elem_of_list_lookup in H1 as (i & H1). apply lookup_zip_with_Some in H1 as (e' & cs' & -> & He & _). apply elem_of_list_fmap in H2 as (p' & [= -> _ _] & _). by apply Hn; eapply elem_of_list_lookup_2.
      + apply IH; [by injection Hlen|done].
    - intros [[e0 c0] x0]. by rewrite held_holds Hin (Hh e0 c0 x0). }
  assert (cells w ≡ₚ concat css) as Hc.
  { rewrite /cells Hp. clear -Hlen'. revert css Hlen'. induction es as [|e es IH]; intros [|cs css] Hlen; [done..|]. cbn [zip_with concat]. rewrite fmap_app IH; [|by injection Hlen]. f_equiv.
    rewrite -list_fmap_compose. clear. induction cs as [|[c x] cs IH]; [done|]. cbn. by f_equiv. }
  rewrite /dropping_sized /dropping_all Hc. clear. induction css as [|cs css IH]; [done|]. cbn [concat]. rewrite filter_app bind_app IH bind_cons. done.
Qed.
Lemma drop_table w es ls : reachable_world w → NoDup es → length es = length ls → Forall (λ l, NoDup l.*1) ls →
  (∀ l t, l ∈ ls → t ∈ l.*1 → ∃ c, type_id w t c ∧ lives w c) → tabulates w es ls →
  ∃ ev, world_drop w = Some ev ∧ ev ≡ₚ ls ≫= drops_of.
Proof.
  intros Hrw Hnd Hlen Hls Hty Htab. pose proof (reachable_world_ok _ Hrw) as Hok.
  assert (∀ l, (∀ t, t ∈ l.*1 → ∃ c, type_id w t c ∧ lives w c) → NoDup l.*1 →
    ∃ cs, Forall2 (λ p q, type_id w p.1 q.1 ∧ p.2 = q.2) l cs ∧ NoDup cs.*1 ∧ (filter (λ p : ecsid * value, p.2 ≠ []) cs ≫= λ p, dropping w p.1 p.2) = drops_of l) as Hone.
  { clear -Hok. induction l as [|[t x] l IH]; intros Hty Hnd; [by exists []; split; [constructor|split; [constructor|]]|].
    apply NoDup_cons in Hnd as [Hn Hnd]. destruct IH as (cs & Hcs & Hndc & Hd); [intros t' H; apply Hty; by right|done|].
    destruct (Hty t) as (c & Hc & Hl); [by left|]. exists ((c, x) :: cs). split; [by constructor|]. split.
    - cbn. constructor; [|done]. intros ([c' x2] & -> & Hin)%elem_of_list_fmap. apply elem_of_list_lookup_1 in Hin as [i Hi]. destruct (Forall2_lookup_r _ _ _ _ _ Hcs Hi) as ([t' x3] & Hi' & Hc' & _). cbn in *.
      apply Hn. apply elem_of_list_fmap. exists (t', x3). split; [|by eapply elem_of_list_lookup_2]. cbn. destruct Hok as [[R HR] _]. by eapply (wi_types_inj _ _ HR).
    - rewrite /drops_of in Hd |- *. rewrite bind_cons filter_cons. cbn [fst snd]. rewrite -Hd. case_decide as D1; case_decide as D2; [by rewrite D2 in D1| |done|tauto]. rewrite bind_cons. cbn [fst snd]. f_equal.
      destruct (typed_stored w t c Hok Hc Hl) as [_ Hr]. rewrite /dropping /dtor. rewrite /recorded in Hr. destruct (get_entity_meta c w) as [[m|]| | |]; [|done..]. by rewrite Hr. }
  assert (∃ css, Forall2 (λ l cs, Forall2 (λ p q, type_id w p.1 q.1 ∧ p.2 = q.2) l cs ∧ NoDup cs.*1 ∧ (filter (λ p : ecsid * value, p.2 ≠ []) cs ≫= λ p, dropping w p.1 p.2) = drops_of l) ls css) as [css Hcss].
  { clear -Hone Hty Hls. induction ls as [|l ls IH]; [by exists []|]. apply Forall_cons in Hls as [Hl Hls]. destruct IH as [css Hcss]; [done|intros l' t H; apply Hty; by right|].
    destruct (Hone l) as (cs & Hcs); [intros t; apply Hty; by left|done|]. exists (cs :: css). by constructor. }
  destruct (drop_ids w es css Hrw Hnd) as (ev & E & Hev).
  - rewrite Hlen. by eapply Forall2_length.
  - apply Forall_lookup. intros i cs Hi. destruct (Forall2_lookup_r _ _ _ _ _ Hcss Hi) as (l & _ & _ & H & _). done.
  - intros e0 c0 x0. rewrite (Htab e0 c0 x0). split.
    + intros (i & l & t & H1 & H2 & H3 & H4). destruct (Forall2_lookup_l _ _ _ _ _ Hcss H2) as (cs & Hi & Hcs & _). exists i, cs. split; [done|]. split; [done|].
      apply elem_of_list_lookup_1 in H3 as [j Hj]. destruct (Forall2_lookup_l _ _ _ _ _ Hcs Hj) as ([c1 x1] & Hj' & Hc1 & Hx). cbn in *. subst x1. rewrite /type_id in H4, Hc1. rewrite H4 in Hc1. injection Hc1 as <-. by eapply elem_of_list_lookup_2.
    + intros (i & cs & H1 & H2 & H3). destruct (Forall2_lookup_r _ _ _ _ _ Hcss H2) as (l & Hi & Hcs & _).
      apply elem_of_list_lookup_1 in H3 as [j Hj]. destruct (Forall2_lookup_r _ _ _ _ _ Hcs Hj) as ([t x1] & Hj' & Hc1 & Hx). cbn in *. subst x1. exists i, l, t. split; [done|]. split; [done|]. split; [by eapply elem_of_list_lookup_2|done].
  - exists ev. split; [done|]. rewrite Hev. clear -Hcss. induction Hcss as [|l cs ls css (_ & _ & Hd) _ IH]; [done|]. rewrite !bind_cons IH Hd. done.
Qed.
(** ** The whole programs *)
Lemma in_sess_done {A} (m : M sess A) s a s' ev it : m s = Done a s' ev → in_sess m (FSess s it) = Done a (FSess s' it) ev.
Proof. intros H. rewrite /in_sess /zoom. cbn. by rewrite H. Qed.
Lemma iter_bench_run ls ps g m : Forall (λ l, args_ok l ∧ NoDup l.*1) ls → Forall param_wf ps → Forall param_tame ps → ps ≠ [] → unshared ps → writes_fit ps g → all_named ps ls →
  roomy [] world_new ls →
  ∃ es N, length es = length ls ∧ NoDup es ∧ ∀ fuel, N < fuel → ∃ s, iter_bench ls ps g fuel m (FSess sess_new ∅) = Done es (FSess s ∅) [] ∧
    (∀ e, e ∈ es → id_wf e ∧ lives (ss_world s) e ∧ stored (ss_world s) e) ∧
    (∀ l t, l ∈ ls → t ∈ l.*1 → ∃ c, type_id (ss_world s) t c ∧ lives (ss_world s) c) ∧
    tabulates (ss_world s) es (zip_with (λ e, Nat.iter m (updated ps g e)) es ls) ∧
    ∃ ev, world_drop (ss_world s) = Some ev ∧ ev ≡ₚ zip_with (λ e, Nat.iter m (updated ps g e)) es ls ≫= drops_of.
Proof.
  intros Hls Hwf Htame Hne Hun Hfit Hnamed Hroom.
  destruct (spawn_all_run ls [] sess_new) as (es & h & w & E & Hp & Hst & Hcalls & _ & Hlen); [constructor|constructor| |done|].
  { eapply Forall_impl; [exact Hls|]. intros l [H1 H2]. split; [done|]. split; [done|]. intros t c _ Hc. done. }
  cbn [app] in Hst. set (s1 := Sess w (ss_open sess_new)) in *. destruct Hp as (P1 & P2 & P3 & P4 & P5 & P6 & P7 & P8).
  assert (tabulates w es ls) as Htab.
  { intros e c x. rewrite P4. split; [|by right]. intros [(k & i & a & j & u & Ha & _)|H]; [by rewrite lookup_nil in Ha|done]. }
  assert (Forall (λ l, NoDup l.*1) ls) as Hnd by (eapply Forall_impl; [exact Hls|]; by intros l [_ ?]).
  assert (reachable_world w) as Hrw. { exists s1. split; [by exists h|]. split; [done|constructor]. }
  pose proof (reachable_world_ok _ Hrw) as Hok.
  assert (closed_by h s1) as Hcl.
  { split; [done|]. split; [|split; [split|constructor]].
    - intros i Hi. rewrite Hcalls in Hi. by apply elem_of_list_fmap in Hi as (? & ? & _).
    - intros i Hi. rewrite Hcalls in Hi. by apply elem_of_list_fmap in Hi as (? & ? & _).
    - intros o r ev Hi. assert (o ∈ calls_of h) as Ho by (exact (elem_of_list_fmap_1 fst _ _ (elem_of_list_fmap_1 fst _ _ Hi))).
      rewrite Hcalls in Ho. apply elem_of_list_fmap in Ho as (? & -> & _). by intros []. }
  assert (types_in_use (ss_world s1) ps) as Huse.
  { intros p t Hin Ht. destruct (Hnamed p t Hin Ht) as (l & Hl & ([t' x] & -> & Hx)%elem_of_list_fmap). destruct (P7 l t' Hl) as (c & Hc & _); [apply elem_of_list_fmap; by exists (t', x)|].
    exists c. split; [done|]. apply elem_of_list_lookup_1 in Hl as [i Hi]. destruct (lookup_lt_is_Some_2 es i) as [e He]; [rewrite P1; by eapply lookup_lt_Some|].
    assert (holds w e c x) as (k & i' & a & j & u & H1 & _ & H2 & _) by (apply Htab; by exists i, l, t'). by exists k, a, j, u. }
  destruct (runs_update ps g h s1 m Hwf Htame Hne Hun Hfit Hcl Huse) as (N & HN).
  exists es, N. split; [done|]. split; [done|]. intros fuel Hf. destruct (HN fuel Hf) as (l' & s & E2 & (Hst' & _ & _ & Hop') & Hn). exists s.
  split. { rewrite /iter_bench. rewrite (bind_done_nil _ _ _ _ _ (in_sess_done _ _ _ _ _ _ E)) (bind_done_nil _ _ _ _ _ E2). done. }
  destruct (tabulates_steps ps g es m Hun P2 w (ss_world s) ls) as (T & L1 & L2 & L3); [|done|done|by intros e (_ & _ & _ & ?)%P3| |done|done|].
  { intros t t' c H1 H2. destruct Hok as [[R HR] _]. by eapply (wi_types_inj _ _ HR). }
  { intros l t H1 H2. destruct (P7 l t H1 H2) as (c & Hc & _). by exists c. }
  assert (∀ l t, l ∈ ls → t ∈ l.*1 → ∃ c, type_id (ss_world s) t c ∧ lives (ss_world s) c) as Hty.
  { intros l t H1 H2. destruct (P7 l t H1 H2) as (c & Hc & Hl). exists c. split; [by apply L3|]. apply L1; [|done]. by eapply (typed_wf w). }
  split. { intros e (H1 & _ & H2 & H3)%P3. split; [done|]. split; [by apply L1|by apply L2]. }
  split; [done|]. split; [done|]. rewrite -/(after_runs m ps g es ls) in T |- *.
  apply (drop_table _ es); [exists s; split; [by exists l'|done]|done|by rewrite after_runs_length| | |done].
  - apply Forall_forall. intros l (l0 & Hin & ->)%after_runs_elem. by apply (proj1 (Forall_forall _ _) Hnd).
  - intros l t (l0 & Hin & ->)%after_runs_elem. by apply Hty.
Qed.
(** simple_iter and simple_large_iter: 10000 entities alike. *)
Lemma iter_10000 l ps g m : args_ok l → NoDup l.*1 → length l ≤ 8 → macro_bytes l ≤ 2000 → Forall param_wf ps → Forall param_tame ps → ps ≠ [] → unshared ps → writes_fit ps g →
  (∀ p t, p ∈ ps → param_ty p = Some t → t ∈ l.*1) →
  ∃ es N, length es = N.to_nat 10000 ∧ NoDup es ∧ ∀ fuel, N < fuel → ∃ s, iter_bench (replicate (N.to_nat 10000) l) ps g fuel m (FSess sess_new ∅) = Done es (FSess s ∅) [] ∧
    ∀ e c x, holds (ss_world s) e c x ↔ e ∈ es ∧ ∃ t, (t, x) ∈ Nat.iter m (updated ps g e) l ∧ type_id (ss_world s) t c.
Proof.
  intros H1 H2 H3 H4 H5 H6 H7 H8 H9 H10.
  assert (∀ k, sum_list_with macro_ids (replicate k l) = k * macro_ids l) as HI. { induction k as [|k IH]; [done|]. cbn [replicate sum_list_with]. rewrite IH. lia. }
  assert (∀ k, sum_list_with macro_bytes (replicate k l) = k * macro_bytes l) as HB. { induction k as [|k IH]; [done|]. cbn [replicate sum_list_with]. rewrite IH. lia. }
  destruct (iter_bench_run (replicate (N.to_nat 10000) l) ps g m) as (es & N & E1 & E2 & E3); [by apply Forall_replicate|done..| | |].
  - intros p t Hp Ht. exists l. split; [|by eapply H10]. apply elem_of_replicate. split; [done|]. lia.
  - split; [|split]; cbn [calls_of fmap list_fmap sum_list_with]; rewrite ?HI ?HB ?replicate_length ?Nat.add_0_l.
    + rewrite /macro_ids. rewrite Nat2N.inj_mul N2Nat.id. change (2 ^ 32)%N with 4294967296%N. lia.
    + rewrite Nat2N.inj_mul N2Nat.id. rewrite /byte_limit. change (2 ^ 60)%N with 1152921504606846976%N. lia.
    + change (length (w_archs world_new)) with 0. rewrite Nat2N.inj_add N2Nat.id. by vm_compute.
  - rewrite replicate_length in E1. exists es, N. split; [done|]. split; [done|]. intros fuel Hf. destruct (E3 fuel Hf) as (s & E & _ & _ & T & _). exists s. split; [done|].
    intros e c x. rewrite (T e c x). split.
    + intros (i & l' & t & Hi & Hl & Hin & Ht). split; [by eapply elem_of_list_lookup_2|]. apply lookup_zip_with_Some in Hl as (e' & l0 & -> & Hi' & Hl0). rewrite Hi in Hi'. injection Hi' as <-.
      apply lookup_replicate in Hl0 as [-> _]. by exists t.
    + intros ([i Hi]%elem_of_list_lookup_1 & t & Hin & Ht). exists i, (Nat.iter m (updated ps g e) l), t. split; [done|]. split; [|done]. apply lookup_zip_with_Some. exists e, l. split; [done|]. split; [done|].
      apply lookup_replicate. split; [done|]. apply lookup_lt_Some in Hi. by rewrite -E1.
Qed.
