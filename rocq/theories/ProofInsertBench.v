(** * The insert benches (C73) *)
From Verif Require Import ProofBase SpecSmall World History ProofEntities ProofBitset ProofArrayVec ProofUVec.
From Verif Require Export SpecInsertBench ProofIterBench ProofConsist.

Lemma elem_type_set l t : t ∈ type_set l ↔ t ∈ l.*1.
Proof. apply elem_of_list_to_set. Qed.
Lemma kind_later w w' L l : (∀ t, t ∈ l.*1 → ∃ c, type_id w t c) → (∀ t c, type_id w t c → type_id w' t c) → kind_of w L (type_set l) → kind_of w' L (type_set l).
Proof.
  intros Hty Hk H c. rewrite (H c). split; intros (t & H1 & H2); exists t; (split; [done|]); [by apply Hk|]. apply elem_type_set in H1. destruct (Hty t H1) as (c' & Hc').
  pose proof (Hk _ _ Hc') as H3. rewrite /type_id in H2, H3. rewrite H2 in H3. by injection H3 as <-.
Qed.
Lemma spawned_kind w w' e l L : spawned_with w w' e l → (∀ c, c ∈ L ↔ has w' e c) → kind_of w' L (type_set l).
Proof.
  intros (S1 & S2 & S3 & S4 & S5 & S6 & _) H c. rewrite (H c). split.
  - intros (x & (t & Hin & Hc)%S6). exists t. split; [|done]. apply elem_type_set, elem_of_list_fmap. by exists (t, x).
  - intros (t & ([t' x] & -> & Hin)%elem_type_set%elem_of_list_fmap & Hc). destruct (S5 t' x Hin) as (c' & Hc' & _ & Hh). rewrite /type_id in Hc, Hc'. rewrite Hc' in Hc. injection Hc as <-. by exists x.
Qed.
(** ** Which archetypes are made *)
Lemma spawn_all_kinds ls : ∀ h s, steps sess_new h s → Forall (λ q, q = None) (ss_open s) →
  Forall (λ l, args_ok l ∧ NoDup l.*1 ∧ types_live (ss_world s) l) ls → roomy h (ss_world s) ls →
  ∃ es h' w' K, spawn_all ls s = Done es (Sess w' (ss_open s)) [] ∧ populated (ss_world s) w' ls es ∧ steps sess_new (h ++ h') (Sess w' (ss_open s)) ∧
    kinds w' = kinds (ss_world s) ++ K ∧ ∀ L, L ∈ K → L = [] ∨ ∃ l, l ∈ ls ∧ kind_of w' L (type_set l).
Proof.
  induction ls as [|l ls IH]; intros h s Hst Hop Hls Hroom.
  - exists [], [], (ss_world s), []. rewrite !app_nil_r sess_eta. split; [done|]. split; [apply populated_nil|]. split; [done|]. split; [done|]. by intros L ?%elem_of_nil.
  - pose proof (spawn_all_run (l :: ls) h s Hst Hop Hls Hroom) as (es0 & h0 & w0 & E0 & Hp0 & Hst0 & _).
    apply Forall_cons in Hls as [(Hargs & Hnd & Hlive) Hls]. destruct Hroom as (R1 & R2 & R3).
    rewrite -/(sum_list_with macro_ids) -/(sum_list_with macro_bytes) in R1, R2. cbn [sum_list_with length] in R1, R2, R3.
    assert (roomy h (ss_world s) [l]) as Hroom1. { split; [|split]; cbn [sum_list_with length]; lia. }
    destruct (spawn_one h s l Hst Hop Hargs Hnd Hlive Hroom1) as (e & w1 & E1 & Hsp & Hst1 & Hlen & Hsto & Hno & Hwf).
    destruct (IH _ _ Hst1 Hop) as (es & h2 & w2 & K & E2 & Hp & Hst2 & HK & HL); cbn [ss_world ss_open] in *.
    { eapply Forall_impl; [exact Hls|]. intros l0 (H1 & H2 & H3). split; [done|]. split; [done|].
      intros t c Ht Hc. destruct Hsp as (S1 & S2 & S3 & S4 & S5 & S6 & S7 & S8 & S9 & S10).
      destruct (decide (t ∈ l.*1)) as [([t' x] & -> & Hin)%elem_of_list_fmap|Hn].
      - destruct (S5 t' x Hin) as (c' & Hc' & Hl & _). rewrite /type_id in Hc, Hc'. rewrite Hc' in Hc. by injection Hc as <-.
      - apply S9 in Hc; [|done]. pose proof (H3 _ _ Ht Hc) as Hl. destruct (decide (c = e)) as [->|]; [done|]. apply S8; [|done|by left]. eapply Hwf. by apply S10. }
    { destruct (macro_sum_bytes l) as [_ Hb2]. split; [|split].
      - rewrite /calls_of !fmap_app sum_list_with_app. cbn [fmap list_fmap fst sum_list_with]. rewrite macro_sum_ids. rewrite /calls_of in R1. lia.
      - rewrite /calls_of !fmap_app sum_list_with_app. cbn [fmap list_fmap fst sum_list_with]. rewrite Hb2. rewrite /calls_of in R2. lia.
      - lia. }
    assert (spawn_all (l :: ls) s = Done (e :: es) (Sess w2 (ss_open s)) []) as E.
    { cbn [spawn_all]. rewrite (bind_done_nil _ _ _ _ _ E1) (bind_done_nil _ _ _ _ _ E2). done. }
    rewrite E in E0. injection E0 as <- <-.
    assert (reachable s) as Hs by (by exists h). pose proof (sv_world _ (reachable_inv _ Hs)) as Hok.
    assert (made_only (ss_world s) w1 (Some e)) as (K1 & HK1 & HL1).
    { rewrite sworld_run in E1. destruct (step (spawn_macro l) (ss_world s)) as [r w' ev|r w' ev| |] eqn:Es; [|done..]. injection E1 as -> -> ->.
      eapply (step_made (ss_world s) (spawn_macro l) (RId e) w1 []); [done|by apply macro_legal| |done].
      apply macro_tame. rewrite /roomy in Hroom1. destruct Hroom1 as (_ & _ & H). change (length [l]) with 1 in H. lia. }
    exists (e :: es), h0, w2, (K1 ++ K). split; [done|]. split; [done|]. split; [done|]. split; [by rewrite HK HK1 app_assoc|].
    destruct Hp as (_ & _ & _ & _ & _ & P6 & _).
    intros L [Hin|Hin]%elem_of_app.
    + destruct (HL1 L Hin) as (_ & [->|(e' & [= <-] & Hc)]); [by left|]. right. exists l. split; [by left|]. eapply kind_later; [|exact P6|by eapply spawned_kind].
      intros t ([t' x] & -> & Ht)%elem_of_list_fmap. destruct Hsp as (_ & _ & _ & _ & S5 & _). destruct (S5 t' x Ht) as (c & Hc' & _). by exists c.
    + destruct (HL L Hin) as [->|(l' & H1 & H2)]; [by left|]. right. exists l'. split; [by right|done].
Qed.
(** Every entity has an archetype for its types. *)
Lemma populated_kinds w w' ls es l : WOk w' → (∀ e c x, ¬ lives w e → ¬ holds w e c x) → populated w w' ls es → l ∈ ls → ∃ L, L ∈ kinds w' ∧ kind_of w' L (type_set l).
Proof.
  intros Hok Hno (P1 & P2 & P3 & P4 & P5 & P6 & P7 & P8) [i Hi]%elem_of_list_lookup_1. destruct (lookup_lt_is_Some_2 es i) as [e He]; [rewrite P1; by eapply lookup_lt_Some|].
  destruct (P3 e) as (_ & Hnl & _ & Hst); [by eapply elem_of_list_lookup_2|]. destruct (stored_kind w' e Hok Hst) as (L & HL & Hc). exists L. split; [done|]. intros c. rewrite (Hc c). split.
  - intros (x & [Hx|(i' & l' & t & H1 & H2 & H3 & H4)]%P4); [by destruct (Hno e c x)|]. pose proof (NoDup_lookup _ _ _ _ P2 H1 He) as ->. rewrite Hi in H2. injection H2 as <-.
    exists t. split; [|done]. apply elem_type_set, elem_of_list_fmap. by exists (t, x).
  - intros (t & ([t' x] & -> & Hin)%elem_type_set%elem_of_list_fmap & Ht). exists x. apply P4. right. by exists i, l, t'.
Qed.
Lemma spawn_kinds_done h s ls : steps sess_new h s → Forall (λ q, q = None) (ss_open s) →
  Forall (λ l, args_ok l ∧ NoDup l.*1 ∧ types_live (ss_world s) l) ls → roomy h (ss_world s) ls →
  ∃ es s' K, spawn_all ls s = Done es s' [] ∧ kinds (ss_world s') = kinds (ss_world s) ++ K ∧
    (∀ L, L ∈ K → L = [] ∨ ∃ l, l ∈ ls ∧ kind_of (ss_world s') L (type_set l)) ∧
    (∀ l, l ∈ ls → ∃ L, L ∈ kinds (ss_world s') ∧ kind_of (ss_world s') L (type_set l)).
Proof.
  intros H1 H2 H3 H4. destruct (spawn_all_kinds ls h s H1 H2 H3 H4) as (es & h' & w' & K & E & Hp & Hst & HK & HL). exists es, (Sess w' (ss_open s)), K. split; [done|]. split; [done|]. split; [done|].
  intros l Hl. eapply populated_kinds; [|..|exact Hp|exact Hl].
  - apply (sv_world _ (reachable_inv (Sess w' (ss_open s)) (ex_intro _ _ Hst))).
  - intros e c x Hn (k & i & a & j & u & Ha & Hai & _). apply Hn, (co_live _ (ok_consistent _ (sv_world _ (reachable_inv s (ex_intro _ _ H1))))). by exists k, i, a.
Qed.
(** ** How many *)
Definition types_of (w : world) (L : list ecsid) : gset ty := dom (filter (λ p : ty * ecsid, p.2 ∈ L) (w_types w)).
Lemma elem_types_of w L t : t ∈ types_of w L ↔ ∃ c, type_id w t c ∧ c ∈ L.
Proof. rewrite /types_of elem_of_dom. split; [intros [c [H1 H2]%map_filter_lookup_Some]; by exists c|]. intros (c & H1 & H2). exists c. by apply map_filter_lookup_Some. Qed.
Lemma types_of_kind w L X : one_to_one w → (∀ t, t ∈ X → ∃ c, type_id w t c) → kind_of w L X → types_of w L = X.
Proof.
  intros Hinj Hty H. apply set_eq. intros t. rewrite elem_types_of. split.
  - intros (c & Hc & (t' & Ht' & Hc')%H). by rewrite (Hinj _ _ _ Hc Hc').
  - intros Ht. destruct (Hty t Ht) as (c & Hc). exists c. split; [done|]. apply H. by exists t.
Qed.
Lemma count_kinds w ls : one_to_one w → (∀ l t, l ∈ ls → t ∈ l.*1 → ∃ c, type_id w t c) → distinct_sets w → [] ∈ kinds w →
  (∀ L, L ∈ kinds w → L = [] ∨ ∃ l, l ∈ ls ∧ kind_of w L (type_set l)) → (∀ l, l ∈ ls → ∃ L, L ∈ kinds w ∧ kind_of w L (type_set l)) →
  length (w_archs w) = size (type_sets ls).
Proof.
  intros Hinj Hty Hdis Hnil Hk1 Hk2.
  assert (∀ L, L ∈ kinds w → ∃ X, X ∈ type_sets ls ∧ kind_of w L X ∧ ∀ t, t ∈ X → ∃ c, type_id w t c) as Hk.
  { intros L HL. destruct (Hk1 L HL) as [->|(l & Hl & Hkl)].
    - exists ∅. split; [rewrite /type_sets; set_solver|]. split; [|set_solver]. intros c. split; [by intros ?%elem_of_nil|]. intros (t & ? & _). set_solver.
    - exists (type_set l). split; [|split; [done|intros t Ht%elem_type_set; by eapply Hty]]. rewrite /type_sets elem_of_union elem_of_list_to_set. right. apply elem_of_list_fmap. by exists l. }
  assert (types_of w <$> kinds w ≡ₚ elements (type_sets ls)) as Hp.
  { apply NoDup_Permutation; [|apply NoDup_elements|].
    - apply NoDup_alt. intros i j X Hi Hj. rewrite list_lookup_fmap in Hi. rewrite list_lookup_fmap in Hj. apply fmap_Some in Hi as (L & Hi & ->). apply fmap_Some in Hj as (L' & Hj & Heq).
      destruct (Hk L) as (X & _ & HX & HXt); [by eapply elem_of_list_lookup_2|]. destruct (Hk L') as (X' & _ & HX' & HXt'); [by eapply elem_of_list_lookup_2|].
      rewrite (types_of_kind _ _ _ Hinj HXt HX) (types_of_kind _ _ _ Hinj HXt' HX') in Heq. subst X'. rewrite /kinds list_lookup_fmap in Hi. rewrite /kinds list_lookup_fmap in Hj.
      apply fmap_Some in Hi as (a & Ha & ->). apply fmap_Some in Hj as (a' & Ha' & ->). apply (Hdis i j a a' Ha Ha'). intros c. by rewrite (HX c) (HX' c).
    - intros X. rewrite elem_of_elements elem_of_list_fmap. split.
      + intros (L & -> & HL). destruct (Hk L HL) as (X & H1 & H2 & H3). by rewrite (types_of_kind _ _ _ Hinj H3 H2).
      + rewrite /type_sets elem_of_union elem_of_singleton elem_of_list_to_set elem_of_list_fmap. intros [->|(l & -> & Hl)].
        * exists []. split; [|done]. symmetry. apply set_eq. intros t. rewrite elem_types_of. split; [|set_solver]. by intros (c & _ & ?%elem_of_nil).
        * destruct (Hk2 l Hl) as (L & H1 & H2). exists L. split; [|done]. symmetry. apply types_of_kind; [done| |done]. intros t Ht%elem_type_set. by eapply Hty. }
  apply Permutation_length in Hp. rewrite fmap_length /kinds fmap_length in Hp. exact Hp.
Qed.
(** ** The benches *)
Lemma insert_world ls : ls ≠ [] → Forall (λ l, args_ok l ∧ NoDup l.*1) ls → roomy [] world_new ls →
  ∃ es s, spawn_all ls sess_new = Done es s [] ∧ tabulates (ss_world s) es ls ∧ length es = length ls ∧ NoDup es ∧ length (w_archs (ss_world s)) = size (type_sets ls) ∧
    ∃ ev, world_drop (ss_world s) = Some ev ∧ ev ≡ₚ ls ≫= drops_of.
Proof.
  intros Hne Hls Hroom. assert (Forall (λ l, args_ok l ∧ NoDup l.*1 ∧ types_live (ss_world sess_new) l) ls) as Hls'.
  { eapply Forall_impl; [exact Hls|]. intros l [H1 H2]. split; [done|]. split; [done|]. intros t c _ Hc. done. }
  destruct (spawn_all_kinds ls [] sess_new) as (es & h & w & K & E & Hp & Hst & HK & HL); [constructor|constructor|done|done|].
  cbn [app] in Hst. set (s := Sess w (ss_open sess_new)) in *. exists es, s. split; [done|].
  assert (reachable_world w) as Hrw. { exists s. split; [by exists h|]. split; [done|constructor]. }
  pose proof (reachable_world_ok _ Hrw) as Hok.
  assert (∀ e c x, ¬ lives world_new e → ¬ holds world_new e c x) as Hno. { intros e c x _ (k & i & a & j & u & Ha & _). by rewrite lookup_nil in Ha. }
  pose proof (λ l, populated_kinds _ _ _ _ l Hok Hno Hp) as Hk2.
  pose proof Hp as (P1 & P2 & P3 & P4 & P5 & P6 & P7 & P8).
  assert (tabulates w es ls) as Htab.
  { intros e c x. rewrite P4. split; [|by right]. intros [(k & i & a & j & u & Ha & _)|H]; [by rewrite lookup_nil in Ha|done]. }
  split; [done|]. split; [done|]. split; [done|]. split.
  - apply count_kinds.
    + intros t t' c H1 H2. destruct Hok as [[R HR] _]. by eapply (wi_types_inj _ _ HR).
    + intros l t H1 H2. destruct (P7 l t H1 H2) as (c & Hc & _). by exists c.
    + by apply ok_distinct.
    + destruct ls as [|l ls]; [done|]. destruct (Hk2 l) as (L & HL' & _); [by left|]. destruct Hok as [[R HR] _]. change (ss_world s) with w. rewrite /kinds in HL' |- *. apply elem_of_list_fmap in HL' as (a & _ & Ha).
      destruct (w_archs w) as [|a0 as_] eqn:Ea; [by apply elem_of_nil in Ha|]. assert (w_archs w !! 0 = Some a0) as H0 by (by rewrite Ea).
      assert (columns a0 = []) as Hc. { rewrite (columns_ids _ _ _ _ HR H0). apply (wi_zero _ _ HR). rewrite /arch_ids list_lookup_fmap H0. done. }
      rewrite fmap_cons Hc. by left.
    + intros L HL'. rewrite HK in HL'. apply HL. by cbn in HL'.
    + exact Hk2.
  - apply (drop_table _ es); [done|done|done| | |done].
    + eapply Forall_impl; [exact Hls|]. by intros l [_ ?].
    + intros l t H1 H2. by eapply P7.
Qed.
Lemma insert_run_ok ls : Forall (λ l, args_ok l ∧ NoDup l.*1) ls → roomy [] world_new ls → ∃ ev, insert_run ls () = Done () () ev ∧ ev ≡ₚ ls ≫= drops_of.
Proof.
  intros Hls Hroom. destruct (decide (ls = [])) as [->|Hne]; [exists []; split; [by vm_compute|done]|].
  destruct (insert_world ls Hne Hls Hroom) as (es & s & E & _ & _ & _ & _ & ev & Ed & Hev). exists ev. split; [|done]. by rewrite /insert_run E Ed.
Qed.
Lemma insert_runs_ok ls m : Forall (λ l, args_ok l ∧ NoDup l.*1) ls → roomy [] world_new ls → ∃ ev, insert_runs ls m () = Done () () ev ∧ ev ≡ₚ concat (replicate m (ls ≫= drops_of)).
Proof.
  intros Hls Hroom. destruct (insert_run_ok ls Hls Hroom) as (ev & E & Hev). induction m as [|m (ev' & E' & Hev')]; [by exists []|].
  exists (ev ++ ev'). split; [|cbn [replicate concat]; by rewrite Hev Hev']. cbn [insert_runs]. by rewrite (bind_done _ _ _ _ _ _ E) E'.
Qed.
(** ** With the numbers of the code *)
Lemma sum_le {A} (f : A → nat) B xs : (∀ x, x ∈ xs → f x ≤ B) → sum_list_with f xs ≤ length xs * B.
Proof.
  induction xs as [|x xs IH]; intros H; [done|]. cbn [sum_list_with length]. pose proof (H x (elem_of_list_here _ _)). assert (sum_list_with f xs ≤ length xs * B) by (apply IH; intros y ?; apply H; by right). lia.
Qed.
Lemma alike_length {A B} (f : A → B) n ts : length (ts ≫= λ x, replicate n (f x)) = n * length ts.
Proof. induction ts as [|x ts IH]; [cbn; lia|]. rewrite bind_cons app_length replicate_length IH. cbn [length]. lia. Qed.
Lemma alike_sets l n ts : 0 < n → NoDup (l ++ ts).*1 → size (type_sets (ts ≫= λ x, replicate n (l ++ [x]))) = S (length ts).
Proof.
  intros Hn Hnd. rewrite fmap_app in Hnd. apply NoDup_app in Hnd as (_ & Hdis & Hnd).
  assert (type_sets (ts ≫= λ x, replicate n (l ++ [x])) = list_to_set (∅ :: ((λ x, type_set (l ++ [x])) <$> ts))) as ->.
  { apply set_eq. intros X. rewrite /type_sets elem_of_union elem_of_singleton !elem_of_list_to_set elem_of_cons !elem_of_list_fmap. f_equiv. split.
    - intros (k & -> & (x & Hk & Hx)%elem_of_list_bind). apply elem_of_replicate in Hk as [-> _]. by exists x.
    - intros (x & -> & Hx). exists (l ++ [x]). split; [done|]. apply elem_of_list_bind. exists x. split; [|done]. apply elem_of_replicate. split; [done|lia]. }
  rewrite size_list_to_set; [by cbn; rewrite fmap_length|].
  assert (∀ x y, x ∈ ts → y ∈ ts → x.1 ∈ type_set (l ++ [y]) → x.1 = y.1) as Hin.
  { intros x y Hx Hy H. rewrite elem_type_set fmap_app elem_of_app in H. destruct H as [H|H%elem_of_list_singleton]; [|done]. destruct (Hdis _ H). by apply elem_of_list_fmap_1. }
  assert (∀ x, x.1 ∈ type_set (l ++ [x])) as Hself. { intros x. rewrite elem_type_set fmap_app elem_of_app. right. by left. }
  apply NoDup_cons. split.
  - intros (x & Hx & _)%elem_of_list_fmap. pose proof (Hself x) as H. rewrite -Hx in H. set_solver.
  - clear Hdis. induction ts as [|x ts IH]; [constructor|]. cbn in Hnd. apply NoDup_cons in Hnd as [Hx Hnd]. rewrite fmap_cons. apply NoDup_cons. split.
    + intros (y & Heq & Hy)%elem_of_list_fmap. apply Hx. apply elem_of_list_fmap. exists y. split; [|done]. apply Hin; [by left|by right|]. rewrite -Heq. apply Hself.
    + apply IH; [done|]. intros a b Ha Hb. apply Hin; by right.
Qed.
Lemma frag_insert_run l ts n : 0 < n → ts ≠ [] → Forall (λ x, args_ok (l ++ [x])) ts → NoDup (l ++ ts).*1 → (N.of_nat (n * length ts) <= 10000)%N → length l ≤ 8 → Forall (λ x, macro_bytes (l ++ [x]) ≤ 2000) ts →
  ∃ es s, spawn_all (ts ≫= λ x, replicate n (l ++ [x])) sess_new = Done es s [] ∧ length es = n * length ts ∧ NoDup es ∧
    tabulates (ss_world s) es (ts ≫= λ x, replicate n (l ++ [x])) ∧ length (w_archs (ss_world s)) = S (length ts).
Proof.
  intros Hn Hne Hargs Hnd H1 H2 H3. set (ls := ts ≫= λ x, replicate n (l ++ [x])).
  assert (∀ k, k ∈ ls → ∃ x, x ∈ ts ∧ k = l ++ [x]) as Hls. { intros k (x & Hk & Hx)%elem_of_list_bind. apply elem_of_replicate in Hk as [-> _]. by exists x. }
  assert (length ls = n * length ts) as Hlen by apply alike_length.
  destruct (insert_world ls) as (es & s & E & T & L1 & L2 & L3 & _).
  - intros H%(f_equal length). rewrite Hlen in H. cbn [length] in H. apply Nat.mul_eq_0 in H as [?|H]; [lia|]. by destruct ts.
  - apply Forall_forall. intros k (x & Hx & ->)%Hls. split; [by apply (proj1 (Forall_forall _ _) Hargs x)|].
    rewrite !fmap_app in Hnd |- *. apply NoDup_app in Hnd as (N1 & N2 & _). apply NoDup_app. split; [done|]. split; [|apply NoDup_singleton]. intros t Ht ->%elem_of_list_singleton. apply (N2 _ Ht). by apply elem_of_list_fmap_1.
  - assert (sum_list_with macro_ids ls ≤ length ls * 10) as I1. { apply sum_le. intros k (x & Hx & ->)%Hls. rewrite /macro_ids app_length /=. lia. }
    assert (sum_list_with macro_bytes ls ≤ length ls * 2000) as I2. { apply sum_le. intros k (x & Hx & ->)%Hls. by apply (proj1 (Forall_forall _ _) H3 x). }
    rewrite -Hlen in H1. rewrite /roomy. change (sum_list_with call_ids (calls_of [])) with 0. change (sum_list_with passed_bytes (calls_of [])) with 0. rewrite !Nat.add_0_l. clearbody ls. split; [|split].
    + change (2 ^ 32)%N with 4294967296%N. lia.
    + rewrite /byte_limit. change (2 ^ 60)%N with 1152921504606846976%N. lia.
    + change (length (w_archs world_new)) with 0. pose proof (eq_refl : u32_max = 4294967295%N) as Hu. lia.
  - exists es, s. split; [done|]. split; [by rewrite L1|]. split; [done|]. split; [done|]. rewrite L3. by apply alike_sets.
Qed.
