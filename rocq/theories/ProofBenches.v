(** * Spawning many entities (C69) *)
From Verif Require Import ProofBase SpecSmall World History ProofEntities ProofBitset ProofArrayVec ProofUVec.
From Verif Require Export Benches SpecBenches ProofPlayground ProofAddRounds.

Lemma populated_nil w : populated w w [] [].
Proof.
  split; [done|]. split; [constructor|]. split; [by intros e ?%elem_of_nil|]. split.
  { intros e c x. split; [by left|]. intros [H|(i & l & t & H & _)]; [done|]. by rewrite lookup_nil in H. }
  split. { intros e _. split; [by right; left|]. intros [?%elem_of_nil|[?|(l & t & ?%elem_of_nil & _)]]; done. }
  split; [done|]. split; [by intros l t ?%elem_of_nil|]. done.
Qed.
Lemma macro_sum_ids l : call_ids (SWorld (spawn_macro l)) = macro_ids l.
Proof.
  rewrite /macro_ids. cbn. f_equal. rewrite sum_list_with_app /=.
  induction l as [|p l IH]; [done|]. cbn in *. lia.
Qed.
Lemma macro_sum_bytes l : call_bytes (SWorld (spawn_macro l)) = macro_bytes l ∧ passed_bytes (SWorld (spawn_macro l)) = macro_bytes l.
Proof.
  assert (sum_list_with bop_bytes (((λ p : ty * value, BWith p.1 p.2) <$> l) ++ [BBuild]) = macro_bytes l) as H.
  { rewrite sum_list_with_app /= Nat.add_0_r /macro_bytes. induction l as [|p l IH]; [done|]. cbn. by rewrite IH. }
  split; exact H.
Qed.
(** ** One more *)
Lemma spawn_one h s l : steps sess_new h s → Forall (λ q, q = None) (ss_open s) → args_ok l → NoDup l.*1 → types_live (ss_world s) l →
  roomy h (ss_world s) [l] →
  ∃ e w', sstep (SWorld (spawn_macro l)) s = Done (SRet (RId e)) (Sess w' (ss_open s)) [] ∧ spawned_with (ss_world s) w' e l ∧
    steps sess_new (h ++ [(SWorld (spawn_macro l), ROk (SRet (RId e)), [])]) (Sess w' (ss_open s)) ∧
    length (w_archs w') ≤ S (Nat.max 1 (length (w_archs (ss_world s)))) ∧ (∀ e0, stored (ss_world s) e0 → stored w' e0) ∧ (∀ c x, ¬ holds (ss_world s) e c x) ∧ (∀ t c, type_id w' t c → id_wf c).
Proof.
  intros Hst Hop Hargs Hnd Hlive (Hids & Hbytes & Harch). assert (reachable s) as Hs by (by exists h).
  assert (reachable_world (ss_world s)) as Hrw by (by exists s).
  assert (N.of_nat (length (w_archs (ss_world s)) + 1) <= u32_max)%N as Hroom by (change (length [l]) with 1 in Harch; lia).
  set (o := SWorld (spawn_macro l)).
  assert (sop_legal o s) as Hleg. { split; [by apply macro_legal|]. by right. }
  assert (sop_tame o s) as Htame by by apply macro_tame.
  pose proof (history_ids h s o Hst Hleg Htame) as Hid. pose proof (history_quiet h s o Hst Hleg Htame) as Hq.
  destruct (macro_sum_bytes l) as [Hb1 Hb2].
  specialize (Hid ltac:(rewrite /o macro_sum_ids; change (sum_list_with macro_ids [l]) with (macro_ids l + 0) in Hids; lia)). specialize (Hq ltac:(rewrite /o Hb1; change (sum_list_with macro_bytes [l]) with (macro_bytes l + 0) in Hbytes; lia)).
  pose proof (spawn_view _ None cm_unit _ BDrop (reachable_world_ok _ Hrw) (proj1 Hleg) Htame) as Hv. change (OSpawn None cm_unit _ BDrop) with (spawn_macro l) in Hv.
  pose proof (macro_view _ l Hrw Hargs Hroom) as Hm. rewrite /o sworld_run in Hid, Hq. rewrite /o sworld_run.
  destruct (step (spawn_macro l) (ss_world s)) as [r w' ev|r w' ev| |] eqn:E; [| |done..].
  - destruct Hm as (-> & _ & e & -> & Hsp). exists e, w'. split; [done|]. split; [done|].
    assert (sstep o s = Done (SRet (RId e)) (Sess w' (ss_open s)) []) as Eo by by rewrite /o sworld_run E.
    assert (steps sess_new (h ++ [(o, ROk (SRet (RId e)), [])]) (Sess w' (ss_open s))) as Hst' by by eapply steps_done.
    split; [done|]. split.
    2:{ split; [|split; [|intros t c Hc; eapply (typed_wf w'); [|done]; apply reachable_world_ok; exists (Sess w' (ss_open s)); split; [by eexists|done]]; intros c x (k & i & a & j & u & Ha & Hai & _); apply (proj1 (proj2 Hsp)), (co_live _ (ok_consistent _ (reachable_world_ok _ Hrw))); by exists k, i, a].
        destruct Hv as (_ & e1 & D & [= <-] & _ & _ & [(_ & _ & [Hb _] & _)|[Hn _]]).
        - intros e0 H0. apply Hb. by right; left.
        - destruct Hn. apply elem_of_app. right. by left. }
    apply (goes_archs o s (ROk (SRet (RId e))) (Sess w' (ss_open s)) [] (reachable_inv _ Hs)). done.
  - exfalso. destruct Hm as [->|(_ & [(-> & _)|[(_ & Hn)|(_ & t0 & c & Hin & Hc & Hl)]])]; [by eapply Hq|by eapply Hid|done|].
    by apply Hl, (Hlive t0 c).
Qed.
Lemma populated_cons w w1 w2 l ls e es : spawned_with w w1 e l → (∀ c x, ¬ holds w e c x) → (∀ t c, type_id w1 t c → id_wf c) → (∀ e0, stored w1 e0 → stored w2 e0) →
  populated w1 w2 ls es → populated w w2 (l :: ls) (e :: es).
Proof.
  intros (S1 & S2 & S3 & S4 & S5 & S6 & S7 & S8 & S9 & S10) Hno Hwf Hsto (P1 & P2 & P3 & P4 & P5' & P6 & P7 & P8).
  assert (∀ e0, id_wf e0 → lives w1 e0 → lives w2 e0) as P5 by (intros e0 H1 H2; apply P5'; tauto).
  assert (∀ e0, id_wf e0 → lives w e0 → lives w1 e0) as Hl.
  { intros e0 H1 H2. destruct (decide (e0 = e)) as [->|]; [done|]. apply S8; [done..|by left]. }
  assert (e ∉ es) as Hne. { intros (_ & H & _)%P3. done. }
  split; [by cbn; f_equal|]. split; [by constructor|]. split.
  { intros e0 [->|H]%elem_of_cons; [|destruct (P3 e0 H) as (H1 & H2 & H3 & H4); split; [done|]; split; [|done]; by intros ?%Hl].
    split; [done|]. split; [done|]. split; [by apply P5|]. by apply Hsto. }
  split.
  { intros e0 c x. rewrite P4. split.
    - intros [H|(i & l0 & t & H1 & H2 & H3 & H4)]; [|right; by exists (S i), l0, t].
      destruct (decide (e0 = e)) as [->|Hn]; [|left; by apply S7]. destruct (S6 c x H) as (t & H1 & H2). right. exists 0, l, t. split; [done|]. split; [done|]. split; [done|]. by apply P6.
    - intros [H|([|i] & l0 & t & H1 & H2 & H3 & H4)].
      + left. destruct (decide (e0 = e)) as [->|Hn]; [|by apply S7]. by destruct (Hno c x).
      + injection H1 as <-. injection H2 as <-. left. destruct (S5 t x H3) as (c1 & Hc1 & _ & Hh). pose proof (P6 _ _ Hc1) as Hc2. rewrite /type_id in Hc2, H4. rewrite Hc2 in H4. by injection H4 as <-.
      + right. by exists i, l0, t. }
  split.
  { intros e0 Hw0. rewrite (P5' e0 Hw0) elem_of_cons. split.
    - intros [H|[H|(l0 & t & H1 & H2 & H3 & H4)]]; [by left; right| |right; right; exists l0, t; split; [by right|]; split; [done|]; split; [done|]; intros c Hc; by eapply H4, S10].
      destruct (decide (e0 = e)) as [->|Hn]; [by left; left|]. apply S8 in H as [H|(t & H1 & H2 & H3)]; [by right; left| |done|done].
      right; right. exists l, t. split; [by left|]. split; [done|]. split; [by apply P6|done].
    - intros [[->|H]|[H|(l0 & t & H1 & H2 & H3 & H4)]]; [by right; left|by left|right; left; by apply Hl|].
      destruct (w_types w1 !! t) as [c1|] eqn:Ec.
      + right; left. pose proof (P6 t c1 Ec) as Hc1. rewrite /type_id in H3, Hc1. rewrite Hc1 in H3. injection H3 as ->.
        destruct (decide (e0 = e)) as [->|Hn]; [done|]. apply S8; [done..|]. right. exists t. split; [|split; [exact Ec|done]].
        destruct (decide (t ∈ l.*1)) as [|Hnt]; [done|]. apply (S9 t Hnt) in Ec. by destruct (H4 e0).
      + right; right. exists l0, t. split; [|split; [done|split; [done|]]].
        * apply elem_of_cons in H1 as [->|]; [|done]. apply elem_of_list_fmap in H2 as ([t' x] & -> & Hin). destruct (S5 t' x Hin) as (c & Hc & _). cbn in Ec. rewrite /type_id in Hc. congruence.
        * intros c Hc. rewrite /type_id in Hc. congruence. }
  split; [by intros t c H; apply P6, S10|]. split.
  - intros l0 t [->|Hin]%elem_of_cons Ht; [|by eapply P7]. apply elem_of_list_fmap in Ht as ([t' x] & -> & Ht).
    destruct (S5 t' x Ht) as (c & Hc & Hlc & Hh). exists c. split; [by apply P6|]. apply P5; [by eapply Hwf|done].
  - intros t c Hn. rewrite P8; [|intros l0 H0; apply Hn; by right]. apply S9. apply Hn. by left.
Qed.
(** ** All of them *)
Lemma spawn_all_run ls : ∀ h s, steps sess_new h s → Forall (λ q, q = None) (ss_open s) →
  Forall (λ l, args_ok l ∧ NoDup l.*1 ∧ types_live (ss_world s) l) ls → roomy h (ss_world s) ls →
  ∃ es h' w', spawn_all ls s = Done es (Sess w' (ss_open s)) [] ∧ populated (ss_world s) w' ls es ∧ steps sess_new (h ++ h') (Sess w' (ss_open s)) ∧
    calls_of h' = (λ l, SWorld (spawn_macro l)) <$> ls ∧ (∀ e0, stored (ss_world s) e0 → stored w' e0) ∧
    length (w_archs w') ≤ length ls + Nat.max 1 (length (w_archs (ss_world s))).
Proof.
  induction ls as [|l ls IH]; intros h s Hst Hop Hls Hroom.
  - exists [], [], (ss_world s). rewrite app_nil_r sess_eta. split; [done|]. split; [apply populated_nil|]. split; [done|]. split; [done|]. split; [done|]. cbn; lia.
  - apply Forall_cons in Hls as [(Hargs & Hnd & Hlive) Hls]. destruct Hroom as (R1 & R2 & R3).
    rewrite -/(sum_list_with macro_ids) -/(sum_list_with macro_bytes) in R1, R2. cbn [sum_list_with length] in R1, R2, R3.
    destruct (spawn_one h s l Hst Hop Hargs Hnd Hlive) as (e & w1 & E1 & Hsp & Hst1 & Hlen & Hsto & Hno & Hwf).
    { split; [|split]; cbn [sum_list_with length]; lia. }
    destruct (IH _ _ Hst1 Hop) as (es & h2 & w2 & E2 & Hp & Hst2 & Hc2 & Hsto2 & Hlen2); cbn [ss_world ss_open] in *.
    { eapply Forall_impl; [exact Hls|]. intros l0 (H1 & H2 & H3). split; [done|]. split; [done|].
      intros t c Ht Hc. destruct Hsp as (S1 & S2 & S3 & S4 & S5 & S6 & S7 & S8 & S9 & S10).
      destruct (decide (t ∈ l.*1)) as [([t' x] & -> & Hin)%elem_of_list_fmap|Hn].
      - destruct (S5 t' x Hin) as (c' & Hc' & Hl & _). rewrite /type_id in Hc, Hc'. rewrite Hc' in Hc. by injection Hc as <-.
      - apply S9 in Hc; [|done]. pose proof (H3 _ _ Ht Hc) as Hl. destruct (decide (c = e)) as [->|]; [done|]. apply S8; [|done|by left]. eapply Hwf. by apply S10. }
    { destruct (macro_sum_bytes l) as [_ Hb2]. split; [|split].
      - rewrite /calls_of !fmap_app sum_list_with_app. cbn [fmap list_fmap fst sum_list_with]. rewrite macro_sum_ids. rewrite /calls_of in R1. lia.
      - rewrite /calls_of !fmap_app sum_list_with_app. cbn [fmap list_fmap fst sum_list_with]. rewrite Hb2. rewrite /calls_of in R2. lia.
      - lia. }
    exists (e :: es), ((SWorld (spawn_macro l), ROk (SRet (RId e)), []) :: h2), w2. split.
    { cbn [spawn_all]. rewrite (bind_done_nil _ _ _ _ _ E1) (bind_done_nil _ _ _ _ _ E2). done. }
    split; [by eapply populated_cons|]. split; [by rewrite -app_assoc in Hst2|]. split; [cbn; by f_equal|].
    split; [by intros e0 ?%Hsto%Hsto2|]. cbn [length] in *. lia.
Qed.
Lemma spawn_all_done h s ls : steps sess_new h s → Forall (λ q, q = None) (ss_open s) →
  Forall (λ l, args_ok l ∧ NoDup l.*1 ∧ types_live (ss_world s) l) ls → roomy h (ss_world s) ls →
  ∃ es s', spawn_all ls s = Done es s' [] ∧ ss_open s' = ss_open s ∧ populated (ss_world s) (ss_world s') ls es.
Proof. intros H1 H2 H3 H4. destruct (spawn_all_run ls h s H1 H2 H3 H4) as (es & h' & w' & E & Hp & _). by exists es, (Sess w' (ss_open s)). Qed.

(** ** The add_remove benches *)
Lemma index_left h s : steps sess_new h s → (N.of_nat (sum_list_with call_ids (calls_of h)) < 2 ^ 32)%N → ¬ no_index_left (ss_world s).
Proof.
  intros Hst Hn Hno. pose proof (history_count h s Hst) as Hc. rewrite /ProofFull.count in Hc.
  destruct (Hno (u32_modulus - 1)%N) as (e & _ & He & Hl); [done|]. apply lives_slot in Hl. rewrite /slot He in Hl.
  apply lookup_lt_Some in Hl. change u32_modulus with (2 ^ 32)%N in Hl. lia.
Qed.
Lemma held_flat (es : list ecsid) (cs : list (ecsid * value)) : NoDup es → NoDup cs.*1 → NoDup (es ≫= λ e, (λ p, (e, p.1, p.2)) <$> cs).
Proof.
  intros H Hcs. induction H as [|e es Hn H IH]; [constructor|]. rewrite bind_cons. apply NoDup_app. split.
  - apply (NoDup_fmap_1 (λ x : ecsid * ecsid * value, x.1.2)). by rewrite -list_fmap_compose.
  - split; [|done]. intros x (p & -> & _)%elem_of_list_fmap (e' & Hx & He')%elem_of_list_bind. apply elem_of_list_fmap in Hx as (p' & [= -> _ _] & _). done.
Qed.
(** Dropping a world whose entities [es] have the components [l] and that has no other components. *)
Lemma drop_flat w es l : reachable_world w → NoDup es → NoDup l.*1 → (es ≠ [] → ∀ t, t ∈ l.*1 → ∃ c, type_id w t c ∧ lives w c) →
  (∀ e c x, holds w e c x ↔ e ∈ es ∧ ∃ t, (t, x) ∈ l ∧ type_id w t c) →
  ∃ ev, world_drop w = Some ev ∧ ev ≡ₚ concat (replicate (length es) (drops_of l)).
Proof.
  intros Hrw Hnd Hndl Hty Hh. pose proof (reachable_world_ok _ Hrw) as Hok. destruct (dropped_world w Hrw) as (ev & E & Hev). exists ev. split; [done|]. rewrite Hev.
  destruct (decide (es = [])) as [->|Hne].
  { assert (held w = []) as Hnil. { destruct (held w) as [|[[e c] x] ?] eqn:Hd; [done|]. assert ((e, c, x) ∈ held w) as Hin by (rewrite Hd; left).
      apply held_holds, Hh in Hin as (Hin & _). by apply elem_of_nil in Hin. }
    by rewrite /cells Hnil. }
  specialize (Hty Hne). clear Hne.
  assert (∃ cs, Forall2 (λ p q, type_id w p.1 q.1 ∧ p.2 = q.2) l cs) as [cs Hcs].
  { clear -Hty. induction l as [|[t x] l IH]; [by exists []|]. destruct IH as [cs Hcs]; [intros t' H; apply Hty; by right|].
    destruct (Hty t) as (c & Hc & _); [by left|]. exists ((c, x) :: cs). by constructor. }
  assert (NoDup cs.*1) as Hndc.
  { clear -Hndl Hcs Hok. induction Hcs as [|[t x] [c x'] l cs [Hc _] H IH]; [constructor|]. cbn in *. apply NoDup_cons in Hndl as [Hn Hndl]. constructor; [|by apply IH].
    intros ([c' x2] & -> & Hin)%elem_of_list_fmap. apply elem_of_list_lookup_1 in Hin as [i Hi]. destruct (Forall2_lookup_r _ _ _ _ _ H Hi) as ([t' x3] & Hi' & Hc' & _). cbn in *.
    apply Hn. apply elem_of_list_fmap. exists (t', x3). split; [|by eapply elem_of_list_lookup_2]. cbn. destruct Hok as [[R HR] _]. by eapply (wi_types_inj _ _ HR). }
  assert (held w ≡ₚ es ≫= λ e, (λ p, (e, p.1, p.2)) <$> cs) as Hp.
  { apply NoDup_Permutation; [destruct Hok as [[R HR] _]; by eapply held_nodup|by apply held_flat|].
    intros [[e0 c0] x0]. rewrite held_holds Hh elem_of_list_bind. split.
    - intros (He & t & Hin & Hc). exists e0. split; [|done]. apply elem_of_list_fmap. apply elem_of_list_lookup_1 in Hin as [i Hi].
      destruct (Forall2_lookup_l _ _ _ _ _ Hcs Hi) as ([c1 x1] & Hi' & Hc1 & Hx). cbn in *. subst x1. rewrite /type_id in Hc, Hc1. rewrite Hc in Hc1. injection Hc1 as <-.
      exists (c0, x0). split; [done|]. by eapply elem_of_list_lookup_2.
    - intros (e1 & ([c1 x1] & [= -> -> ->] & Hin)%elem_of_list_fmap & He). split; [done|]. apply elem_of_list_lookup_1 in Hin as [i Hi].
      destruct (Forall2_lookup_r _ _ _ _ _ Hcs Hi) as ([t x2] & Hi' & Hc1 & Hx). cbn in *. subst x2. exists t. split; [by eapply elem_of_list_lookup_2|done]. }
  assert (cells w ≡ₚ concat (replicate (length es) cs)) as Hc.
  { rewrite /cells Hp. clear. induction es as [|e es IH]; [done|]. rewrite bind_cons fmap_app IH. cbn [length replicate concat]. f_equiv.
    rewrite -list_fmap_compose. clear. induction cs as [|[c x] cs IH]; [done|]. cbn. by f_equiv. }
  rewrite /dropping_sized /dropping_all Hc.
  assert ((filter (λ p : ecsid * value, p.2 ≠ []) cs ≫= λ p, dropping w p.1 p.2) = drops_of l) as Hd.
  { clear -Hcs Hty Hok. rewrite /drops_of. induction Hcs as [|[t x] [c x'] l cs [Hc Hx] H IH]; [done|]. cbn in Hc, Hx. subst x'. rewrite bind_cons filter_cons. cbn [fst snd].
    rewrite -IH; [|intros t' Ht'; apply Hty; by right]. case_decide as D1; case_decide as D2; [by rewrite D2 in D1| |done|tauto]. rewrite bind_cons. cbn [fst snd]. f_equal.
    destruct (Hty t) as (c' & Hc' & Hl); [by left|]. rewrite /type_id in Hc, Hc'. rewrite Hc in Hc'. injection Hc' as <-.
    destruct (typed_stored w t c Hok Hc Hl) as [_ Hr]. rewrite /dropping /dtor. rewrite /recorded in Hr. destruct (get_entity_meta c w) as [[m|]| | |]; [|done..]. by rewrite Hr. }
  clear -Hd. induction (length es) as [|k IH]; [done|]. cbn [replicate concat]. rewrite filter_app bind_app IH Hd. done.
Qed.
Lemma add_remove_bench_run l t v n m : args_ok l → NoDup l.*1 → ty_wf t → length v = ty_size t → t ∉ l.*1 →
  (N.of_nat (n * macro_ids l) < 2 ^ 32)%N → (N.of_nat (n * (macro_bytes l + ty_size t)) <= byte_limit)%N → (N.of_nat (S (2 * n)) < u32_max)%N →
  ∃ es s, add_remove_bench l t v n m sess_new = Done es s (replicate (m * n) (EvDrop (DropOf t) v)) ∧
    length es = n ∧ NoDup es ∧ (∀ e, e ∈ es → id_wf e ∧ lives (ss_world s) e ∧ stored (ss_world s) e) ∧
    (∀ e c x, holds (ss_world s) e c x ↔ e ∈ es ∧ ∃ t', (t', x) ∈ l ∧ type_id (ss_world s) t' c) ∧
    ∃ ev, world_drop (ss_world s) = Some ev ∧ ev ≡ₚ concat (replicate n (drops_of l)).
Proof.
  intros Hargs Hnd Ht Hv Hnt Hids Hbytes Harch.
  assert (∀ k, sum_list_with macro_ids (replicate k l) = k * macro_ids l) as HI. { induction k as [|k IH]; [done|]. cbn [replicate sum_list_with]. rewrite IH. lia. }
  assert (∀ k, sum_list_with macro_bytes (replicate k l) = k * macro_bytes l) as HB. { induction k as [|k IH]; [done|]. cbn [replicate sum_list_with]. rewrite IH. lia. }
  assert (∀ t c, ¬ type_id world_new t c) as Hnew by done.
  destruct (spawn_all_run (replicate n l) [] sess_new) as (es & h & w & E & Hp & Hst & Hcalls & _ & Hlen).
  { constructor. } { constructor. }
  { apply Forall_replicate. split; [done|]. split; [done|]. by intros t' c _ ?%Hnew. }
  { split; [|split]; cbn [calls_of fmap list_fmap sum_list_with]; rewrite ?HI ?HB ?replicate_length; [change (2^32)%N with (N.of_nat 0 + 2 ^ 32)%N; lia|lia|].
    change (length (w_archs (ss_world sess_new))) with 0. lia. }
  cbn [app] in Hst. set (s1 := Sess w (ss_open sess_new)) in *. destruct Hp as (P1 & P2 & P3 & P4 & P5 & P6 & P7 & P8). rewrite replicate_length in P1, Hlen.
  assert (∀ l', l' ∈ replicate n l → l' = l) as Hrep by (by intros l' [-> _]%elem_of_replicate).
  assert (sum_list_with call_ids (calls_of h) = n * macro_ids l) as Hci.
  { rewrite Hcalls. clear. induction n as [|k IH]; [done|]. cbn [replicate fmap list_fmap sum_list_with]. rewrite macro_sum_ids. rewrite /fmap in IH. rewrite IH. lia. }
  assert (sum_list_with passed_bytes (calls_of h) = n * macro_bytes l) as Hcb.
  { rewrite Hcalls. clear. induction n as [|k IH]; [done|]. cbn [replicate fmap list_fmap sum_list_with]. rewrite (proj2 (macro_sum_bytes l)). rewrite /fmap in IH. rewrite IH. lia. }
  assert (∀ c, ¬ type_id w t c) as Hnot. { intros c Hc%P8; [by eapply Hnew|]. intros l' ->%Hrep. done. }
  assert (∀ e c x, holds w e c x ↔ e ∈ es ∧ ∃ t', (t', x) ∈ l ∧ type_id w t' c) as Hh.
  { intros e c x. rewrite P4. split.
    - intros [(k & i & a & j & u & Ha & _)|(i & l' & t' & H1 & H2 & H3 & H4)]; [by rewrite lookup_nil in Ha|].
      apply elem_of_list_lookup_2 in H1, H2. apply Hrep in H2 as ->. split; [done|]. by exists t'.
    - intros ([i Hi]%elem_of_list_lookup_1 & t' & H1 & H2). right. exists i, l, t'. split; [done|]. split; [|done].
      apply lookup_replicate. split; [done|]. apply lookup_lt_Some in Hi. lia. }
  assert (∃ s2, add_remove_rounds t v m es s1 = Done () s2 (replicate (m * n) (EvDrop (DropOf t) v)) ∧ reachable s2 ∧ Forall (λ q, q = None) (ss_open s2) ∧
    same_holds w (ss_world s2) ∧ grown w (ss_world s2) ∧ other_types w (ss_world s2) t) as (s2 & E2 & Hr2 & Ho2 & Hsh & Hg & Hot).
  { destruct m as [|m].
    { exists s1. split; [done|]. split; [by exists h|]. split; [constructor|]. split; [done|]. split; [|done]. split; [|split; [|split]]; [| |  |done].
      - intros e _. split; [by left|]. intros [?|(t' & H1 & H2)]; [done|]. by destruct (H2 e).
      - intros e (t' & H1 & H2). by destruct (H2 e).
      - intros e. split; [by left|]. intros [?|(t' & H1 & H2)]; [done|]. by destruct (H2 e). }
    destruct (rounds_all t v es s1) as (s3 & E3 & _ & H3); [by exists h|constructor|done..| | | |].
    - split; [done|]. intros e He. destruct (P3 e He) as (H1 & _ & H2 & H3). split; [done|]. split; [done|]. split; [done|]. by intros c ?%Hnot.
    - right. split; [done|]. eapply (index_left h); [done|]. rewrite Hci. done.
    - split.
      + pose proof (history_bytes h s1 Hst) as Hb. rewrite Hcb in Hb. rewrite P1. lia.
      + change (ss_world s1) with w. cbn in Hlen. lia.
    - destruct (H3 m) as (s2 & E2 & H4 & H5 & _ & H6). exists s2. split; [|done]. cbn [add_remove_rounds]. rewrite (bind_done _ _ _ _ _ _ E3) E2.
      rewrite P1. cbn. by rewrite replicate_add. }
  exists es, s2. split. { rewrite /add_remove_bench (bind_done_nil _ _ _ _ _ E) (bind_done _ _ _ _ _ _ E2). cbn. by rewrite app_nil_r. }
  split; [done|]. split; [done|]. destruct Hg as (G1 & G2 & G3 & G4).
  split. { intros e He. destruct (P3 e He) as (H1 & _ & H2 & H3). split; [done|]. split; [apply G1; [done|by left]|apply G3; by left]. }
  assert (∀ e c x, holds (ss_world s2) e c x ↔ e ∈ es ∧ ∃ t', (t', x) ∈ l ∧ type_id (ss_world s2) t' c) as Hh2.
  { intros e c x. rewrite (Hsh e c x) Hh. apply and_iff_compat_l. split; intros (t' & H1 & H2); exists t'; split; try done; [by apply G4|].
    apply Hot; [|done]. intros ->. apply Hnt. apply elem_of_list_fmap. by exists (t, x). }
  split; [done|]. rewrite -P1. apply drop_flat; [by exists s2|done..| |done].
  intros Hne t' Ht'. destruct (P7 l t') as (c & H1 & H2); [|done|].
  { apply elem_of_replicate. split; [done|]. intros Hz. apply Hne, nil_length_inv. lia. }
  exists c. split; [by apply G4|]. apply G1; [|by left]. eapply (typed_wf w); [|done]. apply (reachable_world_ok w). exists s1. split; [by exists h|]. split; [done|constructor].
Qed.
(** The three benches: 10000 entities. *)
Lemma add_remove_10000 l t v m : args_ok l → NoDup l.*1 → ty_wf t → length v = ty_size t → t ∉ l.*1 →
  length l ≤ 8 → macro_bytes l + ty_size t ≤ 2000 →
  ∃ es s, add_remove_bench l t v (N.to_nat 10000) m sess_new = Done es s (replicate (m * N.to_nat 10000) (EvDrop (DropOf t) v)) ∧
    length es = N.to_nat 10000 ∧ NoDup es ∧ (∀ e c x, holds (ss_world s) e c x ↔ e ∈ es ∧ ∃ t', (t', x) ∈ l ∧ type_id (ss_world s) t' c).
Proof.
  intros H1 H2 H3 H4 H5 H6 H7. destruct (add_remove_bench_run l t v (N.to_nat 10000) m) as (es & s & E & E1 & E2 & _ & E3 & _); [done..| | | |by exists es, s].
  - rewrite /macro_ids. rewrite Nat2N.inj_mul N2Nat.id. change (2 ^ 32)%N with 4294967296%N. lia.
  - rewrite Nat2N.inj_mul N2Nat.id. rewrite /byte_limit. change (2 ^ 60)%N with 1152921504606846976%N. lia.
  - rewrite Nat2N.inj_succ Nat2N.inj_mul N2Nat.id. by vm_compute.
Qed.
