(** * Despawning and spawning in turn: proofs of C74 *)
From Verif Require Import ProofBase SpecSmall World History ProofEntities ProofBitset ProofArrayVec ProofUVec.
From Verif Require Export SpecRecycle ProofInsertBench ProofFull.

Lemma builder_new_entity e meta w b w' ev : builder_new e meta w = Done b w' ev → eb_entity b = e.
Proof. rewrite /builder_new /bind /gets. destruct (w_reuse w) as [[[ids p] cap]|]; cbn; by intros [= <- _ _]. Qed.
Lemma spawn_id meta bs w e w' ev : step (OSpawn None meta bs BDrop) w = Done (RId e) w' ev → ∃ E ev', ents_spawn (w_ents w) = Done e E ev'.
Proof.
  cbn [step]. rewrite /spawn_program /spawn_builder /bind /in_ents /zoom.
  destruct (ents_spawn (w_ents w)) as [e1 E1 ev1| | |]; [|done..]. cbn beta iota.
  destruct (builder_new e1 meta (set_ents E1 w)) as [b s ev2| | |] eqn:Eb; [|done..]. apply builder_new_entity in Eb as Hb. cbn [add_events].
  destruct (with_builder b (run_bops bs) s) as [x s2 ev3| | |]; [|done..]. cbn. intros [= <- _ _]. rewrite Hb. eauto.
Qed.
Lemma later_0 e : id_wf e → later_id e 0 = e.
Proof. intros [Hg _]. destruct e as [g k]. rewrite /later_id /= N.add_0_r. f_equal. by apply N.mod_small. Qed.
Lemma later_later e i : later_id (later_id e i) 1 = later_id e (S i).
Proof. rewrite /later_id /=. f_equal. rewrite N.add_mod_idemp_l; [|done]. f_equal. lia. Qed.
Lemma others_trans w w1 w2 e e1 : id_idx e1 = id_idx e → others_same w w1 e → others_same w1 w2 e1 → others_same w w2 e.
Proof.
  intros Hi [T1 O1] [T2 O2]. split; [intros t c; by rewrite T2 T1|]. intros e0 H1 H2. destruct (O1 e0 H1 H2) as (A1 & A2 & A3). rewrite -Hi in H2.
  destruct (O2 e0 H1 H2) as (B1 & B2 & B3). rewrite B1 B2. split; [done|]. split; [done|]. intros c v. by rewrite B3.
Qed.

Lemma recycle_one h s e : steps sess_new h s → Forall (λ q, q = None) (ss_open s) → expendable (ss_world s) e →
  (N.of_nat (sum_list_with passed_bytes (calls_of h)) <= byte_limit)%N → (N.of_nat (length (w_archs (ss_world s)) + 1) <= u32_max)%N →
  ∃ ev w1 w2, step (ODespawn e) (ss_world s) = Done (RBool true) w1 ev ∧ ¬ lives w1 e ∧
    step (spawn_macro []) w1 = Done (RId (later_id e 1)) w2 [] ∧
    steps s [(SWorld (ODespawn e), ROk (SRet (RBool true)), ev)] (Sess w1 (ss_open s)) ∧
    steps (Sess w1 (ss_open s)) [(SWorld (spawn_macro []), ROk (SRet (RId (later_id e 1))), [])] (Sess w2 (ss_open s)) ∧
    expendable w2 (later_id e 1) ∧ (∀ c v, ¬ holds w2 (later_id e 1) c v) ∧ others_same (ss_world s) w2 e ∧ kinds w2 = kinds (ss_world s).
Proof.
  intros Hst Hop (Hwf & Hl & Hsto & Hnu & Hnt) Hbytes Hroom. set (w := ss_world s) in *.
  assert (reachable s) as Hs by (by exists h). assert (reachable_world w) as Hrw by (by exists s). pose proof (reachable_world_ok _ Hrw) as Hok.
  assert (op_tame (ODespawn e) w) as Htame. { split; [done|]. intros _ t c Hc Hi. exfalso. apply (Hnt t c Hc). rewrite /uindex in Hi. lia. }
  (* the despawn *)
  pose proof (despawn_view w e Hok Hwf Htame) as Hd. pose proof Hok as [[R Hw] _]. pose proof (despawn_spec w R e Hw Hwf (proj2 Htame)) as Hd2. rewrite /wp in Hd2.
  assert (∃ w1 ev, step (ODespawn e) w = Done (RBool true) w1 ev ∧ ¬ lives w1 e ∧
    (∀ e0, id_wf e0 → e0 ≠ e → lives w1 e0 ↔ lives w e0) ∧ (∀ e0, stored w1 e0 ↔ e0 ≠ e ∧ stored w e0) ∧
    (∀ e0 c v, holds w1 e0 c v ↔ e0 ≠ e ∧ holds w e0 c v) ∧ same_types w w1 ∧ dkeeps e w w1) as (w1 & ev & E1 & D1 & D2 & D3 & D4 & D5 & Hk).
  { destruct (step (ODespawn e) w) as [r w1 ev|r w1 ev| |] eqn:E; [| |done..].
    - destruct Hd as [(-> & _ & _ & _ & A1 & A2 & A3 & A4 & A5 & _)|(_ & A & _)]; [|done]. exists w1, ev. do 6 (split; [done|]).
      cbn [step] in E. rewrite /bind in E. destruct (despawn e w) as [b w' ev'|r' w' ev'| |]; [|done..]. injection E as -> -> _.
      destruct Hd2 as [(? & _)|(_ & _ & Hk & _)]; [done|]. done.
    - exfalso. destruct Hd as (_ & _ & [(_ & A)|[(_ & _ & A)|(_ & _ & A)]]); [|done|done]. rewrite /unissued /lives in A, Hl. congruence. }
  assert (sstep (SWorld (ODespawn e)) s = Done (SRet (RBool true)) (Sess w1 (ss_open s)) ev) as S1 by by rewrite sworld_run -/w E1.
  set (x1 := (SWorld (ODespawn e), ROk (SRet (RBool true)), ev)). set (s1 := Sess w1 (ss_open s)) in *.
  assert (steps s ([] ++ [x1]) s1) as St1. { eapply steps_done; [constructor|..]; [|done|done]. split; [done|by right]. }
  assert (steps sess_new (h ++ [x1]) s1) as Hst1 by by apply (steps_join _ _ _ _ _ Hst St1).
  assert (reachable s1) as Hs1 by (by exists (h ++ [x1])). assert (reachable_world w1) as Hrw1 by (by exists s1). pose proof (reachable_world_ok _ Hrw1) as Hok1.
  pose proof Hok1 as [[R1 Hw1] _].
  assert (kinds w1 = kinds w) as HK1 by by rewrite (kinds_ids _ _ Hw1) (kinds_ids _ _ Hw) (dk_ids _ _ _ Hk).
  assert (length (w_archs w1) = length (w_archs w)) as Hlen1 by (apply (f_equal length) in HK1; by rewrite /kinds !fmap_length in HK1).
  (* the spawn *)
  assert (args_ok []) as Hargs by constructor. assert (N.of_nat (length (w_archs w1) + 1) <= u32_max)%N as Hroom1 by by rewrite Hlen1.
  set (o := SWorld (spawn_macro [])).
  assert (sop_legal o s1) as Hleg. { split; [by apply macro_legal|]. by right. }
  assert (sop_tame o s1) as Htm by by apply macro_tame.
  pose proof (history_quiet (h ++ [x1]) s1 o Hst1 Hleg Htm) as Hq.
  specialize (Hq ltac:(rewrite /calls_of !fmap_app sum_list_with_app; change (call_bytes o) with 0; change (sum_list_with passed_bytes ([x1].*1.*1)) with 0; fold (calls_of h); lia)).
  pose proof (spawn_view w1 None cm_unit _ BDrop Hok1 (proj1 Hleg) Htm) as Hv. change (OSpawn None cm_unit _ BDrop) with (spawn_macro []) in Hv.
  pose proof (macro_view w1 [] Hrw1 Hargs Hroom1) as Hm. rewrite /o sworld_run in Hq. change (ss_world s1) with w1 in Hq.
  pose proof (dk_ents _ _ _ Hk) as He. apply lives_alive in Hl as Hal. pose proof (proj1 (alive_iff _ _) Hal) as Hg. rewrite /alive in Hal.
  rewrite /ents_despawn Hal Hg in He. injection He as He.
  assert (generations (w_ents w1) !! uindex e = Some (false, id_gen e)) as Hg1. { rewrite -He /=. apply list_lookup_insert. by eapply lookup_lt_Some. }
  assert (despawned (w_ents w1) = uindex e :: despawned (w_ents w)) as Hd1 by by rewrite -He.
  assert (∀ e0, id_idx e0 = id_idx e → ¬ lives w1 e0) as Hdead. { intros e0 Hi H0%lives_alive%alive_iff. rewrite /uindex Hi in H0. rewrite /uindex in Hg1. congruence. }
  destruct (step (spawn_macro []) w1) as [r w2 ev2|r w2 ev2| |] eqn:E2; [| |done..].
  2:{ exfalso. destruct Hm as [->|(Hun & [(-> & Hn)|[(_ & Hn)|(_ & t0 & c & Hin & _)]])]; [by eapply Hq| |by apply Hn; constructor|by apply elem_of_nil in Hin].
      destruct Hv as [?|[(? & _)|[(_ & _ & Hgr & _ & Hty)|(e0 & _ & [((x & Hx & Hb) & _)|[(? & _)|((x & Hx & Hb) & _)]])]]]; [done|done| |apply elem_of_list_singleton in Hx as ->; done|done|apply elem_of_list_singleton in Hx as ->; done].
      destruct (Hn (id_idx e) (proj2 Hwf)) as (e0 & H1 & H2 & H3). apply (Hdead e0 H2). apply Hgr in H3; [|done]. destruct H3 as [H3|(t & H3 & H4)]; [done|].
      apply Hty in H3. by apply H4 in H3. }
  destruct Hm as (-> & _ & e' & -> & M1 & M2 & M3 & M4 & _ & M6 & M7 & M8 & M9 & _).
  destruct Hv as (_ & e1 & D & [= <-] & _ & _ & [(_ & _ & [Hbs _] & _)|[Hn _]]); [|destruct Hn; by left].
  assert (same_types w1 w2) as Hty. { intros t c. apply M9. apply not_elem_of_nil. }
  assert (e' = later_id e 1) as ->.
  { apply spawn_id in E2 as (E & ev' & E2). rewrite /ents_spawn Hd1 Hg1 in E2. cbn [generations] in E2.
    rewrite list_lookup_insert in E2; [|by eapply lookup_lt_Some]. case_match; [done|]. injection E2 as <- _ _. rewrite /id_new /later_id. destruct Hwf as [Hw1' Hw2'].
    rewrite /wrap32. f_equal. rewrite /uindex N2Nat.id. by apply N.mod_small. }
  assert (id_idx (later_id e 1) = id_idx e) as Hidx by done.
  set (e' := later_id e 1) in *.
  assert (sstep o s1 = Done (SRet (RId e')) (Sess w2 (ss_open s)) []) as S2 by by rewrite /o sworld_run E2.
  assert (steps s1 ([] ++ [(o, ROk (SRet (RId e')), [])]) (Sess w2 (ss_open s))) as St2 by (eapply steps_done; [constructor|done..]).
  assert (reachable_world w2) as Hrw2. { exists (Sess w2 (ss_open s)). split; [by eapply reachable_steps|done]. }
  pose proof (reachable_world_ok _ Hrw2) as Hok2.
  assert (∀ c v, ¬ holds w2 e' c v) as Hnone. { intros c v H. apply M6 in H as (t & H & _). by apply elem_of_nil in H. }
  assert (kinds w2 = kinds w1) as HK2.
  { destruct (step_made w1 _ _ _ _ Hok1 (proj1 Hleg) Htm E2) as (K & HK & HL). destruct K as [|L K]; [by rewrite app_nil_r in HK|exfalso].
    destruct (HL L) as [Hnew HL2]; [by left|].
    assert (L = []) as ->. { destruct HL2 as [|(e2 & [= <-] & Hh)]; [done|]. destruct L as [|c L]; [done|]. destruct (proj1 (Hh c)) as [v Hv]; [by left|]. by apply Hnone in Hv. }
    assert (0 < length (w_archs w1)) as H0. { rewrite Hlen1. destruct Hsto as (k & i & a & Ha & _). apply lookup_lt_Some in Ha. lia. }
    destruct (lookup_lt_is_Some_2 _ _ H0) as [a Ha]. assert (arch_ids w1 !! 0 = Some (a_comp_ids a)) as Hai by by rewrite /arch_ids list_lookup_fmap Ha.
    apply (Hnew []); [|done]. rewrite (kinds_ids _ _ Hw1). pose proof (wi_zero _ _ Hw1 _ Hai) as Hz. rewrite Hz in Hai. by eapply elem_of_list_lookup_2. }
  exists ev, w1, w2. do 5 (split; [done|]). split; [|split; [done|split; [|by rewrite HK2]]].
  - split; [done|]. split; [done|]. split; [done|]. split.
    + intros (k & a & j & u & Ha & Hj). apply M2. apply lives_alive.
      assert (columns a ∈ kinds w2) as Hin. { apply elem_of_list_fmap. exists a. split; [done|]. by eapply elem_of_list_lookup_2. }
      rewrite HK2 (kinds_ids _ _ Hw1) in Hin. apply elem_of_list_lookup in Hin as [k1 Hk1].
      apply (wi_comps _ _ Hw1 _ _ _ Hk1). apply elem_of_list_fmap. exists (e', u). split; [done|]. by eapply elem_of_list_lookup_2.
    + intros t c Hc. rewrite Hidx. apply (Hnt t c), D5, Hty. done.
  - split. { intros t c. rewrite (Hty t c). apply D5. }
    intros e0 H0 Hi. assert (e0 ≠ e) as Hne by congruence. assert (e0 ≠ e') as Hne' by congruence. split; [|split].
    + rewrite M8 // D2 //. split; [|by left]. intros [?|(t & Ht & _)]; [done|]. by apply elem_of_nil in Ht.
    + rewrite Hbs D3. split; [|tauto]. intros [?|[[_ ?]|(t & H1 & H2)]]; [done..|]. apply Hty in H1. by apply H2 in H1.
    + intros c v. rewrite M7 // D4. tauto.
Qed.

Lemma recycle_run n : ∀ h s e, steps sess_new h s → Forall (λ q, q = None) (ss_open s) → expendable (ss_world s) e →
  (N.of_nat (sum_list_with passed_bytes (calls_of h)) <= byte_limit)%N → (N.of_nat (length (w_archs (ss_world s)) + 1) <= u32_max)%N →
  ∃ l w', steps s l (Sess w' (ss_open s)) ∧ l.*1 = seq 0 n ≫= recycle e ∧ lives w' (later_id e n) ∧ stored w' (later_id e n) ∧
    (n ≠ 0 → ∀ c v, ¬ holds w' (later_id e n) c v) ∧ others_same (ss_world s) w' e ∧ kinds w' = kinds (ss_world s).
Proof.
  assert (∀ h s e, steps sess_new h s → Forall (λ q, q = None) (ss_open s) → expendable (ss_world s) e →
    (N.of_nat (sum_list_with passed_bytes (calls_of h)) <= byte_limit)%N → (N.of_nat (length (w_archs (ss_world s)) + 1) <= u32_max)%N →
    ∃ l w', steps s l (Sess w' (ss_open s)) ∧ l.*1 = seq 0 n ≫= recycle e ∧ expendable w' (later_id e n) ∧
      (n ≠ 0 → ∀ c v, ¬ holds w' (later_id e n) c v) ∧ others_same (ss_world s) w' e ∧ kinds w' = kinds (ss_world s) ∧ sum_list_with passed_bytes (calls_of l) = 0) as H.
  { induction n as [|n IH]; intros h s e Hst Hop Hex Hb Hr.
    - exists [], (ss_world s). rewrite sess_eta later_0; [|apply Hex]. split; [constructor|]. done.
    - destruct (IH h s e Hst Hop Hex Hb Hr) as (l & w1 & St & Hl & Hex1 & _ & Ho1 & Hk1 & Hp).
      assert (length (w_archs w1) = length (w_archs (ss_world s))) as Hlen by (apply (f_equal length) in Hk1; by rewrite /kinds !fmap_length in Hk1).
      destruct (recycle_one (h ++ l) (Sess w1 (ss_open s)) (later_id e n)) as (ev & w2 & w3 & _ & _ & _ & St1 & St2 & Hex2 & Hno & Ho2 & Hk2); cbn [ss_world ss_open] in *; [by eapply steps_join|done|done| |by rewrite Hlen|].
      { rewrite /calls_of !fmap_app sum_list_with_app. fold (calls_of h) (calls_of l). rewrite Hp. lia. }
      rewrite later_later in St2 Hex2 Hno. eexists _, w3. split; [eapply steps_join; [exact St|eapply steps_join; [exact St1|exact St2]]|]. split.
      { rewrite fmap_app Hl seq_S bind_app. done. }
      split; [done|]. split; [done|]. split; [by eapply others_trans|]. split; [by rewrite Hk2|].
      rewrite /calls_of !fmap_app sum_list_with_app. fold (calls_of l). rewrite Hp. done. }
  intros h s e H1 H2 H3 H4 H5. destruct (H h s e H1 H2 H3 H4 H5) as (l & w' & A1 & A2 & A3 & A4 & A5 & A6 & _).
  exists l, w'. split; [done|]. split; [done|]. split; [apply A3|]. split; [apply A3|]. done.
Qed.
Lemma later_around e n : id_wf e → N.of_nat n = u32_modulus → later_id e n = e.
Proof.
  intros [Hg _] Hn. destruct e as [g k]. rewrite /later_id Hn /=. f_equal. cbn in Hg. change (2 ^ 32)%N with u32_modulus.
  rewrite -{2}(N.mod_small g u32_modulus) //. rewrite -{1}(N.mul_1_l u32_modulus) N.mod_add //.
Qed.
Lemma stale_revived h s e : steps sess_new h s → Forall (λ q, q = None) (ss_open s) → expendable (ss_world s) e →
  (N.of_nat (sum_list_with passed_bytes (calls_of h)) <= byte_limit)%N → (N.of_nat (length (w_archs (ss_world s)) + 1) <= u32_max)%N →
  ∃ x s1 l s2, steps s [x] s1 ∧ x.1 = (SWorld (ODespawn e), ROk (SRet (RBool true))) ∧ ¬ lives (ss_world s1) e ∧
    steps s1 l s2 ∧ N.of_nat (S (length l)) = (2 * 2 ^ 32)%N ∧
    (∃ y, last l = Some y ∧ y.1 = (SWorld (spawn_macro []), ROk (SRet (RId e)))) ∧
    lives (ss_world s2) e ∧ stored (ss_world s2) e ∧ (∀ c v, ¬ holds (ss_world s2) e c v) ∧ others_same (ss_world s) (ss_world s2) e.
Proof.
  intros Hst Hop Hex Hb Hr. destruct (recycle_one h s e Hst Hop Hex Hb Hr) as (ev & w1 & w2 & E1 & D1 & E2 & St1 & St2 & Hex2 & Hno & Ho & Hk).
  assert (∃ n, N.of_nat n = (2 ^ 32 - 1)%N) as [n Hn]. { exists (N.to_nat (2 ^ 32 - 1)). apply N2Nat.id. }
  set (x1 := (SWorld (ODespawn e), ROk (SRet (RBool true)), ev)) in *. set (x2 := (SWorld (spawn_macro []), ROk (SRet (RId (later_id e 1))), [])) in *.
  assert (length (w_archs w2) = length (w_archs (ss_world s))) as Hlen by (apply (f_equal length) in Hk; by rewrite /kinds !fmap_length in Hk).
  destruct (recycle_run n (h ++ [x1; x2]) (Sess w2 (ss_open s)) (later_id e 1)) as (l & w3 & Stl & Hl & L1 & L2 & L3 & Ho2 & Hk2); cbn [ss_world ss_open] in *; [change [x1; x2] with ([x1] ++ [x2]); eapply steps_join; [exact Hst|by eapply steps_join]|done|done| |by rewrite Hlen|].
  { rewrite /calls_of !fmap_app sum_list_with_app. fold (calls_of h). change (sum_list_with passed_bytes (([x1; x2] : list (sop * res * list event)).*1.*1)) with 0. lia. }
  assert (later_id (later_id e 1) n = e) as Hback.
  { transitivity (later_id e (S n)); [|apply later_around; [apply Hex|rewrite Nat2N.inj_succ Hn; done]].
    rewrite /later_id /=. f_equal. rewrite N.add_mod_idemp_l; [|done]. f_equal. lia. }
  rewrite Hback in L1 L2 L3. assert (n ≠ 0) as Hn0 by (intros ->; done).
  exists x1, (Sess w1 (ss_open s)), (x2 :: l), (Sess w3 (ss_open s)).
  split; [done|]. split; [done|]. split; [done|]. split; [change (x2 :: l) with ([x2] ++ l); by eapply steps_join|].
  assert (∀ m, length (seq 0 m ≫= recycle (later_id e 1)) = 2 * m) as Hlm.
  { induction m as [|m IHm]; [done|]. rewrite seq_S bind_app app_length IHm /=. lia. }
  assert (length l = 2 * n) as Hll by by rewrite -(Hlm n) -Hl fmap_length.
  split. { cbn [length]. rewrite Hll. change (2 ^ 32)%N with 4294967296%N in *. lia. }
  split; [|split; [done|split; [done|split; [by apply L3|by eapply others_trans]]]].
  assert (∃ m, n = S m) as [m ->] by (exists (pred n); lia). rewrite seq_S bind_app Nat.add_0_l in Hl. change ([m] ≫= recycle (later_id e 1)) with (recycle (later_id e 1) m) in Hl. rewrite /recycle Hback in Hl.
  destruct l as [|y l'] using rev_ind; [exfalso; cbn in Hll; lia|]. clear IHl'. exists y. split; [by rewrite last_cons last_snoc|].
  rewrite fmap_app in Hl. rewrite (app_assoc _ [_] [_]) in Hl. apply app_inj_2 in Hl as [_ Hl]; [|done]. by injection Hl.
Qed.
