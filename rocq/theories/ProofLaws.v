(** * Laws of the world calls, from the descriptions of their effects. *)
From Verif Require Import ProofBase SpecSmall World History ProofEntities ProofBitset ProofArrayVec ProofUVec.
From Verif Require Export ProofInfo.

(** ** Component information *)
Definition same_info (w w' : world) : Prop := ∀ c cm, lives w c → lives w' c → recorded w' c cm ↔ recorded w c cm.
Lemma frame_info w w' : sframe w w' → same_info w w'.
Proof.
  intros H c cm H1%lives_alive H2%lives_alive. rewrite !recorded_comp //. by rewrite (sf_comp _ _ H).
Qed.
Lemma info_dropping w w' c v : same_info w w' → lives w c → lives w' c → dropping w' c v = dropping w c v.
Proof.
  intros H H1 H2. specialize (H c). rewrite /dropping /dtor.
  assert (∀ w0, lives w0 c → get_entity_meta c w0 = Done (meta_at w0 (uindex c)) w0 []) as Hg.
  { intros w0 Hl%lives_alive. by rewrite (get_entity_meta_alive _ _ Hl). }
  pose proof (Hg _ H1) as G1. pose proof (Hg _ H2) as G2. rewrite /recorded G1 G2 in H. rewrite G1 G2.
  destruct (meta_at w' (uindex c)) as [m'|], (meta_at w (uindex c)) as [m|]; cbn in H; [|exfalso; naive_solver..|done].
  by rewrite (proj1 (H (em_comp m') H1 H2) eq_refl).
Qed.

Lemma value_fits_info w w' c v : same_info w w' → lives w c → value_fits w c v → value_fits w' c v.
Proof.
  intros H H1 Hf s m E. assert (lives w' c) as H2.
  { pose proof (get_entity_meta_cases w' c) as Hc. rewrite E in Hc. destruct Hc as (-> & _ & [] & El & Hm); [|done]. by apply lives_alive. }
  pose proof (proj1 (H c (em_comp m) H1 H2)) as Hr. rewrite /recorded E in Hr. specialize (Hr eq_refl).
  pose proof (get_entity_meta_alive _ _ (proj1 (lives_alive _ _) H1)) as E'. rewrite E' in Hr.
  destruct (meta_at w (uindex c)) as [m'|]; [|done]. rewrite -Hr. by eapply Hf.
Qed.

(** ** Add, then remove (C08) *)
Lemma step_done_ok o w r w' ev : WOk w → op_legal o w → op_tame o w → step o w = Done r w' ev → WOk w' ∧ same_info w w'.
Proof.
  intros Hw Hl Ht E. pose proof (step_inv o w (proj1 Hw) Hl Ht) as H. rewrite /wp E in H.
  pose proof (step_frame o w (proj1 Hw) Hl Ht) as H2. rewrite /wp E in H2. split; [done|]. by apply frame_info.
Qed.
Lemma add_remove_dyn w e c v r1 w1 ev1 :
  WOk w → op_legal (OAddDynData e c v) w → op_tame (OAddDynData e c v) w →
  lives w e → lives w c →
  step (OAddDynData e c v) w = Done r1 w1 ev1 → op_tame (ORemoveDyn e c) w1 →
  match step (ORemoveDyn e c) w1 with
  | Done r2 w2 ev2 => same_view w w2 ∧ ev1 = [] ∧ ev2 = dropping w c v
  | Panicked r _ _ => r = RCapacity
  | _ => False
  end.
Proof.
  intros Hw Hl Ht He Hc E Ht1. destruct (step_done_ok _ _ _ _ _ Hw Hl Ht E) as [Hw1 Hi].
  pose proof (add_dyn_view w e c v Hw Hl Ht) as H. rewrite E in H. destruct H as (-> & -> & [(_ & [?|?])|H]); [done..|].
  destruct H as (_ & Hse & _ & Hsc & Hn & H1 & H2 & H3 & H4). destruct Hl as (Hwe & Hwc & Hv).
  pose proof (remove_dyn_view w1 e c Hw1 (conj Hwe Hwc) Ht1) as H.
  assert (lives w1 e) as Hle by by apply H1. assert (lives w1 c) as Hlc by by apply H1.
  assert (holds w1 e c v) as Hh by (apply H4; by left).
  destruct (step (ORemoveDyn e c) w1) as [r2 w2 ev2|r2 w2 ev2| |]; [| |done..].
  - destruct H as (-> & [(_ & _ & [?|?])|H]); [done..|]. destruct H as (_ & _ & _ & G1 & G2 & G3 & G4 & v' & Hv' & ->).
    apply H4 in Hv' as [(_ & _ & ->)|(Hne & _)]; [|naive_solver]. split; [split_and!|].
    + intros e0 Hwf. by rewrite G1 // H1.
    + intros e0. by rewrite G2 H2.
    + intros e0 c0 v0. rewrite G4 H4. split; [naive_solver|]. intros H. assert (¬ (e0 = e ∧ c0 = c)); [|naive_solver].
      intros (-> & ->). destruct Hn. by exists v0.
    + intros t0 c0. by rewrite (G3 t0 c0) (H3 t0 c0).
    + split; [done|]. by apply info_dropping.
  - destruct H as [H|(_ & _ & H)]; [done|]. destruct H as [(_ & [?%unissued_lives|?%unissued_lives])|[(_ & _ & _ & H)|(_ & _ & H)]]; [done..| |].
    + destruct H. by apply H2.
    + destruct H. by exists v.
Qed.
Lemma known_type w w' t c : grown w w' → other_types w w' t → type_id w t c → same_lives w w' ∧ same_stored w w' ∧ same_types w w'.
Proof.
  intros (G1 & G2 & G3 & G4) Ho Ht.
  assert (∀ c0, ¬ new_type w w' c0) as Hn.
  { intros c0 (t0 & H1 & H2). destruct (decide (t0 = t)) as [->|Hne]; [by eapply H2|]. apply Ho in H1; [|done]. by eapply H2. }
  split_and!.
  - intros e Hwf. rewrite G1 //. naive_solver.
  - intros e. rewrite G3. naive_solver.
  - intros t0 c0. destruct (decide (t0 = t)) as [->|Hne]; [|by apply Ho]. split; [|by apply G4].
    intros H. pose proof (G4 _ _ Ht) as H'. rewrite /type_id in H H' Ht |- *. congruence.
Qed.
Lemma add_remove_typed w e t c v r1 w1 ev1 :
  WOk w → op_legal (OAdd e t v) w → op_tame (OAdd e t v) w →
  step (OAdd e t v) w = Done r1 w1 ev1 → type_id w1 t c → lives w1 c → op_tame (ORemove e t) w1 →
  match step (ORemove e t) w1 with
  | Done r2 w2 ev2 => grown w w2 ∧ other_types w w2 t ∧ same_holds w w2 ∧ ev1 = [] ∧ ev2 = dropping w1 c v
  | Panicked r _ _ => r = RCapacity
  | _ => False
  end.
Proof.
  intros Hw Hl Ht E Htc Hlc Ht1. destruct (step_done_ok _ _ _ _ _ Hw Hl Ht E) as [Hw1 Hi].
  pose proof (add_typed_view w e t v Hw Hl Ht) as H. rewrite E in H. destruct H as (-> & -> & Hle & Hg & Ho & c' & Htc' & H).
  assert (c' = c) as -> by (rewrite /type_id in Htc Htc'; congruence). destruct H as [(_ & Hse & Hn & H4)|(? & _)]; [|done].
  destruct Hl as (Hwe & Hty & Hv). pose proof (remove_typed_view w1 e t Hw1 (conj Hwe Hty) Ht1) as H.
  assert (holds w1 e c v) as Hh by (apply H4; by left).
  assert (lives w1 e) as Hle1 by (apply Hg; auto). assert (stored w1 e) as Hse1 by (apply Hg; auto).
  destruct (step (ORemove e t) w1) as [r2 w2 ev2|r2 w2 ev2| |]; [| |done..].
  - destruct H as (-> & _ & Hg2 & Ho2 & c' & _ & Htc2 & H). assert (c' = c) as -> by (rewrite /type_id in Htc Htc2; congruence).
    destruct H as [(_ & _ & G4 & v' & Hv' & ->)|(? & _)]; [|done].
    apply H4 in Hv' as [(_ & _ & ->)|(Hne & _)]; [|naive_solver].
    destruct (known_type _ _ _ _ Hg2 Ho2 Htc) as (K1 & K2 & K3). split_and!.
    + by eapply grown_after.
    + by eapply other_types_after.
    + intros e0 c0 v0. rewrite G4 H4. split; [naive_solver|]. intros H. assert (¬ (e0 = e ∧ c0 = c)); [|naive_solver].
      intros (-> & ->). destruct Hn. by exists v0.
    + done.
    + done.
  - destruct H as [H|(-> & Hg2 & Hh2 & Ho2 & H)]; [done|]. exfalso. destruct H as [[(_ & ?%unissued_lives)|[(_ & ?)|(_ & _ & H)]]|(c' & Htc2 & H)]; [done..|by eapply H|].
    assert (c' = c) as ->. { destruct (known_type _ _ _ _ Hg2 Ho2 Htc) as (K1 & K2 & K3). apply K3 in Htc2. rewrite /type_id in Htc Htc2. congruence. }
    assert (lives w2 e) by (apply Hg2; auto).
    destruct H as [(_ & [?%unissued_lives|H%unissued_lives])|[(_ & _ & _ & H)|(_ & _ & H)]]; [done| | |].
    + destruct H. apply Hg2; [|by left]. destruct (proj1 Hw1) as [R1 Hw1']. by destruct (wi_types _ _ Hw1' _ _ Htc) as (_ & ? & _).
    + destruct H. apply Hg2; by left.
    + destruct H. exists v. by apply Hh2.
Qed.

(** ** The order of two additions (C09) *)
Lemma add_add_dyn w e c1 v1 c2 v2 r1 w1 ev1 r12 w12 ev12 :
  WOk w → op_legal (OAddDynData e c1 v1) w → op_tame (OAddDynData e c1 v1) w →
  op_legal (OAddDynData e c2 v2) w → op_tame (OAddDynData e c2 v2) w1 →
  lives w e → lives w c1 → lives w c2 →
  step (OAddDynData e c1 v1) w = Done r1 w1 ev1 → step (OAddDynData e c2 v2) w1 = Done r12 w12 ev12 →
  c1 ≠ c2 ∧
  match step (OAddDynData e c2 v2) w with
  | Done _ w2 _ => op_tame (OAddDynData e c1 v1) w2 →
      match step (OAddDynData e c1 v1) w2 with
      | Done _ w21 _ => same_view w12 w21
      | Panicked r _ _ => r = RCapacity
      | _ => False
      end
  | Panicked r _ _ => r = RCapacity
  | _ => False
  end.
Proof.
  intros Hw Hl1 Ht1 Hl2 Ht12 He Hc1 Hc2 E1 E12.
  destruct (step_done_ok _ _ _ _ _ Hw Hl1 Ht1 E1) as [Hw1 Hi1].
  assert (op_legal (OAddDynData e c2 v2) w1) as Hl12. { split_and!; [apply Hl2..|]. eapply value_fits_info; [done..|apply Hl2]. }
  pose proof (add_dyn_view _ _ _ _ Hw Hl1 Ht1) as H. rewrite E1 in H. destruct H as (-> & -> & [(_ & [?|?])|H]); [done..|].
  destruct H as (_ & Hse & _ & Hsc1 & Hn1 & A1 & A2 & A3 & A4).
  destruct Hl1 as (Hwe & Hwc1 & Hv1). pose proof Hl12 as (_ & Hwc2 & Hv2).
  pose proof (add_dyn_view _ _ _ _ Hw1 Hl12 Ht12) as H. rewrite E12 in H.
  destruct H as (-> & -> & [(_ & [H|H])|H]); [by rewrite (A1 e Hwe) in H|by rewrite (A1 c2 Hwc2) in H|].
  destruct H as (_ & _ & _ & Hsc2 & Hn2 & B1 & B2 & B3 & B4).
  assert (c1 ≠ c2) as Hne. { intros ->. destruct Hn2. exists v1. apply A4. by left. }
  assert (¬ has w e c2) as Hn2'. { intros (v & H). destruct Hn2. exists v. apply A4. right. split; [|done]. by intros (_ & ->). }
  split; [done|].
  assert (op_tame (OAddDynData e c2 v2) w) as Ht2 by (split; [apply Ht1|done]).
  pose proof (add_dyn_view _ _ _ _ Hw Hl2 Ht2) as H. destruct (step (OAddDynData e c2 v2) w) as [r2 w2 ev2|r2 w2 ev2| |] eqn:E2; [| |done..].
  2:{ destruct H as [?|(_ & _ & H)]; [done|]. destruct H as [(_ & [?%unissued_lives|?%unissued_lives])|[(_ & _ & _ & [?|H])|(_ & H)]]; [done..| |done].
      destruct H. by apply A2. }
  destruct H as (-> & -> & [(_ & [?|?])|H]); [done..|]. destruct H as (_ & _ & _ & _ & _ & C1 & C2 & C3 & C4).
  intros Ht21.
  destruct (step_done_ok _ _ _ _ _ Hw Hl2 Ht2 E2) as [Hw2 Hi2].
  assert (op_legal (OAddDynData e c1 v1) w2) as Hl21. { split_and!; [done..|]. by eapply value_fits_info. }
  pose proof (add_dyn_view _ _ _ _ Hw2 Hl21 Ht21) as H.
  assert (lives w2 e) as L1 by by apply C1. assert (lives w2 c1) as L2 by by apply C1.
  destruct (step (OAddDynData e c1 v1) w2) as [r21 w21 ev21|r21 w21 ev21| |]; [| |done..].
  2:{ destruct H as [?|(_ & _ & H)]; [done|]. exfalso. destruct H as [(_ & [?%unissued_lives|?%unissued_lives])|[(_ & _ & _ & [H|H])|(_ & H)]]; [done..| | |].
      - destruct H. by apply C2.
      - destruct H. by apply C2.
      - destruct H as [v H]. apply C4 in H as [(_ & ? & _)|(_ & H)]; [done|]. apply Hn1. by exists v. }
  destruct H as (-> & -> & [(_ & [?|?])|H]); [done..|]. destruct H as (_ & _ & _ & _ & _ & D1 & D2 & D3 & D4).
  split_and!.
  - intros e0 Hwf. by rewrite D1 // C1 // B1 // A1.
  - intros e0. by rewrite D2 C2 B2 A2.
  - intros e0 c0 v0. rewrite D4 C4 B4 A4. destruct (decide (e0 = e)); [|naive_solver]. destruct (decide (c0 = c1)); [|naive_solver].
    destruct (decide (c0 = c2)); naive_solver.
  - intros t0 c0. by rewrite (D3 t0 c0) (C3 t0 c0) (B3 t0 c0) (A3 t0 c0).
Qed.

Lemma typed_stored w t c : WOk w → type_id w t c → lives w c → stored w c ∧ recorded w c (cm_from_generic t).
Proof.
  intros [[R Hw] _] Ht Hl. pose proof (proj1 (lives_alive _ _) Hl) as Hal. destruct (wi_types _ _ Hw _ _ Ht) as (_ & _ & b & g & Hg & Hb).
  pose proof (proj1 (alive_iff _ _) Hal) as Hal'. rewrite Hg in Hal'. injection Hal' as -> ->. specialize (Hb eq_refl).
  split; [|by apply recorded_comp]. apply (stored_comp _ _ Hw); [done|]. eauto.
Qed.
Lemma add_typed_known w e t c v r w' ev : WOk w → op_legal (OAdd e t v) w → op_tame (OAdd e t v) w →
  type_id w t c → lives w c → step (OAdd e t v) w = Done r w' ev →
  r = RUnit ∧ ev = [] ∧ lives w e ∧ stored w e ∧ ¬ has w e c ∧
  same_lives w w' ∧ same_stored w w' ∧ same_types w w' ∧ sets w w' e c v.
Proof.
  intros Hw Hl Ht Htc Hc E. pose proof (add_typed_view w e t v Hw Hl Ht) as H. rewrite E in H.
  destruct H as (-> & -> & Hle & Hg & Ho & c' & Htc' & H). destruct (known_type _ _ _ _ Hg Ho Htc) as (K1 & K2 & K3).
  assert (c' = c) as ->. { apply K3 in Htc'. rewrite /type_id in Htc Htc'. congruence. }
  destruct H as [(_ & Hse & Hn & H4)|(Hd & _ & ->)]; [|done]. split_and!; done.
Qed.
Lemma add_typed_known_panic w e t c v r w' ev : WOk w → op_legal (OAdd e t v) w → op_tame (OAdd e t v) w →
  type_id w t c → lives w c → step (OAdd e t v) w = Panicked r w' ev →
  r = RCapacity ∨ same_view w w' ∧ (((r = RNoGeneration ∨ r = RAssert) ∧ ¬ lives w e) ∨ (r = RUnwrap ∧ lives w e ∧ ¬ stored w e) ∨ (r = RAssert ∧ has w e c)).
Proof.
  intros Hw Hl Ht Htc Hc E. pose proof (add_typed_view w e t v Hw Hl Ht) as H. rewrite E in H.
  destruct H as [?|(Hg & Hh & Ho & H)]; [by left|]. right.
  destruct (known_type _ _ _ _ Hg Ho Htc) as (K1 & K2 & K3). split; [done|].
  assert (id_wf c) as Hwc. { destruct (proj1 Hw) as [R1 Hw1']. by destruct (wi_types _ _ Hw1' _ _ Htc) as (_ & ? & _). }
  destruct H as [(_ & [(-> & ?)|[(-> & ?)|(_ & _ & H)]] & _)|(_ & _ & c' & Htc' & H)].
  - left. split; [by left|]. by apply unissued_lives.
  - left. auto.
  - by destruct (H c).
  - assert (c' = c) as ->. { apply K3 in Htc'. rewrite /type_id in Htc Htc'. congruence. }
    destruct Hl as (Hwe & _ & _). rewrite /add_rejected in H.
    assert (unissued w' e → ¬ lives w e) as U1. { intros ?%unissued_lives. by rewrite -(K1 e Hwe). }
    assert (unissued w' c → False) as U2. { intros ?%unissued_lives. by rewrite (K1 c Hwc) in H0. }
    rewrite (K1 e Hwe) (K1 c Hwc) (K2 e) (K2 c) (has_after _ _ _ _ Hh) in H. destruct (typed_stored _ _ _ Hw Htc Hc) as [? _]. naive_solver.
Qed.
Lemma add_add_typed w e t1 c1 v1 t2 c2 v2 r1 w1 ev1 r12 w12 ev12 :
  WOk w → op_legal (OAdd e t1 v1) w → op_tame (OAdd e t1 v1) w →
  op_legal (OAdd e t2 v2) w → op_tame (OAdd e t2 v2) w1 →
  type_id w t1 c1 → type_id w t2 c2 → lives w c1 → lives w c2 →
  step (OAdd e t1 v1) w = Done r1 w1 ev1 → step (OAdd e t2 v2) w1 = Done r12 w12 ev12 →
  t1 ≠ t2 ∧
  match step (OAdd e t2 v2) w with
  | Done _ w2 _ => op_tame (OAdd e t1 v1) w2 →
      match step (OAdd e t1 v1) w2 with
      | Done _ w21 _ => same_view w12 w21
      | Panicked r _ _ => r = RCapacity
      | _ => False
      end
  | Panicked r _ _ => r = RCapacity
  | _ => False
  end.
Proof.
  intros Hw Hl1 Ht1 Hl2 Ht12 Htc1 Htc2 Hc1 Hc2 E1 E12.
  destruct (step_done_ok _ _ _ _ _ Hw Hl1 Ht1 E1) as [Hw1 Hi1].
  destruct (add_typed_known _ _ _ _ _ _ _ _ Hw Hl1 Ht1 Htc1 Hc1 E1) as (-> & -> & He & Hse & Hn1 & A1 & A2 & A3 & A4).
  assert (id_wf c1 ∧ id_wf c2) as [Hwc1 Hwc2].
  { destruct (proj1 Hw) as [R1 Hw1']. destruct (wi_types _ _ Hw1' _ _ Htc1) as (_ & ? & _). by destruct (wi_types _ _ Hw1' _ _ Htc2) as (_ & ? & _). }
  pose proof Hl1 as (Hwe & _ & _).
  assert (op_legal (OAdd e t2 v2) w1) as Hl12 by exact Hl2.
  destruct (add_typed_known _ _ _ c2 _ _ _ _ Hw1 Hl12 Ht12 (proj2 (A3 _ _) Htc2) (proj2 (A1 _ Hwc2) Hc2) E12) as (-> & -> & He' & Hse' & Hn2 & B1 & B2 & B3 & B4).
  assert (c1 ≠ c2) as Hne. { intros ->. destruct Hn2. exists v1. apply A4. by left. }
  assert (¬ has w e c2) as Hn2'. { intros (v & H). destruct Hn2. exists v. apply A4. right. split; [|done]. by intros (_ & ->). }
  split. { intros ->. rewrite /type_id in Htc1 Htc2. congruence. }
  assert (op_tame (OAdd e t2 v2) w) as Ht2 by (split; [apply Ht1|done]).
  pose proof (add_typed_view _ _ _ _ Hw Hl2 Ht2) as H.
  destruct (step (OAdd e t2 v2) w) as [r2 w2 ev2|r2 w2 ev2| |] eqn:E2; [| |done..].
  2:{ destruct (add_typed_known_panic _ _ _ _ _ _ _ _ Hw Hl2 Ht2 Htc2 Hc2 E2) as [?|(_ & G)]; [done|]. exfalso.
      destruct G as [(_ & ?)|[(_ & _ & ?)|(_ & ?)]]; done. }
  clear H.
  destruct (add_typed_known _ _ _ _ _ _ _ _ Hw Hl2 Ht2 Htc2 Hc2 E2) as (-> & -> & _ & _ & _ & C1 & C2 & C3 & C4).
  intros Ht21.
  destruct (step_done_ok _ _ _ _ _ Hw Hl2 Ht2 E2) as [Hw2 Hi2].
  assert (op_legal (OAdd e t1 v1) w2) as Hl21 by exact Hl1.
  pose proof (add_typed_view _ _ _ _ Hw2 Hl21 Ht21) as H.
  assert (type_id w2 t1 c1) as T1 by by apply C3. assert (lives w2 c1) as L1 by by apply C1.
  destruct (step (OAdd e t1 v1) w2) as [r21 w21 ev21|r21 w21 ev21| |] eqn:E21; [| |done..].
  2:{ destruct (add_typed_known_panic _ _ _ _ _ _ _ _ Hw2 Hl21 Ht21 T1 L1 E21) as [?|(_ & G)]; [done|]. exfalso. clear H.
      destruct G as [(_ & G)|[(_ & _ & G)|(_ & G)]].
      - destruct G. by apply C1.
      - destruct G. by apply C2.
      - destruct G as [v G]. apply C4 in G as [(_ & ? & _)|(_ & G)]; [done|]. apply Hn1. by exists v. }
  clear H.
  destruct (add_typed_known _ _ _ _ _ _ _ _ Hw2 Hl21 Ht21 T1 L1 E21) as (-> & -> & _ & _ & _ & D1 & D2 & D3 & D4).
  split_and!.
  - intros e0 Hwf. by rewrite D1 // C1 // B1 // A1.
  - intros e0. by rewrite D2 C2 B2 A2.
  - intros e0 c0 v0. rewrite D4 C4 B4 A4. destruct (decide (e0 = e)); [|naive_solver]. destruct (decide (c0 = c1)); [|naive_solver].
    destruct (decide (c0 = c2)); naive_solver.
  - intros t0 c0. by rewrite (D3 t0 c0) (C3 t0 c0) (B3 t0 c0) (A3 t0 c0).
Qed.
