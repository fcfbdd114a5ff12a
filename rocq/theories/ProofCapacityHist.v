(** * C47, continued: whole histories *)
From Verif Require Import ProofBase SpecSmall World Query History ProofEntities ProofBitset ProofArrayVec ProofUVec.
From Verif Require Export ProofCapacity.

Definition salike (s s' : sess) : Prop := alike (ss_world s) (ss_world s') ∧ ss_open s' = ss_open s.
Lemma agree_sworld {A} (m m' : M world A) s s' : salike s s' → agree alike (m (ss_world s)) (m' (ss_world s')) →
  agree salike (in_sworld m s) (in_sworld m' s').
Proof.
  intros [Ha Ho] H. rewrite /in_sworld /zoom.
  inversion H as [x y Hx E1 E2|x y Hx E1 E2|a s1 s2 ev Hs E1 E2|r s1 s2 ev Hs E1 E2|E1 E2|E1 E2].
  - destruct Hx as (z & ev & ->). apply ag_left. by eexists _, _.
  - destruct Hx as (z & ev & ->). apply ag_right. by eexists _, _.
  - by apply ag_done.
  - by apply ag_panic.
  - apply ag_deadlock.
  - apply ag_ub.
Qed.
Lemma open_query_alike m s s' : blind m → salike s s' → agree salike (open_query m s) (open_query m s').
Proof.
  intros Hm Hs. rewrite /open_query. apply (agree_bind salike salike); [|intros q s1 s1' ev _ _ [Ha Ho]|done].
  { apply agree_sworld; [done|]. apply blind_alike; [done|]. apply Hs. }
  rewrite (bind_done_nil _ _ s1 (length (ss_open s1)) s1 eq_refl) (bind_done_nil _ _ s1' (length (ss_open s1')) s1' eq_refl).
  rewrite /bind /=. rewrite Ho. apply ag_done. by split.
Qed.
Lemma release_all_alike u gs w w' : alike w w' → alike (release_all u gs w) (release_all u gs w').
Proof.
  intros (Hr & r & Hr' & ->). rewrite release_all_reuse. split; [|by exists r].
  assert (w_reuse (release_all u gs w) = w_reuse w) as ->; [|done].
  pose proof (release_all_reuse u gs (w_reuse w) w) as H. assert (set_reuse (w_reuse w) w = w) as E by by destruct w.
  rewrite E in H. by rewrite H.
Qed.
Lemma sstep_alike o o' s s' : same_call o o' → salike s s' → sinv s → sop_legal o s → sop_tame o s →
  agree salike (sstep o s) (sstep o' s').
Proof.
  intros Hc Hs [[[R Hw] _] _ _] Hleg Htame. pose proof Hs as [Ha Ho].
  destruct o as [o|fs|ps|i u|i|i n j v].
  { assert (∃ o2, o' = SWorld o2 ∧ same_op o o2) as (o2 & -> & Hs2).
    { cbn in Hc. destruct o; try (eexists; split; [exact Hc|done]). destruct o' as [o2| | | | |]; try done. destruct o2; try done. by eexists. }
    cbn [sstep]. apply (agree_bind salike salike); [|intros r s1 s1' ev _ _ ?; by apply agree_ret|done].
    apply agree_sworld; [done|]. destruct Hleg as [Hleg _]. by apply (step_alike _ _ _ _ R). }
  all: cbn [same_call] in Hc; subst o'; cbn [sstep].
  - apply open_query_alike; [|done]. apply blind_bind; [apply blind_dq_new|intros q; apply blind_ret].
  - apply open_query_alike; [|done]. apply blind_bind; [apply blind_sq_new|intros q; apply blind_ret].
  - rewrite (bind_done_nil _ _ s s s eq_refl) (bind_done_nil _ _ s' s' s' eq_refl) Ho.
    destruct (ss_open s !! i) as [[q|]|]; [|by apply ag_done..].
    rewrite /in_sworld /zoom /bind /=. apply ag_done. split; [|cbn; by rewrite Ho]. cbn. by apply release_all_alike.
  - rewrite /close_query /bind /=. apply ag_done. split; [done|]. cbn. by rewrite Ho.
  - rewrite (bind_done_nil _ _ s s s eq_refl) (bind_done_nil _ _ s' s' s' eq_refl) Ho.
    destruct (ss_open s !! i) as [[q|]|]; [|by apply ag_done..].
    apply (agree_bind salike salike); [|intros it s1 s1' ev _ _ Hs1|done].
    { apply agree_sworld; [done|]. apply blind_alike; [apply blind_query_item|done]. }
    destruct (it ≫= (.!! j)) as [p|]; [|by apply agree_ret].
    apply (agree_bind salike salike); [|intros [] s2 s2' ev2 _ _ Hs2; by apply agree_ret|done].
    apply agree_sworld; [done|]. apply blind_alike; [apply blind_ptr_store|]. apply Hs1.
Qed.

(** ** Legality of the other run *)
Lemma bops_legal_alike bs : bops_builds bs ≤ 1 → ∀ b b' w w' R D, alike w w' → winv w R → room 1 w → bbuf b → bbuf b' →
  pending w b D → pending w b' D → eb_entity b' = eb_entity b → eb_meta b' = eb_meta b → bops_legal bs (b, w) →
  ¬ exceeding (run_bops bs (b, w)) → bops_legal bs (b', w').
Proof.
  assert (∀ bs, bops_builds bs = 0 → ∀ b b' w w', alike w w' → bbuf b → bbuf b' → bops_legal bs (b, w) →
    ¬ exceeding (run_bops bs (b, w)) → bops_legal bs (b', w')) as Hafter.
  { clear. induction bs as [|o bs IH]; intros Hn b b' w w' Ha Hb Hb' Hleg Hx; cbn [bops_legal]; [done|].
    destruct Hleg as [Hl Hleg]. split; [by eapply bop_legal_alike|].
    assert (o ≠ BBuild ∧ bops_builds bs = 0) as [Ho Hn']. { destruct o; cbn in Hn; done. }
    pose proof (bop_alike o b b' w w' Ha Hb Hb' Ho) as H. cbn [run_bops] in Hx.
    inversion H as [x y Hy E1 E2|x y Hy E1 E2|[] [b1 w1] [b1' w1'] ev (Ha1 & Hb1 & Hb1') E1 E2|r [b1 w1] [b1' w1'] ev Hs E1 E2|E1 E2|E1 E2]; try done.
    - destruct Hx. by apply exceeding_bind.
    - destruct Hy as (? & ? & Hy). by rewrite Hy.
    - rewrite -E1 in Hleg. eapply (IH Hn' b1 b1' w1 w1'); try done. intros (s & ev' & E). apply Hx. rewrite /bind -E1 E. by eexists _, _. }
  induction bs as [|o bs IH]; intros Hn b b' w w' R D Ha Hw Hroom Hb Hb' Hp Hp' He Hm Hleg Hx; cbn [bops_legal]; [done|].
  destruct Hleg as [Hl Hleg]. split; [by eapply bop_legal_alike|]. cbn [run_bops] in Hx.
  assert (o = BBuild ∨ o ≠ BBuild) as [->|Ho] by (destruct o; auto).
  - assert (agree balike (run_bop BBuild (b, w)) (run_bop BBuild (b', w'))) as H.
    { cbn [run_bop]. apply (agree_bind balike balike); [|intros ? ? ? ? _ _ ?; by apply agree_ret|done].
      apply (build_alike _ _ _ _ D); try done. intros k. by eapply fits_winv. }
    inversion H as [x y Hy E1 E2|x y Hy E1 E2|[] [b1 w1] [b1' w1'] ev (Ha1 & Hb1 & Hb1') E1 E2|r [b1 w1] [b1' w1'] ev Hs E1 E2|E1 E2|E1 E2]; try done;
      try (let T := type of E2 in match T with ?x = _ => change (x = run_bop BBuild (b', w')) in E2; rewrite -E2; done end).
    + destruct Hx. by apply exceeding_bind.
    + destruct Hy as (? & ? & Hy). by rewrite Hy.
    + change (Done () (b1, w1) ev = run_bop BBuild (b, w)) in E1. change (Done () (b1', w1') ev = run_bop BBuild (b', w')) in E2.
      rewrite -E2. rewrite -E1 in Hleg. apply (Hafter bs ltac:(cbn in Hn; lia) b1 b1' w1 w1'); try done. intros (s & ev' & E). apply Hx. rewrite /bind -E1 E. by eexists _, _.
  - assert (bops_builds bs ≤ 1) as Hn' by by destruct o.
    assert (room 0 w) as Hroom0 by (rewrite /room in Hroom |- *; lia).
    pose proof (bop_alike o b b' w w' Ha Hb Hb' Ho) as H.
    inversion H as [x y Hy E1 E2|x y Hy E1 E2|[] [b1 w1] [b1' w1'] ev (Ha1 & Hb1 & Hb1') E1 E2|r [b1 w1] [b1' w1'] ev Hs E1 E2|E1 E2|E1 E2]; try done.
    + destruct Hx. by apply exceeding_bind.
    + destruct Hy as (? & ? & Hy). by rewrite Hy.
    + rewrite -E1 in Hleg. cbn [fst snd] in *.
      pose proof (bop_spec w R b o Hw Hroom0 Hb Hl Ho) as S1.
      pose proof (bop_spec w' R b' o (winv_alike _ _ _ Ha Hw) (room_alike _ _ _ Ha Hroom0) Hb' (bop_legal_alike _ _ _ _ _ Ha Hl) Ho) as S2.
      rewrite /wp -E1 in S1. rewrite /wp -E2 in S2. cbn [fst snd] in S1, S2.
      destruct S1 as (_ & _ & [T1 T2] & Hg & (R1 & Hw1 & _) & d & Hd & Hpd).
      destruct S2 as (_ & _ & [T1' T2'] & _ & _ & d' & Hd' & Hpd').
      rewrite (bop_entry_alike _ _ _ Ha1) Hd in Hd'. injection Hd' as <-.
      apply (IH Hn' b1 b1' w1 w1' R1 (D ++ [d])); try done.
      * by eapply grow_room.
      * by apply Hpd.
      * eapply pending_alike_inv; [done|]. apply Hpd'. by eapply pending_alike.
      * congruence.
      * congruence.
      * intros (s & ev' & E). apply Hx. rewrite /bind -E1 E. by eexists _, _.
Qed.
Lemma forget_builder_exceeding {A} b (m : M bw A) w : bbuf b → bsafe m → exceeding (m (b, w)) → exceeding (forget_builder b m w).
Proof.
  intros Hb Hm Hx. pose proof (with_builder_exceeding b m w Hb Hm Hx) as Hy. rewrite /forget_builder.
  destruct Hx as (s & ev & Hx). by rewrite Hx.
Qed.
Lemma op_legal_alike o o' w w' R : same_op o o' → alike w w' → winv w R → op_legal o w → op_tame o w →
  ¬ exceeding (step o w) → op_legal o' w'.
Proof.
  intros Hs Ha Hw Hleg [Hroom Htame] Hx.
  destruct o as [cap meta bs fin| | | | | | | | | | ]; cbn [same_op] in Hs.
  { destruct o' as [cap' meta' bs' fin'| | | | | | | | | | ]; try done. destruct Hs as (-> & -> & ->). cbn [op_legal] in *. destruct Hleg as [Hlay Hleg].
    split; [done|]. cbn [step] in Hx. rewrite /spawn_program in Hx.
    destruct (spawn_builder_alike cap cap' meta w w' Ha) as [H|[H|[(r & s & s' & ev & E1 & E2 & Hr)|(e & b & b' & s & s' & E1 & E2 & Hr & (F1 & F2 & F3 & F4) & (G1 & G2 & G3 & G4))]]].
    - destruct Hx. by apply exceeding_bind, exceeding_bind.
    - destruct H as (? & ? & ->). done.
    - by rewrite E2.
    - rewrite E2. rewrite E1 in Hleg.
      pose proof (spawn_builder_spec w R cap meta Hw) as S1. rewrite /wp E1 in S1. destruct S1 as (_ & Hw1 & _ & _ & Ea & _).
      eapply (bops_legal_alike bs Htame b b' s s' R []); try done.
      + by rewrite /room Ea.
      + by rewrite F2.
      + by rewrite F3.
      + intros Hy. apply Hx. apply exceeding_bind. rewrite (bind_done_nil _ _ _ _ _ E1). apply exceeding_bind.
        destruct fin; [apply with_builder_exceeding|apply forget_builder_exceeding]; try done; apply bsafe_bops. }
  all: subst o'; destruct Ha as (_ & r & _ & ->); try done; destruct Hleg as (? & ? & ?); split_and!; try done; by apply value_fits_reuse.
Qed.
Lemma sop_legal_alike o o' s s' : same_call o o' → salike s s' → sinv s → sop_legal o s → sop_tame o s →
  ¬ exceeding (sstep o s) → sop_legal o' s' ∧ sop_tame o' s'.
Proof.
  intros Hc [Ha Ho] [[[R Hw] _] _ _] Hleg Htame Hx.
  destruct o as [o|fs|ps|i u|i|i n j v].
  { assert (∃ o2, o' = SWorld o2 ∧ same_op o o2) as (o2 & -> & Hs2).
    { cbn in Hc. destruct o; try (eexists; split; [exact Hc|done]). destruct o' as [o2| | | | |]; try done. destruct o2; try done. by eexists. }
    destruct Hleg as [Hleg Hop]. split; [split|].
    - eapply op_legal_alike; try done. intros (w1 & ev & E). apply Hx. cbn [sstep]. apply exceeding_bind. rewrite /in_sworld /zoom E. by eexists _, _.
    - rewrite Ho. destruct Hop as [Hsh|?]; [left|by right]. by destruct o; try done; cbn [same_op] in Hs2; subst o2.
    - cbn [sop_tame] in *. destruct Ha as (_ & r & _ & ->). destruct Htame as [Hr Ht]. split; [done|].
      destruct o; cbn [same_op] in Hs2; try (subst o2; exact Ht). destruct o2; try done. by destruct Hs2 as (-> & -> & ->). }
  all: cbn [same_call] in Hc; subst o'; split; try done.
  intros q Hq. rewrite Ho in Hq. destruct (Hleg q Hq) as (fs & c & H1 & H2 & H3). exists fs, c. split_and!; [|done|].
  - destruct Ha as (_ & r & _ & ->). done.
  - destruct Ha as (_ & r & _ & ->). by apply value_fits_reuse.
Qed.

(** ** C47 *)
Lemma usable_ok r : usable_buffer r → reuse_ok r.
Proof.
  destruct r as [[[ids p] cap]|]; [|done]. intros (-> & Hc & Hi & m & -> & Hm). split_and!; [done|lia|]. right.
  split_and!; [lia| |by exists m]. rewrite /layout_from_size_align. cbn [is_pow2].
  replace (is_pow2 1) with true by done. rewrite (proj2 (N.leb_le _ _)) //. lia.
Qed.
Lemma salike_same s s' : salike s s' → same_session s s'.
Proof. by intros [(_ & r & _ & E) Ho]; split; [rewrite E|]. Qed.
Lemma buffer_step s r o o' : reachable s → usable_buffer r → same_call o o' → sop_legal o s → sop_tame o s →
  same_outcome same_session (sstep o s) (sstep o' (Sess (set_reuse r (ss_world s)) (ss_open s))).
Proof.
  intros Hs Hr Hc Hleg Htame. pose proof (reachable_inv _ Hs) as Hi. apply agree_outcome.
  eapply agree_mono; [exact salike_same|]. apply sstep_alike; try done. split; [|done]. split; [|exists r; split; [by apply usable_ok|done]].
  destruct Hi as [[[R Hw] _] _ _]. apply (wi_reuse _ _ Hw).
Qed.
Lemma exceeds_snoc os o : (∃ l', exceeds l' os) → ∃ l', exceeds l' (os ++ [o]).
Proof.
  intros (l' & o1 & os' & s & s' & ev & -> & Hs & Hx). exists l', o1, (os' ++ [o]), s, s', ev. split_and!; [|done|done].
  by rewrite -app_assoc.
Qed.
Lemma buffer_history l s os : steps sess_new l s → Forall2 same_call (l.*1.*1) os →
  (∃ l' s', steps sess_new l' s' ∧ l'.*1.*1 = os ∧ Forall2 same_entry l l' ∧ same_session s s') ∨ (∃ l', exceeds l' os).
Proof.
  intros Hl Hos.
  assert ((∃ l' s', steps sess_new l' s' ∧ l'.*1.*1 = os ∧ Forall2 same_entry l l' ∧ salike s s') ∨ (∃ l', exceeds l' os)) as [(l' & s' & H1 & H2 & H3 & H4)|?];
    [|left; exists l', s'; split_and!; auto using salike_same|by right].
  revert os Hos. remember sess_new as s0 eqn:E0. induction Hl as [s0|s0 l s1 o r s2 ev Hl IH Hleg Htame Hrun|s0 l s1 o r s2 ev Hl IH Hleg Htame Hrun Hres]; intros os Hos; subst s0.
  - apply Forall2_nil_inv_l in Hos as ->. left. exists [], sess_new. split_and!; [apply steps_nil|done|done|]. split; [|done]. split; [done|]. by exists None.
  - rewrite !fmap_app in Hos. apply Forall2_app_inv_l in Hos as (os1 & os2 & H1 & H2 & ->). cbn in H2.
    apply Forall2_cons_inv_l in H2 as (o' & os3 & Hc & H2 & ->). apply Forall2_nil_inv_l in H2 as ->.
    destruct (IH eq_refl os1 H1) as [(l' & s' & Hl' & E & Hents & Hal)|Hex]; [|right; by apply exceeds_snoc].
    assert (sinv s1) as Hi by by apply reachable_inv; exists l.
    assert (sop_legal o' s' ∧ sop_tame o' s') as [Hleg' Htame'].
    { eapply sop_legal_alike; try done. rewrite Hrun. by intros (? & ? & ?). }
    pose proof (sstep_alike o o' s1 s' Hc Hal Hi Hleg Htame) as Hag. rewrite Hrun in Hag.
    inversion Hag as [x y Hx E1 E2|x y Hx E1 E2|a z z' ev0 Hz E1 E2|r0 z z' ev0 Hz E1 E2|E1 E2|E1 E2]; subst.
    + by destruct Hx as (? & ? & ?).
    + right. destruct Hx as (z & ev' & Hx). exists l', o', [], s', z, ev'. done.
    + left. exists (l' ++ [(o', ROk r, ev)]), z'. refine (conj _ (conj _ (conj _ Hz))); [by eapply steps_done|by rewrite !fmap_app|].
      apply Forall2_app; [done|]. by apply Forall2_cons.
  - rewrite !fmap_app in Hos. apply Forall2_app_inv_l in Hos as (os1 & os2 & H1 & H2 & ->). cbn in H2.
    apply Forall2_cons_inv_l in H2 as (o' & os3 & Hc & H2 & ->). apply Forall2_nil_inv_l in H2 as ->.
    destruct (IH eq_refl os1 H1) as [(l' & s' & Hl' & E & Hents & Hal)|Hex]; [|right; by apply exceeds_snoc].
    assert (sinv s1) as Hi by by apply reachable_inv; exists l.
    assert (sop_legal o' s' ∧ sop_tame o' s') as [Hleg' Htame'].
    { eapply sop_legal_alike; try done. rewrite Hrun. intros (? & ? & E'). destruct Hres. congruence. }
    pose proof (sstep_alike o o' s1 s' Hc Hal Hi Hleg Htame) as Hag. rewrite Hrun in Hag.
    inversion Hag as [x y Hx E1 E2|x y Hx E1 E2|a z z' ev0 Hz E1 E2|r0 z z' ev0 Hz E1 E2|E1 E2|E1 E2]; subst.
    + destruct Hx as (? & ? & Hx). destruct Hres. congruence.
    + right. destruct Hx as (z & ev' & Hx). exists l', o', [], s', z, ev'. done.
    + left. exists (l' ++ [(o', RPanic r, ev)]), z'. refine (conj _ (conj _ (conj _ Hz))); [by eapply steps_panic|by rewrite !fmap_app|].
      apply Forall2_app; [done|]. by apply Forall2_cons.
Qed.
Lemma buffer_kept s : reachable s → usable_buffer (w_reuse (ss_world s)).
Proof.
  intros [[[R Hw] _] _ _]%reachable_inv. pose proof (wi_reuse _ _ Hw) as H.
  destruct (w_reuse (ss_world s)) as [[[ids p] cap]|]; [|done]. destruct H as (-> & Hc & [[? _]|(_ & Hl & m & -> & Hm)]); [done|].
  split_and!; [done|lia| |by exists m]. rewrite /layout_from_size_align in Hl. case_match eqn:E; [|done].
  apply andb_prop in E as [_ E]. apply N.leb_le in E. lia.
Qed.
