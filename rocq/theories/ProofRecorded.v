(** * C54: what the world records about components *)
From Verif Require Import ProofBase SpecSmall World Query History ProofEntities ProofBitset ProofArrayVec ProofUVec.
From Verif Require Export ProofHistory ProofLimitVec.

Lemma recorded_lives w e cm : recorded w e cm → lives w e.
Proof.
  rewrite /recorded /lives /get_entity_meta /is_alive /bind. cbn [gets].
  by destruct (ents_is_alive (w_ents w) e) as [[]|].
Qed.
Lemma column_info w k a c u : WOk w → w_archs w !! k = Some a → (c, u) ∈ a_storages a →
  ∃ cm, recorded w c cm ∧ uv_ti u = TypeInfo (cm_layout cm) (cm_drop cm).
Proof.
  intros Hok Ha Hc. assert (in_use w c) as Hu. { apply elem_of_list_lookup in Hc as [j Hj]. by exists k, a, j, u. }
  apply (co_comps _ (ok_consistent w Hok)) in Hu as [Hl _]. destruct Hok as [[R Hw] _].
  pose proof (lookup_lt_Some _ _ _ Ha) as Hk. rewrite -(wi_len _ _ Hw) in Hk.
  destruct (lookup_lt_is_Some_2 _ _ Hk) as [rs Hrs]. destruct (ar_cols _ _ _ (wi_rows _ _ Hw _ _ _ Ha Hrs) _ _ Hc) as (cm & Hcm & Hti & _).
  exists cm. split; [|done]. apply recorded_comp; [|done]. by apply lives_alive.
Qed.
Lemma value_info w e c v : WOk w → holds w e c v → ∃ cm, recorded w c cm ∧ length v = l_size (cm_layout cm).
Proof.
  intros Hok (k & i & a & j & u & Ha & He & Hj & Hv).
  destruct (column_info w k a c u Hok Ha (elem_of_list_lookup_2 _ _ _ Hj)) as (cm & Hcm & Hti). exists cm. split; [done|].
  assert (uv_size u = l_size (cm_layout cm)) as <- by by rewrite /uv_size Hti.
  rewrite /mem_read in Hv. destruct (uv_data u) as [|al m].
  - destruct (decide _) as [[_ Hz]|]; simplify_eq. by rewrite Hz.
  - destruct (decide _) as [Hle|]; simplify_eq. rewrite take_length drop_length. lia.
Qed.
Lemma type_info_recorded w t c : WOk w → type_id w t c → lives w c →
  stored w c ∧ recorded w c (CompMeta (Some (DropOf t)) (Layout (ty_size t) (ty_align t))).
Proof. exact (typed_stored w t c). Qed.
Lemma goes_recorded o s r s' ev e cm : sinv s → goes o s r s' ev → id_wf e → ¬ kills o e → stored (ss_world s) e →
  recorded (ss_world s) e cm → recorded (ss_world s') e cm.
Proof.
  intros Hs Hg Hwf Hk Hst Hr. pose proof (goes_inv _ _ _ _ _ Hs Hg) as Hs'.
  destruct (goes_stays _ _ _ _ _ e e Hs Hg Hwf Hst Hk) as [Hst' _].
  pose proof (co_live _ (ok_consistent _ (sv_world _ Hs)) _ Hst) as Hal%lives_alive.
  pose proof (co_live _ (ok_consistent _ (sv_world _ Hs')) _ Hst') as Hal'%lives_alive.
  apply recorded_comp; [done|]. apply recorded_comp in Hr; [|done].
  rewrite (sf_comp _ _ (goes_frame _ _ _ _ _ Hs Hg)) //.
Qed.
Lemma recorded_stored w e cm : WOk w → id_wf e → recorded w e cm → stored w e.
Proof.
  intros [[R Hw] _] Hwf Hr. pose proof (recorded_lives _ _ _ Hr) as Hl. pose proof (proj1 (lives_alive _ _) Hl) as Hal.
  apply (stored_comp _ _ Hw); [done|]. apply recorded_comp in Hr; [|done]. eauto.
Qed.
Lemma steps_recorded s l s' e cm : sinv s → steps s l s' → id_wf e → (∀ o, o ∈ calls_of l → ¬ kills o e) →
  recorded (ss_world s) e cm → recorded (ss_world s') e cm.
Proof.
  intros Hs Hst Hwf. revert s l s' Hst Hs.
  apply (steps_goes (λ s l s', sinv s → (∀ o, o ∈ calls_of l → ¬ kills o e) → recorded (ss_world s) e cm → recorded (ss_world s') e cm)); [done|].
  intros s0 l s1 o r s2 ev Hst IH Hg H0 Hk Hr. pose proof (steps_inv _ _ _ H0 Hst) as H1.
  assert (calls_of (l ++ [(o, r, ev)]) = calls_of l ++ [o]) as Hl by by rewrite /calls_of !fmap_app.
  rewrite Hl in Hk. assert (recorded (ss_world s1) e cm) as Hr1. { apply IH; [done| |done]. intros; apply Hk, elem_of_app; by left. }
  eapply goes_recorded; [done|done|done| | |done].
  - apply Hk, elem_of_app. right. apply elem_of_list_here.
  - eapply recorded_stored; [apply (sv_world _ H1)|done..].
Qed.
Lemma from_size_align_some size align cm : cm_from_size_align size align = Some cm ↔
  cm = CompMeta None (Layout size align) ∧ (∃ k, align = 2 ^ k) ∧ (N.of_nat size + N.of_nat align <= 2 ^ 63)%N.
Proof.
  rewrite -(layout_wf_valid (Layout size align)) /layout_wf /cm_from_size_align. cbn [l_size l_align].
  rewrite /layout_from_size_align. destruct (_ && _); naive_solver.
Qed.
Lemma plain_recorded w cap bs fin e w' ev : WOk w → op_legal (OSpawn cap cm_unit bs fin) w → op_tame (OSpawn cap cm_unit bs fin) w →
  BBuild ∈ bs → step (OSpawn cap cm_unit bs fin) w = Done (RId e) w' ev → recorded w' e (CompMeta None (Layout 0 1)) ∧ ¬ sized w' e.
Proof.
  intros Hok Hl Ht Hb E. pose proof (spawn_view w cap cm_unit bs fin Hok Hl Ht) as H. rewrite E in H.
  destruct H as (_ & e' & D & [= <-] & _ & _ & [(_ & _ & _ & Hr)|[Hn _]]); [|done]. split; [exact Hr|].
  intros (cm & Hcm & Hs). apply Hs. rewrite /recorded in Hr, Hcm. destruct (get_entity_meta e w') as [[m|] ? ?|? ? ?| |]; [|done..].
  by rewrite -Hcm Hr.
Qed.
