(** * Destructors that panic: the statements about worlds *)
From Verif Require Import ProofBase SpecSmall World Query History ProofEntities ProofBitset ProofArrayVec ProofUVec ProofLocks.
From Verif Require Export ProofDropPanicDespawn.

Lemma cut_off_nil bomb ev : ¬ cut_off bomb [] ev.
Proof. intros (pre & x & post & H & _). by destruct pre. Qed.
(** Calls that make no destructor calls before they run out of address space. *)
Definition caps {S A} (m : M S A) : Prop := ∀ s, match m s with Panicked RCapacity _ ev => ev = [] | _ => True end.
Lemma caps_mute {S A} (m : M S A) : mute m → caps m.
Proof. intros H s. specialize (H s). destruct (m s) as [|[] ? ?| |]; try done. by destruct H. Qed.
Lemma caps_pre {S A B} (m : M S A) (k : A → M S B) : mute m → (∀ a, caps (k a)) → caps (bind m k).
Proof.
  intros Hm Hk s. specialize (Hm s). rewrite /bind. destruct (m s) as [a s1 ev|[] s1 ev| |]; try done; [|by destruct Hm].
  subst ev. rewrite add_events_nil. apply Hk.
Qed.
Lemma caps_last {S A B} (m : M S A) (k : A → M S B) : caps m → (∀ a, calm (k a)) → caps (bind m k).
Proof.
  intros Hm Hk s. specialize (Hm s). rewrite /bind. destruct (m s) as [a s1 ev|[] s1 ev| |]; try done.
  specialize (Hk a s1). destruct (k a s1) as [| [] | |]; done.
Qed.
Lemma caps_zoom {S T A} (get : S → option T) set (m : M T A) : caps m → caps (zoom get set m).
Proof. intros H s. rewrite /zoom. destruct (get s) as [t|]; [|done]. specialize (H t). by destruct (m t) as [|[]| |]. Qed.
Lemma caps_remove e c : caps (remove_component_dynamic e c).
Proof.
  rewrite /remove_component_dynamic. apply caps_pre; [mute|]. intros al. destruct (negb al); [apply caps_mute; mute|].
  apply caps_pre; [mute|]. intros al'. destruct (negb al'); [apply caps_mute; mute|].
  apply caps_pre; [mute|]. intros om. apply caps_pre; [mute|]. intros m. cbv zeta. apply caps_pre; [mute|]. intros a.
  apply caps_pre; [mute|]. intros []. apply caps_pre; [mute|]. intros cached. apply caps_pre; [mute|]. intros found.
  apply caps_pre; [mute|]. intros tar. apply caps_pre; [mute|]. intros archs. apply caps_pre; [mute|]. intros [ca ta].
  apply caps_pre; [mute|]. intros sk. apply caps_pre; [mute|]. intros skipped. apply caps_last.
  - apply caps_zoom, caps_zoom. intros u. destruct (uv_swap_remove _ u) as [|[] ? ?| |] eqn:E; try done. by eapply uv_swap_remove_panic.
  - intros []. rewrite /push_row /remove_row /get_arch /update_meta. calm.
Qed.

Lemma despawn_cut bomb w e : WOk w → op_legal (ODespawn e) w → op_tame (ODespawn e) w →
  cut_short bomb (despawn e w) (despawn_b bomb e w) (λ w' ev, wrecked w w' e ev ∧ (∀ e0, stored w' e0 ↔ e0 ≠ e ∧ stored w e0) ∧ half_despawned w w' e).
Proof.
  intros Hok Hl Ht. pose proof (despawn_view w e Hok Hl Ht) as Hv. cbn [step] in Hv. rewrite /bind in Hv.
  assert (∀ w' ev, despawn e w ≠ Panicked RDestructor w' ev) as Hnd.
  { intros w' ev E. rewrite E in Hv. destruct Hv as (_ & _ & [[? _]|[[? _]|[? _]]]); done. }
  destruct (tracks_despawn bomb e w) as [[E Hs]|(w1 & ev1 & E & Hb & _)]; rewrite E.
  - destruct (despawn e w) as [b w' ev|r w' ev| |]; [done| |done..]. cbn. left. destruct Hv as (-> & -> & _). split; [|done].
    intros ->. by eapply Hnd.
  - cbn. right. split; [done|]. split; [|by destruct (despawn_damage _ _ _ _ _ Hok E) as (? & ? & _)].
    destruct (despawn e w) as [b w' ev|r w' ev| |]; [by eauto| |done..]. destruct Hv as (_ & -> & _). by apply cut_off_nil in Hb.
Qed.
Lemma despawn_cut_again bomb w e w1 ev : WOk w → despawn_b bomb e w = Panicked RDestructor w1 ev →
  ∀ bomb', ∃ r, (r = RIndex ∨ r = RAssert) ∧ despawn_b bomb' e w1 = Panicked r w1 [].
Proof. intros Hok E. by destruct (despawn_damage _ _ _ _ _ Hok E) as (_ & _ & _ & _ & ?). Qed.
Lemma remove_cut bomb w e c : WOk w → op_legal (ORemoveDyn e c) w → op_tame (ORemoveDyn e c) w →
  cut_short bomb (remove_component_dynamic e c w) (remove_component_dynamic_b bomb e c w) (λ w' ev, wrecked w w' e ev ∧ (same_stored w w' ∧ (∀ e0 k i, placed w e0 k i → placed w' e0 k i) ∧ spilled w w' e c) ∧ cols_wf w' ∧ drop_reuse w' = Some ()).
Proof.
  intros Hok Hl Ht. pose proof (remove_dyn_view w e c Hok Hl Ht) as Hv. cbn [step] in Hv. rewrite /bind in Hv.
  pose proof (caps_remove e c w) as Hcap.
  assert (∀ r w' ev, remove_component_dynamic e c w = Panicked r w' ev → r ≠ RDestructor ∧ ev = []) as Hnd.
  { intros r w' ev E. rewrite E in Hv. rewrite E in Hcap. destruct Hv as [->|(-> & _ & [[-> _]|[[-> _]|[-> _]]])]; done. }
  destruct (tracks_remove bomb e c w) as [[E Hs]|(w1 & ev1 & E & Hb & HG)]; rewrite E.
  - destruct (remove_component_dynamic e c w) as [b w' ev|r w' ev| |]; [done| |done..]. cbn. left. by destruct (Hnd _ _ _ eq_refl) as [? ->].
  - cbn. right. split; [done|]. destruct (remove_component_dynamic e c w) as [[] w' ev|r w' ev| |] eqn:Er; [| |done..].
    + split; [by eauto|]. destruct (remove_damage bomb w e c w1 w' ev ev1 Hok Hl Ht Er (HG _ _ _ eq_refl) Hb) as (_ & ? & [? ?] & ?). split; [done|]. split; [|done]. split; [done|]. split; [|done].
      destruct (HG _ _ _ eq_refl) as (tar & cur & row & _ & _ & [Hk _] & _). intros e0 k i (a & Ha & Hi). destruct (Hk _ _ Ha) as (a' & Ha' & Ee). exists a'. by rewrite Ee.
    + destruct (Hnd _ _ _ eq_refl) as [_ ->]. by apply cut_off_nil in Hb.
Qed.
Lemma remove_typed_cut bomb w e t : WOk w → op_legal (ORemove e t) w → op_tame (ORemove e t) w →
  (∃ c, lives w e ∧ type_id w t c ∧ remove_component_b bomb e t w = remove_component_dynamic_b bomb e c w ∧ remove_component e t w = remove_component_dynamic e c w) ∨
  ((∀ c, type_id w t c → ¬ lives w e) ∧ remove_component_b bomb e t w = remove_component e t w).
Proof.
  intros Hok Hl Ht. pose proof (remove_typed_view w e t Hok Hl Ht) as Hv. cbn [step] in Hv.
  destruct (is_alive e w) as [al w0 ev0|r w0 ev0| |] eqn:Ea.
  2-4: right; split; [intros c _ Hc; clear Hv; rewrite /lives Ea in Hc; discriminate|rewrite /remove_component_b /remove_component /bind Ea; reflexivity].
  pose proof (is_alive_same _ _ _ _ _ Ea) as ->. pose proof (is_alive_cases w e) as Hc. rewrite Ea in Hc. destruct Hc as (_ & -> & _).
  destruct al.
  2:{ right. split; [intros c _ Hc; clear Hv; rewrite /lives Ea in Hc; discriminate|]. trans (Panicked (A := ()) RAssert w []).
      - rewrite /remove_component_b /bind Ea. reflexivity.
      - rewrite /remove_component /bind Ea. reflexivity. }
  assert (remove_component_b bomb e t w = (let* c := get_or_create_type t in remove_component_dynamic_b bomb e c) w) as Eb.
  { rewrite /remove_component_b (bind_done_nil _ _ _ _ _ Ea). rewrite (bind_done_nil (massert true RAssert) _ w () w eq_refl). reflexivity. }
  assert (remove_component e t w = (let* c := get_or_create_type t in remove_component_dynamic e c) w) as Ep.
  { rewrite /remove_component (bind_done_nil _ _ _ _ _ Ea). rewrite (bind_done_nil (massert true RAssert) _ w () w eq_refl). reflexivity. }
  rewrite Eb Ep. rewrite /bind Ep in Hv. destruct (w_types w !! t) as [c|] eqn:Hty.
  - left. exists c. split; [done|]. split; [done|]. assert (get_or_create_type t w = Done c w []) as Hg.
    { rewrite /get_or_create_type (bind_done_nil _ _ w (w_types w !! t) w eq_refl) Hty. done. }
    split; by rewrite (bind_done_nil _ _ _ _ _ Hg).
  - right. split; [intros c Hc; rewrite /type_id Hty in Hc; discriminate|]. clear Eb Ep Ea. revert Hv. rewrite /bind.
    destruct (get_or_create_type t w) as [c w1 ev1|r w1 ev1| |]; [|done..]. pose proof (caps_remove e c w1) as Hcap.
    destruct (tracks_remove bomb e c w1) as [[E Hs]|(w2 & ev2 & E & Hb & HG)]; [by rewrite E|].
    destruct (remove_component_dynamic e c w1) as [[] w' ev|r w' ev| |] eqn:Er; cbn.
    + intros (_ & _ & _ & _ & c' & _ & Hc' & _). rewrite /type_id Hty in Hc'. discriminate.
    + intros [->|([_ ->]%app_nil & _)]; [rewrite Hcap in Hb|]; by apply cut_off_nil in Hb.
    + done.
    + done.
Qed.
(** Dropping the world afterwards. *)
Lemma owed_sized_sub w : owed_sized w ⊆+ owed w.
Proof.
  rewrite /owed_sized /owed. induction (all_cols w) as [|u l IH]; [done|]. rewrite !bind_cons. apply submseteq_app; [|done].
  rewrite /owed_vec_sized. case_decide; [apply submseteq_nil_l|done].
Qed.
Lemma falls_sub bomb w x : falls bomb w x → fall_events x ⊆+ owed w.
Proof.
  intros H. etrans; [|apply owed_sized_sub]. destruct x as [[] ev|ev]; cbn in H |- *.
  - destruct H as (_ & u & left & _ & _ & <-). by apply submseteq_inserts_r.
  - destruct H as [_ ->]. done.
  - by destruct H.
Qed.
Lemma world_fall bomb w : WOk w → ∃ x, world_drop_b bomb w = Some x ∧ falls bomb w x.
Proof. intros [[R Hw] _]. apply world_falls; [by eapply winv_cols_wf|by eapply reuse_drop]. Qed.
Lemma fall_after w w1 e ev bomb : wrecked w w1 e ev → cols_wf w1 → drop_reuse w1 = Some () →
  ∃ x, world_drop_b bomb w1 = Some x ∧ falls bomb w1 x ∧ ev ++ fall_events x ⊆+ owed w.
Proof.
  intros Hk Hc Hr. destruct (world_falls bomb w1 Hc Hr) as (x & E & Hx). exists x. split; [done|]. split; [done|].
  rewrite (wk_owed _ _ _ _ Hk). apply submseteq_app; [done|by eapply falls_sub].
Qed.
Lemma despawn_fall bomb w e w1 ev : WOk w → despawn_b bomb e w = Panicked RDestructor w1 ev →
  ∀ bomb', ∃ x, world_drop_b bomb' w1 = Some x ∧ falls bomb' w1 x ∧ ev ++ fall_events x ⊆+ owed w.
Proof. intros Hok E bomb'. destruct (despawn_damage _ _ _ _ _ Hok E) as (? & _ & ? & ? & _). by eapply fall_after. Qed.
Lemma remove_fall bomb w e c w1 ev : WOk w → op_legal (ORemoveDyn e c) w → op_tame (ORemoveDyn e c) w →
  remove_component_dynamic_b bomb e c w = Panicked RDestructor w1 ev →
  ∀ bomb', ∃ x, world_drop_b bomb' w1 = Some x ∧ falls bomb' w1 x ∧ ev ++ fall_events x ⊆+ owed w.
Proof.
  intros Hok Hl Ht E bomb'. pose proof (remove_cut bomb w e c Hok Hl Ht) as H. rewrite E in H. cbn in H.
  destruct H as [(? & _)|(_ & _ & ? & _ & ? & ?)]; [done|]. by eapply fall_after.
Qed.
Lemma remove_cut' bomb w e c : WOk w → op_legal (ORemoveDyn e c) w → op_tame (ORemoveDyn e c) w →
  cut_short bomb (remove_component_dynamic e c w) (remove_component_dynamic_b bomb e c w) (λ w' ev, wrecked w w' e ev ∧ same_stored w w' ∧ (∀ e0 k i, placed w e0 k i → placed w' e0 k i) ∧ spilled w w' e c).
Proof.
  intros Hok Hl Ht. pose proof (remove_cut bomb w e c Hok Hl Ht) as H. rewrite /cut_short in H |- *. destruct (remove_component_dynamic_b _ _ _ _); [done| |done..].
  destruct H as [?|(? & ? & ? & ? & _)]; [by left|right]. done.
Qed.
Lemma owed_reachable w : WOk w → owed w ≡ₚ dropping_all w (cells w).
Proof. intros [[R Hw] _]. by eapply owed_held. Qed.

(** *** In reachable worlds *)
Lemma at_despawn : ∀ bomb w e, reachable_world w → op_legal (ODespawn e) w → op_tame (ODespawn e) w →
  cut_short bomb (despawn e w) (despawn_b bomb e w)
    (λ w' ev, wrecked w w' e ev ∧ (∀ e0, stored w' e0 ↔ e0 ≠ e ∧ stored w e0) ∧ half_despawned w w' e).
Proof. intros bomb w e Hw. exact (despawn_cut bomb w e (reachable_world_ok w Hw)). Qed.
Lemma at_despawn_again : ∀ bomb w e w1 ev, reachable_world w → despawn_b bomb e w = Panicked RDestructor w1 ev →
  ∀ bomb', ∃ r, (r = RIndex ∨ r = RAssert) ∧ despawn_b bomb' e w1 = Panicked r w1 [].
Proof. intros bomb w e w1 ev Hw. exact (despawn_cut_again bomb w e w1 ev (reachable_world_ok w Hw)). Qed.
Lemma at_remove : ∀ bomb w e c, reachable_world w → op_legal (ORemoveDyn e c) w → op_tame (ORemoveDyn e c) w →
  cut_short bomb (remove_component_dynamic e c w) (remove_component_dynamic_b bomb e c w)
    (λ w' ev, wrecked w w' e ev ∧ same_stored w w' ∧ (∀ e0 k i, placed w e0 k i → placed w' e0 k i) ∧ spilled w w' e c).
Proof. intros bomb w e c Hw. exact (remove_cut' bomb w e c (reachable_world_ok w Hw)). Qed.
Lemma at_remove_typed : ∀ bomb w e t, reachable_world w → op_legal (ORemove e t) w → op_tame (ORemove e t) w →
  (∃ c, lives w e ∧ type_id w t c ∧ remove_component_b bomb e t w = remove_component_dynamic_b bomb e c w ∧
     remove_component e t w = remove_component_dynamic e c w) ∨
  ((∀ c, type_id w t c → ¬ lives w e) ∧ remove_component_b bomb e t w = remove_component e t w).
Proof. intros bomb w e t Hw. exact (remove_typed_cut bomb w e t (reachable_world_ok w Hw)). Qed.
Lemma at_owed : ∀ w, reachable_world w → owed w ≡ₚ dropping_all w (cells w).
Proof. intros w Hw. exact (owed_reachable w (reachable_world_ok w Hw)). Qed.
Lemma at_world_drop : ∀ bomb w, reachable_world w → ∃ x, world_drop_b bomb w = Some x ∧ falls bomb w x.
Proof. intros bomb w Hw. exact (world_fall bomb w (reachable_world_ok w Hw)). Qed.
Lemma at_once_despawn : ∀ bomb w e w1 ev, reachable_world w → despawn_b bomb e w = Panicked RDestructor w1 ev →
  ∀ bomb', ∃ x, world_drop_b bomb' w1 = Some x ∧ falls bomb' w1 x ∧ ev ++ fall_events x ⊆+ owed w.
Proof. intros bomb w e w1 ev Hw. exact (despawn_fall bomb w e w1 ev (reachable_world_ok w Hw)). Qed.
Lemma at_once_remove : ∀ bomb w e c w1 ev, reachable_world w → op_legal (ORemoveDyn e c) w → op_tame (ORemoveDyn e c) w →
  remove_component_dynamic_b bomb e c w = Panicked RDestructor w1 ev →
  ∀ bomb', ∃ x, world_drop_b bomb' w1 = Some x ∧ falls bomb' w1 x ∧ ev ++ fall_events x ⊆+ owed w.
Proof. intros bomb w e c w1 ev Hw. exact (remove_fall bomb w e c w1 ev (reachable_world_ok w Hw)). Qed.
