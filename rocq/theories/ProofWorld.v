(** * The calls on a world, in terms of what the world contains *)
From Verif Require Import ProofBase SpecSmall World History ProofEntities ProofBitset ProofArrayVec ProofUVec.
From Verif Require Export SpecWorld SpecQuery ProofSession ProofCalm.

Lemma lives_alive w e : lives w e ↔ alive (w_ents w) e.
Proof.
  rewrite /lives /is_alive /alive (bind_done_nil _ _ w (ents_is_alive (w_ents w) e) w eq_refl).
  destruct (ents_is_alive (w_ents w) e) as [b|]; simpl; [|done]. split; [by intros [= ->]|by intros [= ->]].
Qed.
Lemma not_lives w e : ¬ lives w e → dead w e ∨ oob w e.
Proof.
  rewrite lives_alive /alive. destruct (ents_is_alive (w_ents w) e) as [[]|]; [done|by left|by right].
Qed.
Lemma unissued_oob w e : unissued w e ↔ oob w e.
Proof.
  pose proof (is_alive_cases w e) as H. rewrite /unissued. destruct (is_alive e w) as [b w' ev|r w' ev| |]; [| |done..].
  - split; [done|]. intros E. destruct H as (_ & _ & _ & H). congruence.
  - destruct H as (-> & -> & -> & H). done.
Qed.
Lemma unissued_lives w e : unissued w e → ¬ lives w e.
Proof. rewrite /unissued /lives. congruence. Qed.
Lemma dead_not_lives w e : dead w e ∨ oob w e → ¬ lives w e.
Proof. rewrite lives_alive /alive. intros [->| ->]; done. Qed.
Lemma new_type_fresh w w' c : new_type w w' c ↔ fresh_type w w' c.
Proof.
  rewrite /new_type /fresh_type /type_id. split; intros (t & H1 & H2); exists t.
  - split; [|done]. destruct (w_types w !! t) as [c'|] eqn:E; [|done]. by destruct (H2 c').
  - split; [done|]. intros c' E. congruence.
Qed.

Lemma same_ents w w' : w_ents w' = w_ents w → same_lives w w'.
Proof. intros E e _. by rewrite !lives_alive E. Qed.
Lemma same_tys w w' : w_types w' = w_types w → same_types w w'.
Proof. intros E t c. by rewrite /type_id E. Qed.

Lemma recorded_comp w c cm : alive (w_ents w) c → recorded w c cm ↔ comp_of w c = Some cm.
Proof.
  intros Hal. rewrite /recorded (get_entity_meta_alive _ _ Hal) /comp_of. destruct (meta_at w (uindex c)); cbn; naive_solver.
Qed.
Section view.
  Context (w : world) (R : list (list row)) (Hw : winv w R).
  Local Set Default Proof Using "Hw".
  Lemma stored_row e : stored w e ↔ ∃ m, rowof R e m.
  Proof.
    split.
    - intros (k & i & Hp). apply (placed_row _ _ Hw) in Hp as (rs & m & H1 & H2). exists m. by exists k, i, rs.
    - intros (m & k & i & rs & H1 & H2). exists k, i. apply (placed_row _ _ Hw). eauto.
  Qed.
  Lemma has_row e c : has w e c ↔ ∃ m, rowof R e m ∧ is_Some (m !! c).
  Proof.
    split.
    - intros (v & (m & H1 & H2)%(holds_row _ _ Hw)). eauto.
    - intros (m & H1 & v & H2). exists v. apply (holds_row _ _ Hw). eauto.
  Qed.
  Lemma stored_lives e : stored w e → lives w e.
  Proof. intros (m & Hm)%stored_row. apply lives_alive. by eapply (row_alive _ _ Hw). Qed.
  Lemma has_stored e c : has w e c → stored w e.
  Proof. intros (m & Hm & _)%has_row. apply stored_row. eauto. Qed.
  Lemma stored_meta e : lives w e → stored w e ↔ is_Some (meta_at w (uindex e)).
  Proof.
    intros Hal%lives_alive. rewrite stored_row. split.
    - intros (m & Hm). by eapply (row_meta _ _ Hw).
    - intros [em Hem]. destruct (winv_meta_row _ _ Hw _ _ Hal Hem) as (rs & m & H1 & H2). exists m. eexists _, _, _. done.
  Qed.
  Lemma stored_comp e : lives w e → stored w e ↔ is_Some (comp_of w e).
  Proof. intros H. rewrite stored_meta // /comp_of fmap_is_Some. done. Qed.
  Lemma in_use_ids c : in_use w c ↔ ∃ k L, arch_ids w !! k = Some L ∧ c ∈ L.
  Proof.
    split.
    - intros (k & a & j & u & Ha & Hj). exists k, (a_comp_ids a). split; [apply arch_ids_lookup; eauto|].
      rewrite -(as_storages _ (wi_shape _ _ Hw _ _ Ha)). apply elem_of_list_fmap. exists (c, u). split; [done|]. by eapply elem_of_list_lookup_2.
    - intros (k & L & HL & Hc). apply arch_ids_lookup in HL as (a & Ha & <-).
      rewrite -(as_storages _ (wi_shape _ _ Hw _ _ Ha)) in Hc. apply elem_of_list_fmap in Hc as ([c' u] & -> & [j Hj]%elem_of_list_lookup).
      by exists k, a, j, u.
  Qed.
  Lemma dtor_comp c cm : lives w c → comp_of w c = Some cm → dtor w c = cm_drop cm.
  Proof.
    intros Hal%lives_alive Hcm. rewrite /dtor (get_entity_meta_alive _ _ Hal). rewrite /comp_of in Hcm.
    by apply fmap_Some in Hcm as (em & -> & ->).
  Qed.
  Lemma dropping_comp c cm v : lives w c → comp_of w c = Some cm → dropping w c v = drop_event (cm_drop cm) v.
  Proof. intros H1 H2. rewrite /dropping (dtor_comp _ _ H1 H2). by destruct (cm_drop cm). Qed.
End view.

Section views.
  Context (w : world) (R : list (list row)) (Hw : winv w R) (w' : world) (R' : list (list row)) (Hw' : winv w' R').
  Local Set Default Proof Using "Hw Hw'".
  Lemma rows_same : (∀ e m, rowof R' e m ↔ rowof R e m) → same_stored w w' ∧ same_holds w w'.
  Proof.
    intros H. split.
    - intros e. rewrite (stored_row _ _ Hw) (stored_row _ _ Hw'). naive_solver.
    - intros e c v. rewrite (holds_row _ _ Hw) (holds_row _ _ Hw'). naive_solver.
  Qed.
  Lemma rows_set_stored e m m0 : rowof R e m0 → rows_set R R' e m → same_stored w w'.
  Proof.
    intros He H e0. rewrite (stored_row _ _ Hw) (stored_row _ _ Hw'). split.
    - intros (m1 & [(-> & ->)|(_ & ?)]%H); eauto.
    - intros (m1 & Hm1). destruct (decide (e0 = e)) as [->|Hne]; [exists m|exists m1]; apply H; auto.
  Qed.
  Lemma rows_set_insert e c v m : rowof R e m → rows_set R R' e (<[c := v]> m) → sets w w' e c v.
  Proof.
    intros He H e0 c0 v0. rewrite (holds_row _ _ Hw) (holds_row _ _ Hw'). split.
    - intros (m1 & [(-> & ->)|(Hne & Hr)]%H & Hv).
      + apply lookup_insert_Some in Hv as [(<- & <-)|(Hne & Hv)]; [by left|right]. split; [naive_solver|eauto].
      + right. split; [naive_solver|eauto].
    - intros [(-> & -> & ->)|(Hne & m1 & Hm1 & Hv)].
      + exists (<[c := v]> m). split; [apply H; auto|]. by rewrite lookup_insert.
      + destruct (decide (e0 = e)) as [->|Hne'].
        * pose proof (row_fun _ _ Hw _ _ _ He Hm1) as <-. exists (<[c := v]> m). split; [apply H; auto|].
          rewrite lookup_insert_ne //. naive_solver.
        * exists m1. split; [apply H; auto|done].
  Qed.
  Lemma rows_set_delete e c m : rowof R e m → rows_set R R' e (delete c m) → unsets w w' e c.
  Proof.
    intros He H e0 c0 v0. rewrite (holds_row _ _ Hw) (holds_row _ _ Hw'). split.
    - intros (m1 & [(-> & ->)|(Hne & Hr)]%H & Hv).
      + apply lookup_delete_Some in Hv as (Hne & Hv). split; [naive_solver|eauto].
      + split; [naive_solver|eauto].
    - intros (Hne & m1 & Hm1 & Hv).
      destruct (decide (e0 = e)) as [->|Hne'].
      + pose proof (row_fun _ _ Hw _ _ _ He Hm1) as <-. exists (delete c m). split; [apply H; auto|].
        rewrite lookup_delete_ne //. naive_solver.
      + exists m1. split; [apply H; auto|done].
  Qed.
  Lemma grow_grown : grow w w' → grow_rows w w' R R' → grown w w' ∧ same_holds w w'.
  Proof.
    intros Hg Hr. split; [split_and!|].
    - intros e Hwf. rewrite !lives_alive new_type_fresh. split; [by apply (gr_alive_inv _ _ Hg)|].
      intros [H|H]; [by apply (gr_alive _ _ Hg)|by apply (gr_fresh _ _ Hg)].
    - intros e. rewrite new_type_fresh lives_alive. by intros [_ ?]%(gr_fresh _ _ Hg).
    - intros e. rewrite (stored_row _ _ Hw) (stored_row _ _ Hw') new_type_fresh. split.
      + intros (m & [[_ ?]|?]%Hr); eauto.
      + intros [(m & Hm)|H]; [exists m; apply Hr; auto|exists ∅; apply Hr; auto].
    - apply (gr_types _ _ Hg).
    - intros e c v. rewrite (holds_row _ _ Hw) (holds_row _ _ Hw'). split.
      + intros (m & [[-> _]|?]%Hr & Hv); [by rewrite lookup_empty in Hv|eauto].
      + intros (m & Hm & Hv). exists m. split; [apply Hr; auto|done].
  Qed.
End views.

Lemma same_view_refl w : same_view w w.
Proof. rewrite /same_view /same_lives /same_stored /same_holds /same_types. naive_solver. Qed.
Lemma grown_same w w' : grown w w' → (∀ c, ¬ new_type w w' c) → (∀ t c, type_id w' t c → type_id w t c) → same_lives w w' ∧ same_stored w w' ∧ same_types w w'.
Proof.
  intros (H1 & H2 & H3 & H4) Hn Ht. split_and!.
  - intros e He. rewrite (H1 e He). naive_solver.
  - intros e. rewrite H3. naive_solver.
  - intros t c. naive_solver.
Qed.

(** ** Despawn (C04) *)
Lemma despawn_alive s e s' ev e0 : ents_wf s → id_wf e → ents_despawn e s = Done true s' ev →
  alive s' e0 ↔ e0 ≠ e ∧ alive s e0.
Proof.
  intros Hwf He Hrun. destruct (ents_despawn_spec _ _ _ _ _ Hwf He Hrun) as (_ & _ & _ & Hg & Hg' & _).
  rewrite !alive_iff Hg'. destruct (decide (uindex e0 = uindex e)) as [E|Hne].
  - rewrite E list_lookup_insert; [|by eapply lookup_lt_Some]. rewrite Hg. split; [done|]. intros (Hne & [= Hgen]).
    destruct Hne. destruct e, e0. rewrite /uindex in E. simpl in *. apply N2Nat.inj in E. congruence.
  - rewrite list_lookup_insert_ne //. split; [|naive_solver]. intros H. split; [|done]. by intros ->.
Qed.
Lemma row_drops_components w R e m ids : winv w R → rowof R e m → StronglySorted id_lt ids →
  (∀ d, d ∈ ids ↔ is_Some (m !! d)) →
  ∃ l, components w e l ∧ row_drops (comp_of w) ids m = dropping_all w l.
Proof.
  intros Hw Hm Hs Hids. exists ((λ d, (d, default [] (m !! d))) <$> ids).
  assert (∀ c, is_Some (m !! c) → has w e c) as Hhas. { intros c Hc. apply (has_row _ _ Hw). eauto. }
  split; [split|].
  - rewrite -list_fmap_compose. rewrite (list_fmap_ext _ id) //. rewrite list_fmap_id. by apply sorted_NoDup.
  - intros c v. rewrite elem_of_list_fmap (holds_row _ _ Hw). split.
    + intros (d & [= -> ->] & [v1 Hv]%Hids). exists m. rewrite Hv. done.
    + intros (m' & Hm' & Hv). pose proof (row_fun _ _ Hw _ _ _ Hm Hm') as <-. exists c. rewrite Hv. split; [done|]. apply Hids. eauto.
  - rewrite /row_drops /dropping_all. clear Hs. assert (∀ d, d ∈ ids → is_Some (m !! d)) as Hi by naive_solver. clear Hids.
    induction ids as [|d ids IH]; [done|]. rewrite fmap_cons !bind_cons. rewrite IH; [|set_solver]. f_equal. cbn [fst snd].
    destruct (Hhas d) as [v Hv]; [apply Hi; by left|].
    destruct (holds_size _ _ Hw _ _ _ Hv) as (Hal & cm & Hcm & _). rewrite Hcm. cbn [mbind option_bind].
    symmetry. apply (dropping_comp _ _ Hw); [by apply lives_alive|done].
Qed.
Lemma despawn_view w e : WOk w → id_wf e → op_tame (ODespawn e) w →
  match step (ODespawn e) w with
  | Done r w' ev =>
      (r = RBool true ∧ lives w e ∧ stored w e ∧ ¬ in_use w e ∧ ¬ lives w' e ∧
       (∀ e0, id_wf e0 → e0 ≠ e → lives w' e0 ↔ lives w e0) ∧
       (∀ e0, stored w' e0 ↔ e0 ≠ e ∧ stored w e0) ∧
       (∀ e0 c v, holds w' e0 c v ↔ e0 ≠ e ∧ holds w e0 c v) ∧ same_types w w' ∧
       ∃ l, components w e l ∧ ev = dropping_all w l) ∨
      (r = RBool false ∧ ¬ lives w e ∧ w' = w ∧ ev = [])
  | Panicked r w' ev => w' = w ∧ ev = [] ∧
      ((r = RNoGeneration ∧ unissued w e) ∨ (r = RComponentInUse ∧ lives w e ∧ in_use w e) ∨
       (r = RUnwrap ∧ lives w e ∧ ¬ stored w e))
  | _ => False
  end.
Proof.
  intros [[R Hw] _] He [_ Htame]. pose proof (calm_step (ODespawn e) w) as Hcalm. cbn [step] in *. rewrite /bind in Hcalm |- *.
  pose proof (despawn_spec w R e Hw He Htame) as H. rewrite /wp in H.
  destruct (despawn e w) as [b w' ev|r w' ev| |]; [| |done..].
  - cbn. rewrite app_nil_r. destruct H as [(-> & Hd & -> & ->)|(-> & Hal & Hk & R' & m & ids & Hw' & Hm & Hr & Hs & Hids & ->)].
    + right. split_and!; [done| |done..]. apply dead_not_lives. by left.
    + left. split_and!; [done| | | | | | | | |].
      * by apply lives_alive.
      * apply (stored_row _ _ Hw). eauto.
      * intros (k & L & HL & Hin)%(in_use_ids _ _ Hw). rewrite -(dk_ids _ _ _ Hk) in HL. destruct (wi_comps _ _ Hw' _ _ _ HL Hin) as (Ha & _).
        by apply (despawn_alive _ _ _ _ _ (wi_ents _ _ Hw) He (dk_ents _ _ _ Hk)) in Ha as [? _].
      * rewrite lives_alive. intros [? _]%(despawn_alive _ _ _ _ _ (wi_ents _ _ Hw) He (dk_ents _ _ _ Hk)). done.
      * intros e0 _ Hne. rewrite !lives_alive. rewrite (despawn_alive _ _ _ _ _ (wi_ents _ _ Hw) He (dk_ents _ _ _ Hk)). naive_solver.
      * intros e0. rewrite (stored_row _ _ Hw) (stored_row _ _ Hw'). setoid_rewrite Hr. naive_solver.
      * intros e0 c v. rewrite (holds_row _ _ Hw) (holds_row _ _ Hw'). setoid_rewrite Hr. naive_solver.
      * intros t c. by rewrite /type_id (dk_types _ _ _ Hk).
      * by eapply row_drops_components.
  - destruct H as [->|(-> & -> & H)]; [done|]. split_and!; [done..|]. destruct H as [(-> & H)|[(-> & H1 & H2)|(-> & H1 & H2)]].
    + left. split; [done|]. by apply unissued_oob.
    + right. left. split_and!; [done|by apply lives_alive|]. by apply (in_use_ids _ _ Hw).
    + right. right. split_and!; [done|by apply lives_alive|]. rewrite (stored_meta _ _ Hw); [|by apply lives_alive]. rewrite H2. by intros [? ?].
Qed.

(** ** Adding (C06) *)
Lemma add_done_view w R e c v w' : winv w R → add_done w R e c v w' →
  lives w e ∧ stored w e ∧ lives w c ∧ stored w c ∧ ¬ has w e c ∧
  same_lives w w' ∧ same_stored w w' ∧ same_types w w' ∧ sets w w' e c v.
Proof.
  intros Hw (Hc & Hk & _ & m & R' & cm & Hm & Hmc & Hcm & _ & Hw' & Hr).
  assert (lives w c) as Hlc by by apply lives_alive.
  split_and!.
  - apply lives_alive. by eapply (row_alive _ _ Hw).
  - apply (stored_row _ _ Hw). eauto.
  - done.
  - apply (stored_comp _ _ Hw); [done|]. eauto.
  - intros (m' & Hm' & [v' Hv'])%(has_row _ _ Hw). pose proof (row_fun _ _ Hw _ _ _ Hm Hm') as <-. congruence.
  - apply same_ents, Hk.
  - by eapply (rows_set_stored w R Hw w' R' Hw').
  - apply same_tys, Hk.
  - by eapply (rows_set_insert w R Hw w' R' Hw').
Qed.
Lemma add_panic_view w R e c r w' : winv w R → add_panic w R e c r w' →
  same_view w w' ∧ add_rejected w e c r.
Proof.
  intros Hw [(-> & H)|(-> & Hc & Hcm & Hw' & Hx & Hids & m & Hm & Hmc)].
  - split; [apply same_view_refl|]. destruct H as [(-> & H)|[(-> & He & Hc & H)|(-> & Hc & m & Hm & Hmc)]].
    + left. split; [done|]. destruct H; [left|right]; by apply unissued_oob.
    + right. left. split_and!; [done|by apply lives_alive..|]. left. rewrite (stored_meta _ _ Hw); [|by apply lives_alive]. rewrite H. by intros [? ?].
    + right. right. split; [done|]. apply (has_row _ _ Hw). eauto.
  - split.
    + destruct (rows_same w R Hw w' R Hw' (λ e m, iff_refl _)). pose proof (wext_keeps _ _ _ _ Hx) as Hk.
      split_and!; [apply same_ents, Hk|done..|apply same_tys, Hk].
    + right. left. split_and!; [done|apply lives_alive; by eapply (row_alive _ _ Hw)|by apply lives_alive|].
      right. rewrite (stored_comp _ _ Hw); [|by apply lives_alive]. rewrite Hcm. by intros [? ?].
Qed.
Lemma add_panic_unissued w R e c r w' x : add_panic w R e c r w' → unissued w' x ↔ unissued w x.
Proof.
  intros H. rewrite !unissued_oob. destruct H as [(-> & _)|(_ & _ & _ & _ & Hx & _)]; [done|].
  by rewrite (kp_ents _ _ (wext_keeps _ _ _ _ Hx)).
Qed.
Lemma add_dyn_view w e c v : WOk w → op_legal (OAddDynData e c v) w → op_tame (OAddDynData e c v) w →
  match step (OAddDynData e c v) w with
  | Done r w' ev => r = RUnit ∧ ev = [] ∧
      ((w' = w ∧ (¬ lives w e ∨ ¬ lives w c)) ∨
       (lives w e ∧ stored w e ∧ lives w c ∧ stored w c ∧ ¬ has w e c ∧
        same_lives w w' ∧ same_stored w w' ∧ same_types w w' ∧ sets w w' e c v))
  | Panicked r w' ev => r = RCapacity ∨ (ev = [] ∧ same_view w w' ∧ add_rejected w e c r)
  | _ => False
  end.
Proof.
  intros [[R Hw] _] (He & Hc & Hv) [Hroom _]. cbn [step]. rewrite /bind.
  pose proof (add_all w R e c v Hw Hroom) as H. rewrite /wp in H. specialize (H ltac:(intros cm Hal Hcm; symmetry; by eapply value_fits_comp)).
  destruct (add_component_with_data e c v w) as [[] w' ev|r w' ev| |]; [| |done..].
  - cbn. rewrite app_nil_r. destruct H as (-> & [(-> & H)|H]).
    + split_and!; [done..|]. left. split; [done|]. destruct H; [left|right]; apply dead_not_lives; by left.
    + split_and!; [done..|]. right. by eapply add_done_view.
  - destruct H as [->|(-> & H)]; [by left|]. right. split; [done|]. by eapply add_panic_view.
Qed.
Lemma grown_after w w1 w' : grown w w1 → same_lives w1 w' → same_stored w1 w' → same_types w1 w' → grown w w'.
Proof.
  intros (H1 & H2 & H3 & H4) Hl Hs Ht.
  assert (∀ c, new_type w w' c ↔ new_type w w1 c) as Hn. { intros c. rewrite /new_type. setoid_rewrite (Ht _ _). done. }
  split_and!.
  - intros e He. rewrite (Hl e He) (H1 e He) Hn. done.
  - intros e. rewrite Hn. apply H2.
  - intros e. rewrite Hs H3 Hn. done.
  - intros t c Hc. apply Ht, H4, Hc.
Qed.
Lemma registers_view w R t c w1 R1 : winv w R → registers w R t c w1 R1 →
  winv w1 R1 ∧ grown w w1 ∧ same_holds w w1 ∧ type_id w1 t c ∧ other_types w w1 t ∧
  ((type_id w t c ∧ w1 = w) ∨ ((∀ c', ¬ type_id w t c') ∧ lives w1 c ∧ stored w1 c)).
Proof.
  intros Hw (Hg & Ht & Ho & Hsame & Hnew & Hwf & Hw1 & Hr). destruct (grow_grown w R Hw w1 R1 Hw1 Hg Hr) as [H1 H2].
  split_and!; try done.
  - intros t' c' Hne. by rewrite /type_id Ho.
  - rewrite /type_id. destruct (w_types w !! t) as [c'|] eqn:E.
    + left. rewrite Hsame in Ht |- *; [|done..]. split; [congruence|done].
    + right. destruct (Hnew eq_refl) as [Ha Hc]. split_and!; [done|by apply lives_alive|]. apply (stored_comp _ _ Hw1); [by apply lives_alive|]. eauto.
Qed.
Lemma no_ids_view w R t w1 : winv w R → no_ids_left w R t w1 →
  winv w1 R ∧ grown w w1 ∧ same_holds w w1 ∧ same_types w w1 ∧ ∀ c, ¬ type_id w t c.
Proof.
  intros Hw (Hg & Ht & Hw1 & Hn). destruct (grow_grown w R Hw w1 R Hw1 Hg) as [H1 H2].
  { intros e m. split; [by right|]. intros [[_ H]|?]; [by apply fresh_type_same in H|done]. }
  split_and!; try done; [by apply same_tys|]. intros c. rewrite /type_id Hn. done.
Qed.
Lemma sets_after w w1 w' e c v : same_holds w w1 → sets w1 w' e c v → sets w w' e c v.
Proof. intros H1 H2 e0 c0 v0. rewrite H2 H1. done. Qed.
Lemma unsets_after w w1 w' e c : same_holds w w1 → unsets w1 w' e c → unsets w w' e c.
Proof. intros H1 H2 e0 c0 v0. rewrite H2 H1. done. Qed.
Lemma has_after w w1 e c : same_holds w w1 → has w1 e c ↔ has w e c.
Proof. intros H. rewrite /has. by setoid_rewrite (H e c _). Qed.
Lemma same_holds_trans w w1 w' : same_holds w w1 → same_holds w1 w' → same_holds w w'.
Proof. intros H1 H2 e c v. by rewrite H2 H1. Qed.
Lemma other_types_after w w1 w' t : other_types w w1 t → same_types w1 w' → other_types w w' t.
Proof. intros H1 H2 t' c Hne. by rewrite (H2 t' c) H1. Qed.
Lemma grown_refl w : grown w w.
Proof.
  assert (∀ c, ¬ new_type w w c) as Hn. { intros c (t & H1 & H2). by apply H2 in H1. }
  split_and!; naive_solver.
Qed.
Lemma stored_old w R w1 R1 e : winv w R → winv w1 R1 → grown w w1 → lives w e → stored w1 e → stored w e.
Proof. intros Hw Hw1 (_ & H2 & H3 & _) He Hs. apply H3 in Hs as [?|?]; [done|]. by destruct (H2 e). Qed.

Lemma add_typed_view w e t v : WOk w → op_legal (OAdd e t v) w → op_tame (OAdd e t v) w →
  match step (OAdd e t v) w with
  | Done r w' ev => r = RUnit ∧ ev = [] ∧ lives w e ∧ grown w w' ∧ other_types w w' t ∧
      ∃ c, type_id w' t c ∧
        ((lives w' c ∧ stored w e ∧ ¬ has w e c ∧ sets w w' e c v) ∨
         (¬ lives w' c ∧ type_id w t c ∧ w' = w))
  | Panicked r w' ev =>
      r = RCapacity ∨
      (grown w w' ∧ same_holds w w' ∧ other_types w w' t ∧
        ((ev = [EvDrop (DropOf t) v] ∧ type_rejected w e t r ∧ (¬ lives w e → w' = w)) ∨
         (ev = [] ∧ lives w e ∧ ∃ c, type_id w' t c ∧ add_rejected w' e c r)))
  | _ => False
  end.
Proof.
  intros [[R Hw] _] (He & Ht & Hv) [Hroom _]. cbn [step]. rewrite /bind.
  pose proof (add_typed w R e t v Hw Hroom Ht Hv) as H. rewrite /wp in H.
  destruct (add_component e t v w) as [[] w' ev|r w' ev| |]; [| |done..].
  - cbn. rewrite app_nil_r. destruct H as (-> & Hal & w1 & R1 & c & Hreg & H).
    destruct (registers_view _ _ _ _ _ _ Hw Hreg) as (Hw1 & Hg & Hh & Htc & Ho & Hcase).
    assert (lives w e) as Hle by by apply lives_alive. destruct H as [(-> & Hd)|H].
    + split_and!; try done. exists c. split; [done|]. right.
      assert (¬ lives w1 c) as Hnl by (apply dead_not_lives; by left). split; [done|]. destruct Hcase as [?|(_ & ? & _)]; done.
    + destruct (add_done_view _ _ _ _ _ _ Hw1 H) as (H1 & H2 & H3 & H4 & H5 & H6 & H7 & H8 & H9).
      split_and!; try done; [by eapply grown_after|by eapply other_types_after|]. exists c. split; [by apply H8|]. left. split_and!.
      * apply H6; [|done]. by destruct Hreg as (_ & _ & _ & _ & _ & ? & _).
      * by eapply (stored_old w R w1 R1).
      * by rewrite -(has_after _ _ _ _ Hh).
      * by eapply sets_after.
  - destruct H as [->|H]; [by left|]. right. destruct H as [(-> & [(-> & H)|(Hal & -> & H)])|(-> & Hal & w1 & R1 & c & Hreg & H)].
    + split_and!; [apply grown_refl|done..|]. left. split; [done|]. split; [|done]. destruct H as [(-> & H)|(-> & H)]; [left|right; left]; (split; [done|]); [by apply unissued_oob|apply dead_not_lives; by auto].
    + destruct (no_ids_view _ _ _ _ Hw H) as (Hw1 & Hg & Hh & Hty & Hn). split_and!; [done..| |]; [by intros t' c' _; apply Hty|].
      assert (lives w e) as Hle by by apply lives_alive. left. split; [done|]. split; [|done]. right. right. by split_and!.
    + destruct (registers_view _ _ _ _ _ _ Hw Hreg) as (Hw1 & Hg & Hh & Htc & Ho & Hcase).
      destruct (add_panic_view _ _ _ _ _ _ Hw1 H) as ((H1 & H2 & H3 & H4) & Hrej). split_and!; [by eapply grown_after|by eapply same_holds_trans|by eapply other_types_after|].
      right. split; [done|]. split; [by apply lives_alive|]. exists c. split; [by apply H4|].
      assert (id_wf c) as Hwf by by destruct Hreg as (_ & _ & _ & _ & _ & ? & _).
      pose proof (H1 e He) as Ee. pose proof (H1 c Hwf) as Ec. pose proof (H2 e) as Se. pose proof (H2 c) as Sc. pose proof (has_after _ _ e c H3) as Eh.
      rewrite /add_rejected. rewrite Ee Ec Se Sc Eh !(add_panic_unissued _ _ _ _ _ _ _ H). done.
Qed.
Lemma add_plain_view w e c : WOk w → op_legal (OAddDyn e c) w → op_tame (OAddDyn e c) w →
  match step (OAddDyn e c) w with
  | Done r w' ev => r = RUnit ∧ ev = [] ∧
      lives w e ∧ stored w e ∧ lives w c ∧ stored w c ∧ ¬ has w e c ∧
      same_lives w w' ∧ same_stored w w' ∧ same_types w w' ∧ sets w w' e c []
  | Panicked r w' ev =>
      r = RCapacity ∨ (ev = [] ∧ same_view w w' ∧
        ((r = RAssert ∧ (¬ lives w e ∨ ¬ lives w c)) ∨
         (r = RUnwrap ∧ lives w c ∧ ¬ stored w c) ∨
         (r = RAssert ∧ lives w c ∧ stored w c ∧ sized w c) ∨
         add_rejected w e c r))
  | _ => False
  end.
Proof.
  intros [[R Hw] _] (He & Hc) [Hroom _]. cbn [step]. rewrite /bind.
  pose proof (add_dynamic w R e c Hw Hroom) as H. rewrite /wp in H.
  destruct (add_component_dynamic e c w) as [[] w' ev|r w' ev| |]; [| |done..].
  - cbn. rewrite app_nil_r. destruct H as (-> & H). do 2 (split; [done|]). by eapply add_done_view.
  - destruct H as [->|(-> & H)]; [by left|]. right. split; [done|]. destruct H as [(-> & H)|H].
    + split; [apply same_view_refl|]. destruct H as [(-> & H)|[(-> & H)|[(-> & Hac & Hcm)|(-> & Hac & cm & Hcm & H0)]]].
      * right. right. right. left. split; [done|]. destruct H; [left|right]; by apply unissued_oob.
      * left. split; [done|]. destruct H; [left|right]; apply dead_not_lives; by left.
      * right. left. split_and!; [done|by apply lives_alive|]. rewrite (stored_comp _ _ Hw); [|by apply lives_alive]. rewrite Hcm. by intros [? ?].
      * right. right. left. split_and!; [done|by apply lives_alive| |].
        -- apply (stored_comp _ _ Hw); [by apply lives_alive|]. eauto.
        -- exists cm. split; [|done]. by apply recorded_comp.
    + destruct (add_panic_view _ _ _ _ _ _ Hw H). tauto.
Qed.

(** ** Removing (C07) *)
Lemma remove_done_view w R e c w' ev : winv w R → remove_done w R e c w' ev →
  lives w e ∧ stored w e ∧ lives w c ∧
  same_lives w w' ∧ same_stored w w' ∧ same_types w w' ∧ unsets w w' e c ∧
  ∃ v, holds w e c v ∧ ev = dropping w c v.
Proof.
  intros Hw (Hc & Hk & _ & m & R' & cm & v & Hm & Hmc & Hcm & -> & Hw' & Hr).
  assert (lives w c) as Hlc by by apply lives_alive.
  split_and!.
  - apply lives_alive. by eapply (row_alive _ _ Hw).
  - apply (stored_row _ _ Hw). eauto.
  - done.
  - apply same_ents, Hk.
  - by eapply (rows_set_stored w R Hw w' R' Hw').
  - apply same_tys, Hk.
  - by eapply (rows_set_delete w R Hw w' R' Hw').
  - exists v. split; [apply (holds_row _ _ Hw); eauto|]. by rewrite (dropping_comp _ _ Hw c cm).
Qed.
Lemma remove_panic_view w R e c r w' : winv w R → remove_panic w R e c r w' → w' = w ∧ remove_rejected w e c r.
Proof.
  intros Hw (-> & H). split; [done|]. destruct H as [(-> & H)|[(-> & He & Hc & H)|(-> & Hc & m & Hm & Hmc)]].
  - left. split; [done|]. destruct H; [left|right]; by apply unissued_oob.
  - right. left. split_and!; [done|by apply lives_alive..|]. rewrite (stored_meta _ _ Hw); [|by apply lives_alive]. rewrite H. by intros [? ?].
  - right. right. split_and!; [done|apply (stored_row _ _ Hw); eauto|].
    intros (m' & Hm' & [v' Hv'])%(has_row _ _ Hw). pose proof (row_fun _ _ Hw _ _ _ Hm Hm') as <-. congruence.
Qed.
Lemma remove_dyn_view w e c : WOk w → op_legal (ORemoveDyn e c) w → op_tame (ORemoveDyn e c) w →
  match step (ORemoveDyn e c) w with
  | Done r w' ev => r = RUnit ∧
      ((w' = w ∧ ev = [] ∧ (¬ lives w e ∨ ¬ lives w c)) ∨
       (lives w e ∧ stored w e ∧ lives w c ∧
        same_lives w w' ∧ same_stored w w' ∧ same_types w w' ∧ unsets w w' e c ∧
        ∃ v, holds w e c v ∧ ev = dropping w c v))
  | Panicked r w' ev => r = RCapacity ∨ (ev = [] ∧ w' = w ∧ remove_rejected w e c r)
  | _ => False
  end.
Proof.
  intros [[R Hw] _] (He & Hc) [Hroom _]. cbn [step]. rewrite /bind.
  pose proof (remove_all w R e c Hw Hroom) as H. rewrite /wp in H.
  destruct (remove_component_dynamic e c w) as [[] w' ev|r w' ev| |]; [| |done..].
  - cbn. rewrite app_nil_r. split; [done|]. destruct H as [(-> & -> & H)|H].
    + left. split_and!; [done..|]. destruct H; [left|right]; apply dead_not_lives; by left.
    + right. by eapply remove_done_view.
  - destruct H as [->|(-> & H)]; [by left|]. right. split; [done|]. by eapply remove_panic_view.
Qed.
Lemma remove_typed_view w e t : WOk w → op_legal (ORemove e t) w → op_tame (ORemove e t) w →
  match step (ORemove e t) w with
  | Done r w' ev => r = RUnit ∧ lives w e ∧ grown w w' ∧ other_types w w' t ∧
      ∃ c, type_id w' t c ∧ type_id w t c ∧
        ((stored w e ∧ lives w c ∧ unsets w w' e c ∧ ∃ v, holds w e c v ∧ ev = dropping w c v) ∨
         (¬ lives w c ∧ w' = w ∧ ev = []))
  | Panicked r w' ev =>
      r = RCapacity ∨
      (ev = [] ∧ grown w w' ∧ same_holds w w' ∧ other_types w w' t ∧
        (type_rejected w e t r ∨ ∃ c, type_id w' t c ∧ remove_rejected w' e c r))
  | _ => False
  end.
Proof.
  intros [[R Hw] _] (He & Ht) [Hroom _]. cbn [step]. rewrite /bind.
  pose proof (remove_typed w R e t Hw Hroom Ht) as H. rewrite /wp in H.
  destruct (remove_component e t w) as [[] w' ev|r w' ev| |]; [| |done..].
  - cbn. rewrite app_nil_r. destruct H as (Hal & w1 & R1 & c & Hreg & H).
    destruct (registers_view _ _ _ _ _ _ Hw Hreg) as (Hw1 & Hg & Hh & Htc & Ho & Hcase).
    assert (lives w e) as Hle by by apply lives_alive. destruct H as [(-> & -> & Hd)|H].
    + split_and!; try done. exists c.
      assert (¬ lives w1 c) as Hnl by (apply dead_not_lives; by left). destruct Hcase as [(? & ->)|(_ & ? & _)]; [|done].
      split_and!; [done..|]. by right.
    + destruct (remove_done_view _ _ _ _ _ _ Hw1 H) as (H1 & H2 & H3 & H4 & H5 & H6 & H7 & v & Hv & ->).
      split_and!; try done; [by eapply grown_after|by eapply other_types_after|]. exists c. split; [by apply H6|].
      destruct Hcase as [(Htw & ->)|(Hn & Hlc & _)].
      * split; [done|]. left. split_and!; [done..|]. exists v. done.
      * exfalso. apply Hh in Hv. destruct (holds_size _ _ Hw _ _ _ Hv) as (Hac & _).
        destruct Hg as (_ & Hg & _). apply (Hg c); [|by apply lives_alive]. exists t. done.
  - destruct H as [->|(-> & H)]; [by left|]. right. split; [done|]. destruct H as [(-> & H)|(Hal & [(-> & H)|(w1 & R1 & c & Hreg & H)])].
    + split_and!; [apply grown_refl|done..|]. left. destruct H as [(-> & H)|(-> & H)]; [left|right; left]; (split; [done|]); [by apply unissued_oob|apply dead_not_lives; by auto].
    + destruct (no_ids_view _ _ _ _ Hw H) as (Hw1 & Hg & Hh & Hty & Hn). split_and!; [done..| |]; [by intros t' c' _; apply Hty|].
      left. right. right. split_and!; [done|by apply lives_alive|done].
    + destruct (registers_view _ _ _ _ _ _ Hw Hreg) as (Hw1 & Hg & Hh & Htc & Ho & Hcase).
      destruct (remove_panic_view _ _ _ _ _ _ Hw1 H) as (-> & Hrej). split_and!; [done..|].
      right. exists c. done.
Qed.

(** ** Registering (C36) *)
Lemma register_view w t : WOk w → op_legal (ORegister t) w →
  match step (ORegister t) w with
  | Done r w' ev => ev = [] ∧ grown w w' ∧ same_holds w w' ∧ other_types w w' t ∧
      ∃ c, r = RId c ∧ type_id w' t c ∧ ((type_id w t c ∧ w' = w) ∨ ((∀ c', ¬ type_id w t c') ∧ lives w' c ∧ stored w' c ∧ ¬ lives w c))
  | Panicked r w' ev => r = RCapacity ∨ (ev = [] ∧ r = ROutOfIds ∧ grown w w' ∧ same_holds w w' ∧ same_types w w' ∧ ∀ c, ¬ type_id w t c)
  | _ => False
  end.
Proof.
  intros [[R Hw] Hroom] Ht. cbn [step op_legal] in *. rewrite /bind.
  pose proof (register_all w R t Hw Hroom Ht) as H. rewrite /wp in H.
  destruct (get_or_create_type t w) as [c w' ev|r w' ev| |]; [| |done..].
  - cbn. rewrite app_nil_r. destruct H as (-> & R' & Hreg).
    destruct (registers_view _ _ _ _ _ _ Hw Hreg) as (Hw1 & Hg & Hh & Htc & Ho & Hcase). split_and!; try done.
    exists c. split_and!; [done..|]. destruct Hcase as [?|(Hn & Hl & Hs)]; [by left|]. right. split_and!; try done. apply Hg. by exists t.
  - destruct H as [->|(-> & -> & H)]; [by left|]. right. destruct (no_ids_view _ _ _ _ Hw H) as (Hw1 & Hg & Hh & Hty & Hn). split_and!; done.
Qed.

(** ** Writing (C45, C46) *)
Lemma write_done_view w R e c v w' : winv w R → write_done w R e c v w' →
  same_lives w w' ∧ same_stored w w' ∧ same_types w w' ∧ sets w w' e c v ∧
  ∃ v0, holds w e c v0 ∧ length v = length v0.
Proof.
  intros Hw (Hk & _ & _ & _ & _ & m & v0 & R' & Hm & Hv0 & Hlen & Hw' & Hr). split_and!.
  - apply same_ents, Hk.
  - by eapply (rows_set_stored w R Hw w' R' Hw').
  - apply same_tys, Hk.
  - by eapply (rows_set_insert w R Hw w' R' Hw').
  - exists v0. split; [|done]. apply (holds_row _ _ Hw). eauto.
Qed.
Lemma write_view w e c v : WOk w → op_legal (OWrite e c v) w →
  match step (OWrite e c v) w with
  | Done r w' ev => ev = [] ∧
      ((r = RBool false ∧ w' = w ∧ (¬ lives w e ∨ ¬ lives w c ∨ ¬ stored w e)) ∨
       (r = RBool true ∧ same_lives w w' ∧ same_stored w w' ∧ same_types w w' ∧ sets w w' e c v ∧
        ∃ v0, holds w e c v0 ∧ length v = length v0))
  | Panicked r w' ev => ev = [] ∧ w' = w ∧
      ((r = RNoGeneration ∧ (unissued w e ∨ unissued w c)) ∨
       (r = RIndex ∧ lives w e ∧ lives w c ∧ stored w e ∧ ¬ has w e c))
  | _ => False
  end.
Proof.
  intros [[R Hw] _] (He & Hc & Hv). pose proof (calm_step (OWrite e c v) w) as Hcalm.
  pose proof (write_all w R e c v Hw Hv) as H. rewrite /wp in H. destruct (step (OWrite e c v) w) as [r w' ev|r w' ev| |]; [| |done..].
  - destruct H as (-> & [(-> & -> & H)|(-> & H)]); (split; [done|]).
    + left. split_and!; [done..|]. destruct H as [H|[H|H]].
      * left. apply dead_not_lives. by left.
      * right. left. apply dead_not_lives. by left.
      * right. right. intros Hs. pose proof (stored_lives _ _ Hw _ Hs) as Hl. apply (stored_meta _ _ Hw) in Hs; [|done]. rewrite H in Hs. by destruct Hs.
    + right. split; [done|]. by eapply write_done_view.
  - destruct H as [->|(-> & -> & H)]; [done|]. split_and!; [done..|]. destruct H as [(-> & H)|(-> & Hal & m & Hm & Hmc)].
    + left. split; [done|]. destruct H; [left|right]; by apply unissued_oob.
    + right. split_and!; [done|apply lives_alive; by eapply (row_alive _ _ Hw)|by apply lives_alive|apply (stored_row _ _ Hw); eauto|].
      intros (m' & Hm' & [v' Hv'])%(has_row _ _ Hw). pose proof (row_fun _ _ Hw _ _ _ Hm Hm') as <-. congruence.
Qed.

Lemma read_view w e c : WOk w →
  match get_component_mut e c w with
  | Done (Some l) w' ev => w' = w ∧ ev = [] ∧ ∃ v, holds w e c v ∧ read_loc w l (length v) = Some v
  | Done None w' ev => w' = w ∧ ev = [] ∧ (¬ lives w e ∨ ¬ lives w c ∨ ¬ stored w e)
  | Panicked r w' ev => w' = w ∧ ev = [] ∧
      ((r = RNoGeneration ∧ (unissued w e ∨ unissued w c)) ∨
       (r = RIndex ∧ lives w e ∧ lives w c ∧ stored w e ∧ ¬ has w e c))
  | _ => False
  end.
Proof.
  intros [[R Hw] _]. pose proof (get_mut_cases w R Hw e c) as H.
  destruct (get_component_mut e c w) as [[l|] w' ev|r w' ev| |]; [| | |done..].
  - destruct H as (-> & -> & k & i & rs & m & v & a & j & u & Hrs & Hr & Hm & Ha & Hj & ->). split_and!; [done..|]. exists v.
    split; [apply (holds_row _ _ Hw); exists m; split; [by eexists _, _, _|done]|].
    destruct (column_value _ _ Hw _ _ _ _ _ _ _ _ _ Hrs Hr Ha Hj) as (v' & cm & Hm' & _ & _ & _ & _ & Hlen & Hv).
    rewrite Hm in Hm'. injection Hm' as <-. rewrite /read_loc. cbn [loc_arch loc_storage loc_off]. by rewrite Ha Hj Hlen.
  - destruct H as (-> & -> & H). split_and!; [done..|]. destruct H as [H|[H|H]].
    + left. apply dead_not_lives. by left.
    + right. left. apply dead_not_lives. by left.
    + right. right. intros Hs. pose proof (stored_lives _ _ Hw _ Hs) as Hl. apply (stored_meta _ _ Hw) in Hs; [|done]. rewrite H in Hs. by destruct Hs.
  - destruct H as (-> & -> & H). split_and!; [done..|]. destruct H as [(-> & H)|(-> & Hal & m & Hm & Hmc)].
    + left. split; [done|]. destruct H; [left|right]; by apply unissued_oob.
    + right. split_and!; [done|apply lives_alive; by eapply (row_alive _ _ Hw)|by apply lives_alive|apply (stored_row _ _ Hw); eauto|].
      intros (m' & Hm' & [v' Hv'])%(has_row _ _ Hw). pose proof (row_fun _ _ Hw _ _ _ Hm Hm') as <-. congruence.
Qed.

(** ** Reading (C38) *)
Lemma has_view w e t : WOk w →
  match step (OHas e t) w with
  | Done r w' ev => w' = w ∧ ev = [] ∧ ∃ b, r = RBool b ∧ (b = true ↔ ∃ c, type_id w t c ∧ has w e c)
  | Panicked r w' ev => w' = w ∧ ev = [] ∧ r = RNoGeneration ∧ unissued w e
  | _ => False
  end.
Proof.
  intros [[R Hw] _]. cbn [step]. rewrite /bind. pose proof (has_cases w R Hw e t) as H.
  destruct (has_component e t w) as [b w' ev|r w' ev| |]; [| |done..].
  - destruct H as (-> & -> & H). cbn. split_and!; [done..|]. exists b. split; [done|]. rewrite H. split.
    + intros (c & m & H1 & H2 & H3). exists c. split; [done|]. apply (has_row _ _ Hw). eauto.
    + intros (c & H1 & (m & H2 & H3)%(has_row _ _ Hw)). eauto.
  - destruct H as (-> & -> & -> & H). split_and!; [done..|]. by apply unissued_oob.
Qed.

(** ** Spawning (C05, C33) *)
Lemma bops_before_app pre post : BBuild ∉ pre → bops_before (pre ++ BBuild :: post) = pre.
Proof.
  induction pre as [|o pre IH]; [done|]. intros [Hne Hn]%not_elem_of_cons. destruct o; [..|done]; cbn; by rewrite IH.
Qed.
Lemma bops_before_all bs : BBuild ∉ bs → bops_before bs = bs.
Proof.
  induction bs as [|o pre IH]; [done|]. intros [Hne Hn]%not_elem_of_cons. destruct o; [..|done]; cbn; by rewrite IH.
Qed.
Lemma bops_builds_none bs : BBuild ∉ bs ↔ bops_builds bs = 0.
Proof.
  induction bs as [|o bs IH]; cbn; [split; [done|]; intros _; apply not_elem_of_nil|]. rewrite not_elem_of_cons.
  destruct o; rewrite -?IH; naive_solver.
Qed.
Lemma bops_builds_some bs : bops_builds bs ≠ 0 → BBuild ∈ bs.
Proof. induction bs as [|[] bs IH]; cbn; [done|..]; intros H; [right; by apply IH..|left]. Qed.
Lemma bops_builds_app pre post : bops_builds (pre ++ BBuild :: post) = bops_builds pre + S (bops_builds post).
Proof. induction pre as [|o pre IH]; [done|]. destruct o; cbn; by rewrite IH. Qed.
Lemma bop_entry_gives w o p : o ≠ BBuild → bop_entry w o = Some p ↔ gives w o p.1 p.2.
Proof.
  intros Hne. destruct p as [c v], o as [t v0|c0|c0 v0|]; cbn; [| | |done].
  - rewrite /type_id. split; [intros (? & -> & [= -> ->])%fmap_Some; done|]. intros [-> ->]. done.
  - naive_solver.
  - naive_solver.
Qed.
Lemma bops_before_no bs : BBuild ∉ bops_before bs.
Proof. induction bs as [|o bs IH]; cbn; [apply not_elem_of_nil|]. destruct o; [..|apply not_elem_of_nil]; by apply not_elem_of_cons. Qed.
Lemma entries_given w bs D : entries w bs = Some D ↔ given w (bops_before bs) D.
Proof.
  rewrite /entries mapM_Some /given. pose proof (bops_before_no bs) as Hn. induction (bops_before bs) as [|o l IH] in D, Hn |- *.
  - split; intros H; inversion H; constructor.
  - apply not_elem_of_cons in Hn as [Hne Hn].
    split; intros H; inversion_clear H; (constructor; [by apply bop_entry_gives|by apply IH]).
Qed.
Lemma given_fun w bs D D' : given w bs D → given w bs D' → D = D'.
Proof.
  intros H. revert D'. induction H as [|o p bs D Ho H IH]; intros D' H'; inversion H' as [|? p' ? D'' Ho' H'']; subst; [done|].
  f_equal; [|by apply IH]. destruct p, p', o; cbn in *; rewrite /type_id in Ho Ho'; destruct_and?; simplify_eq; done.
Qed.
Lemma sgrow_spawned w w' e : sgrow w w' e → spawned w w' e.
Proof.
  intros [(Hwf & Hal & Hna) Hnt H1 H2 H3 H4 H5 H6 H7]. split_and!; [done|by rewrite lives_alive|done| | |done].
  - intros e0 Hwf0. rewrite !lives_alive new_type_fresh. split; [by apply H2|]. intros [->|[?|?]]; [done|by apply H1|by apply H3].
  - intros e0. rewrite new_type_fresh lives_alive. intros [_ ?]%H3. done.
Qed.
Lemma built_view w R e cm D w' R' : winv w R → winv w' R' → sgrow w w' e → built w R e cm D w' R' →
  NoDup D.*1 ∧ built_with w w' e D ∧ recorded w' e cm.
Proof.
  intros Hw Hw' Hs (Hnd & Hr & Hc & _). split; [done|]. split; [split|].
  - intros e0. rewrite (stored_row _ _ Hw) (stored_row _ _ Hw') new_type_fresh. split.
    + intros (m & [(-> & _)|[(_ & ?)|?]]%Hr); eauto.
    + intros [->|[[m Hm]|Hf]]; [exists (list_to_map D)|exists m|exists ∅]; apply Hr; auto.
  - intros e0 c v. rewrite (holds_row _ _ Hw) (holds_row _ _ Hw'). split.
    + intros (m & [(-> & [= <-])|[(-> & _)|?]]%Hr & Hv); [|by rewrite lookup_empty in Hv|eauto]. left. split; [done|].
      by apply elem_of_list_to_map.
    + intros [(-> & Hv)|(m & Hm & Hv)]; [exists (list_to_map D)|exists m]; (split; [apply Hr; auto|]); [|done]. by apply elem_of_list_to_map.
  - apply recorded_comp; [|done]. apply Hs.
Qed.
Lemma unbuilt_view w R e w' R' : winv w R → winv w' R' → sgrow w w' e → unbuilt w R e w' R' → not_built w w' e.
Proof.
  intros Hw Hw' Hs (Hr & Hm & _). assert (∀ e0, stored w' e0 ↔ stored w e0 ∨ new_type w w' e0) as H.
  { intros e0. rewrite (stored_row _ _ Hw) (stored_row _ _ Hw') new_type_fresh. split.
    - intros (m & [(-> & ?)|[(_ & ?)|?]]%Hr); [done|eauto..].
    - intros [[m Hm0]|Hf]; [exists m|exists ∅]; apply Hr; auto. }
  split_and!; [|done|].
  - intros Hst. pose proof (stored_lives _ _ Hw' _ Hst) as Hl. apply (stored_meta _ _ Hw') in Hst; [|done]. rewrite Hm in Hst. by destruct Hst.
  - intros e0 c v. rewrite (holds_row _ _ Hw) (holds_row _ _ Hw'). split.
    + intros (m & [(-> & [=])|[(-> & _)|?]]%Hr & Hv); [by rewrite lookup_empty in Hv|eauto].
    + intros (m & Hm0 & Hv); exists m; (split; [apply Hr; auto|]); done.
Qed.
Lemma pending_view w D ev : dropped_pending w D ev → ev ≡ₚ dropping_sized w D.
Proof.
  intros [-> H]. apply reflexive_eq. rewrite /dropping_sized /dropping_all /pending_drops.
  induction D as [|[c v] D IH]; [done|]. rewrite fmap_cons concat_cons filter_cons. cbn [fst snd].
  destruct (H c v) as (Hal & cm & Hcm & Hlen); [by left|]. rewrite Hcm.
  rewrite IH; [|by intros; apply H; right].
  rewrite /drop_events_of. change (ti_size (cm_type_info cm)) with (cm_size cm). case_decide as Hz.
  - assert (v = []) as Hv by (apply nil_length_inv; lia). clear H. case_match; [done|reflexivity].
  - case_match; last first. { assert (v = []) as Hv by by apply dec_stable. by rewrite Hv in Hlen. } rewrite bind_cons. f_equal. cbn [fst snd].
    rewrite /dropping /dtor (get_entity_meta_alive _ _ Hal). rewrite /comp_of in Hcm. apply fmap_Some in Hcm as (em & -> & ->). cbn.
    rewrite app_nil_r. done.
Qed.
Lemma bops_bad_view w R r bs : winv w R → bops_bad w r bs → ∃ o, o ∈ bs ∧ bop_rejected w o r.
Proof.
  intros Hw (o & Ho & H). exists o. split; [done|].
  assert (∀ c, no_comp w c → ¬ lives w c ∨ ¬ stored w c) as Hno.
  { intros c [Hd|[Hal Hc]]; [left; apply dead_not_lives; by left|right]. rewrite (stored_comp _ _ Hw); [|by apply lives_alive]. rewrite Hc. by intros [? ?]. }
  assert (∀ c, data_bad w c r → data_rejected w c r) as Hdata.
  { intros c [(-> & Hd)|(-> & Hd)]; [left|right]; (split; [done|]); [by apply unissued_oob|by apply Hno]. }
  destruct o as [t v|c|c v|]; cbn in H |- *.
  - destruct H as [(-> & H)|(c & H1 & H2)]; [left|right]; [|eauto]. split; [done|]. intros c. rewrite /type_id H. done.
  - destruct H as [(-> & H)|[(-> & H)|(-> & Hal & cm & Hcm & Hsz)]].
    + left. split; [done|]. by apply unissued_oob.
    + right. left. split; [done|by apply Hno].
    + right. right. split; [done|]. exists cm. split; [|done]. by apply recorded_comp.
  - by apply Hdata.
  - done.
Qed.
Lemma spawn_view w cap meta bs fin : WOk w → op_legal (OSpawn cap meta bs fin) w → op_tame (OSpawn cap meta bs fin) w →
  match step (OSpawn cap meta bs fin) w with
  | Done r w' ev => ev = [] ∧ ∃ e D, r = RId e ∧ spawned w w' e ∧ given w' (bops_before bs) D ∧
      ((BBuild ∈ bs ∧ NoDup D.*1 ∧ built_with w w' e D ∧ recorded w' e meta) ∨ (BBuild ∉ bs ∧ not_built w w' e))
  | Panicked r w' ev =>
      r = RCapacity ∨
      (r = RColumnLength ∧ ev = [] ∧ ∃ D, given w' (bops_before bs) D ∧ ¬ NoDup D.*1) ∨
      (r = ROutOfIds ∧ ev = [] ∧ grown w w' ∧ same_holds w w' ∧ same_types w w') ∨
      (∃ e, spawned w w' e ∧
        (((∃ o, o ∈ bs ∧ bop_rejected w' o r) ∧ ev = [] ∧ not_built w w' e) ∨
         (r = RDuplicate ∧ not_built w w' e ∧ ∃ D, given w' (bops_before bs) D ∧ ¬ NoDup D.*1 ∧ ev ≡ₚ dropping_sized w' D) ∨
         ((∃ o, o ∈ bs ∧ bop_rejected w' o r) ∧ ev = [] ∧ BBuild ∈ bs ∧
            ∃ D, given w' (bops_before bs) D ∧ NoDup D.*1 ∧ built_with w w' e D ∧ recorded w' e meta)))
  | _ => False
  end.
Proof.
  intros [[R Hw] _] (Hlay & Hleg) [Hroom Hb]. cbn [step]. rewrite /bind.
  pose proof (spawn_program_spec w R cap meta bs fin Hw Hroom Hlay Hleg Hb) as H. rewrite /wp in H.
  destruct (spawn_program cap meta bs fin w) as [e w' ev|r w' ev| |]; [| |done..].
  - cbn. rewrite app_nil_r. destruct H as (-> & Hs & R' & D & Hw' & HD & H). split; [done|]. exists e, D. split; [done|]. split; [by apply sgrow_spawned|].
    split; [by apply entries_given|]. destruct (decide (bops_builds bs = 0)) as [E|E].
    + right. split; [by apply bops_builds_none|]. by eapply unbuilt_view.
    + left. split; [|by eapply built_view]. by apply bops_builds_some.
  - destruct H as [->|H]; [by left|]. right. destruct H as [(-> & -> & Hg & Ht & Hw')|[(-> & -> & e & D & HD & Hnd%tears_nodup)|(e & R' & Hs & Hw' & H)]].
    + right. left. split; [done|]. split; [done|]. destruct (grow_grown w R Hw w' R Hw' Hg) as [H1 H2].
      { intros e m. split; [by right|]. intros [[_ H]|?]; [by apply fresh_type_same in H|done]. }
      split_and!; [done..|]. by apply same_tys.
    + left. split_and!; [done..|]. exists D. split; [by apply entries_given|done].
    + right. right. exists e. split; [by apply sgrow_spawned|]. destruct H as [(Hr & -> & H)|[(-> & H & D & HD & Hnd & Hev)|(Hr & -> & Hbs & D & HD & H)]].
      * left. split; [by eapply bops_bad_view|]. split; [done|]. by eapply unbuilt_view.
      * right. left. split; [done|]. split; [by eapply unbuilt_view|]. exists D. split; [by apply entries_given|]. split; [done|].
        by apply pending_view.
      * right. right. split; [by eapply bops_bad_view|]. split; [done|]. split; [by apply bops_builds_some|]. exists D. split; [by apply entries_given|]. by eapply built_view.
Qed.
