(** * Rough histories: the calls, and what follows *)
From Verif Require Import ProofBase SpecSmall World Query History ProofEntities ProofBitset ProofArrayVec ProofUVec.
From Verif Require Import ProofDropPanicThms.
From Verif Require Export ProofRoughSpawn.

Lemma gext_dropping w w' c v : gext w w' → dropping w' c v = dropping w c v.
Proof.
  intros X. rewrite /dropping /dtor /get_entity_meta /is_alive /bind /gets /= (ge_ents _ _ X).
  destruct (ents_is_alive (w_ents w) c) as [[]|]; [|done..]. cbn. pose proof (ge_meta _ _ X (uindex c)) as E.
  change (mjoin (w_meta w' !! uindex c)) with (meta_at w' (uindex c)). change (mjoin (w_meta w !! uindex c)) with (meta_at w (uindex c)).
  destruct (meta_at w' (uindex c)), (meta_at w (uindex c)); try done. by injection E as ->.
Qed.
Lemma add_r' w e c src : rinv w → room 0 w →
  (∀ cm, alive (w_ents w) c → comp_of w c = Some cm → length src = cm_size cm) →
  gp gext (add_component_with_data e c src) w (dropping w c src) (λ _ _, True).
Proof.
  intros Hw Hroom Hsrc. destruct (decide (ents_is_alive (w_ents w) c = Some true)) as [Hc|Hc].
  { rewrite (owe_dropping _ _ _ Hc). by apply add_r. }
  rewrite /add_component_with_data.
  apply gp_is_alive; [apply _|done|]. intros b He. destruct b; [|by apply gp_ret; [apply _|..]].
  apply gp_is_alive; [apply _|done|]. intros b Hc'. destruct b; [|by apply gp_ret; [apply _|..]]. exfalso. by apply Hc, Hc'.
Qed.
Lemma add_dyn_r' w e c : rinv w → room 0 w →
  gp gext (add_component_dynamic e c) w (dropping w c []) (λ _ _, True).
Proof.
  intros Hw Hroom. rewrite /add_component_dynamic.
  apply gp_is_alive; [apply _|done|]. intros b _. apply gp_massert; [apply _|done|]. intros _.
  apply gp_is_alive; [apply _|done|]. intros b' _. apply gp_massert; [apply _|done|]. intros _.
  apply gp_get_meta; [apply _|done|]. intros o Ho _. apply gp_unwrap; [apply _|done|]. intros em ->.
  apply gp_massert; [apply _|done|]. intros Hz%bool_decide_eq_true.
  apply add_r'; [done|done|]. intros cm _ Hcm. destruct (Ho em eq_refl) as [_ Hem]. rewrite /comp_of Hem in Hcm. by injection Hcm as <-.
Qed.
(** A call and the account, and the ids. *)
Record lv (w w' : world) : Prop := {
  lv_alive : ∀ c, alive (w_ents w) c → alive (w_ents w') c;
  lv_types : ∀ t c, w_types w !! t = Some c → w_types w' !! t = Some c
}.
Lemma gext_lv w w' : gext w w' → lv w w'.
Proof. intros X. split; [by rewrite (ge_ents _ _ X)|by rewrite (ge_types _ _ X)]. Qed.
Lemma grw_lv w w' : grw w w' → lv w w'.
Proof. intros X. split; [apply X|apply X]. Qed.
Lemma dext_lv w w' : dext w w' → lv w w'.
Proof. intros X. split; [by rewrite (de_ents _ _ X)|by rewrite (de_types _ _ X)]. Qed.
Definition ldone (o : op) (r : oret) (w w' : world) : Prop :=
  match o with
  | ODespawn e => w_types w' = w_types w ∧ ∃ b, r = RBool b ∧
      if b then alive (w_ents w) e ∧ ¬ alive (w_ents w') e ∧ ∀ c, c ≠ e → alive (w_ents w) c → alive (w_ents w') c else w' = w
  | OSpawn _ _ _ _ => lv w w' ∧ ∃ e, r = RId e ∧ id_wf e ∧ ¬ alive (w_ents w) e ∧ alive (w_ents w') e
  | _ => lv w w'
  end.
Definition stp (w : world) (o : op) (w' : world) (ev : list event) : Prop := rinv w' ∧ acct w (gift w' o) w' ev.
Lemma step_r bomb w o : rinv w → op_legal o w → op_tame o w →
  rp (step_b bomb o) w (λ r w' ev, stp w o w' ev ∧ ldone o r w w') (λ _ w' ev, stp w o w' ev ∧ lv w w').
Proof.
  intros Hw Hleg [Hroom Htame].
  assert (room 1 w) as Hroom1 by exact Hroom. assert (room 0 w) as Hroom0 by (rewrite /room in Hroom1 |- *; lia).
  (* calls that return a value computed from another one *)
  assert (∀ A (m : M world A) (f : A → oret) G X, gp X m w G (λ _ _, True) → (∀ w', X w w' → G = gift w' o) → (∀ w', X w w' → lv w w') →
    (∀ r w', lv w w' → ldone o r w w') →
    rp (let* a := m in ret (f a)) w (λ r w' ev, stp w o w' ev ∧ ldone o r w w') (λ _ w' ev, stp w o w' ev ∧ lv w w')) as Hgen.
  { intros A m f G X Hm HG HX Ho. eapply rp_bind'; [exact Hm| |].
    - intros r w' ev (H1 & H2 & H3). split; [|by apply HX]. split; [done|]. by rewrite -(HG w' H2).
    - intros a w' ev [(H1 & H2 & H3) _]. apply rp_ret. rewrite app_nil_r. split; [|by apply Ho, HX]. split; [done|]. by rewrite -(HG w' H2). }
  destruct o as [cap meta bs fin|e|e t v|e t|e c|e c v|e c|t|e c v|e t|e]; cbn [step_b step op_legal] in *.
  - destruct Hleg as [Hlay Hleg]. eapply rp_bind'; [by apply spawn_program_r| |].
    + intros r w' ev (H1 & H2 & H3). split; [by split|by apply grw_lv].
    + intros a w' ev [(H1 & H2 & H3) H4]. apply rp_ret. rewrite app_nil_r. split; [by split|]. split; [by apply grw_lv|]. by exists a.
  - eapply rp_bind'; [by apply despawn_r| |].
    + intros r w' ev (H1 & H2 & H3). split; [by split|by apply dext_lv].
    + intros b w' ev [(H1 & _ & H3) [H4 H5]]. apply rp_ret. rewrite app_nil_r. split; [by split|]. split; [done|]. exists b. split; [done|].
      destruct b; [|done]. destruct H5 as (He & Hd & Ho). split; [done|]. split; [done|]. intros c Hne Hc. apply Ho; [|done].
      intros Hi. apply Hne. by eapply (alive_inj (w_ents w)).
  - (* add_component *)
    destruct Hleg as (He & Ht & Hv). apply (Hgen _ (add_component e t v) (λ _, RUnit) [EvDrop (DropOf t) v] grw); [|done|by apply grw_lv|done].
    rewrite /add_component. eapply gp_unwind_then; [apply _| |].
    { apply gp_is_alive; [apply _|done|]. intros b _. apply gp_massert; [apply _|done|]. intros _. by apply get_or_create_r. }
    intros c w1 Hw1 _ Htr.
    assert (∀ cm, alive (w_ents w1) c → comp_of w1 c = Some cm → cm = cm_from_generic t) as Hcm.
    { intros cm Hc H. by apply (type_comp_r w1 t c); [|apply Htr|..]. }
    eapply gp_acct; [apply (gp_weaken _ _ _ _ _ _ gext_grw), add_r'|].
    + done.
    + apply (room_max 0 w); [apply Htr|lia|done].
    + intros cm Hc H. by rewrite (Hcm cm Hc H).
    + intros x. destruct (decide (ents_is_alive (w_ents w1) c = Some true)) as [Hc|Hc].
      * rewrite (owe_dropping _ _ _ Hc) /owe. destruct (comp_of w1 c) as [cm|] eqn:E; [|rewrite cnt_nil; lia]. by rewrite (Hcm cm Hc eq_refl).
      * rewrite /dropping /dtor. pose proof (get_entity_meta_cases w1 c) as H. destruct (get_entity_meta c w1) as [[em|] ? ?|? ? ?| |]; [|rewrite cnt_nil; lia..].
        exfalso. apply Hc. destruct H as (_ & _ & b' & Hb' & Ho). by destruct b'.
  - destruct Hleg as [He Ht]. apply (Hgen _ (remove_component_b bomb e t) (λ _, RUnit) [] grw); [|done|by apply grw_lv|done].
    rewrite /remove_component_b. apply gp_is_alive; [apply _|done|]. intros b _. apply gp_massert; [apply _|done|]. intros _.
    eapply gp_then; [apply _|by apply get_or_create_r|]. intros c w1 Hw1 _ Htr.
    apply (gp_weaken _ _ _ _ _ _ gext_grw), remove_r; [done|]. apply (room_max 0 w); [apply Htr|lia|done].
  - apply (Hgen _ (add_component_dynamic e c) (λ _, RUnit) (dropping w c []) gext); [by apply add_dyn_r'| |by apply gext_lv|done].
    intros w' X. symmetry. by apply gext_dropping.
  - destruct Hleg as (_ & _ & Hf). apply (Hgen _ (add_component_with_data e c v) (λ _, RUnit) (dropping w c v) gext); [| |by apply gext_lv|done].
    + apply add_r'; [done|done|]. intros cm Hc Hcm. by apply (value_fits_size w c).
    + intros w' X. symmetry. by apply gext_dropping.
  - apply (Hgen _ (remove_component_dynamic_b bomb e c) (λ _, RUnit) [] gext); [by apply remove_r|done|by apply gext_lv|done].
  - apply (Hgen _ (get_or_create_type t) RId [] grw); [|done|by apply grw_lv|done]. eapply gp_mono; [by apply get_or_create_r|done].
  - destruct Hleg as (_ & _ & Hf). pose proof (write_r w e c v Hw Hf) as H. eapply rp_mono; [exact H| |].
    + intros r w' ev [(H1 & H2 & H3) _]. split; [|by apply gext_lv]. split; [done|]. cbn [gift]. by rewrite (gext_dropping _ _ _ _ H2).
    + intros r w' ev (H1 & H2 & H3). split; [|by apply gext_lv]. split; [done|]. cbn [gift]. by rewrite (gext_dropping _ _ _ _ H2).
  - apply (Hgen _ (has_component e t) RBool [] gext); [|done|by apply gext_lv|done]. rewrite /has_component. eapply gp_step; [done|].
    destruct (w_types w !! t) as [c|]; [|by apply gp_ret; [apply _|..]].
    apply gp_get_meta; [apply _|done|]. intros o _ _. destruct o as [em|]; [|by apply gp_ret; [apply _|..]].
    apply gp_get_arch; [apply _|done|]. intros a _. by apply gp_ret; [apply _|..].
  - apply (Hgen _ (is_alive e) RBool [] gext); [|done|by apply gext_lv|done].
    pose proof (is_alive_cases w e) as Hc. rewrite /gp /rp. destruct (is_alive e w) as [b w' ev|r w' ev| |]; [| |done..].
    + destruct Hc as (-> & -> & _). split; [by apply gm_refl; [apply _|]|done].
    + destruct Hc as (-> & -> & _). by apply gm_refl; [apply _|].
Qed.

(** ** The theorems *)
Section bombs.
  Context (bomb : dropfn → value → bool).
  Lemma rough_inv w made gifts : rough bomb w made gifts → rinv w ∧ ∀ x, cnt x made + cnt x (owed w) ≤ cnt x gifts.
  Proof.
    assert (∀ w made gifts o w' ev, rinv w → (∀ x, cnt x made + cnt x (owed w) ≤ cnt x gifts) → stp w o w' ev →
      rinv w' ∧ ∀ x, cnt x (made ++ ev) + cnt x (owed w') ≤ cnt x (gifts ++ gift w' o)) as Hs.
    { intros w0 m0 g0 o w' ev Hw Hc [H1 H2]. split; [done|]. intros x. specialize (Hc x). specialize (H2 x). rewrite !cnt_app. lia. }
    induction 1 as [|w made gifts o r w' ev H [IH1 IH2] Hl Ht Hrun|w made gifts o r w' ev H [IH1 IH2] Hl Ht Hrun Hr].
    - split; [apply rinv_new|]. intros x. change (owed world_new) with (@nil event). rewrite !cnt_nil. lia.
    - eapply Hs; [done|done|]. pose proof (step_r bomb w o IH1 Hl Ht) as Hp. rewrite /rp Hrun in Hp. apply Hp.
    - eapply Hs; [done|done|]. pose proof (step_r bomb w o IH1 Hl Ht) as Hp. rewrite /rp Hrun in Hp. apply Hp.
  Qed.
  Lemma rough_defined w made gifts o : rough bomb w made gifts → op_legal o w → op_tame o w →
    step_b bomb o w ≠ UB ∧ step_b bomb o w ≠ Deadlock.
  Proof.
    intros H Hl Ht. apply rough_inv in H as [Hw _]. pose proof (step_r bomb w o Hw Hl Ht) as Hp. rewrite /rp in Hp. by destruct (step_b bomb o w).
  Qed.
  Lemma rough_once w made gifts : rough bomb w made gifts → made ++ owed w ⊆+ gifts.
  Proof. intros [_ H]%rough_inv. apply cnt_submseteq. intros x. rewrite cnt_app. apply H. Qed.
  Lemma rinv_drop_reuse w : rinv w → drop_reuse w = Some ().
  Proof.
    intros Hw. rewrite /drop_reuse. pose proof (ri_reuse _ Hw) as H. rewrite /reuse_r in H. destruct (w_reuse w) as [[[ids p] cap]|]; [|done].
    destruct H as (_ & Hc & [(? & _)|(_ & -> & m & -> & Hm)]); [done|]. rewrite /heap_dealloc /=. by rewrite decide_True.
  Qed.
  Lemma rough_drop w made gifts : rough bomb w made gifts →
    ∀ bomb', ∃ x, world_drop_b bomb' w = Some x ∧ falls bomb' w x ∧ made ++ fall_events x ⊆+ gifts.
  Proof.
    intros H bomb'. pose proof (rough_once _ _ _ H) as Ho. apply rough_inv in H as [Hw _].
    destruct (world_falls bomb' w (rinv_cols_wf w Hw) (rinv_drop_reuse w Hw)) as (x & E & Hx). exists x. split; [done|]. split; [done|].
    etrans; [|exact Ho]. apply submseteq_app; [done|by eapply falls_sub].
  Qed.
  Lemma rough_columns w made gifts k a c u : rough bomb w made gifts → w_archs w !! k = Some a → (c, u) ∈ a_storages a →
    ∃ cm, recorded w c cm ∧ uv_ti u = TypeInfo (cm_layout cm) (cm_drop cm).
  Proof.
    intros [Hw _]%rough_inv Ha Hin. destruct (ri_cols _ Hw _ _ Ha _ _ Hin) as (_ & cm & Hcm & Hti). exists cm. split; [|done].
    apply recorded_comp; [|done]. apply (ri_comps _ Hw k (a_comp_ids a)); [by rewrite /arch_ids list_lookup_fmap Ha|].
    rewrite -(as_storages _ (ri_shape _ Hw _ _ Ha)). apply elem_of_list_fmap. by exists (c, u).
  Qed.
  Lemma rough_pointers w made gifts e c l w' ev : rough bomb w made gifts → get_component_mut e c w = Done (Some l) w' ev →
    w' = w ∧ ev = [] ∧ ∃ cm v, recorded w c cm ∧ read_loc w l (l_size (cm_layout cm)) = Some v ∧ ldrop (cm_drop cm) v ⊆+ owed w.
  Proof.
    intros [Hw _]%rough_inv E. pose proof (get_mut_r w e c Hw) as H. rewrite E in H. destruct H as (-> & -> & H). split; [done|]. split; [done|].
    destruct (H l eq_refl) as (Hc & a & u & i & cm & Ha & Hj & Hwf & Hcm & Hti & Hi & Hoff). clear H.
    destruct (uv_vals u !! i) as [v|] eqn:Hv; [|apply lookup_ge_None in Hv; lia]. exists cm, v. split; [by apply recorded_comp|]. split.
    - rewrite /read_loc Ha Hj Hoff. assert (l_size (cm_layout cm) = uv_size u) as ->. { by rewrite /uv_size Hti. } by eapply uv_read_rep.
    - etrans; [|apply (cnt_submseteq (owed_vec u))].
      + rewrite (owed_vec_rep _ _ Hwf) /owed_list Hti. apply elem_of_list_lookup_2, elem_of_Permutation in Hv as [k' ->]. rewrite bind_cons. by apply submseteq_inserts_r.
      + intros x. apply cnt_sub. rewrite /owed. apply elem_of_list_lookup_2 in Ha, Hj.
        assert (u ∈ all_cols w) as Hu. { apply elem_of_list_bind. exists a. split; [|done]. apply elem_of_list_fmap. by exists (c, u). }
        apply elem_of_Permutation in Hu as [k' ->]. rewrite bind_cons. by apply submseteq_inserts_r.
  Qed.
  Lemma rough_distinct w made gifts : rough bomb w made gifts → distinct_sets w.
  Proof.
    intros [Hw _]%rough_inv k k' a a' Ha Ha' Hs. eapply (rinv_distinct_set w Hw).
    - by rewrite /arch_ids list_lookup_fmap Ha.
    - by rewrite /arch_ids list_lookup_fmap Ha'.
    - by rewrite -(as_storages _ (ri_shape _ Hw _ _ Ha)) -(as_storages _ (ri_shape _ Hw _ _ Ha')).
  Qed.
  (** Entities die in no other way than by a [despawn] that returns. *)
  Lemma rough_lives w made gifts o : rough bomb w made gifts → op_legal o w → op_tame o w →
    match step_b bomb o w with
    | Done r w' _ => ∀ e, lives w e → lives w' e ∨ (o = ODespawn e ∧ r = RBool true ∧ ¬ lives w' e)
    | Panicked _ w' _ => ∀ e, lives w e → lives w' e
    | _ => False
    end.
  Proof.
    intros [Hw _]%rough_inv Hl Ht. pose proof (step_r bomb w o Hw Hl Ht) as Hp. rewrite /rp in Hp.
    destruct (step_b bomb o w) as [r w' ev|r w' ev| |]; [| |done..].
    - destruct Hp as [_ Hp]. intros e. rewrite !lives_alive. intros He.
      destruct o as [cap meta bs fin|e'|e' t v|e' t|e' c|e' c v|e' c|t|e' c v|e' t|e']; cbn [ldone] in Hp; try (left; by apply Hp).
      destruct Hp as (_ & b & -> & Hb). destruct b; [|subst w'; by left].
      destruct Hb as (_ & Hd & Ho). destruct (decide (e = e')) as [->|]; [by right|left; by apply Ho].
    - destruct Hp as [_ [Hp _]]. intros e. rewrite !lives_alive. apply Hp.
  Qed.
  Lemma rough_spawn w made gifts cap meta bs fin r w' ev : rough bomb w made gifts →
    op_legal (OSpawn cap meta bs fin) w → op_tame (OSpawn cap meta bs fin) w →
    step_b bomb (OSpawn cap meta bs fin) w = Done r w' ev → ∃ e, r = RId e ∧ id_wf e ∧ ¬ lives w e ∧ lives w' e.
  Proof.
    intros [Hw _]%rough_inv Hl Ht E. pose proof (step_r bomb w _ Hw Hl Ht) as Hp. rewrite /rp E in Hp.
    destruct Hp as [_ [_ (e & H)]]. exists e. by rewrite !lives_alive.
  Qed.
  Lemma rough_type_id w made gifts t c : rough bomb w made gifts → type_id w t c → lives w c →
    ∀ cm, recorded w c cm → cm = CompMeta (Some (DropOf t)) (Layout (ty_size t) (ty_align t)).
  Proof.
    intros [Hw _]%rough_inv Ht Hl%lives_alive cm Hcm%recorded_comp; [|done]. by apply (type_comp_r w t c cm Hw).
  Qed.
End bombs.
