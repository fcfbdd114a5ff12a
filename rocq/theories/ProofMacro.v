(** * The [spawn!] macro (C63) *)
From Verif Require Import ProofBase SpecSmall World History ProofEntities ProofBitset ProofArrayVec ProofUVec.
From Verif Require Export SpecMacro ProofShort ProofRoughThms.

(** *** Calls that register no type *)
Definition tt (w w' : world) : Prop := w_types w' = w_types w.
#[local] Instance tt_preorder : PreOrder tt.
Proof. split; [done|]. intros w1 w2 w3. rewrite /tt. congruence. Qed.
Lemma tt_same w w' : w_types w' = w_types w → tt w w'.
Proof. done. Qed.
Lemma tk_ents_spawn : keeping tt (in_ents ents_spawn).
Proof. intros w. rewrite /in_ents /zoom. by destruct (ents_spawn (w_ents w)). Qed.
Definition tt2 (s s' : bw) : Prop := tt s.2 s'.2.
#[local] Instance tt2_preorder : PreOrder tt2.
Proof. split; [by intros ?; rewrite /tt2|intros ? ? ?; rewrite /tt2; apply transitivity]. Qed.
Lemma tkeeping_in_world {A} (m : M world A) : keeping tt m → keeping tt2 (in_world m).
Proof. intros H [b w]. rewrite /in_world /on_snd /zoom. specialize (H w). simpl. by destruct (m w). Qed.
Lemma tkeeping_on_fst {A} (m : M builder A) : keeping tt2 (@on_fst builder world A m).
Proof. intros [b w]. rewrite /on_fst /zoom. simpl. destruct (m b); try done; rewrite /tt2; reflexivity. Qed.

Ltac tkeep1 :=
  lazymatch goal with
  | |- keeping _ (bind _ _) => apply keeping_bind; [apply _| |intros ?]
  | |- keeping _ (ret _) => apply keeping_ret; apply _
  | |- keeping _ (panic _) => apply keeping_panic; apply _
  | |- keeping _ ub => apply keeping_ub; apply _
  | |- keeping _ deadlock => apply keeping_deadlock; apply _
  | |- keeping _ (gets _) => apply keeping_gets; apply _
  | |- keeping _ (emit _) => apply keeping_emit; apply _
  | |- keeping _ (massert _ _) => apply keeping_massert; apply _
  | |- keeping _ (unwrap _ _) => apply keeping_unwrap; apply _
  | |- keeping _ (or_ub _) => apply keeping_or_ub; apply _
  | |- keeping _ (on_unwind _ _) => apply keeping_on_unwind; [apply _|]
  | |- keeping _ (in_arch _ _) => apply keeping_zoom; [apply _|intros; by apply tt_same]
  | |- keeping _ (in_ents ents_spawn) => apply tk_ents_spawn
  | |- keeping tt2 (in_world _) => apply tkeeping_in_world
  | |- keeping tt2 (on_fst _) => apply tkeeping_on_fst
  | |- keeping tt (modify _) => apply keeping_modify; [apply _|intros]; first [by apply tt_same | idtac]
  | |- keeping _ (if ?b then _ else _) => destruct b
  | |- keeping _ (match ?x with _ => _ end) => destruct x
  | |- keeping _ (let _ := _ in _) => cbv zeta
  end.
Ltac tkeep := repeat (tkeep1 || eauto with tkeep).

Lemma tk_is_alive e : keeping tt (is_alive e).
Proof. rewrite /is_alive. tkeep. Qed.
#[local] Hint Resolve tk_is_alive : tkeep.
Lemma tk_get_entity_meta e : keeping tt (get_entity_meta e).
Proof. rewrite /get_entity_meta. tkeep. Qed.
Lemma tk_set_entity_meta e m : keeping tt (set_entity_meta e m).
Proof. rewrite /set_entity_meta. tkeep. Qed.
Lemma tk_update_meta i f : keeping tt (update_meta i f).
Proof. rewrite /update_meta. tkeep. Qed.
Lemma tk_get_arch k : keeping tt (get_arch k).
Proof. rewrite /get_arch. tkeep. Qed.
#[local] Hint Resolve tk_get_entity_meta tk_set_entity_meta tk_update_meta tk_get_arch : tkeep.
Lemma tk_find_sized fuel it n : keeping tt (find_sized fuel it n).
Proof. revert it. induction fuel as [|fuel IH]; intros it; cbn [find_sized]; tkeep. Qed.
#[local] Hint Resolve tk_find_sized : tkeep.
Lemma tk_search ids n : keeping tt (search ids n).
Proof. rewrite /search. tkeep. Qed.
#[local] Hint Resolve tk_search : tkeep.
Lemma tk_find_archetype_dynamic ids : keeping tt (find_archetype_dynamic ids).
Proof. rewrite /find_archetype_dynamic. tkeep. Qed.
Lemma tk_find_plus_id ids c : keeping tt (find_plus_id ids c).
Proof. rewrite /find_plus_id. tkeep. Qed.
Lemma tk_find_minus_id ids c : keeping tt (find_minus_id ids c).
Proof. rewrite /find_minus_id. tkeep. Qed.
Lemma tk_set_arch_bits ids n : keeping tt (set_arch_bits ids n).
Proof. induction ids as [|c ids IH]; cbn [set_arch_bits]; tkeep. Qed.
#[local] Hint Resolve tk_find_archetype_dynamic tk_find_plus_id tk_find_minus_id tk_set_arch_bits : tkeep.
Lemma tk_push_archetype a : keeping tt (push_archetype a).
Proof. rewrite /push_archetype. tkeep. Qed.
Lemma tk_ensure_lock c : keeping tt (ensure_lock c).
Proof.
  apply keeping_modify; [apply _|]. intros w. by destruct (w_lock_lookup w !! c); apply tt_same.
Qed.
Lemma tk_move_element cur i tar j row : keeping tt (move_element cur i tar j row).
Proof.
  intros w. rewrite /move_element. destruct (w_archs w !! cur) as [ca|]; [|reflexivity].
  destruct (w_archs w !! tar) as [ta|]; [|reflexivity]. destruct (a_storages ca !! i) as [[ci cv]|]; [|reflexivity].
  destruct (a_storages ta !! j) as [[ti tv]|]; [|reflexivity].
  destruct (uv_swap_move row (cv, tv)) as [? [cv' tv'] ?|? [cv' tv'] ?| |]; [by apply tt_same..|done|done].
Qed.
#[local] Hint Resolve tk_push_archetype tk_ensure_lock tk_move_element : tkeep.
Lemma tk_storage_id k j : keeping tt (storage_id k j).
Proof. rewrite /storage_id. tkeep. Qed.
#[local] Hint Resolve tk_storage_id : tkeep.
Lemma tk_add_zip c cur tar row n i js sk : keeping tt (add_zip c cur tar row n i js sk).
Proof. revert i sk. induction js as [|j js IH]; intros i sk; cbn [add_zip]; tkeep. Qed.
Lemma tk_rem_zip c cur tar row n is_ j sk : keeping tt (rem_zip c cur tar row n is_ j sk).
Proof. revert j sk. induction is_ as [|i is_ IH]; intros j sk; cbn [rem_zip]; tkeep. Qed.
Lemma tk_remove_row cur row : keeping tt (remove_row cur row).
Proof. rewrite /remove_row. tkeep. Qed.
Lemma tk_push_row tar e : keeping tt (push_row tar e).
Proof. rewrite /push_row. tkeep. Qed.
#[local] Hint Resolve tk_add_zip tk_rem_zip tk_remove_row tk_push_row : tkeep.
Lemma tk_add e c src : keeping tt (add_component_with_data e c src).
Proof. rewrite /add_component_with_data. tkeep. Qed.
Lemma tk_remove e c : keeping tt (remove_component_dynamic e c).
Proof. rewrite /remove_component_dynamic. tkeep. Qed.
#[local] Hint Resolve tk_add tk_remove : tkeep.
Lemma tk_add_dynamic e c : keeping tt (add_component_dynamic e c).
Proof. rewrite /add_component_dynamic. tkeep. Qed.
Lemma tk_swap_remove_storages k row is_ : keeping tt (swap_remove_storages k row is_).
Proof. induction is_ as [|i is_ IH]; cbn [swap_remove_storages]; tkeep. Qed.
#[local] Hint Resolve tk_add_dynamic tk_swap_remove_storages : tkeep.
Lemma tk_arch_despawn k row e : keeping tt (arch_despawn k row e).
Proof. rewrite /arch_despawn. tkeep. Qed.
#[local] Hint Resolve tk_arch_despawn : tkeep.
Lemma tk_builder_drop b : keeping tt (builder_drop b).
Proof. rewrite /builder_drop. tkeep. Qed.
Lemma tk_builder_new e m : keeping tt (builder_new e m).
Proof. rewrite /builder_new. tkeep. Qed.
#[local] Hint Resolve tk_builder_drop tk_builder_new : tkeep.
Lemma tk_builder_with_capacity e m cap : keeping tt (builder_with_capacity e m cap).
Proof. rewrite /builder_with_capacity. tkeep. Qed.
Lemma tk_builder_realloc n : keeping tt2 (builder_realloc n).
Proof. rewrite /builder_realloc. tkeep. Qed.
#[local] Hint Resolve tk_builder_with_capacity tk_builder_realloc : tkeep.
Lemma tk_builder_with_dynamic c : keeping tt2 (builder_with_dynamic c).
Proof. rewrite /builder_with_dynamic. tkeep. Qed.
Lemma tk_builder_with_data c src : keeping tt2 (builder_with_data c src).
Proof. rewrite /builder_with_data. tkeep. Qed.
Lemma tk_build_push k ids off : keeping tt2 (build_push k ids off).
Proof. revert off. induction ids as [|c ids IH]; intros off; cbn [build_push]; tkeep. Qed.
Lemma tk_create_storages ids off acc : keeping tt2 (create_storages ids off acc).
Proof. revert off acc. induction ids as [|c ids IH]; intros off acc; cbn [create_storages]; tkeep. Qed.
#[local] Hint Resolve tk_builder_with_dynamic tk_builder_with_data tk_build_push tk_create_storages : tkeep.
Lemma tk_create_archetype : keeping tt2 create_archetype.
Proof. rewrite /create_archetype. tkeep. Qed.
Lemma tk_ensure_locks ids : keeping tt (ensure_locks ids).
Proof. induction ids as [|c ids IH]; cbn [ensure_locks]; tkeep. Qed.
#[local] Hint Resolve tk_create_archetype tk_ensure_locks : tkeep.
Lemma tk_build : keeping tt2 build.
Proof. rewrite /build. tkeep. Qed.
Lemma tk_with_builder {A} b (m : M bw A) : keeping tt2 m → keeping tt (with_builder b m).
Proof.
  intros H w. rewrite /with_builder. specialize (H (b, w)). destruct (m (b, w)) as [a [b' w'] ev|r [b' w'] ev| |]; [| |done..].
  - pose proof (tk_builder_drop b' w') as H2. destruct (builder_drop b' w'); [by etrans..|done|done].
  - pose proof (tk_builder_drop b' w') as H2. destruct (builder_drop b' w'); [by etrans|done|done|done].
Qed.
Lemma tk_forget_builder {A} b (m : M bw A) : keeping tt2 m → keeping tt (forget_builder b m).
Proof.
  intros H w. rewrite /forget_builder. pose proof (tk_with_builder b m H w) as H2. specialize (H (b, w)).
  by destruct (m (b, w)) as [a [b' w'] ev|r [b' w'] ev| |].
Qed.
(** Only the types [L] may be registered. *)
Definition tw (L : list ty) (w w' : world) : Prop := ∀ t, t ∉ L → w_types w' !! t = w_types w !! t.
#[local] Instance tw_preorder L : PreOrder (tw L).
Proof. split; [done|]. intros w1 w2 w3 H1 H2 t Ht. by rewrite H2 // H1. Qed.
Definition tw2 (L : list ty) (s s' : bw) : Prop := tw L s.2 s'.2.
#[local] Instance tw2_preorder L : PreOrder (tw2 L).
Proof. split; [by intros ?; rewrite /tw2|intros ? ? ?; rewrite /tw2; apply transitivity]. Qed.
Lemma keeping_weaken {S A} (P Q : S → S → Prop) (m : M S A) : keeping P m → (∀ s s', P s s' → Q s s') → keeping Q m.
Proof. intros H HQ s. specialize (H s). destruct (m s); auto. Qed.
Lemma tt_tw {A} L (m : M world A) : keeping tt m → keeping (tw L) m.
Proof. intros H. eapply keeping_weaken; [done|]. intros w w' E t _. by rewrite E. Qed.
Lemma tt_tw2 {A} L (m : M bw A) : keeping tt2 m → keeping (tw2 L) m.
Proof. intros H. eapply keeping_weaken; [done|]. intros w w' E t _. by rewrite E. Qed.
Lemma tk_spawn_empty : keeping tt spawn_empty.
Proof. rewrite /spawn_empty. tkeep. apply tk_with_builder, tk_build. Qed.
#[local] Hint Resolve tk_spawn_empty : tkeep.
Lemma tw_get_or_create L t : t ∈ L → keeping (tw L) (get_or_create_type t).
Proof.
  intros Ht. rewrite /get_or_create_type. apply keeping_bind; [apply _|by apply tt_tw, keeping_gets, _|intros [c|]]; [by apply keeping_ret, _|].
  do 4 (apply keeping_bind; [apply _|apply tt_tw; tkeep|intros ?]).
  apply keeping_bind; [apply _|apply tt_tw; tkeep|intros ?]. apply keeping_bind; [apply _| |intros ?; by apply keeping_ret, _].
  apply keeping_modify; [apply _|]. intros w t' Ht'. cbn. rewrite lookup_insert_ne //. by intros ->.
Qed.
Lemma tw_run_macro L l : l.*1 ⊆ L → keeping (tw2 L) (run_bops (((λ p, BWith p.1 p.2) <$> l) ++ [BBuild])).
Proof.
  induction l as [|[t v] l IH]; intros HL; cbn [run_bops fmap list_fmap app run_bop].
  - apply tt_tw2. tkeep. apply tk_build.
  - apply keeping_bind; [apply _| |intros _; apply IH; set_solver]. rewrite /builder_with. apply keeping_bind; [apply _| |intros c; apply tt_tw2, tk_builder_with_data].
    intros [b w]. rewrite /in_world /on_snd /zoom. pose proof (tw_get_or_create L t ltac:(set_solver) w) as H. simpl. by destruct (get_or_create_type t w).
Qed.
Lemma tw_macro l : keeping (tw l.*1) (step (spawn_macro l)).
Proof.
  cbn [step spawn_macro]. rewrite /spawn_program /spawn_builder. apply keeping_bind; [apply _| |intros; apply keeping_ret, _].
  apply keeping_bind; [apply _|apply tt_tw; tkeep|intros b]. apply keeping_bind; [apply _| |intros; apply keeping_ret, _].
  intros w. rewrite /with_builder. pose proof (tw_run_macro l.*1 l ltac:(done) (b, w)) as H.
  destruct (run_bops _ (b, w)) as [a [b' w'] ev|r [b' w'] ev| |]; [| |done..]; pose proof (tk_builder_drop b' w') as H2.
  - destruct (builder_drop b' w'); [| |done..]; intros t Ht; rewrite H2; by apply H.
  - destruct (builder_drop b' w'); [|done..]. intros t Ht. rewrite H2. by apply H.
Qed.

(** *** The invariant of rough histories holds in every reachable world *)
Lemma winv_rinv w R : winv w R → rinv w.
Proof.
  intros Hw. assert (∀ k a, w_archs w !! k = Some a → ∃ rs, R !! k = Some rs) as HR.
  { intros k a Ha. apply lookup_lt_is_Some_2. rewrite (wi_len _ _ Hw). by eapply lookup_lt_Some. }
  constructor; try apply Hw.
  - intros k a Ha c v Hin. destruct (HR k a Ha) as [rs Hrs]. destruct (ar_cols _ _ _ (wi_rows _ _ Hw _ _ _ Ha Hrs) _ _ Hin) as (cm & H1 & H2 & H3).
    split; [by eapply uv_rep_wf|eauto].
  - intros i em Hm. destruct (wi_meta _ _ Hw _ _ Hm) as (rs & e & m & HRk & Hr & <-). destruct (wi_row _ _ Hw _ _ _ _ _ HRk Hr) as [Ha _].
    revert Ha. rewrite /alive /ents_is_alive. destruct (generations _ !! _) as [[[] g]|]; [eauto|done..].
  - intros i em Hm. split; [by eapply (wi_layout _ _ Hw)|]. destruct (wi_meta _ _ Hw _ _ Hm) as (rs & e & m & HRk & _). apply lookup_lt_Some in HRk.
    rewrite (wi_len _ _ Hw) in HRk. intros E. rewrite E in HRk. cbn in HRk. lia.
  - intros t c Ht. destruct (wi_types _ _ Hw _ _ Ht) as (H1 & H2 & b & g & Hg & H). split; [done|]. split; [done|]. exists b, g. split; [done|].
    destruct b; [|done]. intros E cm Hcm. specialize (H E). congruence.
Qed.
Lemma macro_legal l w : args_ok l → op_legal (spawn_macro l) w.
Proof.
  intros Hl. split; [done|]. destruct (spawn_builder None cm_unit w) as [b w' ev| | |]; [|done..]. generalize (b, w') as s.
  induction Hl as [|[t v] l Ht Hl IH]; intros s; cbn [fmap list_fmap app bops_legal]; (split; [done|]); destruct (run_bop _ s); done.
Qed.
Lemma macro_tame l w : (N.of_nat (length (w_archs w) + 1) <= u32_max)%N → op_tame (spawn_macro l) w.
Proof. intros H. split; [done|]. cbn. induction l; cbn; [lia|done]. Qed.
Lemma macro_before l : bops_before (((λ p, BWith p.1 p.2) <$> l) ++ [BBuild]) = (λ p, BWith p.1 p.2) <$> l.
Proof. apply bops_before_app. intros (p & ? & _)%elem_of_list_fmap. done. Qed.

(** *** The macro *)
Lemma given_types w l D : given w ((λ p, BWith p.1 p.2) <$> l) D ↔ Forall2 (λ (p : ty * value) (d : ecsid * value), type_id w p.1 d.1 ∧ d.2 = p.2) l D.
Proof. rewrite /given Forall2_fmap_l. done. Qed.
Lemma given_dup w l D : (∀ t t' c, type_id w t c → type_id w t' c → t = t') → Forall2 (λ (p : ty * value) (d : ecsid * value), type_id w p.1 d.1 ∧ d.2 = p.2) l D →
  NoDup D.*1 ↔ NoDup l.*1.
Proof.
  intros Hinj H. induction H as [|[t v] [c v'] l D [Ht Hv] H IH]; [split; constructor|]. cbn in *. rewrite !NoDup_cons IH.
  enough (c ∈ D.*1 ↔ t ∈ l.*1) as -> by done. clear IH. split.
  - intros ([c' v2] & -> & Hin)%elem_of_list_fmap. apply elem_of_list_lookup_1 in Hin as [i Hi].
    destruct (Forall2_lookup_r _ _ _ _ _ H Hi) as ([t' v3] & Hi' & Ht' & _). cbn in *. rewrite (Hinj _ _ _ Ht Ht'). apply elem_of_list_fmap. exists (t', v3). split; [done|]. by eapply elem_of_list_lookup_2.
  - intros ([t' v2] & -> & Hin)%elem_of_list_fmap. apply elem_of_list_lookup_1 in Hin as [i Hi].
    destruct (Forall2_lookup_l _ _ _ _ _ H Hi) as ([c' v3] & Hi' & Ht' & _). cbn in *. rewrite /type_id in Ht, Ht'. rewrite Ht in Ht'. injection Ht' as <-.
    apply elem_of_list_fmap. exists (c, v3). split; [done|]. by eapply elem_of_list_lookup_2.
Qed.
Lemma rough_types w o r w' ev : WOk w → op_legal o w → op_tame o w → (∀ e, o ≠ ODespawn e) → (∀ e t, o ≠ ORemove e t) → (∀ e c, o ≠ ORemoveDyn e c) →
  (step o w = Done r w' ev ∨ ∃ p, step o w = Panicked p w' ev) → ∀ t t' c, type_id w' t c → type_id w' t' c → t = t'.
Proof.
  intros [[R Hw] _] Hl Ht H1 H2 H3 E. pose proof (step_r (λ _ _, false) w o (winv_rinv w R Hw) Hl Ht) as H. rewrite /rp in H.
  assert (step_b (λ _ _, false) o w = step o w) as Es. { destruct o as [cap meta bs fin|e|e t v|e t|e c|e c v|e c|t|e c v|e t|e]; [|by destruct (H1 e)| |by destruct (H2 e t)| | |by destruct (H3 e c)| | | |]; reflexivity. }
  rewrite Es in H. destruct E as [E|[p E]]; rewrite E in H; destruct H as [(Hr & _) _]; apply (ri_types_inj _ Hr).
Qed.
(** A call refused by [with] in a world that is fine. *)
Lemma with_rejected w t v r : WOk w → bop_rejected w (BWith t v) r →
  (r = ROutOfIds ∧ ∀ c, ¬ type_id w t c) ∨ (r = RDeadComponent ∧ ∃ c, type_id w t c ∧ ¬ lives w c).
Proof.
  intros Hw [H|(c & Ht & [(-> & Hu)|(-> & Hc)])]; [by left| |].
  - by destruct (proj2 (typed_wf _ _ _ Hw Ht)).
  - right. split; [done|]. exists c. split; [done|]. intros Hl. destruct Hc as [Hc|Hc]; [done|]. apply Hc. by eapply typed_stored.
Qed.
Lemma macro_out s l s' ev : reachable s → Forall (λ q, q = None) (ss_open s) → args_ok l → (N.of_nat (length (w_archs (ss_world s)) + 1) <= u32_max)%N →
  step (spawn_macro l) (ss_world s) = Panicked ROutOfIds s' ev → no_index_left s'.
Proof.
  intros Hs Ho Hargs Hroom E. apply (out_of_ids_none s (SWorld (spawn_macro l)) (Sess s' (ss_open s)) ev Hs).
  - split; [by apply macro_legal|by right].
  - by apply macro_tame.
  - by rewrite sworld_run E.
Qed.
Lemma macro_view w l : reachable_world w → args_ok l → (N.of_nat (length (w_archs w) + 1) <= u32_max)%N →
  match step (spawn_macro l) w with
  | Done r w' ev => ev = [] ∧ NoDup l.*1 ∧ ∃ e, r = RId e ∧ spawned_with w w' e l
  | Panicked r w' ev => r = RCapacity ∨ unharmed w w' ∧
      ((r = ROutOfIds ∧ no_index_left w') ∨
       ((r = RDuplicate ∨ r = RColumnLength) ∧ ¬ NoDup l.*1) ∨
       (r = RDeadComponent ∧ ∃ t c, t ∈ l.*1 ∧ type_id w t c ∧ ¬ lives w c))
  | _ => False
  end.
Proof.
  intros Hrw Hargs Hroom. pose proof (reachable_world_ok w Hrw) as Hw. pose proof (macro_legal l w Hargs) as Hleg. pose proof (macro_tame l w Hroom) as Htame.
  pose proof (spawn_view w None cm_unit _ BDrop Hw Hleg Htame) as H. pose proof (tw_macro l w) as Hty.
  pose proof (λ r w' ev, rough_types w (spawn_macro l) r w' ev Hw Hleg Htame ltac:(done) ltac:(done) ltac:(done)) as Hinj.
  change (OSpawn None cm_unit _ BDrop) with (spawn_macro l) in H. rewrite macro_before in H.
  assert (BBuild ∈ ((λ p : ty * value, BWith p.1 p.2) <$> l) ++ [BBuild]) as Hbb. { apply elem_of_app. right. by left. }
  assert (∀ o : bop, o ∈ ((λ p : ty * value, BWith p.1 p.2) <$> l) ++ [BBuild] → o = BBuild ∨ ∃ t v, o = BWith t v ∧ (t, v) ∈ l) as Hin.
  { intros o [([t v] & -> & Hin)%elem_of_list_fmap|Ho]%elem_of_app; [right; eauto|]. apply elem_of_list_singleton in Ho. by left. }
  destruct (step (spawn_macro l) w) as [r w' ev|r w' ev| |] eqn:E; [| |done..].
  - destruct (step_done_ok _ _ _ _ _ Hw Hleg Htame E) as [Hw' _].
    destruct H as (-> & e & D & -> & Hsp & HD & [(_ & Hnd & Hb & _)|[Hn _]]); [|done].
    apply given_types in HD. pose proof (Hinj (RId e) w' [] (or_introl eq_refl)) as Hi. split; [done|]. split; [by eapply given_dup|]. exists e. split; [done|].
    destruct Hsp as (S1 & S2 & S3 & S4 & S5 & S6), Hb as [B1 B2].
    assert (lives w' e) as Hle by (apply S4; [done|by left]). assert (∀ c v, ¬ holds w e c v) as Hno.
    { intros c v (k & i & a & j & u & Ha & Hai & _). apply S2. apply (co_live _ (ok_consistent _ Hw)). exists k, i. exists a. done. }
    split; [done|]. split; [done|]. split; [done|]. split; [apply B1; by left|]. split.
    { intros t v Hl. apply elem_of_list_lookup_1 in Hl as [i Hl]. destruct (Forall2_lookup_l _ _ _ _ _ HD Hl) as ([c v'] & Hd & Ht & Hv). cbn in Ht, Hv. subst v'.
      apply elem_of_list_lookup_2 in Hd. assert (holds w' e c v) as Hh by (apply B2; by left). exists c. split; [done|]. split; [|done].
      destruct Hh as (k & i' & a & j & u & Ha & _ & Hj & _). apply (co_comps _ (ok_consistent _ Hw')). by exists k, a, j, u. }
    split.
    { intros c v [[_ Hd]|Hh]%B2; [|by destruct (Hno c v)]. apply elem_of_list_lookup_1 in Hd as [i Hd].
      destruct (Forall2_lookup_r _ _ _ _ _ HD Hd) as ([t v'] & Hl & Ht & Hv). cbn in Ht, Hv. subst v'. exists t. split; [by eapply elem_of_list_lookup_2|done]. }
    split. { intros e0 c v Hne. rewrite B2. naive_solver. }
    split.
    { intros e0 Hwf Hne. rewrite (S4 e0 Hwf). split; [|intros [?|(t & _ & H1 & H2)]; [tauto|right; right; by exists t]].
      intros [?|[?|(t & H1 & H2)]]; [done|by left|]. right. exists t. split; [|done]. destruct (decide (t ∈ l.*1)) as [|Hnt]; [done|].
      exfalso. apply (H2 e0). rewrite /type_id -(Hty t Hnt). done. }
    split; [|done]. intros t Hnt c. rewrite /type_id (Hty t Hnt). done.
  - destruct (decide (r = RCapacity)) as [|Hr1]; [by left|right]. destruct (decide (r = RColumnLength)) as [->|Hr2].
    { destruct (panic_torn _ _ _ _ Hrw Hleg Htame E) as (_ & Hun & _). split; [done|]. right; left. split; [by right|].
      destruct H as [?|[(_ & _ & D & HD & Hnd)|[(? & _)|(e & _ & H)]]]; [done| |done|].
      - apply given_types in HD. rewrite -(given_dup _ _ _ (Hinj (RUnit) w' ev (or_intror (ex_intro _ _ eq_refl))) HD). done.
      - destruct H as [((o & Ho & Hrej) & _)|[(? & _)|((o & Ho & Hrej) & _)]]; [|done|];
          (destruct (Hin o Ho) as [->|(t & v & -> & _)]; [done|]; destruct Hrej as [(? & _)|(c & _ & [(? & _)|(? & _)])]; done). }
    destruct (panic_view _ _ _ _ _ Hw Hleg Htame E (conj Hr1 Hr2)) as [Hw' Hun]. split; [done|].
    assert (r = ROutOfIds → no_index_left w') as Hout. { intros ->. destruct Hrw as (s & Hs & <- & Ho). by eapply macro_out. }
    assert (∀ o e, o ∈ ((λ p : ty * value, BWith p.1 p.2) <$> l) ++ [BBuild] → spawned w w' e → bop_rejected w' o r →
      r = ROutOfIds ∨ r = RDeadComponent ∧ ∃ t c, t ∈ l.*1 ∧ type_id w t c ∧ ¬ lives w c) as Hrj.
    { intros o e Ho (S1 & S2 & S3 & S4 & S5 & S6) Hrej. destruct (Hin o Ho) as [->|(t & v & -> & Hl)]; [done|].
      destruct (with_rejected _ _ _ _ Hw' Hrej) as [[? _]|(-> & c & Ht & Hnl)]; [by left|right]. split; [done|]. exists t, c. split; [apply elem_of_list_fmap; by exists (t, v)|].
      pose proof (proj1 (typed_wf _ _ _ Hw' Ht)) as Hwf. split; [|intros Hl'; apply Hnl, S4; tauto].
      destruct (w_types w !! t) as [c2|] eqn:E2. { pose proof (S6 _ _ E2) as H2. rewrite /type_id in Ht, H2. congruence. }
      destruct Hnl. apply S4; [done|]. right; right. exists t. split; [done|]. intros c'. rewrite /type_id E2. done. }
    destruct H as [?|[(? & _)|[(-> & _)|(e & Hsp & H)]]]; [done|done|left; by split; [|apply Hout]|].
    destruct H as [((o & Ho & Hrej) & _)|[(-> & _ & D & HD & Hnd & _)|((o & Ho & Hrej) & _)]].
    + destruct (Hrj o e Ho Hsp Hrej) as [->|?]; [left; by split; [|apply Hout]|by right; right].
    + right; left. split; [by left|]. apply given_types in HD.
      rewrite -(given_dup _ _ _ (Hinj (RUnit) w' ev (or_intror (ex_intro _ _ eq_refl))) HD). done.
    + destruct (Hrj o e Ho Hsp Hrej) as [->|?]; [left; by split; [|apply Hout]|by right; right].
Qed.
