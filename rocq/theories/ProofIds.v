(** * The entity table over histories of calls (C57) *)
From Verif Require Import ProofBase SpecSmall World History ProofEntities ProofBitset ProofArrayVec ProofUVec.
From Verif Require Export SpecIds ProofQueryLaws.

(** *** The slots of the entity table *)
(** Every free slot is listed as such. *)
Definition full_wf (E : entities) : Prop := ents_wf E ∧ ∀ i g, generations E !! i = Some (false, g) → i ∈ despawned E.
(** What handing out ids does to the slots an id can name. *)
Definition issue (E E' : entities) : Prop :=
  ∀ i, (N.of_nat i < u32_modulus)%N →
    generations E' !! i = generations E !! i ∨
    (generations E !! i = None ∧ generations E' !! i = Some (true, 0%N) ∧
       ∀ j, j < i → ∃ g, generations E' !! j = Some (true, g)) ∨
    (∃ g, generations E !! i = Some (false, g) ∧ generations E' !! i = Some (true, wrap32 (g + 1))).
Lemma issue_alive E E' i g : issue E E' → (N.of_nat i < u32_modulus)%N → generations E !! i = Some (true, g) → generations E' !! i = Some (true, g).
Proof. intros H Hi Hg. destruct (H i Hi) as [E1|[(E1 & _)|(g' & E1 & _)]]; congruence. Qed.
Lemma issue_trans E1 E2 E3 : issue E1 E2 → issue E2 E3 → issue E1 E3.
Proof.
  intros H1 H2 i Hi. destruct (H1 i Hi) as [E|[(E & E' & Hj)|(g & E & E')]].
  - destruct (H2 i Hi) as [E'|[(E' & E'' & Hj)|(g & E' & E'')]]; rewrite ?E in E'; [by left|right; left; eauto|right; right; eauto].
  - right. left. split; [done|]. split; [by eapply issue_alive|]. intros j Hlt. destruct (Hj j Hlt) as [g Hg]. exists g. eapply issue_alive; [done|lia|done].
  - right. right. exists g. split; [done|]. by eapply issue_alive.
Qed.
Lemma spawn_issue E : full_wf E →
  match ents_spawn E with Done _ E' _ | Panicked _ E' _ => full_wf E' ∧ issue E E' | _ => True end.
Proof.
  intros [Hwf Hful]. destruct (ents_spawn E) as [e E' ev|r E' ev| |] eqn:Hsp; [..|done|done].
  - destruct (ents_spawn_spec _ _ _ _ Hwf Hsp) as (Hwf' & Hide & _ & Hnew & Hoth & Hold). split.
    + split; [done|]. intros i g Hi. destruct (decide (i = uindex e)) as [->|Hne]; [congruence|].
      rewrite Hoth // in Hi. apply Hful in Hi. destruct (generations E !! uindex e) as [[a g']|].
      * destruct Hold as (_ & _ & Hd). rewrite Hd in Hi. by apply elem_of_cons in Hi as [?|?].
      * destruct Hold as (_ & _ & ->). done.
    + intros i Hi. destruct (decide (i = uindex e)) as [->|Hne]; [|left; by apply Hoth]. right.
      destruct (generations E !! uindex e) as [[a g']|] eqn:Hg.
      * destruct Hold as (-> & Hgen & _). right. exists g'. by rewrite -Hgen.
      * destruct Hold as (Hgen & Hidx & Hd). left. split; [done|]. split; [by rewrite -Hgen|]. intros j Hj.
        destruct (lookup_lt_is_Some_2 (generations E) j) as [[[] g'] Hg']; [lia|..].
        -- exists g'. by rewrite Hoth; [|lia].
        -- apply Hful in Hg' as Hin. revert Hsp. rewrite /ents_spawn. destruct (despawned E) as [|i0 rest] eqn:Hde; [by apply elem_of_nil in Hin|].
           intros Hsp. exfalso. destruct Hwf as (Hnd & Hdes & _). rewrite Hde in Hdes, Hnd. destruct (Hdes i0) as [Hlt [g0 Hg0]]; [by left|].
           rewrite Hg0 in Hsp. case_match; [done|]. cbn in Hsp. rewrite list_lookup_insert in Hsp; [|by eapply lookup_lt_Some].
           injection Hsp as <- <- _. rewrite uindex_id_new // in Hidx. apply lookup_lt_Some in Hg0. lia.
  - destruct (ents_spawn_panic _ _ _ _ Hwf Hsp) as (_ & _ & Hd & Hlen & Hg).
    assert (ents_wf E') as Hwf'. { pose proof (estep_wf ESpawn E Hwf I) as H. cbn in H. by rewrite Hsp in H. } split.
    + split; [done|]. intros i g. rewrite Hg Hd. intros [Hi|[_ Hi]]%lookup_app_Some; [by eapply Hful|]. by apply list_lookup_singleton_Some in Hi as [_ ?].
    + intros i Hi. left. rewrite Hg lookup_app_l //. lia.
Qed.

(** *** Calls that hand out ids *)
Definition ew (w w' : world) : Prop := full_wf (w_ents w) → full_wf (w_ents w') ∧ issue (w_ents w) (w_ents w').
Global Instance ew_preorder : PreOrder ew.
Proof.
  split.
  - intros w H. split; [done|]. intros i _. by left.
  - intros w1 w2 w3 H1 H2 H. destruct (H1 H) as [H3 H4]. destruct (H2 H3) as [H5 H6]. split; [done|]. by eapply issue_trans.
Qed.
Lemma ew_same w w' : w_ents w' = w_ents w → ew w w'.
Proof. intros E. rewrite /ew E. intros H. split; [done|]. intros i _. by left. Qed.
Lemma ek_ents_spawn : keeping ew (in_ents ents_spawn).
Proof.
  intros w. rewrite /in_ents /zoom /ew. pose proof (spawn_issue (w_ents w)) as H. destruct (ents_spawn (w_ents w)); [| |done..]; intros Hf; by apply H.
Qed.
Definition ew2 (s s' : bw) : Prop := ew s.2 s'.2.
Global Instance ew2_preorder : PreOrder ew2.
Proof. split; [by intros ?; rewrite /ew2|intros ? ? ?; rewrite /ew2; apply transitivity]. Qed.

Lemma ekeeping_in_world {A} (m : M world A) : keeping ew m → keeping ew2 (in_world m).
Proof. intros H [b w]. rewrite /in_world /on_snd /zoom. specialize (H w). simpl. by destruct (m w). Qed.
Lemma ekeeping_on_fst {A} (m : M builder A) : keeping ew2 (@on_fst builder world A m).
Proof. intros [b w]. rewrite /on_fst /zoom. simpl. destruct (m b); try done; rewrite /ew2; reflexivity. Qed.

Ltac ekeep1 :=
  lazymatch goal with
  | |- keeping _ (bind _ _) => apply keeping_bind; [apply _| |intros ?]
  | |- keeping _ (ret _) => apply keeping_ret; apply _
  | |- keeping _ (panic _) => apply keeping_panic; apply _
  | |- keeping _ ub => apply keeping_ub; apply _
  | |- keeping _ deadlock => apply keeping_deadlock; apply _
  | |- keeping _ (gets _) => apply keeping_gets; apply _
  | |- keeping _ (emit _) => apply keeping_emit; apply _
  | |- keeping _ (massert _ _) => apply keeping_massert; apply _
  | |- keeping _ (unwrap _ _) => apply keeping_unwrap; apply _
  | |- keeping _ (or_ub _) => apply keeping_or_ub; apply _
  | |- keeping _ (on_unwind _ _) => apply keeping_on_unwind; [apply _|]
  | |- keeping _ (in_arch _ _) => apply keeping_zoom; [apply _|intros; by apply ew_same]
  | |- keeping _ (in_ents ents_spawn) => apply ek_ents_spawn
  | |- keeping ew2 (in_world _) => apply ekeeping_in_world
  | |- keeping ew2 (on_fst _) => apply ekeeping_on_fst
  | |- keeping ew (modify _) => apply keeping_modify; [apply _|intros]; first [by apply ew_same | idtac]
  | |- keeping _ (if ?b then _ else _) => destruct b
  | |- keeping _ (match ?x with _ => _ end) => destruct x
  | |- keeping _ (let _ := _ in _) => cbv zeta
  end.
Ltac ekeep := repeat (ekeep1 || eauto with ekeep).

Lemma ek_is_alive e : keeping ew (is_alive e).
Proof. rewrite /is_alive. ekeep. Qed.
Global Hint Resolve ek_is_alive : ekeep.
Lemma ek_get_entity_meta e : keeping ew (get_entity_meta e).
Proof. rewrite /get_entity_meta. ekeep. Qed.
Lemma ek_set_entity_meta e m : keeping ew (set_entity_meta e m).
Proof. rewrite /set_entity_meta. ekeep. Qed.
Lemma ek_update_meta i f : keeping ew (update_meta i f).
Proof. rewrite /update_meta. ekeep. Qed.
Lemma ek_get_arch k : keeping ew (get_arch k).
Proof. rewrite /get_arch. ekeep. Qed.
Global Hint Resolve ek_get_entity_meta ek_set_entity_meta ek_update_meta ek_get_arch : ekeep.
Lemma ek_find_sized fuel it n : keeping ew (find_sized fuel it n).
Proof. revert it. induction fuel as [|fuel IH]; intros it; cbn [find_sized]; ekeep. Qed.
Global Hint Resolve ek_find_sized : ekeep.
Lemma ek_search ids n : keeping ew (search ids n).
Proof. rewrite /search. ekeep. Qed.
Global Hint Resolve ek_search : ekeep.
Lemma ek_find_archetype_dynamic ids : keeping ew (find_archetype_dynamic ids).
Proof. rewrite /find_archetype_dynamic. ekeep. Qed.
Lemma ek_find_plus_id ids c : keeping ew (find_plus_id ids c).
Proof. rewrite /find_plus_id. ekeep. Qed.
Lemma ek_find_minus_id ids c : keeping ew (find_minus_id ids c).
Proof. rewrite /find_minus_id. ekeep. Qed.
Lemma ek_set_arch_bits ids n : keeping ew (set_arch_bits ids n).
Proof. induction ids as [|c ids IH]; cbn [set_arch_bits]; ekeep. Qed.
Global Hint Resolve ek_find_archetype_dynamic ek_find_plus_id ek_find_minus_id ek_set_arch_bits : ekeep.
Lemma ek_push_archetype a : keeping ew (push_archetype a).
Proof. rewrite /push_archetype. ekeep. Qed.
Lemma ek_ensure_lock c : keeping ew (ensure_lock c).
Proof.
  apply keeping_modify; [apply _|]. intros w. by destruct (w_lock_lookup w !! c); apply ew_same.
Qed.
Lemma ek_move_element cur i tar j row : keeping ew (move_element cur i tar j row).
Proof.
  intros w. rewrite /move_element. destruct (w_archs w !! cur) as [ca|]; [|reflexivity].
  destruct (w_archs w !! tar) as [ta|]; [|reflexivity]. destruct (a_storages ca !! i) as [[ci cv]|]; [|reflexivity].
  destruct (a_storages ta !! j) as [[ti tv]|]; [|reflexivity].
  destruct (uv_swap_move row (cv, tv)) as [? [cv' tv'] ?|? [cv' tv'] ?| |]; [by apply ew_same..|done|done].
Qed.
Global Hint Resolve ek_push_archetype ek_ensure_lock ek_move_element : ekeep.
Lemma ek_storage_id k j : keeping ew (storage_id k j).
Proof. rewrite /storage_id. ekeep. Qed.
Global Hint Resolve ek_storage_id : ekeep.
Lemma ek_add_zip c cur tar row n i js sk : keeping ew (add_zip c cur tar row n i js sk).
Proof. revert i sk. induction js as [|j js IH]; intros i sk; cbn [add_zip]; ekeep. Qed.
Lemma ek_rem_zip c cur tar row n is_ j sk : keeping ew (rem_zip c cur tar row n is_ j sk).
Proof. revert j sk. induction is_ as [|i is_ IH]; intros j sk; cbn [rem_zip]; ekeep. Qed.
Lemma ek_remove_row cur row : keeping ew (remove_row cur row).
Proof. rewrite /remove_row. ekeep. Qed.
Lemma ek_push_row tar e : keeping ew (push_row tar e).
Proof. rewrite /push_row. ekeep. Qed.
Global Hint Resolve ek_add_zip ek_rem_zip ek_remove_row ek_push_row : ekeep.
Lemma ek_add e c src : keeping ew (add_component_with_data e c src).
Proof. rewrite /add_component_with_data. ekeep. Qed.
Lemma ek_remove e c : keeping ew (remove_component_dynamic e c).
Proof. rewrite /remove_component_dynamic. ekeep. Qed.
Global Hint Resolve ek_add ek_remove : ekeep.
Lemma ek_add_dynamic e c : keeping ew (add_component_dynamic e c).
Proof. rewrite /add_component_dynamic. ekeep. Qed.
Lemma ek_swap_remove_storages k row is_ : keeping ew (swap_remove_storages k row is_).
Proof. induction is_ as [|i is_ IH]; cbn [swap_remove_storages]; ekeep. Qed.
Global Hint Resolve ek_add_dynamic ek_swap_remove_storages : ekeep.
Lemma ek_arch_despawn k row e : keeping ew (arch_despawn k row e).
Proof. rewrite /arch_despawn. ekeep. Qed.
Global Hint Resolve ek_arch_despawn : ekeep.
Lemma ek_builder_drop b : keeping ew (builder_drop b).
Proof. rewrite /builder_drop. ekeep. Qed.
Lemma ek_builder_new e m : keeping ew (builder_new e m).
Proof. rewrite /builder_new. ekeep. Qed.
Global Hint Resolve ek_builder_drop ek_builder_new : ekeep.
Lemma ek_builder_with_capacity e m cap : keeping ew (builder_with_capacity e m cap).
Proof. rewrite /builder_with_capacity. ekeep. Qed.
Lemma ek_builder_realloc n : keeping ew2 (builder_realloc n).
Proof. rewrite /builder_realloc. ekeep. Qed.
Global Hint Resolve ek_builder_with_capacity ek_builder_realloc : ekeep.
Lemma ek_builder_with_dynamic c : keeping ew2 (builder_with_dynamic c).
Proof. rewrite /builder_with_dynamic. ekeep. Qed.
Lemma ek_builder_with_data c src : keeping ew2 (builder_with_data c src).
Proof. rewrite /builder_with_data. ekeep. Qed.
Lemma ek_build_push k ids off : keeping ew2 (build_push k ids off).
Proof. revert off. induction ids as [|c ids IH]; intros off; cbn [build_push]; ekeep. Qed.
Lemma ek_create_storages ids off acc : keeping ew2 (create_storages ids off acc).
Proof. revert off acc. induction ids as [|c ids IH]; intros off acc; cbn [create_storages]; ekeep. Qed.
Global Hint Resolve ek_builder_with_dynamic ek_builder_with_data ek_build_push ek_create_storages : ekeep.
Lemma ek_create_archetype : keeping ew2 create_archetype.
Proof. rewrite /create_archetype. ekeep. Qed.
Lemma ek_ensure_locks ids : keeping ew (ensure_locks ids).
Proof. induction ids as [|c ids IH]; cbn [ensure_locks]; ekeep. Qed.
Global Hint Resolve ek_create_archetype ek_ensure_locks : ekeep.
Lemma ek_build : keeping ew2 build.
Proof. rewrite /build. ekeep. Qed.
Lemma ek_with_builder {A} b (m : M bw A) : keeping ew2 m → keeping ew (with_builder b m).
Proof.
  intros H w. rewrite /with_builder. specialize (H (b, w)). destruct (m (b, w)) as [a [b' w'] ev|r [b' w'] ev| |]; [| |done..].
  - pose proof (ek_builder_drop b' w') as H2. destruct (builder_drop b' w'); [by etrans..|done|done].
  - pose proof (ek_builder_drop b' w') as H2. destruct (builder_drop b' w'); [by etrans|done|done|done].
Qed.
Lemma ek_forget_builder {A} b (m : M bw A) : keeping ew2 m → keeping ew (forget_builder b m).
Proof.
  intros H w. rewrite /forget_builder. pose proof (ek_with_builder b m H w) as H2. specialize (H (b, w)).
  by destruct (m (b, w)) as [a [b' w'] ev|r [b' w'] ev| |].
Qed.
Global Hint Resolve ek_build ek_with_builder ek_forget_builder : ekeep.
Lemma ek_spawn_empty : keeping ew spawn_empty.
Proof. rewrite /spawn_empty. ekeep. Qed.
Global Hint Resolve ek_spawn_empty : ekeep.
Lemma ek_get_or_create t : keeping ew (get_or_create_type t).
Proof. rewrite /get_or_create_type. ekeep. Qed.
Global Hint Resolve ek_get_or_create : ekeep.
Lemma ek_run_bops bs : keeping ew2 (run_bops bs).
Proof.
  induction bs as [|o bs IH]; cbn [run_bops]; [ekeep|]. apply keeping_bind; [apply _| |done].
  destruct o; cbn [run_bop]; rewrite /builder_with; ekeep.
Qed.
Global Hint Resolve ek_run_bops : ekeep.
Lemma ek_step o : (∀ e, o ≠ ODespawn e) → keeping ew (step o).
Proof.
  intros Hn. destruct o; try (by destruct (Hn e)); cbn [step]; rewrite /spawn_program /spawn_builder /add_component /remove_component /has_component /get_component_mut /write_loc; ekeep.
Qed.


(** *** One call *)
Definition slot_step (o o' : option (bool * N)) : Prop :=
  o' = o ∨ (o = None ∧ o' = Some (true, 0%N)) ∨ (∃ g, o = Some (false, g) ∧ o' = Some (true, wrap32 (g + 1))) ∨
  (∃ g, o = Some (true, g) ∧ o' = Some (false, g)).
Definition slots (E E' : entities) : Prop :=
  full_wf E' ∧ (∀ i, (N.of_nat i < u32_modulus)%N → slot_step (generations E !! i) (generations E' !! i) ∧
    (generations E !! i = None → generations E' !! i ≠ None → ∀ j, j < i → ∃ g, generations E' !! j = Some (true, g))).
Lemma slots_refl E : full_wf E → slots E E.
Proof. intros H. split; [done|]. intros i _. split; [by left|done]. Qed.
Lemma issue_slots E E' : full_wf E' → issue E E' → slots E E'.
Proof.
  intros H Hi. split; [done|]. intros i Hlt. destruct (Hi i Hlt) as [E1|[(E1 & E2 & Hj)|(g & E1 & E2)]].
  - split; [by left|congruence].
  - split; [right; by left|auto].
  - split; [right; right; left; eauto|congruence].
Qed.
Lemma despawn_slots E e E' ev : full_wf E → id_wf e → ents_despawn e E = Done true E' ev → slots E E'.
Proof.
  intros [Hwf Hful] He Hd. destruct (ents_despawn_spec _ _ _ _ _ Hwf He Hd) as (Hwf' & _ & _ & Hg & Hg' & Hd').
  split.
  - split; [done|]. intros i g. rewrite Hg' Hd'. intros [(-> & _)|[Hne Hi]]%list_lookup_insert_Some; [by left|]. right. by eapply Hful.
  - intros i Hi. rewrite Hg'. destruct (decide (i = uindex e)) as [->|Hne].
    + rewrite list_lookup_insert; [|by eapply lookup_lt_Some]. split; [|congruence]. right. right. right. eauto.
    + rewrite list_lookup_insert_ne //. split; [by left|congruence].
Qed.
Lemma sstep_slots o s : sinv s → full_wf (w_ents (ss_world s)) → sop_legal o s → sop_tame o s →
  match sstep o s with Done _ s' _ => slots (w_ents (ss_world s)) (w_ents (ss_world s')) | Panicked r s' _ => resumable r → slots (w_ents (ss_world s)) (w_ents (ss_world s')) | _ => True end.
Proof.
  intros Hs Hful Hleg Htame. pose proof (sv_world _ Hs) as Hok. destruct o as [o|fs|ps|k u|k|k n j v].
  - cbn [sstep]. rewrite /bind in_sworld_run.
    assert (match step o (ss_world s) with Done _ w' _ => slots (w_ents (ss_world s)) (w_ents w') | Panicked r w' _ => resumable r → slots (w_ents (ss_world s)) (w_ents w') | _ => True end) as H.
    { assert ((∃ e, o = ODespawn e) ∨ ∀ e, o ≠ ODespawn e) as [[e ->]|Hn] by (destruct o; eauto).
      - destruct Hok as [[R Hw] _]. destruct Hleg as [He _]. cbn in He. destruct Htame as [_ Ht]. cbn [step]. rewrite /bind.
        pose proof (despawn_spec _ R e Hw He Ht) as H. rewrite /wp in H. destruct (despawn e (ss_world s)) as [b w' ev|r w' ev| |]; [| |done..]; cbn.
        + destruct H as [(_ & _ & -> & _)|(_ & _ & Hk & _)]; [by apply slots_refl|]. eapply despawn_slots; [done..|apply Hk].
        + intros [Hr _]. destruct H as [?|(-> & _)]; [done|]. by apply slots_refl.
      - pose proof (ek_step o Hn (ss_world s)) as H. destruct (step o (ss_world s)); [|intros _|done..]; apply issue_slots; by apply H. }
    by destruct (step o (ss_world s)) as [r w' ev|r w' ev| |].
  - rewrite open_dyn_run. destruct (sv_locks _ Hs) as [F HF]. pose proof (dq_new_run (ss_world s) _ fs (λ c i, sinv_lock_lt s c i Hs) HF) as H.
    destruct (dq_new fs (ss_world s)) as [q w' ev|r w' ev| |]; [| |done..]; cbn.
    + destruct H as (_ & _ & _ & _ & _ & _ & _ & ls & -> & _). by apply slots_refl.
    + intros _. destruct H as (_ & _ & _ & ls & -> & _). by apply slots_refl.
  - rewrite open_stat_run. destruct (sv_locks _ Hs) as [F HF]. pose proof (sq_new_run (ss_world s) _ ps (λ c i, sinv_lock_lt s c i Hs) HF) as H.
    destruct (sq_new ps (ss_world s)) as [q w' ev|r w' ev| |]; [| |done..]; cbn.
    + destruct H as (_ & _ & _ & _ & _ & _ & ls & -> & _). by apply slots_refl.
    + intros _. destruct H as (_ & _ & _ & ls & -> & _). by apply slots_refl.
  - cbn [sstep]. rewrite (bind_done_nil _ _ s s s eq_refl). destruct (ss_open s !! k) as [[q|]|] eqn:Hi; [|by apply slots_refl..]. cbn.
    destruct (release_all_locks u (oq_guards q) (ss_world s)) as (ls & -> & _). by apply slots_refl.
  - by apply slots_refl.
  - cbn [sstep] in *. rewrite (bind_done_nil _ _ s s s eq_refl). destruct (ss_open s !! k) as [[q|]|] eqn:Hi; [|by apply slots_refl..].
    destruct (Hleg _ Hi) as (fs & c & Hfs & Hj & Hv).
    pose proof (query_item_run _ q n Hok (sv_open _ Hs _ _ Hi)) as H. rewrite /wp in H.
    rewrite {1}/bind in_sworld_run. destruct (query_item q n (ss_world s)) as [o w' ev|r w' ev| |] eqn:Eq; [| |done..].
    + destruct H as (-> & -> & Ho). rewrite sess_eta. destruct o as [ps|]; [|by apply slots_refl]. cbn [mbind option_bind].
      destruct (ps !! j) as [q0|] eqn:Hq0; [|by apply slots_refl]. destruct (Ho _ eq_refl) as (fs' & p & Hfs' & Hg & ->).
      rewrite Hfs in Hfs'. injection Hfs' as <-. destruct Hok as [[R Hw] Hroom].
      destruct (ptr_store_run _ _ _ _ _ _ _ _ Hw Hg Hj Hv Hq0) as (e & w' & He & Hrun & Hk & _).
      rewrite /bind in_sworld_run Hrun. cbn. rewrite (kp_ents _ _ Hk). by apply slots_refl.
    + cbn. intros [Hr _]. destruct H as [?|(-> & _)]; [done|]. by apply slots_refl.
Qed.
Lemma steps_full s l s' : sinv s → full_wf (w_ents (ss_world s)) → steps s l s' → full_wf (w_ents (ss_world s')).
Proof.
  intros Hs Hf H. induction H as [s|s0 l s1 o r s2 ev H IH Hl Ht E|s0 l s1 o r s2 ev H IH Hl Ht E Hr]; [done|..];
    pose proof (sstep_slots o s1 (steps_inv _ _ _ Hs H) (IH Hs Hf) Hl Ht) as Hx; rewrite E in Hx; by apply Hx.
Qed.
Lemma full_new : full_wf (w_ents (ss_world sess_new)).
Proof. split; [apply ents_wf_new|]. cbn. intros i g. by rewrite lookup_nil. Qed.
Lemma reachable_full s : reachable s → full_wf (w_ents (ss_world s)).
Proof. intros [l H]. eapply steps_full; [|apply full_new|exact H]. apply reachable_inv. exists []. constructor. Qed.
Lemma one_step_slots s x s' : reachable s → steps s [x] s' → slots (w_ents (ss_world s)) (w_ents (ss_world s')).
Proof.
  intros Hs H. pose proof (reachable_full _ Hs) as Hf. apply reachable_inv in Hs.
  inversion H as [|s0 l s1 o r s2 ev H1 Hl Ht E Hx|s0 l s1 o r s2 ev H1 Hl Ht E Hr Hx]; subst;
    (destruct l; [|by destruct l]); simplify_eq/=; (inversion H1; subst; [|by destruct l..]);
    pose proof (sstep_slots o s1 Hs Hf Hl Ht) as Hsl; rewrite E in Hsl; auto.
Qed.

(** *** Counting *)
Lemma steps_join s l s1 l' s2 : steps s l s1 → steps s1 l' s2 → steps s (l ++ l') s2.
Proof.
  intros H1 H2. revert H1. induction H2 as [s1|s1 l' s2 o r s3 ev H2 IH Hl Ht E|s1 l' s2 o r s3 ev H2 IH Hl Ht E Hr]; intros H1.
  - by rewrite app_nil_r.
  - rewrite app_assoc. eapply steps_done; eauto.
  - rewrite app_assoc. eapply steps_panic; eauto.
Qed.
Lemma reachable_steps s l s' : reachable s → steps s l s' → reachable s'.
Proof. intros [l0 H] H'. exists (l0 ++ l). by eapply steps_join. Qed.
Definition slot (s : sess) (k : N) : option (bool * N) := generations (w_ents (ss_world s)) !! N.to_nat k.
Lemma lives_slot s e : lives (ss_world s) e ↔ slot s (id_idx e) = Some (true, id_gen e).
Proof. by rewrite lives_alive alive_iff. Qed.
Lemma slot_gen s k b g : reachable s → slot s k = Some (b, g) → (g < u32_modulus)%N.
Proof. intros Hs H. destruct (reachable_full _ Hs) as [(_ & _ & Hg) _]. by eapply Hg. Qed.
Lemma slot_lives s k g : reachable s → (k < u32_modulus)%N → slot s k = Some (true, g) → id_wf (EcsId g k) ∧ lives (ss_world s) (EcsId g k).
Proof. intros Hs Hk H. split; [split; [by eapply slot_gen|done]|]. by apply lives_slot. Qed.
Lemma slot_moves s x s' k : reachable s → steps s [x] s' → (k < u32_modulus)%N → slot_step (slot s k) (slot s' k).
Proof. intros Hs Hx Hk. eapply one_step_slots; [done..|]. by rewrite N2Nat.id. Qed.
Lemma born_slot s x s' k : reachable s → reachable s' → steps s [x] s' → (k < u32_modulus)%N →
  born k (ss_world s) (ss_world s') ↔ slot s' k ≠ slot s k ∧ ∃ g, slot s' k = Some (true, g).
Proof.
  intros Hs Hs' Hx Hk. split.
  - intros (e & He & <- & H1 & H2). rewrite !lives_slot in H1, H2. rewrite H2. split; [congruence|eauto].
  - intros [Hne [g Hg]]. destruct (slot_lives _ _ _ Hs' Hk Hg) as [He Hl]. exists (EcsId g k). split; [done|]. split; [done|]. split; [|done].
    rewrite lives_slot /=. intros H. congruence.
Qed.
Lemma births_steps k s0 l s n : births k s0 l s n → steps s0 l s.
Proof. intros H. induction H as [|l s1 n x s2 H IH Hx|l s1 n x s2 H IH Hx]; [apply steps_nil|..]; by eapply steps_join. Qed.
Lemma steps_births k s0 l s : reachable s0 → (k < u32_modulus)%N → steps s0 l s → ∃ n, births k s0 l s n.
Proof.
  intros Hr Hk H.
  assert (∀ l s1 x s2, steps s0 l s1 → steps s1 [x] s2 → (∃ n, births k s0 l s1 n) → ∃ n, births k s0 (l ++ [x]) s2 n) as Hone.
  { clear H l s. intros l s1 x s2 H1 Hx [n Hn]. assert (reachable s1) as R1 by by eapply reachable_steps.
    assert (reachable s2) as R2 by by eapply reachable_steps. destruct (slot_moves _ _ _ _ R1 Hx Hk) as [E|[[E E']|[(g & E & E')|(g & E & E')]]].
    - exists n. eapply births_same; [done..|]. rewrite (born_slot _ _ _ _ R1 R2 Hx Hk). by intros [? _].
    - exists (N.succ n). eapply births_born; [done..|]. rewrite (born_slot _ _ _ _ R1 R2 Hx Hk). split; [congruence|eauto].
    - exists (N.succ n). eapply births_born; [done..|]. rewrite (born_slot _ _ _ _ R1 R2 Hx Hk). split; [congruence|eauto].
    - exists n. eapply births_same; [done..|]. rewrite (born_slot _ _ _ _ R1 R2 Hx Hk). intros [_ [g' E'']]. congruence. }
  induction H as [s|s0 l s1 o r s2 ev H IH Hl Ht E|s0 l s1 o r s2 ev H IH Hl Ht E Hp]; [exists 0%N; constructor|..].
  - eapply Hone; [done| |by apply IH]. apply (steps_done _ [] _ _ _ _ _ (steps_nil _) Hl Ht E).
  - eapply Hone; [done| |by apply IH]. apply (steps_panic _ [] _ _ _ _ _ (steps_nil _) Hl Ht E Hp).
Qed.
Lemma wrap_succ g n : wrap32 (wrap32 (g + n) + 1) = wrap32 (g + N.succ n).
Proof. rewrite /wrap32 N.add_mod_idemp_l //. f_equal. lia. Qed.
Lemma births_gen k s0 l s n b g : reachable s0 → (k < u32_modulus)%N → births k s0 l s n → slot s0 k = Some (b, g) →
  ∃ b', slot s k = Some (b', wrap32 (g + n)) ∧ (n = 0%N → b' = true → b = true).
Proof.
  intros Hr Hk H Hg. induction H as [|l s1 n x s2 H IH Hx Hb|l s1 n x s2 H IH Hx Hb].
  - exists b. rewrite N.add_0_r wrap32_small; [done|]. by eapply slot_gen.
  - destruct IH as (b1 & E1 & Hn). assert (reachable s1) as R1 by (eapply reachable_steps; [done|by eapply births_steps]).
    assert (reachable s2) as R2 by by eapply reachable_steps. rewrite (born_slot _ _ _ _ R1 R2 Hx Hk) in Hb.
    destruct (slot_moves _ _ _ _ R1 Hx Hk) as [E|[[E E']|[(g' & E & E')|(g' & E & E')]]].
    + exists b1. by rewrite E.
    + congruence.
    + destruct Hb. split; [congruence|eauto].
    + exists false. split; [congruence|done].
  - destruct IH as (b1 & E1 & Hn). assert (reachable s1) as R1 by (eapply reachable_steps; [done|by eapply births_steps]).
    assert (reachable s2) as R2 by by eapply reachable_steps. rewrite (born_slot _ _ _ _ R1 R2 Hx Hk) in Hb. destruct Hb as [Hne [g' Hg']].
    destruct (slot_moves _ _ _ _ R1 Hx Hk) as [E|[[E E']|[(g2 & E & E')|(g2 & E & E')]]]; [congruence..| |congruence].
    exists true. split; [|lia]. rewrite E1 in E. injection E as -> <-. by rewrite E' wrap_succ.
Qed.
Lemma births_new k l s n : (k < u32_modulus)%N → births k sess_new l s n →
  (n = 0%N ∧ slot s k = None) ∨ (n ≠ 0%N ∧ ∃ b, slot s k = Some (b, wrap32 (n - 1))).
Proof.
  intros Hk H. assert (reachable sess_new) as Hr by (exists []; constructor). induction H as [|l s1 n x s2 H IH Hx Hb|l s1 n x s2 H IH Hx Hb].
  - by left.
  - assert (reachable s1) as R1 by (eapply reachable_steps; [done|by eapply births_steps]).
    assert (reachable s2) as R2 by by eapply reachable_steps. rewrite (born_slot _ _ _ _ R1 R2 Hx Hk) in Hb.
    destruct (slot_moves _ _ _ _ R1 Hx Hk) as [E|[[E E']|[(g' & E & E')|(g' & E & E')]]].
    + by rewrite E.
    + destruct Hb. split; [congruence|eauto].
    + destruct Hb. split; [congruence|eauto].
    + right. destruct IH as [[_ ?]|(Hn & b & E1)]; [congruence|]. split; [done|]. exists false. congruence.
  - assert (reachable s1) as R1 by (eapply reachable_steps; [done|by eapply births_steps]).
    assert (reachable s2) as R2 by by eapply reachable_steps. rewrite (born_slot _ _ _ _ R1 R2 Hx Hk) in Hb. destruct Hb as [Hne [g' Hg']].
    right. split; [lia|]. exists true. rewrite N.sub_1_r N.pred_succ.
    destruct (slot_moves _ _ _ _ R1 Hx Hk) as [E|[[E E']|[(g2 & E & E')|(g2 & E & E')]]]; [congruence|..|congruence].
    + destruct IH as [[-> _]|(_ & b & ?)]; [done|congruence].
    + destruct IH as [[-> ?]|(Hn & b & E1)]; [congruence|]. rewrite E1 in E. injection E as -> <-. rewrite E' -(N.succ_pred n) // N.sub_1_r N.pred_succ.
      f_equal. f_equal. rewrite /wrap32 N.add_mod_idemp_l //. f_equal. lia.
Qed.

(** *** The theorems *)
Lemma unissued_births e l s n : id_wf e → births (id_idx e) sess_new l s n → unissued (ss_world s) e ↔ n = 0%N.
Proof.
  intros [_ Hk] H. rewrite unissued_oob /ents_is_alive. change (generations (w_ents (ss_world s)) !! uindex e) with (slot s (id_idx e)).
  destruct (births_new _ _ _ _ Hk H) as [[-> ->]|(Hn & b & ->)]; done.
Qed.
Lemma first_generations e l s n : id_wf e → births (id_idx e) sess_new l s n → lives (ss_world s) e → id_gen e = ((n - 1) mod 2 ^ 32)%N ∧ n ≠ 0%N.
Proof.
  intros [_ Hk] H Hl%lives_slot. destruct (births_new _ _ _ _ Hk H) as [[-> E]|(Hn & b & E)]; rewrite E in Hl; [done|]. by injection Hl as _ <-.
Qed.
Lemma later_generations e e' s0 l s n : reachable s0 → id_wf e → lives (ss_world s0) e → births (id_idx e) s0 l s n →
  lives (ss_world s) e' → id_idx e' = id_idx e → id_gen e' = ((id_gen e + n) mod 2 ^ 32)%N.
Proof.
  intros Hr [_ Hk] Hl%lives_slot H Hl'%lives_slot Hi. rewrite Hi in Hl'. destruct (births_gen _ _ _ _ _ _ _ Hr Hk H Hl) as (b & E & _).
  rewrite E in Hl'. by injection Hl' as _ <-.
Qed.
Lemma stays_dead e s0 x s1 l s n : reachable s0 → id_wf e → lives (ss_world s0) e → steps s0 [x] s1 → ¬ lives (ss_world s1) e →
  births (id_idx e) s1 l s n → (n < 2 ^ 32)%N → ¬ lives (ss_world s) e.
Proof.
  intros Hr [Hg Hk] Hl%lives_slot Hx Hd H Hn. assert (reachable s1) as R1 by by eapply reachable_steps. rewrite !lives_slot in Hd |- *.
  destruct (slot_moves _ _ _ _ Hr Hx Hk) as [E|[[E E']|[(g & E & E')|(g & E & E')]]]; [congruence..|].
  rewrite Hl in E. injection E as <-. destruct (births_gen _ _ _ _ _ _ _ R1 Hk H E') as (b & E & Hb). rewrite E. intros [= -> Hw].
  destruct (decide (n = 0%N)) as [->|Hn0]; [by destruct (Hb eq_refl eq_refl)|]. revert Hw. apply wrap_add_ne; [done|]. split; [lia|done].
Qed.
Lemma dense_ids k s x s' : reachable s → steps s [x] s' → born k (ss_world s) (ss_world s') →
  (∀ e, id_wf e → id_idx e = k → unissued (ss_world s) e) →
  ∀ k', (k' < k)%N → ∃ e, id_wf e ∧ id_idx e = k' ∧ lives (ss_world s') e.
Proof.
  intros Hr Hx (e & He & <- & Hd & Hl) Hu k' Hk'. assert (reachable s') as R' by by eapply reachable_steps. pose proof (proj2 He) as Hk.
  specialize (Hu e He eq_refl). rewrite unissued_oob /ents_is_alive in Hu. rewrite lives_slot in Hl.
  destruct (one_step_slots _ _ _ Hr Hx) as [_ Hsl]. destruct (Hsl (uindex e)) as [_ Hnew]; [rewrite /uindex N2Nat.id //|].
  destruct (Hnew ltac:(by destruct (generations (w_ents (ss_world s)) !! uindex e) as [[]|]) ltac:(rewrite /slot in Hl; rewrite /uindex Hl; done) (N.to_nat k')) as [g Hg]; [rewrite /uindex; lia|].
  destruct (slot_lives s' k' g R') as [H1 H2]; [lia|exact Hg|]. by exists (EcsId g k').
Qed.
