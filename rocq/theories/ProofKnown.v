(** * A call that returns leaves no lock for a component that is in no archetype *)
From Verif Require Import ProofBase SpecSmall World History ProofEntities ProofBitset ProofArrayVec ProofUVec.
From Verif Require Export ProofAlias.
From Verif Require Import ProofLocks.

Definition used (w : world) (c : ecsid) : Prop := ∃ k a, w_archs w !! k = Some a ∧ c ∈ a_comp_ids a.
(** No locks are made, and no component loses its archetypes. *)
Definition kq (w w' : world) : Prop := (∀ c, known w' c → known w c) ∧ ∀ c, used w c → used w' c.
Global Instance kq_preorder : PreOrder kq.
Proof. split; [by intros w|]. intros w1 w2 w3 [H1 H2] [H3 H4]. split; naive_solver. Qed.
Definition kq2 (s s' : bw) : Prop := kq s.2 s'.2.
Global Instance kq2_preorder : PreOrder kq2.
Proof. split; [by intros ?; rewrite /kq2|intros ? ? ?; rewrite /kq2; apply transitivity]. Qed.
Lemma kq_same w w' : w_lock_lookup w' = w_lock_lookup w → w_archs w' = w_archs w → kq w w'.
Proof. intros H1 H2. rewrite /kq /known /used H1 H2. done. Qed.
Definition same_ids (a a' : archetype) : Prop := a_comp_ids a' = a_comp_ids a.
Global Instance same_ids_preorder : PreOrder same_ids.
Proof. split; [done|]. intros a b c H1 H2. rewrite /same_ids in H1, H2 |- *. congruence. Qed.
Lemma kq_arch {A} k (m : M archetype A) : keeping same_ids m → keeping kq (in_arch k m).
Proof.
  intros H w. rewrite /in_arch /zoom. destruct (w_archs w !! k) as [a|] eqn:Ha; [|reflexivity]. specialize (H a).
  assert (∀ a', same_ids a a' → kq w (set_archs (<[k := a']> (w_archs w)) w)) as Hk.
  { intros a' Hs. split; [done|]. intros c (k0 & a0 & Ha0 & Hc). destruct (decide (k0 = k)) as [->|Hne].
    - simplify_eq. exists k, a'. cbn. rewrite list_lookup_insert; [|by eapply lookup_lt_Some]. by rewrite Hs.
    - exists k0, a0. cbn. by rewrite list_lookup_insert_ne. }
  destruct (m a); auto.
Qed.
Lemma ids_cache {A} (m : M arcache A) : keeping same_ids (in_cache m).
Proof. apply keeping_zoom; [apply _|done]. Qed.
Lemma ids_storage {A} i (m : M uvec A) : keeping same_ids (in_storage i m).
Proof. apply keeping_zoom; [apply _|done]. Qed.
Lemma kq_in_world {A} (m : M world A) : keeping kq m → keeping kq2 (in_world m).
Proof. intros H [b w]. rewrite /in_world /on_snd /zoom. specialize (H w). simpl. by destruct (m w). Qed.
Lemma kq_on_fst {A} (m : M builder A) : keeping kq2 (@on_fst builder world A m).
Proof. intros [b w]. rewrite /on_fst /zoom. simpl. destruct (m b); try done; rewrite /kq2; reflexivity. Qed.

Ltac kq1 :=
  lazymatch goal with
  | |- keeping _ (bind _ _) => apply keeping_bind; [apply _| |intros ?]
  | |- keeping _ (ret _) => apply keeping_ret; apply _
  | |- keeping _ (panic _) => apply keeping_panic; apply _
  | |- keeping _ ub => apply keeping_ub; apply _
  | |- keeping _ deadlock => apply keeping_deadlock; apply _
  | |- keeping _ (gets _) => apply keeping_gets; apply _
  | |- keeping _ (emit _) => apply keeping_emit; apply _
  | |- keeping _ (massert _ _) => apply keeping_massert; apply _
  | |- keeping _ (unwrap _ _) => apply keeping_unwrap; apply _
  | |- keeping _ (or_ub _) => apply keeping_or_ub; apply _
  | |- keeping _ (on_unwind _ _) => apply keeping_on_unwind; [apply _|]
  | |- keeping kq (in_arch _ _) => apply kq_arch
  | |- keeping same_ids (in_cache _) => apply ids_cache
  | |- keeping same_ids (in_storage _ _) => apply ids_storage
  | |- keeping same_ids (modify _) => apply keeping_modify; [apply _|done]
  | |- keeping _ (in_ents _) => apply keeping_zoom; [apply _|intros; by apply kq_same]
  | |- keeping kq2 (in_world _) => apply kq_in_world
  | |- keeping kq2 (on_fst _) => apply kq_on_fst
  | |- keeping kq (modify _) => apply keeping_modify; [apply _|intros]; first [by apply kq_same | idtac]
  | |- keeping _ (if ?b then _ else _) => destruct b
  | |- keeping _ (match ?x with _ => _ end) => destruct x
  | |- keeping _ (let _ := _ in _) => cbv zeta
  end.
Ltac kq := repeat (kq1 || eauto with kq).

Lemma kq_is_alive e : keeping kq (is_alive e).
Proof. rewrite /is_alive. kq. Qed.
Global Hint Resolve kq_is_alive : kq.
Lemma kq_get_entity_meta e : keeping kq (get_entity_meta e).
Proof. rewrite /get_entity_meta. kq. Qed.
Lemma kq_set_entity_meta e m : keeping kq (set_entity_meta e m).
Proof. rewrite /set_entity_meta. kq. Qed.
Lemma kq_update_meta i f : keeping kq (update_meta i f).
Proof. rewrite /update_meta. kq. Qed.
Lemma kq_get_arch k : keeping kq (get_arch k).
Proof. rewrite /get_arch. kq. Qed.
Global Hint Resolve kq_get_entity_meta kq_set_entity_meta kq_update_meta kq_get_arch : kq.
Lemma kq_find_sized fuel it n : keeping kq (find_sized fuel it n).
Proof. revert it. induction fuel as [|fuel IH]; intros it; cbn [find_sized]; kq. Qed.
Global Hint Resolve kq_find_sized : kq.
Lemma kq_search ids n : keeping kq (search ids n).
Proof. rewrite /search. kq. Qed.
Global Hint Resolve kq_search : kq.
Lemma kq_find_archetype_dynamic ids : keeping kq (find_archetype_dynamic ids).
Proof. rewrite /find_archetype_dynamic. kq. Qed.
Lemma kq_find_plus_id ids c : keeping kq (find_plus_id ids c).
Proof. rewrite /find_plus_id. kq. Qed.
Lemma kq_find_minus_id ids c : keeping kq (find_minus_id ids c).
Proof. rewrite /find_minus_id. kq. Qed.
Lemma kq_set_arch_bits ids n : keeping kq (set_arch_bits ids n).
Proof. induction ids as [|c ids IH]; cbn [set_arch_bits]; kq. Qed.
Global Hint Resolve kq_find_archetype_dynamic kq_find_plus_id kq_find_minus_id kq_set_arch_bits : kq.
Lemma kq_push_archetype a : keeping kq (push_archetype a).
Proof.
  rewrite /push_archetype. kq. split; [done|]. intros c (k & a' & Ha & Hc). exists k, a'. cbn. split; [by apply lookup_app_l_Some|done].
Qed.
Lemma used_insert w k a a' : w_archs w !! k = Some a → same_ids a a' → kq w (set_archs (<[k := a']> (w_archs w)) w).
Proof.
  intros Ha Hs. split; [done|]. intros c (k0 & a0 & Ha0 & Hc). destruct (decide (k0 = k)) as [->|Hne].
  - simplify_eq. exists k, a'. cbn. rewrite list_lookup_insert; [|by eapply lookup_lt_Some]. by rewrite Hs.
  - exists k0, a0. cbn. by rewrite list_lookup_insert_ne.
Qed.
Lemma kq_move_element cur i tar j row : keeping kq (move_element cur i tar j row).
Proof.
  intros w. rewrite /move_element. destruct (w_archs w !! cur) as [ca|] eqn:H1; [|reflexivity].
  destruct (w_archs w !! tar) as [ta|] eqn:H2; [|reflexivity]. destruct (a_storages ca !! i) as [[ci cv]|]; [|reflexivity].
  destruct (a_storages ta !! j) as [[ti tv]|]; [|reflexivity].
  assert (∀ ca' ta', same_ids ca ca' → same_ids ta ta' → kq w (set_archs (<[tar := ta']> (<[cur := ca']> (w_archs w))) w)) as Hk.
  { intros ca' ta' Hs1 Hs2. set (w1 := set_archs (<[cur := ca']> (w_archs w)) w).
    trans w1; [by eapply used_insert|].
    assert (∃ ta1, w_archs w1 !! tar = Some ta1 ∧ same_ids ta1 ta') as (ta1 & Hta1 & Hs3).
    { cbn. destruct (decide (cur = tar)) as [->|Hne].
      - exists ca'. rewrite list_lookup_insert; [|by eapply lookup_lt_Some]. simplify_eq. split; [done|]. rewrite /same_ids in Hs1, Hs2 |- *. congruence.
      - exists ta. by rewrite list_lookup_insert_ne. }
    exact (used_insert w1 tar ta1 ta' Hta1 Hs3). }
  destruct (uv_swap_move row (cv, tv)) as [? [cv' tv'] ?|? [cv' tv'] ?| |]; [by apply Hk..|done|done].
Qed.
Global Hint Resolve kq_push_archetype kq_move_element : kq.
Lemma kq_storage_id k j : keeping kq (storage_id k j).
Proof. rewrite /storage_id. kq. Qed.
Global Hint Resolve kq_storage_id : kq.
Lemma kq_add_zip c cur tar row n i js sk : keeping kq (add_zip c cur tar row n i js sk).
Proof. revert i sk. induction js as [|j js IH]; intros i sk; cbn [add_zip]; kq. Qed.
Lemma kq_rem_zip c cur tar row n is_ j sk : keeping kq (rem_zip c cur tar row n is_ j sk).
Proof. revert j sk. induction is_ as [|i is_ IH]; intros j sk; cbn [rem_zip]; kq. Qed.
Lemma kq_remove_row cur row : keeping kq (remove_row cur row).
Proof. rewrite /remove_row. kq. Qed.
Lemma kq_push_row tar e : keeping kq (push_row tar e).
Proof. rewrite /push_row. kq. Qed.
Global Hint Resolve kq_add_zip kq_rem_zip kq_remove_row kq_push_row : kq.
Lemma kq_remove e c : keeping kq (remove_component_dynamic e c).
Proof. rewrite /remove_component_dynamic. kq. Qed.
Lemma kq_swap_remove_storages k row is_ : keeping kq (swap_remove_storages k row is_).
Proof. induction is_ as [|i is_ IH]; cbn [swap_remove_storages]; kq. Qed.
Global Hint Resolve kq_remove kq_swap_remove_storages : kq.
Lemma kq_arch_despawn k row e : keeping kq (arch_despawn k row e).
Proof. rewrite /arch_despawn. kq. Qed.
Global Hint Resolve kq_arch_despawn : kq.
Lemma kq_despawn e : keeping kq (despawn e).
Proof. rewrite /despawn. kq. Qed.
Lemma kq_builder_drop b : keeping kq (builder_drop b).
Proof. rewrite /builder_drop. kq. Qed.
Lemma kq_builder_new e m : keeping kq (builder_new e m).
Proof. rewrite /builder_new. kq. Qed.
Global Hint Resolve kq_despawn kq_builder_drop kq_builder_new : kq.
Lemma kq_builder_with_capacity e m cap : keeping kq (builder_with_capacity e m cap).
Proof. rewrite /builder_with_capacity. kq. Qed.
Lemma kq_builder_realloc n : keeping kq2 (builder_realloc n).
Proof. rewrite /builder_realloc. kq. Qed.
Global Hint Resolve kq_builder_with_capacity kq_builder_realloc : kq.
Lemma kq_builder_with_dynamic c : keeping kq2 (builder_with_dynamic c).
Proof. rewrite /builder_with_dynamic. kq. Qed.
Lemma kq_builder_with_data c src : keeping kq2 (builder_with_data c src).
Proof. rewrite /builder_with_data. kq. Qed.
Lemma kq_build_push k ids off : keeping kq2 (build_push k ids off).
Proof. revert off. induction ids as [|c ids IH]; intros off; cbn [build_push]; kq. Qed.
Lemma kq_create_storages ids off acc : keeping kq2 (create_storages ids off acc).
Proof. revert off acc. induction ids as [|c ids IH]; intros off acc; cbn [create_storages]; kq. Qed.
Global Hint Resolve kq_builder_with_dynamic kq_builder_with_data kq_build_push kq_create_storages : kq.
Lemma kq_create_archetype : keeping kq2 create_archetype.
Proof. rewrite /create_archetype. kq. Qed.
Global Hint Resolve kq_create_archetype : kq.

(** *** When the call returns *)
Definition finishing {S A} (P : S → S → Prop) (m : M S A) : Prop :=
  ∀ s, match m s with Done _ s' _ => P s s' | _ => True end.
Definition tk (w w' : world) : Prop := (∀ c, known w' c → known w c ∨ used w' c) ∧ ∀ c, used w c → used w' c.
Global Instance tk_preorder : PreOrder tk.
Proof. split; [split; auto|]. intros w1 w2 w3 [H1 H2] [H3 H4]. split; [|auto]. intros c [H|H]%H3; [|auto]. apply H1 in H as [H|H]; auto. Qed.
Definition tk2 (s s' : bw) : Prop := tk s.2 s'.2.
Global Instance tk2_preorder : PreOrder tk2.
Proof. split; [by intros ?; rewrite /tk2|intros ? ? ?; rewrite /tk2; apply transitivity]. Qed.
Lemma fin_bind {S A B} (P : S → S → Prop) `{!PreOrder P} (m : M S A) (k : A → M S B) : finishing P m → (∀ a, finishing P (k a)) → finishing P (bind m k).
Proof.
  intros Hm Hk s. rewrite /bind. specialize (Hm s). destruct (m s) as [a s' ev|r s' ev| |]; [|done..].
  specialize (Hk a s'). destruct (k a s'); simpl; [by etrans|done..].
Qed.
Lemma fin_on_unwind {S A} (P : S → S → Prop) (m : M S A) c : finishing P m → finishing P (on_unwind m c).
Proof. intros H s. rewrite /on_unwind. specialize (H s). destruct (m s); [done| |done..]. by destruct c. Qed.
Lemma fin_kq {A} (m : M world A) : keeping kq m → finishing tk m.
Proof. intros H w. specialize (H w). destruct (m w) as [a w' ev|r w' ev| |]; [|done..]. destruct H as [H1 H2]. split; [|done]. intros c Hc. left. by apply H1. Qed.
Lemma fin_kq2 {A} (m : M bw A) : keeping kq2 m → finishing tk2 m.
Proof. intros H w. specialize (H w). destruct (m w) as [a w' ev|r w' ev| |]; [|done..]. destruct H as [H1 H2]. split; [|done]. intros c Hc. left. by apply H1. Qed.
Lemma fin_in_world {A} (m : M world A) : finishing tk m → finishing tk2 (in_world m).
Proof. intros H [b w]. rewrite /in_world /on_snd /zoom. specialize (H w). simpl. by destruct (m w). Qed.

(** Locks are made for [cs]. *)
Lemma ensure_locks_run cs w : ∃ w', ensure_locks cs w = Done () w' [] ∧ w_archs w' = w_archs w ∧ ∀ c, known w' c → known w c ∨ c ∈ cs.
Proof.
  revert w. induction cs as [|c cs IH]; intros w; cbn [ensure_locks]; [exists w; naive_solver|].
  assert (∃ w1, ensure_lock c w = Done () w1 [] ∧ w_archs w1 = w_archs w ∧ ∀ d, known w1 d → known w d ∨ d = c) as (w1 & Hr & Ha & Hk).
  { rewrite /ensure_lock /modify. eexists. split; [done|]. destruct (w_lock_lookup w !! c) as [x|] eqn:E; [naive_solver|]. cbn. split; [done|].
    intros d. rewrite /known. cbn. destruct (decide (c = d)) as [->|Hne]; [by right|]. rewrite lookup_insert_ne //. by left. }
  destruct (IH w1) as (w2 & Hr2 & Ha2 & Hk2). exists w2. rewrite (bind_done_nil _ _ _ _ _ Hr). split_and!; [done|congruence|].
  intros d [H|H]%Hk2; [|right; by right]. apply Hk in H as [H| ->]; [by left|right; left].
Qed.
Lemma push_archetype_used na w n w' ev : push_archetype na w = Done n w' ev → ∀ c, c ∈ a_comp_ids na → used w' c.
Proof.
  intros Hr c Hc. revert Hr. rewrite /push_archetype. rewrite (bind_done_nil _ _ w (length (w_archs w)) w eq_refl). rewrite {1}/bind.
  destruct (set_arch_bits (a_comp_ids na) (length (w_archs w)) w) as [[] w1 ev1|r w1 ev1| |] eqn:E1; [|done..].
  rewrite (bind_done_nil _ _ w1 (bv_push_bit (w_entbits w1) true) w1 eq_refl). destruct (bv_push_bit (w_entbits w1) true) as [eb|]; [|done].
  intros [= <- <- <-]. exists (length (w_archs w1)), na. cbn. split; [|done]. by rewrite lookup_app_r // Nat.sub_diag.
Qed.
Lemma seal cs w w1 w2 na n w3 ev : ensure_locks cs w = Done () w1 [] → kq w1 w2 → push_archetype na w2 = Done n w3 ev →
  (∀ c, c ∈ cs → c ∈ a_comp_ids na) → tk w w3.
Proof.
  intros H1 [Hk1 Hu1] H3 Hcs. destruct (ensure_locks_run cs w) as (w1' & H1' & Ha & Hk). rewrite H1 in H1'. injection H1' as <-.
  pose proof (kq_push_archetype na w2) as [Hk3 Hu3]%(λ H, eq_ind _ (λ o, match o with Done _ s' _ | Panicked _ s' _ => kq w2 s' | _ => True end) H _ H3).
  pose proof (push_archetype_used _ _ _ _ _ H3) as Hp. split.
  - intros c [Hc|Hc]%Hk3%Hk1%Hk; [by left|right]. auto.
  - intros c (k & a & Hka & Hc). apply Hu3, Hu1. exists k, a. by rewrite Ha.
Qed.
Lemma from_with_ids a ti c na : from_archetype_with a ti c = Some na → c ∈ a_comp_ids na.
Proof.
  rewrite /from_archetype_with. destruct (a_lookup (from_archetype a) !! c); [done|]. rewrite /sort_archetype. destruct (zip_ids_agree _ _); [|done].
  intros [= <-]. cbn [a_comp_ids]. rewrite sort_by_perm elem_of_app. right. left.
Qed.
Definition fst_same (s s' : bw) : Prop := s'.1 = s.1.
Global Instance fst_same_preorder : PreOrder fst_same.
Proof. split; [done|]. intros a b c H1 H2. rewrite /fst_same in H1, H2 |- *. congruence. Qed.
Lemma create_storages_fst ids off acc : keeping fst_same (create_storages ids off acc).
Proof.
  revert off acc. induction ids as [|c ids IH]; intros off acc; cbn [create_storages]; [apply keeping_ret; apply _|].
  apply keeping_bind; [apply _| |done]. apply keeping_on_unwind; [apply _|].
  apply keeping_bind; [apply _|apply keeping_zoom; [apply _|done]|intros o]. kq.
Qed.
Lemma create_archetype_ids b w na s' ev : create_archetype (b, w) = Done na s' ev → ∀ c, c ∈ eb_ids b → c ∈ a_comp_ids na.
Proof.
  rewrite /create_archetype (bind_done_nil _ _ (b, w) b (b, w) eq_refl) {1}/bind. pose proof (create_storages_fst (eb_ids b) 0 [] (b, w)) as Hf.
  destruct (create_storages (eb_ids b) 0 [] (b, w)) as [ss [b1 w1] ev1|r w1 ev1| |]; [|done..]. rewrite /fst_same /= in Hf. subst b1.
  intros H c Hc. revert H. rewrite /bind /=. destruct (index_ids_distinct 0 _ ∅) as [m|]; cbn; [|by destruct (uv_drop_all _)].
  rewrite /on_unwind. destruct (zip_ids_agree _ _); cbn; [|by destruct (uv_drop_all _)]. intros [= <- _ _]. cbn [a_comp_ids]. by rewrite sort_by_perm.
Qed.

Lemma fin_ret {S A} (P : S → S → Prop) `{!PreOrder P} (a : A) : finishing P (ret a).
Proof. intros s. simpl. reflexivity. Qed.
Create HintDb fin.
Ltac fin1 :=
  lazymatch goal with
  | |- finishing tk2 (bind _ _) => first [apply fin_kq2; solve [kq] | apply fin_bind; [apply _| |intros ?]]
  | |- finishing tk (bind _ _) => first [apply fin_kq; solve [kq] | apply fin_bind; [apply _| |intros ?]]
  | |- finishing _ (ret _) => apply fin_ret; apply _
  | |- finishing _ (on_unwind _ _) => apply fin_on_unwind
  | |- finishing tk2 (in_world _) => apply fin_in_world
  | |- finishing _ (if ?b then _ else _) => destruct b
  | |- finishing _ (match ?x with _ => _ end) => destruct x
  | |- finishing tk2 _ => apply fin_kq2; solve [kq]
  | |- finishing tk _ => apply fin_kq; solve [kq]
  end.
Ltac fin := repeat (eauto with fin || fin1).
Lemma done_kq {A} (m : M world A) w a w' ev : keeping kq m → m w = Done a w' ev → kq w w'.
Proof. intros H E. specialize (H w). by rewrite E in H. Qed.
Lemma fin_new_target c cur : finishing tk
  (do* ensure_lock c in
   let* ocm := get_entity_meta c in
   let* cm := unwrap ocm RUnwrap in
   let* a1 := get_arch cur in
   let* na := unwrap (from_archetype_with a1 (cm_type_info (em_comp cm)) c) RAssert in
   let* n := push_archetype na in
   do* in_arch cur (in_cache (rc_insert_id c n)) in
   ret n).
Proof.
  intros w. destruct (ensure_locks_run [c] w) as (w1 & H1 & _). cbn [ensure_locks] in H1.
  assert (ensure_lock c w = Done () w1 []) as H1'. { revert H1. rewrite /bind /ensure_lock /modify /ret. done. }
  rewrite (bind_done_nil _ _ _ _ _ H1'). rewrite {1}/bind.
  destruct (get_entity_meta c w1) as [ocm w2 ev2|r w2 ev2| |] eqn:E2; [|done..]. apply done_kq in E2; [|kq].
  destruct ocm as [cm|]; [|done]. cbn [unwrap]. rewrite {1}/bind {1}/ret {1}/bind.
  destruct (get_arch cur w2) as [a1 w3 ev3|r w3 ev3| |] eqn:E3; [|done..]. apply done_kq in E3; [|kq].
  destruct (from_archetype_with a1 (cm_type_info (em_comp cm)) c) as [na|] eqn:Hna; [|done]. cbn [unwrap]. rewrite {1}/bind {1}/ret {1}/bind.
  destruct (push_archetype na w3) as [n w4 ev4|r w4 ev4| |] eqn:E4; [|done..].
  assert (tk w w4) as Ht.
  { eapply (seal [c]); [exact H1|etrans; [exact E2|exact E3]|exact E4|]. intros d ->%elem_of_list_singleton. by eapply from_with_ids. }
  assert (finishing tk (do* in_arch cur (in_cache (rc_insert_id c n)) in ret n)) as Hf by fin. specialize (Hf w4).
  destruct ((do* in_arch cur (in_cache (rc_insert_id c n)) in ret n) w4) as [n' w5 ev5|r w5 ev5| |]; cbn; [|done..]. by etrans.
Qed.
Global Hint Resolve fin_new_target : fin.
Lemma fin_add e c src : finishing tk (add_component_with_data e c src).
Proof. rewrite /add_component_with_data. fin. Qed.
Global Hint Resolve fin_add : fin.
Lemma fin_add_dynamic e c : finishing tk (add_component_dynamic e c).
Proof. rewrite /add_component_dynamic. fin. Qed.
Lemma build_none_run b w :
  match (do* in_world (ensure_locks (eb_ids b)) in
         let* na := create_archetype in
         let* n := in_world (push_archetype na) in
         do* in_world (set_entity_meta (eb_entity b) (EntMeta (InstMeta n 0) (eb_meta b))) in
         ret (eb_entity b)) (b, w) with Done _ s' _ => tk w s'.2 | _ => True end.
Proof.
  destruct (ensure_locks_run (eb_ids b) w) as (w1 & H1 & _).
  assert (in_world (ensure_locks (eb_ids b)) (b, w) = Done () (b, w1) []) as H1'. { rewrite /in_world /on_snd /zoom /= H1 //. }
  rewrite (bind_done_nil _ _ _ _ _ H1'). rewrite {1}/bind. pose proof (kq_create_archetype (b, w1)) as Hq.
  destruct (create_archetype (b, w1)) as [na [b2 w2] ev2|r w2 ev2| |] eqn:E2; [|done..]. rewrite /kq2 /= in Hq.
  pose proof (create_archetype_ids _ _ _ _ _ E2) as Hids. rewrite {1}/bind /in_world {1}/on_snd /zoom /=.
  destruct (push_archetype na w2) as [n w3 ev3|r w3 ev3| |] eqn:E3; [|done..]. cbn.
  assert (tk w w3) as Ht by by eapply seal.
  assert (finishing tk2 (do* in_world (set_entity_meta (eb_entity b) (EntMeta (InstMeta n 0) (eb_meta b))) in ret (eb_entity b))) as Hf by fin.
  specialize (Hf (b2, w3)). fold (in_world (set_entity_meta (eb_entity b) (EntMeta (InstMeta n 0) (eb_meta b)))).
  destruct ((do* in_world (set_entity_meta (eb_entity b) (EntMeta (InstMeta n 0) (eb_meta b))) in ret (eb_entity b)) (b2, w3)) as [? s' ?|? s' ?| |]; cbn; [|done..].
  rewrite /tk2 /= in Hf. by etrans.
Qed.
Lemma fin_build : finishing tk2 build.
Proof.
  intros [b w]. rewrite /build (bind_done_nil _ _ (b, w) b (b, w) eq_refl) {1}/bind {1}/in_world {1}/on_snd /zoom /=.
  pose proof (kq_find_archetype_dynamic (eb_ids b)) as Hq. destruct (find_archetype_dynamic (eb_ids b) w) as [found w1 ev1|r w1 ev1| |] eqn:E1; [|done..].
  apply (done_kq _ _ _ _ _ Hq) in E1. assert (tk w w1) as Ht. { destruct E1 as [H1 H2]. split; [auto|done]. }
  cbn [fst snd]. destruct found as [k|].
  - match goal with |- context [?m (b, w1)] => assert (finishing tk2 m) as Hf by fin end. specialize (Hf (b, w1)).
    match goal with |- context [?m (b, w1)] => destruct (m (b, w1)) as [? s' ?|? s' ?| |] end; cbn; [|done..]. rewrite /tk2 /= in Hf |- *. by etrans.
  - pose proof (build_none_run b w1) as Hf.
    match goal with |- context [?m (b, w1)] => destruct (m (b, w1)) as [? s' ?|? s' ?| |] end; cbn; [|done..]. rewrite /tk2 /=. by etrans.
Qed.
Global Hint Resolve fin_add_dynamic fin_build : fin.
Lemma fin_with_builder {A} b (m : M bw A) : finishing tk2 m → finishing tk (with_builder b m).
Proof.
  intros H w. rewrite /with_builder. specialize (H (b, w)). destruct (m (b, w)) as [a [b' w'] ev|r [b' w'] ev| |]; [| |done..].
  - pose proof (fin_kq _ (kq_builder_drop b') w') as H2. destruct (builder_drop b' w'); [by etrans|done..].
  - by destruct (builder_drop b' w').
Qed.
Lemma fin_forget_builder {A} b (m : M bw A) : finishing tk2 m → finishing tk (forget_builder b m).
Proof.
  intros H w. rewrite /forget_builder. pose proof (fin_with_builder b m H w) as H2. specialize (H (b, w)).
  by destruct (m (b, w)) as [a [b' w'] ev|r [b' w'] ev| |].
Qed.
Global Hint Resolve fin_with_builder fin_forget_builder : fin.
Lemma fin_spawn_empty : finishing tk spawn_empty.
Proof. rewrite /spawn_empty. fin. Qed.
Global Hint Resolve fin_spawn_empty : fin.
Lemma fin_get_or_create t : finishing tk (get_or_create_type t).
Proof. rewrite /get_or_create_type. fin. Qed.
Global Hint Resolve fin_get_or_create : fin.
Lemma fin_run_bops bs : finishing tk2 (run_bops bs).
Proof.
  induction bs as [|o bs IH]; cbn [run_bops]; [fin|]. apply fin_bind; [apply _| |done].
  destruct o; cbn [run_bop]; rewrite /builder_with; fin.
Qed.
Global Hint Resolve fin_run_bops : fin.
Lemma fin_step o : finishing tk (step o).
Proof.
  destruct o; cbn [step]; rewrite /spawn_program /spawn_builder /add_component /remove_component /has_component /get_component_mut /write_loc; fin.
Qed.

(** *** Sessions *)
Lemma kq_ptr_store p v : keeping kq (ptr_store p v).
Proof. rewrite /ptr_store /write_loc. kq. Qed.
Lemma goes_tk o s r s' ev : sinv s → goes o s r s' ev → (∀ o', o = SWorld o' → ∃ a, r = ROk a) → tk (ss_world s) (ss_world s').
Proof.
  intros Hs (Hleg & Htame & Hg) Hp. assert (∀ w, only_locks (ss_world s) w → tk (ss_world s) w) as Hol.
  { intros w (ls & -> & _). split; [by left|done]. }
  destruct o as [o|fs|ps|i u|i|i n j v].
  - destruct (Hp o eq_refl) as [a ->]. rewrite sworld_run in Hg. pose proof (fin_step o (ss_world s)) as Hf.
    destruct (step o (ss_world s)); [|done..]. by injection Hg as _ <- _.
  - pose proof (query_view _ _ Hs Hleg Htame) as H. specialize (H ltac:(done)).
    destruct r as [a|x]; [rewrite Hg in H|destruct Hg as [Hg Hx]; rewrite Hg in H].
    + destruct H as (_ & [H|(i & n & j & v & q & fs' & e & c & ? & _)]); [auto|done].
    + destruct H as [->|(_ & H)]; [by destruct Hx|auto].
  - pose proof (query_view _ _ Hs Hleg Htame) as H. specialize (H ltac:(done)).
    destruct r as [a|x]; [rewrite Hg in H|destruct Hg as [Hg Hx]; rewrite Hg in H].
    + destruct H as (_ & [H|(i & n & j & v & q & fs' & e & c & ? & _)]); [auto|done].
    + destruct H as [->|(_ & H)]; [by destruct Hx|auto].
  - pose proof (query_view _ _ Hs Hleg Htame) as H. specialize (H ltac:(done)).
    destruct r as [a|x]; [rewrite Hg in H|destruct Hg as [Hg Hx]; rewrite Hg in H].
    + destruct H as (_ & [H|(i' & n & j & v & q & fs' & e & c & ? & _)]); [auto|done].
    + destruct H as [->|(_ & H)]; [by destruct Hx|auto].
  - pose proof (query_view _ _ Hs Hleg Htame) as H. specialize (H ltac:(done)).
    destruct r as [a|x]; [rewrite Hg in H|destruct Hg as [Hg Hx]; rewrite Hg in H].
    + destruct H as (_ & [H|(i' & n & j & v & q & fs' & e & c & ? & _)]); [auto|done].
    + destruct H as [->|(_ & H)]; [by destruct Hx|auto].
  - assert (tk (ss_world s) (ss_world s)) as Hrefl by reflexivity.
    assert (match sstep (SStore i n j v) s with Done _ s' _ => tk (ss_world s) (ss_world s') | Panicked x s' _ => resumable x → tk (ss_world s) (ss_world s') | _ => True end) as H.
    2:{ destruct r as [a|x]; [by rewrite Hg in H|]. destruct Hg as [Hg Hx]. rewrite Hg in H. auto. }
    cbn [sstep]. rewrite (bind_done_nil _ _ s s s eq_refl). destruct (ss_open s !! i) as [[q|]|] eqn:Hi; [|done..].
    pose proof (query_item_run _ q n (sv_world _ Hs) (sv_open _ Hs _ _ Hi)) as Hq. rewrite /wp in Hq.
    rewrite {1}/bind in_sworld_run. destruct (query_item q n (ss_world s)) as [o w' ev'|x w' ev'| |]; [| |done..].
    + destruct Hq as (-> & -> & _). rewrite sess_eta. destruct (o ≫= (.!! j)) as [p|]; [|done].
      rewrite /bind in_sworld_run. pose proof (kq_ptr_store p v (ss_world s)) as Hk.
      destruct (ptr_store p v (ss_world s)) as [? w' ?|? w' ?| |]; cbn; [| |done..].
      * destruct Hk as [H1 H2]. split; [auto|done].
      * intros _. destruct Hk as [H1 H2]. split; [auto|done].
    + destruct Hq as [->|(-> & -> & _)]; [by intros [? _]|]. by intros _.
Qed.
Lemma steps_known l s c : steps sess_new l s → no_panic l → known (ss_world s) c → in_use (ss_world s) c.
Proof.
  intros Hst Hnp Hc. destruct (sv_world _ (steps_inv _ _ _ sess_new_inv Hst)) as [[R Hw] _]. apply (in_use_ids _ _ Hw).
  cut (used (ss_world s) c). { intros (k & a & Ha & Hin). exists k, (a_comp_ids a). split; [apply arch_ids_lookup; eauto|done]. }
  clear Hw R. revert c Hc. revert Hnp. remember sess_new as s0 eqn:E0. revert E0. revert l s s0 Hst.
  assert (∀ s0 l s, steps s0 l s → s0 = sess_new → no_panic l → ∀ c, known (ss_world s) c → used (ss_world s) c) as Hind; [|eauto].
  apply (steps_goes (λ s0 l s, s0 = sess_new → no_panic l → ∀ c, known (ss_world s) c → used (ss_world s) c)); [intros s -> _ c [x Hx]; done|]. intros s0 l s1 o r s2 ev Hst IH Hg E0 Hnp c Hc. subst s0.
  assert (tk (ss_world s1) (ss_world s2)) as [H1 H2].
  { eapply goes_tk; [by eapply steps_inv, Hst; apply sess_new_inv|exact Hg|]. intros o' ->. destruct r as [a|x]; [eauto|].
    exfalso. eapply (Hnp o' x ev). apply elem_of_app. right. left. }
  apply H1 in Hc as [Hc|Hc]; [|done]. apply H2, IH; [done| |done]. intros o' x ev' Hin. eapply (Hnp o' x ev'). apply elem_of_app. by left.
Qed.
Lemma no_left_over l s fs : steps sess_new l s → no_panic l → ¬ left_over (ss_world s) fs.
Proof. intros Hst Hnp [Hk Hn]. apply Hn. intros f c Hf Hc. eapply steps_known; eauto. Qed.
