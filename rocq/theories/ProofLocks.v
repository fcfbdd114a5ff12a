(** * World operations only ever add fresh locks *)
From Verif Require Import ProofBase SpecSmall World History.

(** The state before and after [m], whether it returns or panics, are related by [P]. *)
Definition keeping {S A} (P : S → S → Prop) (m : M S A) : Prop :=
  ∀ s, match m s with Done _ s' _ | Panicked _ s' _ => P s s' | _ => True end.

Section keeping.
  Context {S : Type} (P : S → S → Prop) `{!PreOrder P}.
  Local Set Default Proof Using "All".
  Lemma keeping_ret {A} (a : A) : keeping P (ret a).
  Proof. intros s. simpl. reflexivity. Qed.
  Lemma keeping_panic {A} r : keeping P (@panic S A r).
  Proof. intros s. simpl. reflexivity. Qed.
  Lemma keeping_ub {A} : keeping P (@ub S A).
  Proof. by intros s. Qed.
  Lemma keeping_deadlock {A} : keeping P (@deadlock S A).
  Proof. by intros s. Qed.
  Lemma keeping_bind {A B} (m : M S A) (k : A → M S B) :
    keeping P m → (∀ a, keeping P (k a)) → keeping P (bind m k).
  Proof.
    intros Hm Hk s. rewrite /bind. specialize (Hm s). destruct (m s) as [a s' ev|r s' ev| |]; [|done..].
    specialize (Hk a s'). destruct (k a s'); simpl; [by etrans..|done|done].
  Qed.
  Lemma keeping_gets {A} (f : S → A) : keeping P (gets f).
  Proof. intros s. simpl. reflexivity. Qed.
  Lemma keeping_emit ev : keeping P (emit ev).
  Proof. intros s. simpl. reflexivity. Qed.
  Lemma keeping_modify f : (∀ s, P s (f s)) → keeping P (modify f).
  Proof. intros H s. apply H. Qed.
  Lemma keeping_massert b r : keeping P (massert b r).
  Proof. destruct b; [apply keeping_ret|apply keeping_panic]. Qed.
  Lemma keeping_unwrap {A} (o : option A) r : keeping P (unwrap o r).
  Proof. destruct o; [apply keeping_ret|apply keeping_panic]. Qed.
  Lemma keeping_or_ub {A} (o : option A) : keeping P (or_ub o).
  Proof. destruct o; [apply keeping_ret|apply keeping_ub]. Qed.
  Lemma keeping_zoom {T A} (get : S → option T) (set : T → S → S) (m : M T A) :
    (∀ t s, P s (set t s)) → keeping P (zoom get set m).
  Proof. intros H s. rewrite /zoom. destruct (get s); [|reflexivity]. destruct (m t); [apply H..|done|done]. Qed.
  Lemma keeping_on_unwind {A} (m : M S A) c : keeping P m → keeping P (on_unwind m c).
  Proof. intros H s. rewrite /on_unwind. specialize (H s). destruct (m s); [done| |done..]. by destruct c. Qed.
End keeping.

(** The locks of [w] are still there, unchanged; the others are fresh. *)
Definition lk (w w' : world) : Prop :=
  (∃ n, w_locks w' = w_locks w ++ replicate n rw_new) ∧ w_lock_lookup w ⊆ w_lock_lookup w'.
Global Instance lk_preorder : PreOrder lk.
Proof.
  split.
  - intros w. split; [exists 0; by rewrite app_nil_r|done].
  - intros w1 w2 w3 [[n Hn] H1] [[m Hm] H2]. split; [|by etrans]. exists (n + m).
    by rewrite Hm Hn replicate_add app_assoc.
Qed.
Lemma lk_same w w' : w_locks w' = w_locks w → w_lock_lookup w' = w_lock_lookup w → lk w w'.
Proof. intros H1 H2. split; [exists 0; by rewrite app_nil_r|by rewrite H2]. Qed.
Definition lk2 (s s' : bw) : Prop := lk s.2 s'.2.
Global Instance lk2_preorder : PreOrder lk2.
Proof. split; [by intros ?; rewrite /lk2|intros ? ? ?; rewrite /lk2; apply transitivity]. Qed.

Lemma keeping_in_world {A} (m : M world A) : keeping lk m → keeping lk2 (in_world m).
Proof. intros H [b w]. rewrite /in_world /on_snd /zoom. specialize (H w). simpl. by destruct (m w). Qed.
Lemma keeping_on_fst {A} (m : M builder A) : keeping lk2 (@on_fst builder world A m).
Proof. intros [b w]. rewrite /on_fst /zoom. simpl. destruct (m b); try done; rewrite /lk2; reflexivity. Qed.

Ltac keep1 :=
  lazymatch goal with
  | |- keeping _ (bind _ _) => apply keeping_bind; [apply _| |intros ?]
  | |- keeping _ (ret _) => apply keeping_ret; apply _
  | |- keeping _ (panic _) => apply keeping_panic; apply _
  | |- keeping _ ub => apply keeping_ub; apply _
  | |- keeping _ deadlock => apply keeping_deadlock; apply _
  | |- keeping _ (gets _) => apply keeping_gets; apply _
  | |- keeping _ (emit _) => apply keeping_emit; apply _
  | |- keeping _ (massert _ _) => apply keeping_massert; apply _
  | |- keeping _ (unwrap _ _) => apply keeping_unwrap; apply _
  | |- keeping _ (or_ub _) => apply keeping_or_ub; apply _
  | |- keeping _ (on_unwind _ _) => apply keeping_on_unwind; [apply _|]
  | |- keeping _ (in_arch _ _) => apply keeping_zoom; [apply _|intros; by apply lk_same]
  | |- keeping _ (in_ents _) => apply keeping_zoom; [apply _|intros; by apply lk_same]
  | |- keeping lk2 (in_world _) => apply keeping_in_world
  | |- keeping lk2 (on_fst _) => apply keeping_on_fst
  | |- keeping lk (modify _) => apply keeping_modify; [apply _|intros]; first [by apply lk_same | idtac]
  | |- keeping _ (if ?b then _ else _) => destruct b
  | |- keeping _ (match ?x with _ => _ end) => destruct x
  | |- keeping _ (let _ := _ in _) => cbv zeta
  end.
Ltac keep := repeat (keep1 || eauto with keep).

Lemma keep_is_alive e : keeping lk (is_alive e).
Proof. rewrite /is_alive. keep. Qed.
Global Hint Resolve keep_is_alive : keep.
Lemma keep_get_entity_meta e : keeping lk (get_entity_meta e).
Proof. rewrite /get_entity_meta. keep. Qed.
Lemma keep_set_entity_meta e m : keeping lk (set_entity_meta e m).
Proof. rewrite /set_entity_meta. keep. Qed.
Lemma keep_update_meta i f : keeping lk (update_meta i f).
Proof. rewrite /update_meta. keep. Qed.
Lemma keep_get_arch k : keeping lk (get_arch k).
Proof. rewrite /get_arch. keep. Qed.
Global Hint Resolve keep_get_entity_meta keep_set_entity_meta keep_update_meta keep_get_arch : keep.
Lemma keep_find_sized fuel it n : keeping lk (find_sized fuel it n).
Proof. revert it. induction fuel as [|fuel IH]; intros it; cbn [find_sized]; keep. Qed.
Global Hint Resolve keep_find_sized : keep.
Lemma keep_search ids n : keeping lk (search ids n).
Proof. rewrite /search. keep. Qed.
Global Hint Resolve keep_search : keep.
Lemma keep_find_archetype_dynamic ids : keeping lk (find_archetype_dynamic ids).
Proof. rewrite /find_archetype_dynamic. keep. Qed.
Lemma keep_find_plus_id ids c : keeping lk (find_plus_id ids c).
Proof. rewrite /find_plus_id. keep. Qed.
Lemma keep_find_minus_id ids c : keeping lk (find_minus_id ids c).
Proof. rewrite /find_minus_id. keep. Qed.
Lemma keep_set_arch_bits ids n : keeping lk (set_arch_bits ids n).
Proof. induction ids as [|c ids IH]; cbn [set_arch_bits]; keep. Qed.
Global Hint Resolve keep_find_archetype_dynamic keep_find_plus_id keep_find_minus_id keep_set_arch_bits : keep.
Lemma keep_push_archetype a : keeping lk (push_archetype a).
Proof. rewrite /push_archetype. keep. Qed.
Lemma keep_ensure_lock c : keeping lk (ensure_lock c).
Proof.
  apply keeping_modify; [apply _|]. intros w. destruct (w_lock_lookup w !! c) as [i|] eqn:E; [reflexivity|]. split; [by exists 1|].
  by apply insert_subseteq.
Qed.
Lemma keep_move_element cur i tar j row : keeping lk (move_element cur i tar j row).
Proof.
  intros w. rewrite /move_element. destruct (w_archs w !! cur) as [ca|]; [|reflexivity].
  destruct (w_archs w !! tar) as [ta|]; [|reflexivity]. destruct (a_storages ca !! i) as [[ci cv]|]; [|reflexivity].
  destruct (a_storages ta !! j) as [[ti tv]|]; [|reflexivity].
  destruct (uv_swap_move row (cv, tv)) as [? [cv' tv'] ?|? [cv' tv'] ?| |]; [by apply lk_same..|done|done].
Qed.
Global Hint Resolve keep_push_archetype keep_ensure_lock keep_move_element : keep.
Lemma keep_storage_id k j : keeping lk (storage_id k j).
Proof. rewrite /storage_id. keep. Qed.
Global Hint Resolve keep_storage_id : keep.
Lemma keep_add_zip c cur tar row n i js sk : keeping lk (add_zip c cur tar row n i js sk).
Proof. revert i sk. induction js as [|j js IH]; intros i sk; cbn [add_zip]; keep. Qed.
Lemma keep_rem_zip c cur tar row n is_ j sk : keeping lk (rem_zip c cur tar row n is_ j sk).
Proof. revert j sk. induction is_ as [|i is_ IH]; intros j sk; cbn [rem_zip]; keep. Qed.
Lemma keep_remove_row cur row : keeping lk (remove_row cur row).
Proof. rewrite /remove_row. keep. Qed.
Lemma keep_push_row tar e : keeping lk (push_row tar e).
Proof. rewrite /push_row. keep. Qed.
Global Hint Resolve keep_add_zip keep_rem_zip keep_remove_row keep_push_row : keep.
Lemma keep_add e c src : keeping lk (add_component_with_data e c src).
Proof. rewrite /add_component_with_data. keep. Qed.
Lemma keep_remove e c : keeping lk (remove_component_dynamic e c).
Proof. rewrite /remove_component_dynamic. keep. Qed.
Global Hint Resolve keep_add keep_remove : keep.
Lemma keep_add_dynamic e c : keeping lk (add_component_dynamic e c).
Proof. rewrite /add_component_dynamic. keep. Qed.
Lemma keep_swap_remove_storages k row is_ : keeping lk (swap_remove_storages k row is_).
Proof. induction is_ as [|i is_ IH]; cbn [swap_remove_storages]; keep. Qed.
Global Hint Resolve keep_add_dynamic keep_swap_remove_storages : keep.
Lemma keep_arch_despawn k row e : keeping lk (arch_despawn k row e).
Proof. rewrite /arch_despawn. keep. Qed.
Global Hint Resolve keep_arch_despawn : keep.
Lemma keep_despawn e : keeping lk (despawn e).
Proof. rewrite /despawn. keep. Qed.
Lemma keep_builder_drop b : keeping lk (builder_drop b).
Proof. rewrite /builder_drop. keep. Qed.
Lemma keep_builder_new e m : keeping lk (builder_new e m).
Proof. rewrite /builder_new. keep. Qed.
Global Hint Resolve keep_despawn keep_builder_drop keep_builder_new : keep.
Lemma keep_builder_with_capacity e m cap : keeping lk (builder_with_capacity e m cap).
Proof. rewrite /builder_with_capacity. keep. Qed.
Lemma keep_builder_realloc n : keeping lk2 (builder_realloc n).
Proof. rewrite /builder_realloc. keep. Qed.
Global Hint Resolve keep_builder_with_capacity keep_builder_realloc : keep.
Lemma keep_builder_with_dynamic c : keeping lk2 (builder_with_dynamic c).
Proof. rewrite /builder_with_dynamic. keep. Qed.
Lemma keep_builder_with_data c src : keeping lk2 (builder_with_data c src).
Proof. rewrite /builder_with_data. keep. Qed.
Lemma keep_build_push k ids off : keeping lk2 (build_push k ids off).
Proof. revert off. induction ids as [|c ids IH]; intros off; cbn [build_push]; keep. Qed.
Lemma keep_create_storages ids off acc : keeping lk2 (create_storages ids off acc).
Proof. revert off acc. induction ids as [|c ids IH]; intros off acc; cbn [create_storages]; keep. Qed.
Global Hint Resolve keep_builder_with_dynamic keep_builder_with_data keep_build_push keep_create_storages : keep.
Lemma keep_create_archetype : keeping lk2 create_archetype.
Proof. rewrite /create_archetype. keep. Qed.
Lemma keep_ensure_locks ids : keeping lk (ensure_locks ids).
Proof. induction ids as [|c ids IH]; cbn [ensure_locks]; keep. Qed.
Global Hint Resolve keep_create_archetype keep_ensure_locks : keep.
Lemma keep_build : keeping lk2 build.
Proof. rewrite /build. keep. Qed.
Lemma keep_with_builder {A} b (m : M bw A) : keeping lk2 m → keeping lk (with_builder b m).
Proof.
  intros H w. rewrite /with_builder. specialize (H (b, w)). destruct (m (b, w)) as [a [b' w'] ev|r [b' w'] ev| |]; [| |done..].
  - pose proof (keep_builder_drop b' w') as H2. destruct (builder_drop b' w'); [by etrans..|done|done].
  - pose proof (keep_builder_drop b' w') as H2. destruct (builder_drop b' w'); [by etrans|done|done|done].
Qed.
Lemma keep_forget_builder {A} b (m : M bw A) : keeping lk2 m → keeping lk (forget_builder b m).
Proof.
  intros H w. rewrite /forget_builder. pose proof (keep_with_builder b m H w) as H2. specialize (H (b, w)).
  by destruct (m (b, w)) as [a [b' w'] ev|r [b' w'] ev| |].
Qed.
Global Hint Resolve keep_build keep_with_builder keep_forget_builder : keep.
Lemma keep_spawn_empty : keeping lk spawn_empty.
Proof. rewrite /spawn_empty. keep. Qed.
Global Hint Resolve keep_spawn_empty : keep.
Lemma keep_get_or_create t : keeping lk (get_or_create_type t).
Proof. rewrite /get_or_create_type. keep. Qed.
Global Hint Resolve keep_get_or_create : keep.
Lemma keep_run_bops bs : keeping lk2 (run_bops bs).
Proof.
  induction bs as [|o bs IH]; cbn [run_bops]; [keep|]. apply keeping_bind; [apply _| |done].
  destruct o; cbn [run_bop]; rewrite /builder_with; keep.
Qed.
Global Hint Resolve keep_run_bops : keep.
Lemma keep_step o : keeping lk (step o).
Proof.
  destruct o; cbn [step]; rewrite /spawn_program /spawn_builder /add_component /remove_component /has_component /get_component_mut /write_loc; keep.
Qed.
