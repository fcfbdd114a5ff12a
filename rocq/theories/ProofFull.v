(** * Running out of ids (C62) *)
From Verif Require Import ProofBase SpecSmall World History ProofEntities ProofBitset ProofArrayVec ProofUVec ProofMute.
From Verif Require Export SpecFull ProofIds.

(** *** Computations that never report that ids ran out *)
Definition able {S A} (m : M S A) : Prop := ∀ s, match m s with Panicked r _ _ => r ≠ ROutOfIds | _ => True end.
Section able.
  Context {S : Type}.
  Lemma able_ret {A} (a : A) : able (S := S) (ret a).
  Proof. by intros s. Qed.
  Lemma able_panic {A} r : r ≠ ROutOfIds → able (@panic S A r).
  Proof. by intros H s. Qed.
  Lemma able_ub {A} : able (@ub S A).
  Proof. by intros s. Qed.
  Lemma able_bind {A B} (m : M S A) (k : A → M S B) : able m → (∀ a, able (k a)) → able (bind m k).
  Proof.
    intros Hm Hk s. rewrite /bind. specialize (Hm s). destruct (m s) as [a s' ev|r s' ev| |]; [|done..].
    specialize (Hk a s'). by destruct (k a s').
  Qed.
  Lemma able_gets {A} (f : S → A) : able (gets f).
  Proof. by intros s. Qed.
  Lemma able_emit ev : able (S := S) (emit ev).
  Proof. by intros s. Qed.
  Lemma able_modify f : able (S := S) (modify f).
  Proof. by intros s. Qed.
  Lemma able_massert b r : r ≠ ROutOfIds → able (S := S) (massert b r).
  Proof. by destruct b; intros H s. Qed.
  Lemma able_unwrap {A} (o : option A) r : r ≠ ROutOfIds → able (S := S) (unwrap o r).
  Proof. by destruct o; intros H s. Qed.
  Lemma able_or_ub {A} (o : option A) : able (S := S) (or_ub o).
  Proof. by destruct o; intros s. Qed.
  Lemma able_on_unwind {A} (m : M S A) c : able m → able (on_unwind m c).
  Proof. intros H s. rewrite /on_unwind. specialize (H s). destruct (m s); try done. by destruct c. Qed.
  Lemma able_zoom {T A} (get : S → option T) set (m : M T A) : able m → able (zoom get set m).
  Proof. intros H s. rewrite /zoom. destruct (get s) as [t|]; [|done]. specialize (H t). by destruct (m t). Qed.
End able.
Create HintDb able.
Ltac able1 :=
  lazymatch goal with
  | |- able (bind _ _) => apply able_bind; [|intros ?]
  | |- able (ret _) => apply able_ret
  | |- able (panic _) => apply able_panic; done
  | |- able ub => apply able_ub
  | |- able (gets _) => apply able_gets
  | |- able (emit _) => apply able_emit
  | |- able (modify _) => apply able_modify
  | |- able (massert _ _) => apply able_massert; done
  | |- able (unwrap _ _) => apply able_unwrap; done
  | |- able (or_ub _) => apply able_or_ub
  | |- able (on_unwind _ _) => apply able_on_unwind
  | |- able (in_arch _ _) => apply able_zoom
  | |- able (in_storage _ _) => apply able_zoom
  | |- able (in_cache _) => apply able_zoom
  | |- able (on_fst _) => apply able_zoom
  | |- able (on_snd _) => apply able_zoom
  | |- able (if ?b then _ else _) => destruct b
  | |- able (match ?x with _ => _ end) => destruct x
  | |- able (let _ := _ in _) => cbv zeta
  end.
Ltac able := repeat (able1 || eauto with able).
Lemma able_rc_insert_id c k : able (rc_insert_id c k).
Proof.
  intros s. rewrite /rc_insert_id. destruct (av_push_start _ _) as [[? ?]|r|] eqn:E; [done| |done]. by apply av_push_start_panic in E as ->.
Qed.
Lemma able_rc_lookup_id c : able (rc_lookup_id c).
Proof.
  intros s. rewrite /rc_lookup_id. destruct (av_as_slice _) as [l|r|] eqn:E; [|by apply av_as_slice_panic in E as ->|done].
  destruct (rc_scan l c); [done|]. destruct (rc_lookup s !! c); [|done].
  destruct (av_push_start _ _) as [[? ?]|r|] eqn:E'; [done| |done]. by apply av_push_start_panic in E' as ->.
Qed.
Lemma able_uv_realloc : able uv_realloc.
Proof. rewrite /uv_realloc. able. Qed.
Global Hint Resolve able_rc_lookup_id able_rc_insert_id able_uv_realloc : able.
Lemma able_uv_push_raw src : able (uv_push_raw src).
Proof. rewrite /uv_push_raw. able. Qed.
Global Hint Resolve able_uv_push_raw : able.
Lemma able_uv_swap_move i : able (uv_swap_move i).
Proof. rewrite /uv_swap_move. able. Qed.
Lemma able_uv_elems_len : able uv_elems_len.
Proof. rewrite /uv_elems_len. able. Qed.
Lemma able_pop : able uv_pop.
Proof. rewrite /uv_pop. able. Qed.
Global Hint Resolve able_uv_swap_move able_uv_elems_len able_pop : able.
Lemma able_swap_remove i : able (uv_swap_remove i).
Proof. rewrite /uv_swap_remove. able. Qed.
Global Hint Resolve able_swap_remove : able.

(** *** Computations that hand out at most [n] ids *)
Definition count (E : entities) : nat := length (generations E).
Definition exhausted (E : entities) : Prop := despawned E = [] ∧ (u32_modulus < N.of_nat (count E))%N.
Definition issuing {S A} (f : S → entities) (n : nat) (m : M S A) : Prop :=
  ∀ s, full_wf (f s) → match m s with
  | Done _ s' _ => full_wf (f s') ∧ count (f s') ≤ count (f s) + n
  | Panicked r s' _ => full_wf (f s') ∧ count (f s') ≤ count (f s) + n ∧ (r = ROutOfIds → exhausted (f s'))
  | _ => True
  end.
Lemma issuing_le {S A} (f : S → entities) n n' (m : M S A) : issuing f n m → n ≤ n' → issuing f n' m.
Proof. intros H Hn s Hs. specialize (H s Hs). destruct (m s); [| |done..]; split_and!; try apply H; etrans; try apply H; lia. Qed.
Lemma issuing_bind {S A B} (f : S → entities) n n' (m : M S A) (k : A → M S B) :
  issuing f n m → (∀ a, issuing f n' (k a)) → issuing f (n + n') (bind m k).
Proof.
  intros Hm Hk s Hs. rewrite /bind. specialize (Hm s Hs). destruct (m s) as [a s' ev|r s' ev| |]; [| |done..].
  - destruct Hm as [Hf Hc]. specialize (Hk a s' Hf). destruct (k a s') as [b s2 ev2|r s2 ev2| |]; [| |done..]; cbn.
    + destruct Hk. split; [done|lia].
    + destruct Hk as (? & ? & ?). split; [done|]. split; [lia|done].
  - destruct Hm as (? & ? & ?). split; [done|]. split; [lia|done].
Qed.
Definition wents (w : world) : entities := w_ents w.
Definition bents (s : bw) : entities := w_ents s.2.
(** Computations that leave the entity table alone. *)
Definition still {S A} (f : S → entities) (m : M S A) : Prop := issuing f 0 m.
Section still.
  Context {S : Type} (f : S → entities).
  Lemma still_able {A} (m : M S A) : able m → (∀ s, match m s with Done _ s' _ | Panicked _ s' _ => f s' = f s | _ => True end) → still f m.
  Proof.
    intros Ha Hk s Hs. specialize (Ha s). specialize (Hk s). destruct (m s); [| |done..]; rewrite Hk.
    - split; [done|lia].
    - split; [done|]. split; [lia|done].
  Qed.
  Lemma still_ret {A} (a : A) : still f (ret a).
  Proof. by apply still_able. Qed.
  Lemma still_panic {A} r : r ≠ ROutOfIds → still f (@panic S A r).
  Proof. intros H. by apply still_able; [apply able_panic|]. Qed.
  Lemma still_ub {A} : still f (@ub S A).
  Proof. by apply still_able. Qed.
  Lemma still_bind {A B} (m : M S A) (k : A → M S B) : still f m → (∀ a, still f (k a)) → still f (bind m k).
  Proof. intros H1 H2. apply (issuing_bind f 0 0); done. Qed.
  Lemma still_gets {A} (g : S → A) : still f (gets g).
  Proof. by apply still_able. Qed.
  Lemma still_emit ev : still f (emit ev).
  Proof. by apply still_able. Qed.
  Lemma still_modify g : (∀ s, f (g s) = f s) → still f (modify g).
  Proof. intros H. apply still_able; [apply able_modify|done]. Qed.
  Lemma still_massert b r : r ≠ ROutOfIds → still f (massert b r).
  Proof. intros H. destruct b; [apply still_ret|by apply still_panic]. Qed.
  Lemma still_unwrap {A} (o : option A) r : r ≠ ROutOfIds → still f (unwrap o r).
  Proof. intros H. destruct o; [apply still_ret|by apply still_panic]. Qed.
  Lemma still_or_ub {A} (o : option A) : still f (or_ub o).
  Proof. destruct o; [apply still_ret|apply still_ub]. Qed.
  Lemma still_zoom {T A} (get : S → option T) set (m : M T A) : able m → (∀ t s, f (set t s) = f s) → still f (zoom get set m).
  Proof.
    intros H Hs. apply still_able; [by apply able_zoom|]. intros s. rewrite /zoom. destruct (get s) as [t|]; [|done].
    by destruct (m t).
  Qed.
  Lemma issuing_on_unwind {A} n (m : M S A) c : issuing f n m → issuing f n (on_unwind m c).
  Proof. intros H s Hs. rewrite /on_unwind. specialize (H s Hs). destruct (m s); try done. by destruct c. Qed.
End still.
Lemma issuing_in_world {A} n (m : M world A) : issuing wents n m → issuing bents n (in_world m).
Proof. intros H [b w] Hs. rewrite /in_world /on_snd /zoom. specialize (H w Hs). simpl. by destruct (m w). Qed.
Lemma still_in_world {A} (m : M world A) : still wents m → still bents (in_world m).
Proof. apply issuing_in_world. Qed.
Lemma still_on_unwind {S A} (f : S → entities) (m : M S A) c : still f m → still f (on_unwind m c).
Proof. apply issuing_on_unwind. Qed.
Create HintDb still.
Ltac still1 :=
  lazymatch goal with
  | |- still _ (bind _ _) => apply still_bind; [|intros ?]
  | |- still _ (ret _) => apply still_ret
  | |- still _ (panic _) => apply still_panic; done
  | |- still _ ub => apply still_ub
  | |- still _ (gets _) => apply still_gets
  | |- still _ (emit _) => apply still_emit
  | |- still _ (modify _) => apply still_modify; [done]
  | |- still _ (massert _ _) => apply still_massert; done
  | |- still _ (unwrap _ _) => apply still_unwrap; done
  | |- still _ (or_ub _) => apply still_or_ub
  | |- still _ (on_unwind _ _) => apply still_on_unwind
  | |- still _ (in_arch _ _) => apply still_zoom; [|done]
  | |- still _ (in_world _) => apply still_in_world
  | |- still _ (on_fst _) => apply still_zoom; [|done]
  | |- still _ (if ?b then _ else _) => destruct b
  | |- still _ (match ?x with _ => _ end) => destruct x
  | |- still _ (let _ := _ in _) => cbv zeta
  end.
Ltac still := repeat (still1 || able1 || eauto with still able).

Lemma st_is_alive e : still wents (is_alive e).
Proof. rewrite /is_alive. still. Qed.
Global Hint Resolve st_is_alive : still.
Lemma st_get_entity_meta e : still wents (get_entity_meta e).
Proof. rewrite /get_entity_meta. still. Qed.
Lemma st_set_entity_meta e m : still wents (set_entity_meta e m).
Proof. rewrite /set_entity_meta. still. Qed.
Lemma st_update_meta i f : still wents (update_meta i f).
Proof. rewrite /update_meta. still. Qed.
Lemma st_get_arch k : still wents (get_arch k).
Proof. rewrite /get_arch. still. Qed.
Global Hint Resolve st_get_entity_meta st_set_entity_meta st_update_meta st_get_arch : still.
Lemma st_find_sized fuel it n : still wents (find_sized fuel it n).
Proof. revert it. induction fuel as [|fuel IH]; intros it; cbn [find_sized]; still. Qed.
Global Hint Resolve st_find_sized : still.
Lemma st_search ids n : still wents (search ids n).
Proof. rewrite /search. still. Qed.
Global Hint Resolve st_search : still.
Lemma st_find_archetype_dynamic ids : still wents (find_archetype_dynamic ids).
Proof. rewrite /find_archetype_dynamic. still. Qed.
Lemma st_find_plus_id ids c : still wents (find_plus_id ids c).
Proof. rewrite /find_plus_id. still. Qed.
Lemma st_find_minus_id ids c : still wents (find_minus_id ids c).
Proof. rewrite /find_minus_id. still. Qed.
Lemma st_set_arch_bits ids n : still wents (set_arch_bits ids n).
Proof. induction ids as [|c ids IH]; cbn [set_arch_bits]; still. Qed.
Global Hint Resolve st_find_archetype_dynamic st_find_plus_id st_find_minus_id st_set_arch_bits : still.
Lemma st_push_archetype a : still wents (push_archetype a).
Proof. rewrite /push_archetype. still. Qed.
Lemma st_ensure_lock c : still wents (ensure_lock c).
Proof. apply still_modify. intros w. by destruct (w_lock_lookup w !! c). Qed.
Lemma st_move_element cur i tar j row : still wents (move_element cur i tar j row).
Proof.
  apply still_able; intros w; rewrite /move_element; (destruct (w_archs w !! cur) as [ca|]; [|done]);
    (destruct (w_archs w !! tar) as [ta|]; [|done]); (destruct (a_storages ca !! i) as [[ci cv]|]; [|done]);
    (destruct (a_storages ta !! j) as [[ti tv]|]; [|done]); pose proof (able_uv_swap_move row (cv, tv)) as H;
    by destruct (uv_swap_move row (cv, tv)) as [? [cv' tv'] ?|? [cv' tv'] ?| |].
Qed.
Global Hint Resolve st_push_archetype st_ensure_lock st_move_element : still.
Lemma st_storage_id k j : still wents (storage_id k j).
Proof. rewrite /storage_id. still. Qed.
Global Hint Resolve st_storage_id : still.
Lemma st_add_zip c cur tar row n i js sk : still wents (add_zip c cur tar row n i js sk).
Proof. revert i sk. induction js as [|j js IH]; intros i sk; cbn [add_zip]; still. Qed.
Lemma st_rem_zip c cur tar row n is_ j sk : still wents (rem_zip c cur tar row n is_ j sk).
Proof. revert j sk. induction is_ as [|i is_ IH]; intros j sk; cbn [rem_zip]; still. Qed.
Lemma st_remove_row cur row : still wents (remove_row cur row).
Proof. rewrite /remove_row. still. Qed.
Lemma st_push_row tar e : still wents (push_row tar e).
Proof. rewrite /push_row. still. Qed.
Global Hint Resolve st_add_zip st_rem_zip st_remove_row st_push_row : still.
Lemma st_add e c src : still wents (add_component_with_data e c src).
Proof. rewrite /add_component_with_data. still. Qed.
Lemma st_remove e c : still wents (remove_component_dynamic e c).
Proof. rewrite /remove_component_dynamic. still. Qed.
Global Hint Resolve st_add st_remove : still.
Lemma st_add_dynamic e c : still wents (add_component_dynamic e c).
Proof. rewrite /add_component_dynamic. still. Qed.
Lemma st_swap_remove_storages k row is_ : still wents (swap_remove_storages k row is_).
Proof. induction is_ as [|i is_ IH]; cbn [swap_remove_storages]; still. Qed.
Global Hint Resolve st_add_dynamic st_swap_remove_storages : still.
Lemma st_arch_despawn k row e : still wents (arch_despawn k row e).
Proof. rewrite /arch_despawn. still. Qed.
Global Hint Resolve st_arch_despawn : still.
Lemma st_builder_drop b : still wents (builder_drop b).
Proof. rewrite /builder_drop. still. Qed.
Lemma st_builder_new e m : still wents (builder_new e m).
Proof. rewrite /builder_new. still. Qed.
Global Hint Resolve st_builder_drop st_builder_new : still.
Lemma st_builder_with_capacity e m cap : still wents (builder_with_capacity e m cap).
Proof. rewrite /builder_with_capacity. still. Qed.
Lemma st_builder_realloc n : still bents (builder_realloc n).
Proof. rewrite /builder_realloc. still. Qed.
Global Hint Resolve st_builder_with_capacity st_builder_realloc : still.
Lemma st_builder_with_dynamic c : still bents (builder_with_dynamic c).
Proof. rewrite /builder_with_dynamic. still. Qed.
Lemma st_builder_with_data c src : still bents (builder_with_data c src).
Proof. rewrite /builder_with_data. still. Qed.
Lemma st_build_push k ids off : still bents (build_push k ids off).
Proof. revert off. induction ids as [|c ids IH]; intros off; cbn [build_push]; still. Qed.
Lemma st_create_storages ids off acc : still bents (create_storages ids off acc).
Proof.
  revert off acc. induction ids as [|c ids IH]; intros off acc; cbn [create_storages]; [still|].
  apply still_bind; [|intros []; apply IH]. apply still_on_unwind. apply still_bind; [still|intros ocm]. apply still_bind; [still|intros cm].
  apply still_bind; [still|intros b]. cbv zeta. pose proof (able_uv_push_raw (readable (eb_data b) off) (uv_new (cm_type_info (em_comp cm)))) as H.
  destruct (uv_push_raw _ _) as [? ? ?|r ? ?| |]; [still|by apply still_panic|by apply still_able|still].
Qed.
Global Hint Resolve st_builder_with_dynamic st_builder_with_data st_build_push st_create_storages : still.
Lemma st_create_archetype : still bents create_archetype.
Proof. rewrite /create_archetype. still. Qed.
Lemma st_ensure_locks ids : still wents (ensure_locks ids).
Proof. induction ids as [|c ids IH]; cbn [ensure_locks]; still. Qed.
Global Hint Resolve st_create_archetype st_ensure_locks : still.
Lemma st_build : still bents build.
Proof. rewrite /build. still. Qed.
Global Hint Resolve st_build : still.
Lemma builder_drop_ents b w a w' ev : builder_drop b w = Done a w' ev → w_ents w' = w_ents w.
Proof.
  rewrite /builder_drop. case_decide; [by intros [= _ <- _]|]. rewrite /bind /gets /=. destruct (w_reuse w) as [x|]; [|by intros [= _ <- _]].
  destruct (layout_from_size_align (eb_cap b) 1) as [lay|]; [cbn|done]. destruct (heap_dealloc (eb_data b) lay) as [[]|]; [|done]. by intros [= _ <- _].
Qed.
Lemma is_with_builder {A} n b (m : M bw A) : issuing bents n m → issuing wents n (with_builder b m).
Proof.
  intros H w Hw. rewrite /with_builder. specialize (H (b, w) Hw). destruct (m (b, w)) as [a [b' w'] ev|r [b' w'] ev| |]; [| |done..].
  - destruct H as [H1 H2]. pose proof (st_builder_drop b' w' H1) as H3. rewrite /bents /wents /= in H2 H3 |- *.
    destruct (builder_drop b' w') as [? w2 ?|r w2 ?| |]; [| |done..]; destruct H3 as [H3 H4]; (split; [done|]); [lia|]. split; [lia|]. apply H4.
  - destruct H as (H1 & H2 & H5). pose proof (st_builder_drop b' w' H1) as H3. rewrite /bents /wents /= in H2 H3 H5 |- *.
    assert (∀ w2 ev2, builder_drop b' w' = Done () w2 ev2 → w_ents w2 = w_ents w') as Hk.
    { intros w2 ev2 E. by apply builder_drop_ents in E. }
    destruct (builder_drop b' w') as [[] w2 ?|r2 w2 ?| |]; [|done..]. rewrite (Hk _ _ eq_refl). done.
Qed.
Lemma is_forget_builder {A} n b (m : M bw A) : issuing bents n m → issuing wents n (forget_builder b m).
Proof.
  intros H w Hw. rewrite /forget_builder. pose proof (is_with_builder n b m H w Hw) as H2. specialize (H (b, w) Hw).
  by destruct (m (b, w)) as [a [b' w'] ev|r [b' w'] ev| |].
Qed.
Lemma is_ents_spawn : issuing wents 1 (in_ents ents_spawn).
Proof.
  intros w Hw. rewrite /in_ents /zoom. pose proof (spawn_issue (w_ents w) Hw) as H. destruct (ents_spawn (w_ents w)) as [e E' ev|r E' ev| |] eqn:Hsp; [| |done..]; cbn.
  - destruct H as [H _]. split; [done|]. rewrite /count /wents /=. revert Hsp. rewrite /ents_spawn.
    destruct (despawned (w_ents w)) as [|i rest].
    + repeat case_match; try done. intros [= _ <- _]. cbn. rewrite app_length /=. lia.
    + repeat case_match; try done. intros [= _ <- _]. cbn. rewrite insert_length. lia.
  - destruct H as [H _]. split; [done|]. destruct Hw as [Hwf Hful].
    destruct (ents_spawn_panic _ _ _ _ Hwf Hsp) as (-> & _ & Hd & Hlen & Hg). change (wents (set_ents E' w)) with E'. change (wents w) with (w_ents w).
    assert (count E' = count (w_ents w) + 1) as Hc by by rewrite /count Hg app_length.
    split; [lia|]. intros _. split; [|rewrite Hc; rewrite /count; rewrite /wents in Hlen; lia]. rewrite Hd. destruct (despawned (w_ents w)) as [|i rest] eqn:Hde; [done|exfalso].
    revert Hsp. rewrite /ents_spawn Hde. destruct Hwf as (_ & Hdes & _). rewrite Hde in Hdes. destruct (Hdes i) as [Hlt [g Hgi]]; [by left|]. rewrite Hgi.
    repeat case_match; try done. apply N.ltb_lt in H0. rewrite /u32_max in H0. lia.
Qed.
Lemma is_spawn_empty : issuing wents 1 spawn_empty.
Proof.
  rewrite /spawn_empty. apply (issuing_bind _ 1 0); [apply is_ents_spawn|intros e]. apply (issuing_bind _ 0 0); [apply st_builder_new|intros b].
  apply is_with_builder, st_build.
Qed.
Lemma is_get_or_create t : issuing wents 1 (get_or_create_type t).
Proof.
  rewrite /get_or_create_type. apply (issuing_bind _ 0 1); [apply still_gets|intros [c|]].
  { apply (issuing_le _ 0); [apply still_ret|lia]. }
  apply (issuing_bind _ 1 0); [apply is_spawn_empty|intros e]. change (still wents ?m) with (issuing wents 0 m).
  match goal with |- issuing _ _ ?m => change (still wents m) end. still.
Qed.
Lemma is_run_bops bs : issuing bents (sum_list_with bop_ids bs) (run_bops bs).
Proof.
  induction bs as [|o bs IH]; cbn [run_bops sum_list_with]; [apply still_ret|]. apply issuing_bind; [|done].
  destruct o; cbn [run_bop bop_ids].
  - rewrite /builder_with. apply (issuing_bind _ 1 0); [apply issuing_in_world, is_get_or_create|intros c]. apply st_builder_with_data.
  - apply st_builder_with_dynamic.
  - apply st_builder_with_data.
  - match goal with |- issuing _ _ ?m => change (still bents m) end. still.
Qed.
Lemma is_step o : (∀ e, o ≠ ODespawn e) → issuing wents (call_ids (SWorld o)) (step o).
Proof.
  intros Hn. destruct o; try (by destruct (Hn e)); cbn [step call_ids];
    try (match goal with |- issuing _ 0 ?m => change (still wents m) end; rewrite /has_component /get_component_mut /write_loc /uv_get_raw; still; done).
  - apply (issuing_le _ ((1 + sum_list_with bop_ids bs) + 0)); [|lia]. apply (issuing_bind _ _ 0); [|intros; apply still_ret].
    rewrite /spawn_program. apply (issuing_bind _ 1).
    + rewrite /spawn_builder. apply (issuing_bind _ 1 0); [apply is_ents_spawn|intros e]. destruct cap; [apply st_builder_with_capacity|apply st_builder_new].
    + intros b. apply (issuing_le _ (sum_list_with bop_ids bs + 0)); [|lia]. apply (issuing_bind _ _ 0); [|intros; apply still_ret].
      destruct fin; [apply is_with_builder|apply is_forget_builder]; apply is_run_bops.
  - apply (issuing_bind _ 1 0); [|intros; apply still_ret]. rewrite /add_component. apply (issuing_bind _ 1 0); [|intros; apply st_add].
    apply issuing_on_unwind. apply (issuing_bind _ 0 1); [apply st_is_alive|intros]. apply (issuing_bind _ 0 1); [by apply still_massert|intros].
    apply is_get_or_create.
  - apply (issuing_bind _ 1 0); [|intros; apply still_ret]. rewrite /remove_component.
    apply (issuing_bind _ 0 1); [apply st_is_alive|intros]. apply (issuing_bind _ 0 1); [by apply still_massert|intros].
    apply (issuing_bind _ 1 0); [|intros; apply st_remove]. apply is_get_or_create.
  - apply (issuing_bind _ 1 0); [apply is_get_or_create|intros; apply still_ret].
Qed.

(** *** Sessions *)
Lemma despawn_count E e E' ev : ents_despawn e E = Done true E' ev → count E' = count E.
Proof. rewrite /ents_despawn /count. repeat case_match; try done; intros [= <- _]; cbn; by rewrite ?insert_length. Qed.
Definition counted (n : nat) (E : entities) (r : option reason) (E' : entities) : Prop :=
  full_wf E' ∧ count E' ≤ count E + n ∧ (r = Some ROutOfIds → exhausted E').
Lemma counted_same n E r : full_wf E → r ≠ Some ROutOfIds → counted n E r E.
Proof. intros H Hr. split; [done|]. split; [lia|done]. Qed.
Lemma sstep_counted o s : sinv s → full_wf (w_ents (ss_world s)) → sop_legal o s → sop_tame o s →
  match sstep o s with
  | Done _ s' _ => counted (call_ids o) (w_ents (ss_world s)) None (w_ents (ss_world s'))
  | Panicked r s' _ => resumable r → counted (call_ids o) (w_ents (ss_world s)) (Some r) (w_ents (ss_world s'))
  | _ => True
  end.
Proof.
  intros Hs Hful Hleg Htame. pose proof (sv_world _ Hs) as Hok. destruct o as [o|fs|ps|k u|k|k n j v].
  - cbn [sstep]. rewrite /bind in_sworld_run.
    assert (match step o (ss_world s) with
      | Done _ w' _ => counted (call_ids (SWorld o)) (w_ents (ss_world s)) None (w_ents w')
      | Panicked r w' _ => resumable r → counted (call_ids (SWorld o)) (w_ents (ss_world s)) (Some r) (w_ents w')
      | _ => True end) as H.
    { assert ((∃ e, o = ODespawn e) ∨ ∀ e, o ≠ ODespawn e) as [[e ->]|Hn] by (destruct o; eauto).
      - pose proof (sstep_slots _ _ Hs Hful Hleg Htame) as Hsl. cbn [sstep] in Hsl. rewrite /bind in_sworld_run in Hsl.
        destruct Hok as [[R Hw] _]. destruct Hleg as [He _]. cbn in He. destruct Htame as [_ Ht]. cbn [step] in Hsl |- *. rewrite /bind in Hsl |- *.
        pose proof (despawn_spec _ R e Hw He Ht) as H. rewrite /wp in H. destruct (despawn e (ss_world s)) as [b w' ev|r w' ev| |]; [| |done..]; cbn in Hsl |- *.
        + destruct H as [(_ & _ & -> & _)|(_ & _ & Hk & _)]; [by apply counted_same|]. split; [apply Hsl|]. split; [|done]. rewrite (despawn_count _ _ _ _ (dk_ents _ _ _ Hk)). lia.
        + intros [Hr _]. destruct H as [?|(-> & Hr2)]; [done|]. apply counted_same; [done|]. naive_solver.
      - pose proof (is_step o Hn (ss_world s) Hful) as H. destruct (step o (ss_world s)); [|intros _|done..]; [|destruct H as (? & ? & ?); split_and!; try done; naive_solver].
        destruct H. by split. }
    by destruct (step o (ss_world s)) as [r w' ev|r w' ev| |].
  - rewrite open_dyn_run. destruct (sv_locks _ Hs) as [F HF]. pose proof (dq_new_run (ss_world s) _ fs (λ c i, sinv_lock_lt s c i Hs) HF) as H.
    destruct (dq_new fs (ss_world s)) as [q w' ev|r w' ev| |]; [| |done..]; cbn.
    + destruct H as (_ & _ & _ & _ & _ & _ & _ & ls & -> & _). by apply counted_same.
    + intros _. destruct H as (_ & [-> _] & _ & ls & -> & _). by apply counted_same.
  - rewrite open_stat_run. destruct (sv_locks _ Hs) as [F HF]. pose proof (sq_new_run (ss_world s) _ ps (λ c i, sinv_lock_lt s c i Hs) HF) as H.
    destruct (sq_new ps (ss_world s)) as [q w' ev|r w' ev| |]; [| |done..]; cbn.
    + destruct H as (_ & _ & _ & _ & _ & _ & ls & -> & _). by apply counted_same.
    + intros _. destruct H as (_ & _ & (fs & _ & [[-> _]|[-> _]]) & ls & -> & _); by apply counted_same.
  - cbn [sstep]. rewrite (bind_done_nil _ _ s s s eq_refl). destruct (ss_open s !! k) as [[q|]|] eqn:Hi; [|by apply counted_same..]. cbn.
    destruct (release_all_locks u (oq_guards q) (ss_world s)) as (ls & -> & _). by apply counted_same.
  - by apply counted_same.
  - cbn [sstep] in *. rewrite (bind_done_nil _ _ s s s eq_refl). destruct (ss_open s !! k) as [[q|]|] eqn:Hi; [|by apply counted_same..].
    destruct (Hleg _ Hi) as (fs & c & Hfs & Hj & Hv).
    pose proof (query_item_run _ q n Hok (sv_open _ Hs _ _ Hi)) as H. rewrite /wp in H.
    rewrite {1}/bind in_sworld_run. destruct (query_item q n (ss_world s)) as [o w' ev|r w' ev| |] eqn:Eq; [| |done..].
    + destruct H as (-> & -> & Ho). rewrite sess_eta. destruct o as [ps|]; [|by apply counted_same]. cbn [mbind option_bind].
      destruct (ps !! j) as [q0|] eqn:Hq0; [|by apply counted_same]. destruct (Ho _ eq_refl) as (fs' & p & Hfs' & Hg & ->).
      rewrite Hfs in Hfs'. injection Hfs' as <-. destruct Hok as [[R Hw] Hroom].
      destruct (ptr_store_run _ _ _ _ _ _ _ _ Hw Hg Hj Hv Hq0) as (e & w' & He & Hrun & Hk & _).
      rewrite /bind in_sworld_run Hrun. cbn. rewrite (kp_ents _ _ Hk). by apply counted_same.
    + cbn. intros [Hr _]. destruct H as [?|(-> & Hr2)]; [done|]. apply counted_same; [done|naive_solver].
Qed.
Lemma exhausted_none s : reachable s → exhausted (w_ents (ss_world s)) → no_index_left (ss_world s).
Proof.
  intros Hs [Hd Hc] k Hk. change (2 ^ 32)%N with u32_modulus in Hk. destruct (reachable_full s Hs) as [_ Hful].
  destruct (lookup_lt_is_Some_2 (generations (w_ents (ss_world s))) (N.to_nat k)) as [[[] g] Hg]; [rewrite /count in Hc; lia|..].
  - destruct (slot_lives s k g Hs Hk Hg) as [H1 H2]. by exists (EcsId g k).
  - apply Hful in Hg. rewrite Hd in Hg. by apply elem_of_nil in Hg.
Qed.
Lemma out_of_ids_none s o s' ev : reachable s → sop_legal o s → sop_tame o s →
  sstep o s = Panicked ROutOfIds s' ev → no_index_left (ss_world s').
Proof.
  intros Hs Hl Ht E. pose proof (sstep_counted o s (reachable_inv _ Hs) (reachable_full _ Hs) Hl Ht) as H. rewrite E in H.
  apply exhausted_none; [|by apply H]. eapply reachable_steps; [exact Hs|]. apply (steps_panic _ [] _ _ ROutOfIds _ _ (steps_nil _) Hl Ht E). done.
Qed.
Lemma history_count l s : steps sess_new l s → count (w_ents (ss_world s)) ≤ sum_list_with call_ids (calls_of l).
Proof.
  intros H. remember sess_new as s0 eqn:E0. induction H as [s|s0 l s1 o r s2 ev H IH Hl Ht E|s0 l s1 o r s2 ev H IH Hl Ht E Hr]; [by subst|..]; subst s0;
    specialize (IH eq_refl); rewrite /calls_of !fmap_app sum_list_with_app /=; rewrite /calls_of in IH;
    (assert (reachable s1) as Hs1 by by exists l); pose proof (sstep_counted o s1 (reachable_inv _ Hs1) (reachable_full _ Hs1) Hl Ht) as Hx; rewrite E in Hx.
  - destruct Hx as (_ & Hx & _). lia.
  - destruct (Hx Hr) as (_ & Hx' & _). lia.
Qed.
Lemma history_ids l s o : steps sess_new l s → sop_legal o s → sop_tame o s →
  (N.of_nat (sum_list_with call_ids (calls_of l) + call_ids o) <= 2 ^ 32)%N → ∀ s' ev, sstep o s ≠ Panicked ROutOfIds s' ev.
Proof.
  intros H Hl Ht Hn s' ev E. assert (reachable s) as Hs by by exists l.
  pose proof (sstep_counted o s (reachable_inv _ Hs) (reachable_full _ Hs) Hl Ht) as Hx. rewrite E in Hx.
  destruct Hx as (_ & Hc & He); [done|]. destruct (He eq_refl) as [_ He']. pose proof (history_count l s H) as Hy.
  change (2 ^ 32)%N with u32_modulus in Hn. lia.
Qed.
Lemma none_spawn w cap meta bs fin : reachable_world w → no_index_left w →
  ∃ w', step (OSpawn cap meta bs fin) w = Panicked ROutOfIds w' [] ∧ same_holds w w'.
Proof.
  intros (s & Hs & <- & _) Hn. destruct (reachable_full s Hs) as [(Hnd & Hdes & _) Hful].
  assert (∀ k, (k < u32_modulus)%N → ∃ g, slot s k = Some (true, g)) as Ha.
  { intros k Hk. destruct (Hn k Hk) as (e & _ & <- & He). apply lives_slot in He. eauto. }
  assert (despawned (w_ents (ss_world s)) = []) as Hd.
  { destruct (despawned _) as [|i rest] eqn:Ed; [done|exfalso]. destruct (Hdes i) as [Hlt [g Hg]]; [by left|].
    destruct (Ha (N.of_nat i) Hlt) as [g' Hg']. rewrite /slot Nat2N.id in Hg'. congruence. }
  assert (u32_max < N.of_nat (length (generations (w_ents (ss_world s)))))%N as Hlen.
  { destruct (Ha (u32_modulus - 1)%N) as [g Hg]; [done|]. apply lookup_lt_Some in Hg. rewrite /u32_max. lia. }
  cbn [step]. rewrite /spawn_program /spawn_builder /in_ents /bind /zoom /ents_spawn Hd.
  apply N.ltb_lt in Hlen. rewrite Hlen. eexists. split; [reflexivity|]. done.
Qed.
Definition filled_world (n : nat) : world := set_ents (Entities (replicate n (true, 0%N)) []) world_new.
Lemma filling n : (N.of_nat n <= u32_modulus)%N →
  ∃ l, steps sess_new l (Sess (filled_world n) []) ∧ length l = n ∧ Forall (λ o, o = SWorld (OSpawn None cm_unit [] BDrop)) (calls_of l) ∧
    ∀ x, x ∈ l → ∃ e, x.1.2 = ROk (SRet (RId e)).
Proof.
  induction n as [|n IH]; intros Hn.
  - exists []. split; [constructor|]. split; [done|]. split; [constructor|]. by intros x ?%elem_of_nil.
  - destruct IH as (l & Hl & Hlen & Hc & Hr); [lia|].
    exists (l ++ [(SWorld (OSpawn None cm_unit [] BDrop), ROk (SRet (RId (id_new n 0))), [])]). split; [|split; [|split]].
    + eapply steps_done; [exact Hl|..].
      * split; [|right; constructor]. split; [done|]. by destruct (spawn_builder _ _ _).
      * split; [done|]. cbn. lia.
      * cbn [sstep]. rewrite /bind in_sworld_run. cbn [step ss_world]. rewrite /spawn_program /spawn_builder /in_ents /bind /zoom /ents_spawn. cbn [filled_world w_ents set_ents despawned generations].
        rewrite replicate_length. assert (u32_max <? N.of_nat n = false)%N as -> by (apply N.ltb_ge; rewrite /u32_max; lia).
        cbn [generations]. rewrite lookup_app_r ?replicate_length // Nat.sub_diag. cbn. rewrite /filled_world /set_ents. cbn. by rewrite -(replicate_S_end n).
    + rewrite app_length /=. lia.
    + rewrite /calls_of !fmap_app. apply Forall_app. split; [done|]. by constructor.
    + intros x [Hx| ->%elem_of_list_singleton]%elem_of_app; [by apply Hr|]. by eexists.
Qed.
Lemma fillable : ∃ l s, steps sess_new l s ∧ N.of_nat (length l) = (2 ^ 32)%N ∧ Forall (λ o, o = SWorld (OSpawn None cm_unit [] BDrop)) (calls_of l) ∧
  (∀ x, x ∈ l → ∃ e, x.1.2 = ROk (SRet (RId e))) ∧ ss_open s = [] ∧ no_index_left (ss_world s).
Proof.
  assert (∃ n, N.of_nat n = u32_modulus) as [n Hn]. { exists (N.to_nat u32_modulus). apply N2Nat.id. }
  destruct (filling n) as (l & Hl & Hlen & Hc & Hr); [by rewrite Hn|].
  eexists l, _. split; [exact Hl|]. split; [by rewrite Hlen Hn|]. split; [done|]. split; [done|]. split; [done|].
  intros k Hk. exists (EcsId 0 k). split; [done|]. split; [done|]. apply (lives_slot (Sess (filled_world n) [])).
  rewrite /slot. cbn [ss_world filled_world w_ents set_ents generations id_idx id_gen]. apply lookup_replicate_2. change (2 ^ 32)%N with u32_modulus in Hk. lia.
Qed.
