(** * Allocator calls of the world operations and builders, continued (C53) *)
From Verif Require Import ProofBase SpecSmall World Query History ProofEntities ProofBitset ProofArrayVec ProofUVec.
From Verif Require Export ProofMemWorld.

Lemma sown_perm l l' : l ≡ₚ l' → sown l ≡ₚ sown l'.
Proof.
  rewrite /sown. intros H. induction H; cbn; [done|by rewrite IHPermutation| |by rewrite IHPermutation1].
  rewrite !app_assoc. by rewrite (Permutation_app_comm (uown y.2)).
Qed.
Lemma sown_new ss : sown ((λ s : ecsid * uvec, (s.1, uv_new_from s.2)) <$> ss) = [].
Proof. induction ss as [|[c v] ss IH]; [done|]. cbn. done. Qed.
Lemma sown_empty (ss : list (ecsid * uvec)) : Forall (λ s, uown s.2 = []) ss → sown ss = [].
Proof. induction 1 as [|[c v] ss H Hs IH]; [done|]. cbn in *. by rewrite H. Qed.
Lemma from_archetype_empty from : Forall (λ s, uown s.2 = []) (a_storages (from_archetype from)).
Proof. cbn. apply Forall_fmap. by apply Forall_true. Qed.
Lemma sort_archetype_own a ids ss a' : sort_archetype a ids ss = Some a' → aown a' ≡ₚ sown ss.
Proof.
  rewrite /sort_archetype. destruct (zip_ids_agree _ _); [|done]. intros [= <-]. rewrite /aown. cbn [a_storages].
  apply sown_perm. apply sort_by_perm.
Qed.
Lemma from_with_own from ti c a : from_archetype_with from ti c = Some a → aown a ≡ₚ [].
Proof.
  rewrite /from_archetype_with. destruct (_ !! c); [done|]. intros ->%sort_archetype_own. rewrite sown_empty; [done|].
  apply Forall_app. split; [apply from_archetype_empty|]. by constructor.
Qed.
Lemma from_without_own from c a : from_archetype_without from c = Some a → aown a ≡ₚ [].
Proof.
  rewrite /from_archetype_without. destruct (_ !! c) as [i|]; [|done]. destruct (decide _); [|done].
  intros ->%sort_archetype_own. rewrite sown_empty; [done|]. apply Forall_delete, from_archetype_empty.
Qed.

Ltac trb := eapply tr_bind; [first [apply tr_plain; by eauto with still | apply tr_plain; solve [st] | apply tr_massert | apply tr_unwrap | by apply tr_gets]|cbn beta].

Lemma tr_add_component_with_data e c src : tr wown [] (add_component_with_data e c src) (add_component_with_data_t e c src) no [].
Proof.
  rewrite /add_component_with_data /add_component_with_data_t.
  trb. intros [|]; cbn [negb]; [|by apply tr_ret].
  trb. intros [|]; cbn [negb]; [|by apply tr_ret].
  trb. intros om. trb. intros m. cbv zeta. trb. intros a. trb. intros []. trb. intros cached.
  eapply (tr_bind _ _ _ _ no).
  { destruct cached as [k|]; [by apply tr_ret|]. trb. intros [k|]; [|by apply tr_ret]. trb. intros []. by apply tr_ret. }
  intros found. eapply (tr_bind _ _ _ _ no).
  { destruct found as [k|]; [by apply tr_ret|]. trb. intros []. trb. intros ocm. trb. intros cm. trb. intros a1.
    apply tr_unwrap_bind. intros na Hna%from_with_own.
    eapply tr_bind; [eapply tr_perm; [apply tr_push_archetype|by rewrite Hna|done|done]|]. intros n. cbn beta. trb. intros []. by apply tr_ret. }
  intros tar. trb. intros archs. apply tr_unwrap_bind. intros [ca ta] Hne%index_twice_ne.
  eapply tr_bind; [by apply tr_add_zip|]. intros sk. eapply (tr_bind _ _ _ _ no).
  { destruct sk as [j|]; [by apply tr_ret|]. trb. intros l. trb. intros []. by apply tr_ret. }
  intros skipped. eapply tr_bind; [apply tr_in_arch, tr_in_storage, tr_uv_push_raw|]. intros []. trb. intros [].
  apply tr_plain, still_remove_row.
Qed.
Lemma tr_remove_component_dynamic e c : tr wown [] (remove_component_dynamic e c) (remove_component_dynamic_t e c) no [].
Proof.
  rewrite /remove_component_dynamic /remove_component_dynamic_t.
  trb. intros [|]; cbn [negb]; [|by apply tr_ret].
  trb. intros [|]; cbn [negb]; [|by apply tr_ret].
  trb. intros om. trb. intros m. cbv zeta. trb. intros a. trb. intros []. trb. intros cached.
  eapply (tr_bind _ _ _ _ no).
  { destruct cached as [k|]; [by apply tr_ret|]. trb. intros [k|]; [|by apply tr_ret]. trb. intros []. by apply tr_ret. }
  intros found. eapply (tr_bind _ _ _ _ no).
  { destruct found as [k|]; [by apply tr_ret|]. trb. intros a1.
    apply tr_unwrap_bind. intros na Hna%from_without_own.
    eapply tr_bind; [eapply tr_perm; [apply tr_push_archetype|by rewrite Hna|done|done]|]. intros n. cbn beta. trb. intros []. by apply tr_ret. }
  intros tar. trb. intros archs. apply tr_unwrap_bind. intros [ca ta] Hne%index_twice_ne.
  eapply tr_bind; [by apply tr_rem_zip|]. intros sk. eapply (tr_bind _ _ _ _ no).
  { destruct sk as [j|]; [by apply tr_ret|]. trb. intros l. trb. intros []. by apply tr_ret. }
  intros skipped. trb. intros []. trb. intros []. apply tr_plain, still_remove_row.
Qed.
Lemma tr_add_component_dynamic e c : tr wown [] (add_component_dynamic e c) (add_component_dynamic_t e c) no [].
Proof.
  rewrite /add_component_dynamic /add_component_dynamic_t. trb. intros al. trb. intros []. trb. intros cl. trb. intros [].
  trb. intros ocm. trb. intros cm. trb. intros []. apply tr_add_component_with_data.
Qed.

(** ** Builders *)
Lemma tr_on_snd_bw {A} (m : M world A) mt x y : tr wown x m mt y [] → tr bwown x (in_world m) (in_world_t mt) y [].
Proof.
  intros H. eapply tr_zoom; [|right; by eauto|done]. intros [b w] t [= <-]. exists (bown (eb_cap b)). split; [|intros w']; rewrite /bwown /=; apply Permutation_app_comm.
Qed.
(** Dropping a builder hands its buffer to the world or frees it. *)
Lemma tr_builder_drop b : tr wown (bown (eb_cap b)) (builder_drop b) (builder_drop_t b) no (bown (eb_cap b)).
Proof.
  rewrite /builder_drop /builder_drop_t. destruct (decide (eb_cap b = 0)) as [->|Hc]; [by apply tr_ret|].
  apply tr_ats. intros w. apply tr_at_get; [done|]. destruct (w_reuse w) as [r|] eqn:Er.
  - apply tr_at_of. apply tr_unwrap_bind. intros l ->%lfsa_eq. rewrite /bown. destruct (decide (eb_cap b = 0)); [done|].
    apply tr_dealloc.
  - apply tr_at_modify. rewrite /wown /= Er !app_nil_r. done.
Qed.
Definition bhas (b : builder) : list layout := bown (eb_cap b).
Lemma tr_builder_new e meta : tr wown [] (builder_new e meta) (builder_new_t e meta) bhas [].
Proof.
  rewrite /builder_new /builder_new_t. apply tr_ats. intros w. apply tr_at_get; [done|]. destruct (w_reuse w) as [[[ids p] cap]|] eqn:Er.
  - eapply tr_at_bind; [eapply (tr_at_modify _ _ _ _ (bown cap))|].
    + rewrite /wown /= Er !app_nil_r. done.
    + intros [] w' ev _. by apply tr_at_of, tr_ret.
  - by apply tr_at_of, tr_ret.
Qed.
Lemma tr_builder_with_capacity e meta cap : tr wown [] (builder_with_capacity e meta cap) (builder_with_capacity_t e meta cap) bhas [].
Proof.
  rewrite /builder_with_capacity /builder_with_capacity_t. trb. intros [r|]; [apply tr_builder_new|].
  destruct (decide (cap = 0)) as [->|Hc]; [apply tr_builder_new|]. apply tr_unwrap_bind. intros l Hl. pose proof (lfsa_wf _ _ _ Hl) as Hw. apply lfsa_eq in Hl as ->.
  eapply tr_bind; [by apply tr_alloc|]. intros p. apply tr_ret. rewrite /bhas /bown. cbn [eb_cap]. by destruct (decide (cap = 0)).
Qed.
Lemma tr_builder_realloc n : tr bwown [] (builder_realloc n) (builder_realloc_t n) no [].
Proof.
  rewrite /builder_realloc /builder_realloc_t. rewrite {1 3}/massert. destruct (N.of_nat n <? isize_max)%N eqn:Hn; [|intros s lg _; exists []; rewrite app_nil_r; split; [done|by apply acts_nil]].
  eapply (tr_bind _ _ _ _ no); [by apply tr_ret|]. intros [].
  assert (layout_wf (Layout n 1)) as Hw.
  { apply N.ltb_lt in Hn. rewrite /layout_wf /layout_from_size_align /=. destruct (_ <=? _)%N eqn:E; [done|]. apply N.leb_gt in E. lia. }
  eapply (tr_bind _ _ _ _ no); [apply tr_massert|]. intros [].
  apply tr_ats. intros [b w]. apply tr_at_get; [done|]. cbn [fst]. destruct (decide (eb_cap b = 0)) as [Hb|Hb].
  - destruct (layout_from_size_align n 1) as [l|] eqn:El; [|by apply tr_at_of, tr_panic]. apply lfsa_eq in El as ->.
    intros lg _. unfold unwrap. unfold bind, ret. rewrite /alloc_t. unfold bind, or_ub. destruct (heap_alloc _) as [p|] eqn:Ep; [|done].
    simpl. eexists. split; [reflexivity|]. rewrite !app_nil_r /bwown /bown /=. apply heap_alloc_nz in Ep. cbn in Ep.
    repeat case_decide; try lia. eapply (acts_frame [] _ [Layout n 1]). by apply acts_alloc.
  - destruct (layout_from_size_align (eb_cap b) 1) as [l|] eqn:El; [|by apply tr_at_of, tr_panic]. apply lfsa_eq in El as ->.
    intros lg _. unfold unwrap. unfold bind, ret. rewrite /realloc_t. unfold bind, or_ub. destruct (heap_realloc _ _ _) as [p|] eqn:Ep; [|done].
    simpl. eexists. split; [reflexivity|]. rewrite !app_nil_r /bwown /bown /=. apply heap_realloc_nz in Ep.
    repeat case_decide; try lia. eapply (acts_frame [_] _ [_]). by apply (acts_realloc (Layout _ _)).
Qed.
Lemma tr_builder_with_data c src : tr bwown [] (builder_with_data c src) (builder_with_data_t c src) no [].
Proof.
  rewrite /builder_with_data /builder_with_data_t. eapply (tr_bind _ _ _ _ no); [apply tr_plain; intros [? ?]; simpl; reflexivity|]. intros [].
  trb. intros ocm. trb. intros cm. cbv zeta. trb. intros b.
  eapply (tr_bind _ _ _ _ no). { destruct (decide _); [apply tr_builder_realloc|by apply tr_ret]. }
  intros []. trb. intros b1. destruct (decide _); [done|]. eapply tr_bind; [apply tr_or_ub|]. intros p. cbn beta.
  apply tr_plain. intros [? ?]. simpl. reflexivity.
Qed.
Lemma tr_build_push k ids off : tr bwown [] (build_push k ids off) (build_push_t k ids off) no [].
Proof.
  revert off. induction ids as [|c ids IH]; intros off; cbn [build_push build_push_t]; [by apply tr_ret|].
  trb. intros ocm. trb. intros cm. trb. intros a. trb. intros si. trb. intros b.
  eapply tr_bind; [apply tr_on_snd_bw, tr_in_arch, tr_in_storage, tr_uv_push_raw|]. intros []. cbv zeta.
  destruct (offset_ok _ _); [|done]. eapply (tr_bind _ _ _ _ no); [apply tr_plain, still_in_world, still_elems_len|]. intros n.
  trb. intros []. apply IH.
Qed.
Lemma uv_realloc_panic v r v' ev : uv_realloc v = Panicked r v' ev → v' = v.
Proof.
  rewrite /uv_realloc. unfold bind, gets, massert, unwrap, or_ub, ret, panic, modify, ub. cbn [id].
  destruct (decide _); [by intros [= _ <- _]|]. destruct (decide _).
  - destruct (layout_from_size_align _ _) as [l|]; [|by intros [= _ <- _]]. by destruct (heap_alloc l).
  - destruct (_ <? _)%N; [|by intros [= _ <- _]]. destruct (layout_from_size_align (uv_cap v) _) as [l|]; [|by intros [= _ <- _]].
    destruct (layout_from_size_align _ _) as [l'|]; [|by intros [= _ <- _]]. by destruct (heap_realloc _ _ _).
Qed.
Lemma uv_push_raw_panic src v r v' ev : uv_push_raw src v = Panicked r v' ev → v' = v.
Proof.
  rewrite /uv_push_raw. unfold bind at 1. unfold gets at 1. cbn [id]. destruct (decide _); [done|]. unfold bind at 1.
  destruct (decide _).
  - destruct (uv_realloc v) as [[] v1 ev1|r1 v1 ev1| |] eqn:E; [..|done|done].
    + unfold bind, gets, or_ub, ub. cbn [id]. destruct (decide _); [done|]. by destruct (mem_write _ _ _).
    + intros [= -> -> ->]. by eapply uv_realloc_panic.
  - unfold ret. unfold bind, gets, or_ub, ub. cbn [id]. destruct (decide _); [done|]. by destruct (mem_write _ _ _).
Qed.
Lemma tr_create_storages ids off acc :
  tr bwown (sown acc) (create_storages ids off acc) (create_storages_t ids off acc) sown [].
Proof.
  revert off acc. induction ids as [|c ids IH]; intros off acc; cbn [create_storages create_storages_t]; [by apply tr_ret|].
  eapply (tr_bind _ _ _ _ (λ p : uvec * nat, sown acc ++ uown p.1)).
  - eapply (tr_on_unwind _ _ _ _ _ (sown acc)); [|apply frees_storages].
    trb. intros ocm. trb. intros cm. trb. intros b. cbv zeta. intros s lg Hok. cbn [fst snd].
    pose proof (tr_uv_push_raw (readable (eb_data b) off) (uv_new (cm_type_info (em_comp cm))) lg ltac:(by constructor)) as H.
    pose proof (uv_push_raw_panic (readable (eb_data b) off) (uv_new (cm_type_info (em_comp cm)))) as Hp.
    destruct (uv_push_raw _ _) as [[] v' ev|r v' ev| |]; [..|by rewrite H|done].
    + destruct (offset_ok _ _); [|done]. destruct H as (ops & -> & H). exists ops. split; [done|]. cbn [fst].
      rewrite !app_nil_r in H. eapply acts_perm, (acts_frame _ _ _ (bwown s ++ sown acc)), H; [done|].
      by rewrite Permutation_app_comm -app_assoc.
    + destruct H as (ops & -> & H). exists ops. split; [done|]. rewrite (Hp _ _ _ eq_refl) in H.
      rewrite !app_nil_r in H. eapply acts_perm, (acts_frame _ _ _ (bwown s ++ sown acc)), H; done.
  - intros [v' off']. cbn [fst snd]. eapply tr_perm; [apply IH| |done|done]. rewrite /sown bind_app. cbn. by rewrite app_nil_r.
Qed.
Lemma tr_create_archetype : tr bwown [] create_archetype create_archetype_t aown [].
Proof.
  rewrite /create_archetype /create_archetype_t. trb. intros b.
  eapply tr_bind; [apply (tr_create_storages _ _ [])|]. intros ss. cbn beta.
  assert (Hp : sown (sort_by storage_leb ss) ≡ₚ sown ss) by apply sown_perm, sort_by_perm.
  set (ss' := sort_by storage_leb ss) in *. clearbody ss'.
  eapply (tr_bind _ _ _ _ (λ _, sown ss')).
  { intros s lg _. exists []. rewrite app_nil_r. split; [done|]. apply acts_nil. destruct s. simpl. by rewrite Hp. }
  intros []. eapply tr_bind; [by apply tr_gets|]. cbn beta. intros ids.
  eapply tr_bind; [eapply tr_on_unwind; [apply tr_unwrap|apply frees_storages]|]. intros lookup. cbn beta.
  eapply tr_bind; [eapply tr_on_unwind; [apply tr_massert|apply frees_storages]|]. intros []. cbn beta.
  eapply (tr_bind _ _ _ _ (λ _, sown ss')).
  { intros s lg _. exists []. rewrite app_nil_r. split; [done|]. apply acts_nil. by destruct s. }
  intros []. by apply tr_ret.
Qed.
Lemma tr_build : tr bwown [] build build_t no [].
Proof.
  rewrite /build /build_t. trb. intros b. trb. intros [k|].
  - trb. intros []. eapply tr_bind; [apply tr_build_push|]. intros []. trb. intros a. trb. intros []. by apply tr_ret.
  - trb. intros []. eapply tr_bind; [apply tr_create_archetype|]. intros na. cbn beta.
    eapply tr_bind; [apply tr_on_snd_bw, tr_push_archetype|]. intros n. cbn beta. trb. intros []. by apply tr_ret.
Qed.
Lemma tr_with_builder {A} b (m : M bw A) mt : tr bwown [] m mt no [] → tr wown (bhas b) (with_builder b m) (with_builder_t b mt) no [].
Proof.
  intros H w lg Hok. assert (okl (bwown (b, w) ++ [])) as Hok0.
  { rewrite app_nil_r /bwown /=. by rewrite Permutation_app_comm. }
  specialize (H (b, w) lg Hok0). rewrite /with_builder /with_builder_t. cbn [fst snd]. unfold bw in *.
  destruct (m (b, w)) as [a [b' w'] ev|r [b' w'] ev| |]; [..|by rewrite H|done].
  - destruct H as (o1 & -> & H1). pose proof (proj1 H1 Hok0) as Hok1. rewrite app_nil_r in Hok1.
    assert (Hok2 : okl (wown w' ++ bown (eb_cap b'))) by (by rewrite Permutation_app_comm).
    pose proof (tr_builder_drop b' w' (lg ++ o1) Hok2) as Hd.
    assert (Hb : ∀ r w2 ev2, builder_drop b' w' = Panicked r w2 ev2 → False).
    { intros r w2 ev2. rewrite /builder_drop. destruct (decide _) as [|Hc]; [done|]. unfold bind, gets. destruct (w_reuse w'); [|done].
      rewrite /bwown Forall_app /bown in Hok1. cbn [fst] in Hok1. destruct (decide (eb_cap b' = 0)); [done|].
      destruct Hok1 as [[Hl _]%Forall_cons _]. rewrite /layout_wf /= in Hl. rewrite Hl. unfold unwrap, ret, or_ub. simpl.
      by destruct (heap_dealloc _ _). }
    destruct (builder_drop b' w') as [[] w'' ev'|r w'' ev'| |]; [|by exfalso; eapply Hb|by rewrite Hd|done].
    destruct Hd as (o2 & -> & H2). exists (o1 ++ o2). rewrite app_assoc. split; [done|].
    rewrite !app_nil_r in H1 H2 |- *. eapply acts_app; [|exact H2].
    eapply acts_perm; [..|exact H1]; rewrite /bwown /=; apply Permutation_app_comm.
  - destruct H as (o1 & -> & H1). pose proof (proj1 H1 Hok0) as Hok1. rewrite app_nil_r in Hok1.
    assert (Hok2 : okl (wown w' ++ bown (eb_cap b'))) by (by rewrite Permutation_app_comm).
    pose proof (tr_builder_drop b' w' (lg ++ o1) Hok2) as Hd.
    destruct (builder_drop b' w') as [[] w'' ev'|r' w'' ev'| |]; [|done..].
    destruct Hd as (o2 & -> & H2). exists (o1 ++ o2). rewrite app_assoc. split; [done|].
    rewrite !app_nil_r in H1 H2 |- *. eapply acts_app; [|exact H2].
    eapply acts_perm; [..|exact H1]; rewrite /bwown /=; apply Permutation_app_comm.
Qed.
