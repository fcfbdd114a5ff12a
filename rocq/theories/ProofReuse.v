(** * The capacity and the reuse of builder buffers cannot be observed *)
From Verif Require Import ProofBase SpecSmall World Query History ProofEntities ProofBitset ProofArrayVec ProofUVec.
From Verif Require Export ProofBlind.

Lemma bind_ext {S A B} (m : M S A) (k k' : A → M S B) s :
  (∀ a s1 ev, m s = Done a s1 ev → k a s1 = k' a s1) → bind m k s = bind m k' s.
Proof. intros H. rewrite /bind. destruct (m s) as [a s1 ev| | |]; try done. by rewrite (H a s1 ev). Qed.

(** ** Pushing depends on the first bytes of the source only *)
Lemma uv_realloc_ti v u v' ev : uv_realloc v = Done u v' ev → uv_ti v' = uv_ti v.
Proof.
  rewrite /uv_realloc (bind_done_nil _ _ v v v eq_refl). case_decide; [done|]. case_decide.
  - cbv zeta. destruct (layout_from_size_align _ _) as [lay|]; [|done]. rewrite (bind_done_nil _ _ v lay v eq_refl).
    destruct (heap_alloc lay) as [p|]; [|done]. rewrite (bind_done_nil _ _ v p v eq_refl). by intros [= <- <-].
  - cbv zeta. destruct (N.of_nat (uv_cap v * 2) <? isize_max)%N; [|done]. rewrite (bind_done_nil _ _ v () v eq_refl).
    destruct (layout_from_size_align (uv_cap v) _) as [l1|]; [|done]. rewrite (bind_done_nil _ _ v l1 v eq_refl).
    destruct (layout_from_size_align (uv_cap v * 2) _) as [l2|]; [|done]. rewrite (bind_done_nil _ _ v l2 v eq_refl).
    destruct (heap_realloc _ _ _) as [p|]; [|done]. rewrite (bind_done_nil _ _ v p v eq_refl). by intros [= <- <-].
Qed.
Lemma uv_push_ti src v u v' ev : uv_push_raw src v = Done u v' ev → uv_ti v' = uv_ti v.
Proof.
  rewrite /uv_push_raw (bind_done_nil _ _ v v v eq_refl). case_decide; [by intros [= <- <-]|].
  set (m := if decide _ then uv_realloc else ret ()).
  intros ([] & v1 & e1 & e2 & Hm & Hk & ->)%bind_done_inv.
  assert (uv_ti v1 = uv_ti v) as <-.
  { rewrite /m in Hm. case_decide; [by eapply uv_realloc_ti|]. by injection Hm as <-. }
  rewrite (bind_done_nil _ _ v1 v1 v1 eq_refl) in Hk. case_decide; [done|].
  destruct (mem_write _ _ _) as [p|]; [|done]. rewrite (bind_done_nil _ _ v1 p v1 eq_refl) in Hk. by injection Hk as <- <-.
Qed.
Lemma uv_push_prefix src src' v : take (uv_size v) src = take (uv_size v) src' →
  uv_size v ≤ length src → uv_size v ≤ length src' → uv_push_raw src v = uv_push_raw src' v.
Proof.
  intros Ht H1 H2. rewrite /uv_push_raw !(bind_done_nil _ _ v v v eq_refl). case_decide; [done|].
  apply bind_ext. intros [] v1 ev Hm.
  assert (uv_ti v1 = uv_ti v) as Hti. { case_decide; [by eapply uv_realloc_ti|]. by injection Hm as <- <-. }
  rewrite !(bind_done_nil _ _ v1 v1 v1 eq_refl).
  assert (uv_size v1 = uv_size v) as Hs by by rewrite /uv_size Hti.
  rewrite Hs Ht. rewrite !decide_False; [done|lia..].
Qed.

(** ** A prefix of the buffer *)
Lemma readable_drop p off : readable p off = drop off (readable p 0).
Proof. destruct p; cbn; [by rewrite drop_nil|by rewrite drop_0]. Qed.
Lemma readable_chunk p len X v Y : take len (readable p 0) = X ++ v ++ Y →
  take (length v) (readable p (length X)) = v ∧ length v ≤ length (readable p (length X)) ∧
  offset_ok p (length X + length v) = true.
Proof.
  intros H.
  assert (take (length v) (drop (length X) (readable p 0)) = v) as Hv.
  { rewrite -(take_drop len (readable p 0)) H -!app_assoc drop_app take_app. done. }
  assert (length X + length v ≤ length (readable p 0)) as Hl.
  { pose proof (take_length (readable p 0) len) as Hx. rewrite H !app_length in Hx. lia. }
  rewrite readable_drop. split_and!; [done| |].
  - rewrite drop_length. lia.
  - destruct p; cbn in *; apply bool_decide_eq_true; rewrite ?drop_0 in Hl; lia.
Qed.

(** ** What [build] does with the components collected *)
Fixpoint push_given (k : nat) (D : list (ecsid * value)) : M world () :=
  match D with
  | [] => ret ()
  | (c, v) :: D' =>
      let* ocm := get_entity_meta c in
      let* cm := unwrap ocm RUnwrap in
      let* a := get_arch k in
      let* si := unwrap (a_lookup a !! c) RIndex in
      do* in_arch k (in_storage si (uv_push_raw v)) in
      let* n := in_arch k (in_storage si uv_elems_len) in
      do* massert (bool_decide (n = length (a_entities a))) RColumnLength in
      push_given k D'
  end.
Fixpoint create_given (D : list (ecsid * value)) (acc : list (ecsid * uvec)) : M world (list (ecsid * uvec)) :=
  match D with
  | [] => ret acc
  | (c, v) :: D' =>
      let* v' :=
        on_unwind
          (let* ocm := get_entity_meta c in
           let* cm := unwrap ocm RUnwrap in
           match uv_push_raw v (uv_new (cm_type_info (em_comp cm))) with
           | Done _ v' _ => ret v'
           | Panicked r _ _ => panic r
           | Deadlock => deadlock
           | UB => ub
           end)
          (uv_drop_all acc.*2) in
      create_given D' (acc ++ [(c, v')])
  end.
Definition create_arch_given (D : list (ecsid * value)) (e : ecsid) : M world archetype :=
  let* ss := create_given D [] in
  let ids := sort_by ecsid_leb D.*1 in
  let ss' := sort_by storage_leb ss in
  let* lookup := on_unwind (unwrap (index_ids_distinct 0 ids ∅) RDuplicate) (uv_drop_all ss'.*2) in
  do* on_unwind (massert (zip_ids_agree ids ss') RAssert) (uv_drop_all ss'.*2) in
  ret (Archetype lookup [e] ss' ids rc_new).
Definition build_given (D : list (ecsid * value)) (e : ecsid) (meta : component_meta) : M world ecsid :=
  let* found := find_archetype_dynamic D.*1 in
  match found with
  | Some k =>
      do* in_arch k (modify (λ a, a_set_entities (a_entities a ++ [e]) a)) in
      do* push_given k D in
      let* a := get_arch k in
      do* set_entity_meta e (EntMeta (InstMeta k (length (a_entities a) - 1)) meta) in
      ret e
  | None =>
      do* ensure_locks D.*1 in
      let* na := create_arch_given D e in
      let* n := push_archetype na in
      do* set_entity_meta e (EntMeta (InstMeta n 0) meta) in
      ret e
  end.

Lemma blind_deadlock {A} : blind (deadlock (A := A)).
Proof. by intros r w. Qed.
Lemma blind_push_given k D : blind (push_given k D).
Proof.
  induction D as [|[c v] D IH]; cbn [push_given]; [apply blind_ret|]. apply blind_bind; [apply blind_get_entity_meta|intros ocm].
  apply blind_bind; [apply blind_unwrap|intros cm]. apply blind_bind; [apply blind_get_arch|intros a]. blinds.
Qed.
Lemma blind_create_given D acc : blind (create_given D acc).
Proof.
  revert acc. induction D as [|[c v] D IH]; intros acc; cbn [create_given]; [apply blind_ret|]. apply blind_bind; [|intros v'; apply IH].
  apply blind_on_unwind. apply blind_bind; [apply blind_get_entity_meta|intros ocm].
  apply blind_bind; [apply blind_unwrap|intros cm]. destruct (uv_push_raw _ _); [apply blind_ret|apply blind_panic|apply blind_deadlock|apply blind_ub].
Qed.
Lemma blind_build_given D e meta : blind (build_given D e meta).
Proof.
  rewrite /build_given. apply blind_bind; [apply blind_find_archetype|intros [k|]].
  - apply blind_bind; [apply blind_in_arch|intros _]. apply blind_bind; [apply blind_push_given|intros _].
    apply blind_bind; [apply blind_get_arch|intros a]. apply blind_bind; [apply blind_set_entity_meta|intros _]. apply blind_ret.
  - apply blind_bind; [apply blind_ensure_locks|intros _]. apply blind_bind.
    { rewrite /create_arch_given. apply blind_bind; [apply blind_create_given|intros ss]. cbv zeta. blinds. }
    intros na. apply blind_bind; [apply blind_push_archetype|intros n]. apply blind_bind; [apply blind_set_entity_meta|intros _]. apply blind_ret.
Qed.

(** The columns of archetype [k] have the element sizes recorded for the components [D]. *)
Definition fits (w : world) (k : nat) (D : list (ecsid * value)) : Prop :=
  ∀ c, c ∈ D.*1 → ∀ a si s cm, w_archs w !! k = Some a → a_lookup a !! c = Some si →
    a_storages a !! si = Some s → comp_of w c = Some cm → uv_size s.2 = cm_size cm.
Definition sized_comps (w : world) (D : list (ecsid * value)) : Prop :=
  ∀ c v, (c, v) ∈ D → alive (w_ents w) c ∧ ∃ cm, comp_of w c = Some cm ∧ length v = cm_size cm.

Lemma restate_bind {S S' A B} (f : S → S') (m : M S A) (m' : M S' A) (k : A → M S B) (k' : A → M S' B) s s' :
  restate f (m s) = m' s' →
  (∀ a s1 ev, m s = Done a s1 ev → restate f (k a s1) = k' a (f s1)) →
  restate f (bind m k s) = bind m' k' s'.
Proof.
  intros H Hk. rewrite /bind -H. destruct (m s) as [a s1 ev|? ? ?| |]; cbn [restate]; try done.
  rewrite -(Hk a s1 ev) //. by destruct (k a s1).
Qed.
Lemma restate_in_world {A} (m : M world A) b w : restate snd (in_world m (b, w)) = m w.
Proof. rewrite /in_world /on_snd /zoom /=. by destruct (m w). Qed.
Lemma in_world_inv {A} (m : M world A) b w a b1 w1 ev : in_world m (b, w) = Done a (b1, w1) ev → b1 = b ∧ m w = Done a w1 ev.
Proof. rewrite /in_world /on_snd /zoom /=. destruct (m w); [|done..]. by intros [= <- <- <- <-]. Qed.
Lemma restate_unwrap {A} (o : option A) r (b : builder) (w : world) : restate snd (unwrap o r (b, w)) = unwrap (S := world) o r w.
Proof. by destruct o. Qed.
Lemma unwrap_inv {S A} (o : option A) r (s : S) a s1 ev : unwrap o r s = Done a s1 ev → o = Some a ∧ s1 = s.
Proof. destruct o; [|done]. by intros [= <- <-]. Qed.
Lemma restate_massert c r (b : builder) (w : world) : restate snd (massert c r (b, w)) = massert (S := world) c r w.
Proof. by destruct c. Qed.
Lemma massert_state {S} c r (s : S) a s1 ev : massert c r s = Done a s1 ev → s1 = s.
Proof. destruct c; [|done]. by intros [= <-]. Qed.
Lemma restate_on_unwind {A} (m : M bw A) (m' : M world A) c b w :
  restate snd (m (b, w)) = m' w → restate snd (on_unwind m c (b, w)) = on_unwind m' c w.
Proof. intros H. rewrite /on_unwind -H. destruct (m (b, w)); try done. cbn. by destruct c. Qed.
Lemma get_arch_inv k w a w1 ev : get_arch k w = Done a w1 ev → w_archs w !! k = Some a ∧ w1 = w.
Proof.
  rewrite /get_arch (bind_done_nil _ _ w (w_archs w !! k) w eq_refl). intros H. by apply unwrap_inv in H.
Qed.
Lemma get_meta_inv c w o w1 ev : get_entity_meta c w = Done o w1 ev → w1 = w ∧ (alive (w_ents w) c → o = meta_at w (uindex c)).
Proof.
  intros H. pose proof (get_entity_meta_cases w c) as Hc. rewrite H in Hc. destruct Hc as (-> & -> & lv & El & Ho).
  split; [done|]. intros Hal. rewrite (get_entity_meta_alive _ _ Hal) in H. by injection H as <-.
Qed.

(** The search changes nothing. *)
Lemma find_sized_state fuel n w : ∀ it o w1 ev, find_sized fuel it n w = Done o w1 ev → w1 = w.
Proof.
  induction fuel as [|fuel IH]; intros it o w1 ev; cbn [find_sized]; [done|].
  destruct (bi_next it) as [[[idx|] it']|]; [|by intros [= _ <- _]|done].
  intros (a & w2 & e1 & e2 & [_ ->]%get_arch_inv & Hk & ->)%bind_done_inv. case_decide; [by injection Hk|by eapply IH].
Qed.
Lemma search_state ids n w o w1 ev : search ids n w = Done o w1 ev → w1 = w.
Proof.
  rewrite /search (bind_done_nil _ _ w (w_bitset w) w eq_refl). destruct (min_bit_length _ _ _); [|by intros [= _ <- _]].
  intros (is_ & w2 & e1 & e2 & [_ ->]%unwrap_inv & Hk & ->)%bind_done_inv. by eapply find_sized_state.
Qed.
Lemma find_archetype_state ids w o w1 ev : find_archetype_dynamic ids w = Done o w1 ev → w1 = w.
Proof.
  rewrite /find_archetype_dynamic (bind_done_nil _ _ w (w_archs w) w eq_refl). case_decide; [|apply search_state].
  intros (a & w2 & e1 & e2 & [_ ->]%get_arch_inv & Hk & ->)%bind_done_inv.
  apply bind_done_inv in Hk as ([] & w3 & e3 & e4 & ->%massert_state & Hk & ->). by injection Hk.
Qed.
Lemma ensure_locks_state ids : ∀ w a w1 ev, ensure_locks ids w = Done a w1 ev → w_ents w1 = w_ents w ∧ w_meta w1 = w_meta w.
Proof.
  induction ids as [|c ids IH]; intros w a w1 ev; cbn [ensure_locks]; [by intros [= _ <- _]|].
  intros ([] & w2 & e1 & e2 & Hl & Hk & ->)%bind_done_inv. apply IH in Hk as [-> ->]. injection Hl as <- _.
  by destruct (w_lock_lookup w !! c).
Qed.
Lemma build_push_builder k ids : ∀ off b w a b1 w1 ev, build_push k ids off (b, w) = Done a (b1, w1) ev → b1 = b.
Proof.
  induction ids as [|c ids IH]; intros off b w a b1 w1 ev; cbn [build_push]; [by intros [= _ <- _ _]|].
  intros (ocm & [b2 w2] & e1 & e2 & [-> _]%in_world_inv & Hk & ->)%bind_done_inv.
  apply bind_done_inv in Hk as (cm & s2 & e3 & e4 & [_ ->]%unwrap_inv & Hk & ->).
  apply bind_done_inv in Hk as (ar & [b3 w3] & e5 & e6 & [-> _]%in_world_inv & Hk & ->).
  apply bind_done_inv in Hk as (si & s3 & e7 & e8 & [_ ->]%unwrap_inv & Hk & ->).
  rewrite (bind_done_nil _ _ (b, w3) b (b, w3) eq_refl) in Hk.
  apply bind_done_inv in Hk as ([] & [b4 w4] & e9 & e10 & [-> _]%in_world_inv & Hk & ->). cbv zeta in Hk.
  destruct (offset_ok _ _); [|done].
  apply bind_done_inv in Hk as (n & [b5 w5] & e11 & e12 & [-> _]%in_world_inv & Hk & ->).
  apply bind_done_inv in Hk as ([] & s4 & e13 & e14 & ->%massert_state & Hk & ->). by eapply IH.
Qed.

Lemma build_push_given k b len : ∀ D X w, take len (readable (eb_data b) 0) = X ++ concat D.*2 →
  sized_comps w D → fits w k D →
  restate snd (build_push k D.*1 (length X) (b, w)) = push_given k D w.
Proof.
  induction D as [|[c v] D IH]; intros X w Hmem Hc Hf; cbn [fmap list_fmap build_push push_given fst]; [done|].
  cbn [fmap list_fmap concat snd] in Hmem. destruct (readable_chunk _ _ _ _ _ Hmem) as (Hch & Hchl & Hoff).
  destruct (Hc c v) as (Hal & cm & Hcm & Hv); [by left|].
  apply restate_bind; [apply restate_in_world|]. intros ocm [b1 w1] ev (-> & Hm)%in_world_inv. cbn [snd].
  destruct (get_meta_inv _ _ _ _ _ Hm) as [-> Ho]. rewrite (Ho Hal).
  apply restate_bind; [apply restate_unwrap|]. intros em s1 ev1 (Hem & ->)%unwrap_inv. cbn [snd].
  assert (em_comp em = cm) as Hemc. { rewrite /comp_of Hem /= in Hcm. by injection Hcm. }
  apply restate_bind; [apply restate_in_world|]. intros a [b2 w2] ev2 (-> & [Ha ->]%get_arch_inv)%in_world_inv. cbn [snd].
  apply restate_bind; [apply restate_unwrap|]. intros si s1 ev3 (Hsi & ->)%unwrap_inv. cbn [snd].
  rewrite (bind_done_nil _ _ (b, w) b (b, w) eq_refl).
  assert (in_arch k (in_storage si (uv_push_raw (readable (eb_data b) (length X)))) w =
          in_arch k (in_storage si (uv_push_raw v)) w) as Heq.
  { rewrite /in_arch /zoom Ha. f_equal. rewrite /in_storage /zoom. destruct (a_storages a !! si) as [s|] eqn:Hs; [|done]. cbn [fmap option_fmap option_map].
    rewrite (uv_push_prefix _ v); [done| | |].
    - rewrite (Hf c ltac:(by left) a si s cm Ha Hsi Hs Hcm) -Hv Hch. by rewrite firstn_all.
    - rewrite (Hf c ltac:(by left) a si s cm Ha Hsi Hs Hcm) -Hv. done.
    - rewrite (Hf c ltac:(by left) a si s cm Ha Hsi Hs Hcm) -Hv. done. }
  apply restate_bind. { by rewrite restate_in_world. }
  intros [] [b2 w2] ev4 [-> Hrun]%in_world_inv. cbn [snd]. rewrite Heq in Hrun.
  assert (w_ents w2 = w_ents w ∧ w_meta w2 = w_meta w ∧ fits w2 k D) as (He2 & Hm2 & Hf2).
  { rewrite /in_arch /zoom Ha /in_storage /zoom in Hrun. destruct (a_storages a !! si) as [[si' sv]|] eqn:Hs; [|done].
    cbn [fmap option_fmap option_map snd] in Hrun. destruct (uv_push_raw v sv) as [[] v' ev'|? ? ?| |] eqn:Hp; [|done..].
    injection Hrun as <- <-. split_and!; [done..|]. intros c' Hc' a' si0 s' cm' Ha' Hl' Hs' Hcm'. cbn in Ha'.
    rewrite list_lookup_insert in Ha'; [|by eapply lookup_lt_Some]. injection Ha' as <-. cbn in Hl', Hs'.
    change (comp_of w c' = Some cm') in Hcm'. assert (c' ∈ c :: D.*1) as Hin by by right.
    destruct (decide (si0 = si)) as [->|Hne].
    - rewrite list_lookup_alter Hs /= in Hs'. injection Hs' as <-. cbn. rewrite /uv_size (uv_push_ti _ _ _ _ _ Hp).
      exact (Hf c' Hin a si (si', sv) cm' Ha Hl' Hs Hcm').
    - rewrite list_lookup_alter_ne // in Hs'. exact (Hf c' Hin a si0 s' cm' Ha Hl' Hs' Hcm'). }
  rewrite Hemc -Hv Hoff.
  apply restate_bind; [apply restate_in_world|]. intros n [b2' w3] ev5 [-> Hrun2]%in_world_inv. cbn [snd].
  assert (w_ents w3 = w_ents w2 ∧ w_meta w3 = w_meta w2 ∧ fits w3 k D) as (He3 & Hm3 & Hf3).
  { rewrite /in_arch /zoom in Hrun2. destruct (w_archs w2 !! k) as [a2|] eqn:Ha2; [|done].
    rewrite /in_storage /zoom in Hrun2. destruct (a_storages a2 !! si) as [[si' sv]|] eqn:Hs; [|done].
    cbn [fmap option_fmap option_map snd] in Hrun2. destruct (uv_elems_len sv) as [n' v' ev'|? ? ?| |] eqn:Hp; [|done..].
    assert (v' = sv) as ->.
    { rewrite /uv_elems_len (bind_done_nil _ _ sv sv sv eq_refl) in Hp. case_decide; [by injection Hp|].
      apply bind_done_inv in Hp as ([] & v1 & e1 & e2 & Hm1 & Hk & ->). apply massert_state in Hm1 as ->. by injection Hk. }
    injection Hrun2 as <- <- <-. split_and!; [done..|]. intros c' Hc' a' si0 s' cm' Ha' Hl' Hs' Hcm'. cbn in Ha'.
    rewrite list_lookup_insert in Ha'; [|by eapply lookup_lt_Some]. injection Ha' as <-. cbn in Hl', Hs'.
    change (comp_of w2 c' = Some cm') in Hcm'.
    destruct (decide (si0 = si)) as [->|Hne].
    - rewrite list_lookup_alter Hs /= in Hs'. injection Hs' as <-. exact (Hf2 c' Hc' a2 si (si', sv) cm' Ha2 Hl' Hs Hcm').
    - rewrite list_lookup_alter_ne // in Hs'. exact (Hf2 c' Hc' a2 si0 s' cm' Ha2 Hl' Hs' Hcm'). }
  apply restate_bind; [apply restate_massert|]. intros [] s3 ev6 ->%massert_state. cbn [snd].
  rewrite -app_length. apply IH; [by rewrite -app_assoc| |done].
  intros c' v' Hin. rewrite He3 He2. rewrite /comp_of /meta_at Hm3 Hm2. apply Hc. by right.
Qed.
Lemma create_storages_given b len : ∀ D X acc w, take len (readable (eb_data b) 0) = X ++ concat D.*2 →
  sized_comps w D →
  create_storages D.*1 (length X) acc (b, w) = restate (λ w, (b, w)) (create_given D acc w).
Proof.
  induction D as [|[c v] D IH]; intros X acc w Hmem Hc; cbn [fmap list_fmap create_storages create_given fst]; [done|].
  cbn [fmap list_fmap concat snd] in Hmem. destruct (readable_chunk _ _ _ _ _ Hmem) as (Hch & Hchl & Hoff).
  destruct (Hc c v) as (Hal & cm & Hcm & Hv); [by left|].
  rewrite /comp_of in Hcm. destruct (meta_at w (uindex c)) as [em|] eqn:Hem; [|done]. injection Hcm as Hemc.
  assert (uv_size (uv_new (cm_type_info (em_comp em))) = length v) as Hsz by by rewrite Hv -Hemc.
  match goal with |- bind ?m1 _ _ = restate _ (bind ?m2 _ _) => 
    assert (m1 (b, w) = match uv_push_raw v (uv_new (cm_type_info (em_comp em))) with
      | Done _ v' _ => Done (v', length X + length v) (b, w) []
      | Panicked r _ _ => match uv_drop_all acc.*2 with Some ev => Panicked r (b, w) ev | None => UB end
      | Deadlock => Deadlock | UB => UB end) as E1;
    [|assert (m2 w = match uv_push_raw v (uv_new (cm_type_info (em_comp em))) with
      | Done _ v' _ => Done v' w []
      | Panicked r _ _ => match uv_drop_all acc.*2 with Some ev => Panicked r w ev | None => UB end
      | Deadlock => Deadlock | UB => UB end) as E2]
  end.
  - rewrite /on_unwind.
    rewrite (bind_done_nil _ _ (b, w) (Some em) (b, w)); [|by rewrite /in_world /on_snd /zoom /= (get_entity_meta_alive _ _ Hal) Hem].
    cbn [unwrap]. rewrite (bind_done_nil _ _ (b, w) em (b, w) eq_refl) (bind_done_nil _ _ (b, w) b (b, w) eq_refl). cbv zeta.
    rewrite (uv_push_prefix _ v); [|rewrite Hsz Hch; by rewrite firstn_all|by rewrite Hsz|by rewrite Hsz].
    rewrite Hemc -Hv Hoff. by destruct (uv_push_raw v (uv_new (cm_type_info cm))).
  - rewrite /on_unwind. rewrite (bind_done_nil _ _ w (Some em) w); [|by rewrite (get_entity_meta_alive _ _ Hal) Hem].
    cbn [unwrap]. rewrite (bind_done_nil _ _ w em w eq_refl). by destruct (uv_push_raw v (uv_new (cm_type_info (em_comp em)))).
  - unfold bind. rewrite E1 E2. destruct (uv_push_raw v _) as [[] v' ev'|? ? ?| |]; [|by destruct (uv_drop_all _)|done..].
    cbn [fst snd]. rewrite !add_events_nil -app_length. apply IH; [by rewrite -app_assoc|]. intros c' v0 Hin. apply Hc. by right.
Qed.
Lemma create_arch_given_eq b w D : pending w b D →
  restate snd (create_archetype (b, w)) = create_arch_given D (eb_entity b) w.
Proof.
  intros [P1 P2 P3 P4]. rewrite /create_archetype (bind_done_nil _ _ (b, w) b (b, w) eq_refl). rewrite /create_arch_given.
  pose proof (create_storages_given b (eb_len b) D [] [] w P3 P4) as Hss. cbn [length] in Hss.
  apply restate_bind. { rewrite P1 Hss. by destruct (create_given D [] w). }
  intros ss [b1 w1] ev Hrun. rewrite P1 Hss in Hrun.
  assert (b1 = b) as ->. { destruct (create_given D [] w); [|done..]. by injection Hrun. } clear Hrun. cbn [snd].
  set (b1 := set_ids (sort_by ecsid_leb (eb_ids b)) b).
  rewrite (bind_done_nil _ _ (b, w1) () (b1, w1) eq_refl). cbv zeta.
  rewrite (bind_done_nil _ _ (b1, w1) (sort_by ecsid_leb D.*1) (b1, w1)); [|by rewrite /gets /= P1].
  apply restate_bind. { apply restate_on_unwind. apply restate_unwrap. }
  intros lk s1 ev1 Hrun. assert (s1 = (b1, w1)) as ->.
  { rewrite /on_unwind in Hrun. destruct (index_ids_distinct _ _ _); [by injection Hrun|]. cbn in Hrun. by destruct (uv_drop_all _). }
  cbn [snd]. apply restate_bind. { apply restate_on_unwind. apply restate_massert. }
  intros [] s1 ev2 Hrun2. assert (s1 = (b1, w1)) as ->.
  { rewrite /on_unwind in Hrun2. destruct (zip_ids_agree _ _); [by injection Hrun2|]. cbn in Hrun2. by destruct (uv_drop_all _). }
  done.
Qed.
Lemma build_given_eq b w D : pending w b D → (∀ k, fits w k D) →
  restate snd (build (b, w)) = build_given D (eb_entity b) (eb_meta b) w.
Proof.
  intros Hp Hf. pose proof Hp as [P1 P2 P3 P4]. rewrite /build (bind_done_nil _ _ (b, w) b (b, w) eq_refl). rewrite /build_given P1.
  apply restate_bind; [apply restate_in_world|]. intros found [b1 w1] ev [-> Hfind]%in_world_inv. cbn [snd].
  assert (w1 = w) as ->. { eapply find_archetype_state. exact Hfind. }
  destruct found as [k|].
  - apply restate_bind; [apply restate_in_world|]. intros [] [b1 w1] ev1 [-> Hrun]%in_world_inv. cbn [snd].
    rewrite /in_arch /zoom in Hrun. destruct (w_archs w !! k) as [a|] eqn:Ha; [|done]. injection Hrun as <- <-.
    set (w1 := set_archs _ w). apply restate_bind.
    { apply (build_push_given k b (eb_len b) D []); [done|done|]. intros c Hc a' si s cm Ha' Hl Hs Hcm. cbn in Ha'.
      rewrite list_lookup_insert in Ha'; [|by eapply lookup_lt_Some]. injection Ha' as <-. exact (Hf k c Hc a si s cm Ha Hl Hs Hcm). }
    intros [] [b2 w2] ev2 Hrun2. cbn [snd].
    assert (b2 = b) as ->. { eapply build_push_builder. exact Hrun2. }
    apply restate_bind; [apply restate_in_world|]. intros a2 [b2 w3] ev3 [-> Hrun3]%in_world_inv. cbn [snd].
    apply restate_bind; [apply restate_in_world|]. intros [] [b2 w4] ev4 [-> Hrun4]%in_world_inv. done.
  - apply restate_bind; [apply restate_in_world|]. intros [] [b1 w1] ev1 [-> Hrun]%in_world_inv. cbn [snd].
    assert (pending w1 b D) as Hp1. { pose proof (ensure_locks_state _ _ _ _ _ Hrun) as (E1 & E2). constructor; [done..|].
      intros c v Hin. rewrite E1 /comp_of /meta_at E2. by apply P4. }
    apply restate_bind; [by apply create_arch_given_eq|]. intros na [b2 w2] ev2 Hrun2. cbn [snd].
    apply restate_bind; [apply restate_in_world|]. intros n [b3 w3] ev3 [-> Hrun3]%in_world_inv. cbn [snd].
    apply restate_bind; [apply restate_in_world|]. intros [] [b4 w4] ev4 [-> Hrun4]%in_world_inv. done.
Qed.
