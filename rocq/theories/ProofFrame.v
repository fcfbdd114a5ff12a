(** * Changing parts of the world under the invariant *)
From Verif Require Import ProofBase SpecSmall World History ProofEntities ProofBitset ProofArrayVec ProofUVec.
From Verif Require Export ProofWInv.

(** ** Rebuilding the invariant when tables, rows and metadata change but the component sets
    of the archetypes do not *)
Lemma winv_rows_change w R w' R' :
  winv w R →
  arch_ids w' = arch_ids w →
  w_bitset w' = w_bitset w → w_entbits w' = w_entbits w →
  w_lock_lookup w' = w_lock_lookup w → w_locks w' = w_locks w → w_types w' = w_types w → w_reuse w' = w_reuse w →
  ents_wf (w_ents w') →
  length R' = length R →
  (∀ k a, w_archs w' !! k = Some a → arch_shape a ∧ cache_ok (arch_ids w) a) →
  (∀ k a rs, w_archs w' !! k = Some a → R' !! k = Some rs → arch_rows (comp_of w') a rs) →
  (∀ k L c, arch_ids w !! k = Some L → c ∈ L → alive (w_ents w') c ∧ is_Some (comp_of w' c)) →
  (∀ k i rs e m, R' !! k = Some rs → rs !! i = Some (e, m) →
    alive (w_ents w') e ∧ em_inst <$> meta_at w' (uindex e) = Some (InstMeta k i)) →
  (∀ i em, meta_at w' i = Some em →
    ∃ rs e m, R' !! im_arch (em_inst em) = Some rs ∧ rs !! im_index (em_inst em) = Some (e, m) ∧ uindex e = i) →
  (∀ i em, meta_at w' i = Some em → layout_wf (cm_layout (em_comp em))) →
  (∀ t c, w_types w !! t = Some c →
    ∃ b g, generations (w_ents w') !! uindex c = Some (b, g) ∧
      if b : bool then g = id_gen c → comp_of w' c = Some (cm_from_generic t)
      else wrap32 (g + 1) ≠ id_gen c) →
  winv w' R'.
Proof.
  intros Hw Hids Hbs Heb Hll Hlk Hty Hre Hents HlR Hsh Hrows Hcomps Hrow Hmeta Hlay Htypes.
  assert (length (w_archs w') = length (w_archs w)) as Hlen by by rewrite -!arch_ids_length Hids.
  constructor.
  - done.
  - by rewrite HlR (wi_len _ _ Hw) Hlen.
  - intros k a Ha. by apply (Hsh k a).
  - done.
  - intros k a Ha. rewrite Hids. by apply (Hsh k a).
  - intros k L c. rewrite Hids Hll. intros HL Hc. destruct (Hcomps k L c HL Hc) as [? ?]. split_and!; [done..|].
    by eapply wi_comps.
  - rewrite Hids. apply (wi_distinct _ _ Hw).
  - rewrite Hids. apply (wi_zero _ _ Hw).
  - rewrite Hbs Hlen. apply (wi_bitset _ _ Hw).
  - rewrite Hbs Hids. apply (wi_bits _ _ Hw).
  - rewrite Heb Hlen. apply (wi_entbits _ _ Hw).
  - done.
  - done.
  - done.
  - rewrite Hll Hlk. apply (wi_locks _ _ Hw).
  - rewrite Hll. apply (wi_locks_inj _ _ Hw).
  - intros t c. rewrite Hty. intros Htc. destruct (wi_types _ _ Hw _ _ Htc) as (? & ? & _). split_and!; [done..|].
    by apply Htypes.
  - rewrite Hty. apply (wi_types_inj _ _ Hw).
  - rewrite Hre. apply (wi_reuse _ _ Hw).
Qed.

(** The same when the entities and metadata are left alone, up to the place of the rows. *)
Lemma winv_rows_move w R w' R' :
  winv w R →
  arch_ids w' = arch_ids w → w_ents w' = w_ents w →
  w_bitset w' = w_bitset w → w_entbits w' = w_entbits w →
  w_lock_lookup w' = w_lock_lookup w → w_locks w' = w_locks w → w_types w' = w_types w → w_reuse w' = w_reuse w →
  (∀ i, em_comp <$> meta_at w' i = em_comp <$> meta_at w i) →
  length R' = length R →
  (∀ k a, w_archs w' !! k = Some a → arch_shape a ∧ cache_ok (arch_ids w) a) →
  (∀ k a rs, w_archs w' !! k = Some a → R' !! k = Some rs → arch_rows (comp_of w) a rs) →
  (∀ k i rs e m, R' !! k = Some rs → rs !! i = Some (e, m) →
    alive (w_ents w) e ∧ em_inst <$> meta_at w' (uindex e) = Some (InstMeta k i)) →
  (∀ i em, meta_at w' i = Some em →
    ∃ rs e m, R' !! im_arch (em_inst em) = Some rs ∧ rs !! im_index (em_inst em) = Some (e, m) ∧ uindex e = i) →
  winv w' R'.
Proof.
  intros Hw Hids Hents Hbs Heb Hll Hlk Hty Hre Hem HlR Hsh Hrows Hrow Hmeta.
  assert (∀ c, comp_of w' c = comp_of w c) as Hcomp by (intros c; apply Hem).
  eapply winv_rows_change; try done.
  - rewrite Hents. apply (wi_ents _ _ Hw).
  - intros k a rs Ha Hrs. destruct (Hrows k a rs Ha Hrs) as [H1 H2 H3]. constructor; [done| |done].
    intros c v Hcv. rewrite Hcomp. by apply H2.
  - intros k L c HL Hc. rewrite Hents Hcomp. by destruct (wi_comps _ _ Hw _ _ _ HL Hc) as (? & ? & _).
  - rewrite Hents. done.
  - intros i em Hem'. specialize (Hem i). rewrite Hem' /= in Hem. symmetry in Hem.
    apply fmap_Some in Hem as (em0 & Hem0 & ->). by eapply wi_layout.
  - intros t c Htc. destruct (wi_types _ _ Hw _ _ Htc) as (_ & _ & b & g & Hg & Hb). rewrite Hents Hcomp. eauto.
Qed.

(** ** Writing to the cache of an archetype *)
Lemma arch_ids_insert w k a a' : w_archs w !! k = Some a → a_comp_ids a' = a_comp_ids a →
  arch_ids (set_archs (<[k := a']> (w_archs w)) w) = arch_ids w.
Proof.
  intros Ha Heq. rewrite /arch_ids /= list_fmap_insert Heq. apply list_insert_id.
  by rewrite list_lookup_fmap Ha.
Qed.
Lemma winv_cache_change w R k a s :
  winv w R → w_archs w !! k = Some a → rc_inv s →
  (∀ c j, rc_lookup s !! c = Some j → ∃ L', arch_ids w !! j = Some L' ∧ toggle c (a_comp_ids a) L') →
  winv (set_archs (<[k := a_set_cache s a]> (w_archs w)) w) R.
Proof.
  intros Hw Ha Hs Hc. assert (k < length (w_archs w)) as Hk by by eapply lookup_lt_Some.
  eapply winv_rows_move; try done.
  - by eapply arch_ids_insert.
  - intros k' a'. simpl. rewrite list_lookup_insert_Some.
    intros [(-> & <- & _)|(_ & Ha')]; [|split; [by eapply wi_shape|by eapply wi_cache]].
    destruct (wi_shape _ _ Hw _ _ Ha) as [H1 H2 H3 H4]. split; [by constructor|]. done.
  - intros k' a' rs. simpl. rewrite list_lookup_insert_Some.
    intros [(-> & <- & _)|(_ & Ha')]; [|by apply (wi_rows _ _ Hw)].
    intros Hrs. by destruct (wi_rows _ _ Hw _ _ _ Ha Hrs) as [H1 H2 H3].
  - apply (wi_row _ _ Hw).
  - apply (wi_meta _ _ Hw).
Qed.

(** ** A lock for a component *)
Definition lock_world (c : ecsid) (w : world) : world :=
  match w_lock_lookup w !! c with
  | Some _ => w
  | None => set_locks (w_locks w ++ [rw_new]) (set_lock_lookup (<[c := length (w_locks w)]> (w_lock_lookup w)) w)
  end.
Lemma ensure_lock_run c w : ensure_lock c w = Done () (lock_world c w) [].
Proof. rewrite /ensure_lock /modify /lock_world. done. Qed.
Lemma winv_lock c w R : winv w R → winv (lock_world c w) R ∧ is_Some (w_lock_lookup (lock_world c w) !! c).
Proof.
  intros Hw. rewrite /lock_world. destruct (w_lock_lookup w !! c) as [i|] eqn:E; [rewrite E; eauto|].
  simpl. rewrite lookup_insert. split; [|eauto].
  assert (∀ c' i, w_lock_lookup w !! c' = Some i → i < length (w_locks w)) as Hb by apply (wi_locks _ _ Hw).
  constructor; try apply Hw.
  - intros k L d HL Hd. destruct (wi_comps _ _ Hw k L d HL Hd) as (? & ? & ?). split_and!; [done..|]. simpl.
    destruct (decide (c = d)) as [->|]; [rewrite lookup_insert|rewrite lookup_insert_ne]; eauto.
  - intros c' i. simpl. rewrite app_length /=. rewrite lookup_insert_Some. intros [[<- <-]|[_ Hi]]; [lia|].
    specialize (Hb _ _ Hi). lia.
  - intros c1 c2 i. simpl. rewrite !lookup_insert_Some.
    intros [[<- <-]|[_ Hi]] [[<- ?]|[_ Hi']]; simplify_eq; try done.
    + specialize (Hb _ _ Hi'). lia.
    + specialize (Hb _ _ Hi). lia.
    + eapply wi_locks_inj; [exact Hw|exact Hi|exact Hi'].
Qed.
(** Everything but the locks is unchanged. *)
Definition same_but_locks (w w' : world) : Prop :=
  w_archs w' = w_archs w ∧ w_bitset w' = w_bitset w ∧ w_entbits w' = w_entbits w ∧ w_ents w' = w_ents w ∧
  w_meta w' = w_meta w ∧ w_types w' = w_types w ∧ w_reuse w' = w_reuse w ∧
  (∀ c i, w_lock_lookup w !! c = Some i → w_lock_lookup w' !! c = Some i ∧ w_locks w' !! i = w_locks w !! i).
Lemma same_but_locks_refl w : same_but_locks w w.
Proof. rewrite /same_but_locks. split_and!; done. Qed.
Lemma same_but_locks_trans w1 w2 w3 : same_but_locks w1 w2 → same_but_locks w2 w3 → same_but_locks w1 w3.
Proof.
  rewrite /same_but_locks. intros (?&?&?&?&?&?&?&HA) (?&?&?&?&?&?&?&HB). split_and!; try congruence.
  intros c i Hc. destruct (HA c i Hc) as [Hc2 E]. destruct (HB c i Hc2) as [? E2]. split; [done|congruence].
Qed.
Lemma lock_world_same c w R : winv w R → same_but_locks w (lock_world c w).
Proof.
  intros Hw. rewrite /lock_world. destruct (w_lock_lookup w !! c) eqn:E; [apply same_but_locks_refl|].
  rewrite /same_but_locks /=. split_and!; try done. intros c' i Hi.
  rewrite lookup_insert_ne; [|congruence]. split; [done|]. apply lookup_app_l. by eapply wi_locks.
Qed.

(** ** Registering an archetype *)
Lemma bs_set_bit_ok bs c n v bs' : Forall (bv_ok (S n)) bs → bs_set_bit bs c n v = Some bs' → Forall (bv_ok (S n)) bs'.
Proof.
  intros Hbs Hs. pose proof (bs_set_bit_len _ _ _ _ _ (bv_ok_wf _ _ Hbs) Hs) as Hlen.
  destruct (bs_set_bit_spec bs c n v (bv_ok_wf _ _ Hbs)) as (bs1 & Hs' & Hwf & _). rewrite Hs in Hs'. injection Hs' as <-.
  apply Forall_lookup. intros i b Hb. split; [by eapply Forall_lookup_1 in Hb|].
  specialize (Hlen i). rewrite /bs_len Hb in Hlen. rewrite Hlen.
  assert (match bs !! i with Some b => bv_len b | None => 0 end ≤ S n) as Hle.
  { destruct (bs !! i) as [b0|] eqn:E; [|lia]. by apply (Forall_lookup_1 _ _ _ _ Hbs) in E as [_ ?]. }
  case_decide; lia.
Qed.
Lemma set_arch_bits_run ids n w : Forall (bv_ok (S n)) (w_bitset w) →
  ∃ bs, set_arch_bits ids n w = Done () (set_bitset bs w) [] ∧ Forall (bv_ok (S n)) bs ∧
    ∀ i k, bs_bit bs i k = true ↔ bs_bit (w_bitset w) i k = true ∨ (k = n ∧ ∃ c, c ∈ ids ∧ uindex c = i).
Proof.
  revert w. induction ids as [|c ids IH]; intros w Hbs; cbn [set_arch_bits].
  { exists (w_bitset w). split_and!; [by destruct w|done|]. intros i k. split; [by left|].
    intros [?|(_ & c & ?%elem_of_nil & _)]; done. }
  rewrite (bind_done_nil _ _ w (bs_set_bit (w_bitset w) c n true) w eq_refl).
  pose proof (bv_ok_wf _ _ Hbs) as Hbs'.
  destruct (bs_set_bit_spec (w_bitset w) c n true Hbs') as (bs1 & Hs & Hwf1 & _). rewrite Hs.
  cbn [unwrap]. rewrite (bind_done_nil _ _ w bs1 w eq_refl) (bind_done_nil _ _ w () (set_bitset bs1 w) eq_refl).
  destruct (IH (set_bitset bs1 w)) as (bs & Hrun & Hwf & Hbits); [by eapply bs_set_bit_ok|].
  exists bs. split_and!; [done|done|]. intros i k. rewrite Hbits /=.
  rewrite (bs_set_bit_bits _ _ _ _ _ Hbs' Hs). split.
  - intros [H|(-> & d & Hd & Hu)].
    + case_decide as Hd; [|by left]. destruct Hd as [-> ->]. right. split; [done|]. exists c. split; [left|done].
    + right. split; [done|]. exists d. split; [by right|done].
  - intros [H|(-> & d & [->|Hd]%elem_of_cons & Hu)].
    + left. by case_decide.
    + left. by rewrite decide_True.
    + right. split; [done|]. eauto.
Qed.
Lemma push_archetype_run a w R : winv w R →
  ∃ bs eb, push_archetype a w = Done (length (w_archs w)) (set_archs (w_archs w ++ [a]) (set_entbits eb (set_bitset bs w))) [] ∧
    Forall (bv_ok (S (length (w_archs w)))) bs ∧
    (∀ i k, bs_bit bs i k = true ↔ bs_bit (w_bitset w) i k = true ∨
       (k = length (w_archs w) ∧ ∃ c, c ∈ a_comp_ids a ∧ uindex c = i)) ∧
    bv_wf eb ∧ bv_len eb = S (length (w_archs w)) ∧ (∀ k, k ≤ length (w_archs w) → bit_of (bv_data eb) k = true).
Proof.
  intros Hw. rewrite /push_archetype (bind_done_nil _ _ w (length (w_archs w)) w eq_refl).
  destruct (set_arch_bits_run (a_comp_ids a) (length (w_archs w)) w) as (bs & Hrun & Hwf & Hbits).
  { eapply Forall_impl; [apply (wi_bitset _ _ Hw)|]. intros b [? ?]. split; [done|lia]. }
  rewrite (bind_done_nil _ _ _ _ _ Hrun). set (w1 := set_bitset bs w).
  rewrite (bind_done_nil _ _ w1 (bv_push_bit (w_entbits w1) true) w1 eq_refl).
  destruct (wi_entbits _ _ Hw) as (Heb & Hlen & Hset).
  destruct (bv_set_bit_spec (w_entbits w) (bv_len (w_entbits w)) true Heb) as (eb & Hs & Hebwf & Hlen' & Hbit).
  change (w_entbits w1) with (w_entbits w). rewrite /bv_push_bit Hs. exists bs, eb. split_and!; try done.
  - rewrite Hlen' Hlen. lia.
  - intros k Hk. rewrite Hbit Hlen. case_decide; [done|]. apply Hset. lia.
Qed.

(** The invariant after registering an archetype holding the rows [rs], the metadata list
    having become [M]. *)
Lemma winv_push w R a rs bs eb M :
  winv w R →
  let w' := set_meta M (set_archs (w_archs w ++ [a]) (set_entbits eb (set_bitset bs w))) in
  let n := length (w_archs w) in
  Forall (bv_ok (S n)) bs →
  (∀ i k, bs_bit bs i k = true ↔ bs_bit (w_bitset w) i k = true ∨ (k = n ∧ ∃ c, c ∈ a_comp_ids a ∧ uindex c = i)) →
  bv_wf eb → bv_len eb = S n → (∀ k, k ≤ n → bit_of (bv_data eb) k = true) →
  arch_shape a → cache_ok (arch_ids w ++ [a_comp_ids a]) a →
  arch_rows (comp_of w') a rs →
  (∀ c, c ∈ a_comp_ids a → alive (w_ents w) c ∧ is_Some (comp_of w c) ∧ is_Some (w_lock_lookup w !! c)) →
  (∀ k, arch_ids w !! k ≠ Some (a_comp_ids a)) →
  (n = 0 → a_comp_ids a = []) →
  (∀ i em, meta_at w i = Some em → meta_at w' i = Some em) →
  (∀ i em, meta_at w' i = Some em → meta_at w i = Some em ∨
     (layout_wf (cm_layout (em_comp em)) ∧ im_arch (em_inst em) = n ∧
      ∃ e m, rs !! im_index (em_inst em) = Some (e, m) ∧ uindex e = i)) →
  (∀ j e m, rs !! j = Some (e, m) → alive (w_ents w) e ∧ em_inst <$> meta_at w' (uindex e) = Some (InstMeta n j)) →
  winv w' (R ++ [rs]).
Proof.
  intros Hw w' n Hbs Hbits Heb Hebl Hebb Hsh Hcache Har Hcomps Hnew Hzero Hmono Hinv Hrs.
  assert (length R = n) as HlR by apply (wi_len _ _ Hw).
  assert (length (arch_ids w) = n) as Hli by apply arch_ids_length.
  assert (arch_ids w' = arch_ids w ++ [a_comp_ids a]) as Hids by by rewrite /arch_ids /w' /= fmap_app.
  assert (∀ k L, arch_ids w' !! k = Some L ↔ arch_ids w !! k = Some L ∨ (k = n ∧ L = a_comp_ids a)) as HidsL.
  { intros k L. rewrite Hids lookup_app_Some Hli. split.
    - intros [?|[Hk H]]; [by left|]. right. apply list_lookup_singleton_Some in H as [? <-]. split; [lia|done].
    - intros [?|[-> ->]]; [by left|]. right. rewrite Nat.sub_diag. done. }
  assert (∀ k x, w_archs w' !! k = Some x → w_archs w !! k = Some x ∨ (k = n ∧ x = a)) as HA.
  { intros k x. rewrite /w' /= lookup_app_Some. intros [?|[Hk H]]; [by left|]. right.
    apply list_lookup_singleton_Some in H as [? <-]. split; [rewrite /n; lia|done]. }
  assert (∀ k x, (R ++ [rs]) !! k = Some x → (R !! k = Some x ∧ k < n) ∨ (k = n ∧ x = rs)) as HR.
  { intros k x. rewrite lookup_app_Some. intros [Hx|[Hk H]].
    - left. split; [done|]. apply lookup_lt_Some in Hx. lia.
    - right. apply list_lookup_singleton_Some in H as [? <-]. split; [lia|done]. }
  assert (∀ c cm, comp_of w c = Some cm → comp_of w' c = Some cm) as Hcomp.
  { intros c cm. rewrite /comp_of. intros (em & Hem & ->)%fmap_Some. by rewrite (Hmono _ _ Hem). }
  constructor.
  - apply (wi_ents _ _ Hw).
  - by rewrite /w' /= !app_length /= (wi_len _ _ Hw).
  - intros k x [Hx|[_ ->]]%HA; [by eapply wi_shape|done].
  - intros k x rs' Hx Hrs'. apply HR in Hrs' as [[Hrs' Hk]|[-> ->]].
    + apply HA in Hx as [Hx|[? _]]; [|lia]. destruct (wi_rows _ _ Hw _ _ _ Hx Hrs') as [H1 H2 H3].
      constructor; [done| |done]. intros c v Hcv. destruct (H2 c v Hcv) as (cm & ? & ?). eauto.
    + apply HA in Hx as [Hx|[_ ->]]; [|done]. apply lookup_lt_Some in Hx. lia.
  - intros k x Hx. rewrite Hids. apply HA in Hx as [Hx|[_ ->]]; [|done].
    intros c j Hj. destruct (wi_cache _ _ Hw _ _ Hx c j Hj) as (L' & HL' & ?). exists L'. split; [|done].
    by apply lookup_app_l_Some.
  - intros k L c HL Hc. apply HidsL in HL as [HL|[-> ->]].
    + destruct (wi_comps _ _ Hw _ _ _ HL Hc) as (? & [cm ?] & ?). split_and!; [done| |done]. eauto.
    + destruct (Hcomps c Hc) as (? & [cm ?] & ?). split_and!; [done| |done]. eauto.
  - intros k k' L HL HL'. apply HidsL in HL as [HL|[-> ->]], HL' as [HL'|[-> HE]].
    + by eapply wi_distinct.
    + subst. by destruct (Hnew k).
    + by destruct (Hnew k').
    + done.
  - intros L HL. apply HidsL in HL as [HL|[HE ->]]; [by eapply wi_zero|]. by apply Hzero.
  - rewrite /w' /= app_length /= Nat.add_1_r. done.
  - intros i k. rewrite Hbits (wi_bits _ _ Hw). split.
    + intros [(L & c & HL & Hc & Hu)|(-> & c & Hc & Hu)]; (eexists _, c; split; [|done]); apply HidsL; eauto.
    + intros (L & c & HL & Hc & Hu). apply HidsL in HL as [HL|[-> ->]]; eauto 10.
  - rewrite /w' /= app_length /=. split_and!; [done|rewrite Hebl /n; lia|]. intros k Hk. apply Hebb. rewrite /n. lia.
  - intros k i rs' e m Hrs' Hi. apply HR in Hrs' as [[Hrs' _]|[-> ->]]; [|by apply Hrs with m].
    destruct (wi_row _ _ Hw _ _ _ _ _ Hrs' Hi) as [? Hm]. split; [done|].
    apply fmap_Some in Hm as (em & Hem & HE). by rewrite (Hmono _ _ Hem) /= HE.
  - intros i em Hem. apply Hinv in Hem as [Hem|(_ & Hn & e & m & Hr & Hu)].
    + destruct (wi_meta _ _ Hw _ _ Hem) as (rs' & e & m & Hrs' & ? & ?). exists rs', e, m. split_and!; [|done..].
      by apply lookup_app_l_Some.
    + exists rs, e, m. split_and!; [|done..]. rewrite Hn -HlR lookup_app_r // Nat.sub_diag //.
  - intros i em Hem. apply Hinv in Hem as [Hem|(? & _)]; [|done]. by eapply wi_layout.
  - apply (wi_locks _ _ Hw).
  - apply (wi_locks_inj _ _ Hw).
  - intros t c Ht. destruct (wi_types _ _ Hw _ _ Ht) as (? & ? & b & g & Hg & Hb). split_and!; [done..|].
    exists b, g. split; [done|]. destruct b; [|done]. intros E. by apply Hcomp, Hb.
  - apply (wi_types_inj _ _ Hw).
  - apply (wi_reuse _ _ Hw).
Qed.
