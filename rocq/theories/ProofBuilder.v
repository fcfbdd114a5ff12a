(** * Entity ids and the buffer of the builder *)
From Verif Require Import ProofBase SpecSmall World History ProofEntities ProofBitset ProofArrayVec ProofUVec.
From Verif Require Export ProofDespawn.

(** ** A new id *)
Lemma winv_ents w R s' :
  winv w R → ents_wf s' →
  (∀ i g, generations (w_ents w) !! i = Some (true, g) → generations s' !! i = Some (true, g)) →
  (∀ i g, generations (w_ents w) !! i = Some (false, g) →
     generations s' !! i = Some (false, g) ∨ generations s' !! i = Some (true, wrap32 (g + 1))) →
  winv (set_ents s' w) R.
Proof.
  intros Hw Hwf Ht Hf.
  assert (∀ e, alive (w_ents w) e → alive s' e) as Hal.
  { intros e He%alive_iff. apply alive_iff. by apply Ht. }
  constructor; try apply Hw.
  - done.
  - intros k L c HL Hc. destruct (wi_comps _ _ Hw _ _ _ HL Hc) as (? & ? & ?). split_and!; [by apply Hal|done|done].
  - intros k i rs e m Hrs Hi. destruct (wi_row _ _ Hw _ _ _ _ _ Hrs Hi) as [? ?]. split; [by apply Hal|done].
  - intros t c Htc. destruct (wi_types _ _ Hw _ _ Htc) as (? & ? & b & g & Hg & Hb). split_and!; [done..|].
    destruct b.
    + exists true, g. split; [by apply Ht|done].
    + destruct (Hf _ _ Hg) as [Hg'|Hg']; eexists _, _; (split; [exact Hg'|]); simpl; done.
Qed.
Lemma winv_spawn w R e s' ev : winv w R → ents_spawn (w_ents w) = Done e s' ev →
  winv (set_ents s' w) R ∧ ev = [] ∧ id_wf e ∧ alive s' e ∧ ¬ alive (w_ents w) e ∧ meta_at w (uindex e) = None ∧
  (∀ c, alive (w_ents w) c → alive s' c ∧ uindex c ≠ uindex e) ∧
  (∀ c, alive s' c → c = e ∨ alive (w_ents w) c) ∧
  (∀ t, w_types w !! t ≠ Some e).
Proof.
  intros Hw Hs. destruct (ents_spawn_spec _ _ _ _ (wi_ents _ _ Hw) Hs) as (Hwf & Hid & -> & Hnew & Hold & Hslot).
  assert (∀ i g, generations (w_ents w) !! i = Some (true, g) → i ≠ uindex e) as Hne.
  { intros i g Hi ->. rewrite Hi in Hslot. by destruct Hslot. }
  split_and!; [|done|done|by apply alive_iff| | | | |].
  - apply winv_ents; [done|done| |].
    + intros i g Hi. rewrite Hold //. by eapply Hne.
    + intros i g Hi. destruct (decide (i = uindex e)) as [->|]; [|left; by rewrite Hold].
      right. rewrite Hnew. rewrite Hi in Hslot. destruct Hslot as (_ & -> & _). done.
  - intros H%alive_iff. by eapply Hne.
  - apply (winv_free_slot _ _ Hw). intros e' Hu H%alive_iff. by apply (Hne _ _ H).
  - intros c Hc%alive_iff. split; [|by eapply Hne]. apply alive_iff. rewrite Hold //. by eapply Hne.
  - intros c Hc%alive_iff. destruct (decide (uindex c = uindex e)) as [Hu|Hu].
    + left. rewrite Hu Hnew in Hc. injection Hc as Hg. apply id_ext; [|done]. rewrite /uindex in Hu. lia.
    + right. apply alive_iff. by rewrite -Hold.
  - intros t Ht. destruct (wi_types _ _ Hw _ _ Ht) as (_ & _ & b & g & Hg & Hb). rewrite Hg in Hslot.
    destruct Hslot as (-> & E & _). simpl in Hb. by rewrite E in Hb.
Qed.
Lemma winv_spawn_panic w R r s' ev : winv w R → ents_spawn (w_ents w) = Panicked r s' ev →
  winv (set_ents s' w) R ∧ r = ROutOfIds ∧ ev = [] ∧
  (∀ c, id_wf c → alive s' c ↔ alive (w_ents w) c).
Proof.
  intros Hw Hs. destruct (ents_spawn_panic _ _ _ _ (wi_ents _ _ Hw) Hs) as (-> & -> & Hd & Hlen & Hg).
  assert (∀ i x, generations (w_ents w) !! i = Some x → generations s' !! i = Some x) as Hold.
  { intros i x Hi. rewrite Hg. by apply lookup_app_l_Some. }
  split_and!; [|done|done|].
  - apply winv_ents; [done| |by intros; apply Hold|by intros; left; apply Hold].
    destruct (wi_ents _ _ Hw) as (H1 & H2 & H3). rewrite /ents_wf Hd. split_and!; [done| |].
    + intros i Hi. destruct (H2 i Hi) as (? & g & ?). split; [done|]. exists g. by apply Hold.
    + intros i a g. rewrite Hg lookup_app_Some. intros [Hi|[_ Hi]]; [by eapply H3|].
      apply list_lookup_singleton_Some in Hi as [_ [= <- <-]]. done.
  - intros c Hc. rewrite !alive_iff. split; [|apply Hold]. rewrite Hg lookup_app_Some. intros [?|[Hge _]]; [done|].
    destruct Hc as [? ?]. rewrite /uindex in Hge. cbv [u32_modulus] in *. lia.
Qed.

(** ** The cached buffer *)
Definition reuse_ok (r : option (list ecsid * ptr * nat)) : Prop :=
  match r with Some (ids, p, cap) => ids = [] ∧ cap ≠ 0 ∧ buffer_ok p cap | None => True end.
Lemma winv_reuse w R r : winv w R → reuse_ok r → winv (set_reuse r w) R.
Proof. intros Hw Hr. constructor; try apply Hw. done. Qed.

(** ** The buffer *)
Definition bbuf (b : builder) : Prop := buffer_ok (eb_data b) (eb_cap b) ∧ eb_len b ≤ eb_cap b.
(** The components and values collected so far. *)
Record pending (w : world) (b : builder) (D : list (ecsid * value)) : Prop := {
  pe_ids : eb_ids b = D.*1;
  pe_len : eb_len b = length (concat D.*2);
  pe_mem : take (eb_len b) (readable (eb_data b) 0) = concat D.*2;
  pe_comp : ∀ c v, (c, v) ∈ D → alive (w_ents w) c ∧ ∃ cm, comp_of w c = Some cm ∧ length v = cm_size cm
}.

(** Every outcome of a builder call leaves a buffer that can be freed. *)
Definition bsafe {A} (m : M bw A) : Prop := ∀ b w, bbuf b →
  match m (b, w) with
  | Done _ s _ => bbuf s.1
  | Panicked _ s _ => bbuf s.1
  | _ => True
  end.
Lemma bsafe_ret {A} (a : A) : bsafe (ret a).
Proof. intros b w Hb. done. Qed.
Lemma bsafe_gets {A} (f : bw → A) : bsafe (gets f).
Proof. intros b w Hb. done. Qed.
Lemma bsafe_bind {A B} (m : M bw A) (k : A → M bw B) : bsafe m → (∀ a, bsafe (k a)) → bsafe (bind m k).
Proof.
  intros Hm Hk b w Hb. rewrite /bind. specialize (Hm b w Hb). destruct (m (b, w)) as [a [b' w'] e|r [b' w'] e| |]; try done.
  rewrite /add_events. specialize (Hk a b' w' Hm). by destruct (k a (b', w')) as [? [] ?|? [] ?| |].
Qed.
Lemma bsafe_in_world {A} (m : M world A) : bsafe (in_world m).
Proof. intros b w Hb. rewrite /in_world /on_snd /zoom /=. by destruct (m w). Qed.
Lemma bsafe_unwrap {A} (o : option A) r : bsafe (unwrap o r).
Proof. intros b w Hb. by destruct o. Qed.
Lemma bsafe_or_ub {A} (o : option A) : bsafe (or_ub o).
Proof. intros b w Hb. by destruct o. Qed.
Lemma bsafe_massert c r : bsafe (massert c r).
Proof. intros b w Hb. by destruct c. Qed.
Lemma bsafe_ub {A} : bsafe (ub (A := A)).
Proof. intros b w Hb. done. Qed.
Lemma bsafe_modify f : (∀ b, bbuf b → bbuf (f b)) → bsafe (on_fst (modify f)).
Proof. intros Hf b w Hb. by apply Hf. Qed.
Lemma bsafe_on_unwind {A} (m : M bw A) c : bsafe m → bsafe (on_unwind m c).
Proof. intros Hm b w Hb. rewrite /on_unwind. specialize (Hm b w Hb). destruct (m (b, w)); try done. by destruct c. Qed.
Lemma bsafe_panic {A} r : bsafe (panic (A := A) r).
Proof. intros b w Hb. done. Qed.
Lemma bsafe_deadlock {A} : bsafe (deadlock (A := A)).
Proof. intros b w Hb. done. Qed.

Lemma layout_ok_eq n l : layout_from_size_align n 1 = Some l → l = Layout n 1.
Proof. rewrite /layout_from_size_align. case_match; naive_solver. Qed.

Lemma layout_one n : (N.of_nat n < isize_max)%N → layout_from_size_align n 1 = Some (Layout n 1).
Proof.
  intros H. rewrite /layout_from_size_align. change (is_pow2 1) with true.
  destruct (N.leb_spec (N.of_nat n + (N.of_nat 1 - 1)) isize_max) as [|Hn]; [done|]. lia.
Qed.
Lemma realloc_run b w n :
  bbuf b → eb_len b ≤ n → eb_cap b ≤ n → 0 < n →
  (∃ b', builder_realloc n (b, w) = Done () (b', w) [] ∧ bbuf b' ∧ eb_cap b' = n ∧ eb_len b' = eb_len b ∧
     eb_ids b' = eb_ids b ∧ eb_entity b' = eb_entity b ∧ eb_meta b' = eb_meta b ∧ eb_num b' = eb_num b ∧
     take (eb_len b) (readable (eb_data b') 0) = take (eb_len b) (readable (eb_data b) 0)) ∨
  builder_realloc n (b, w) = Panicked RCapacity (b, w) [].
Proof.
  intros [Hb Hle] Hn Hcn Hpos. rewrite /builder_realloc.
  destruct (N.of_nat n <? isize_max)%N eqn:Hmax; [|by right]. cbn [massert].
  rewrite (bind_done_nil _ _ (b, w) () (b, w) eq_refl). rewrite bool_decide_true //. cbn [massert].
  rewrite (bind_done_nil _ _ (b, w) () (b, w) eq_refl).
  rewrite (bind_done_nil _ _ (b, w) b (b, w) eq_refl).
  destruct (decide (eb_cap b = 0)) as [Hc|Hc].
  - destruct (layout_from_size_align n 1) as [l|] eqn:Hl; [|by right]. pose proof (layout_ok_eq _ _ Hl) as ->.
    left. rewrite (bind_done_nil _ _ (b, w) (Layout n 1) (b, w) eq_refl).
    rewrite /heap_alloc /= decide_False; [|lia]. simpl.
    eexists. split; [done|]. simpl. split_and!; [|done..|].
    + split; [|simpl; lia]. right. simpl. split_and!; [lia|done|]. eexists. split; [done|]. by rewrite replicate_length.
    + assert (eb_len b = 0) as -> by lia. by rewrite !take_0.
  - destruct Hb as [[? _]|(_ & Hl & m & Hd & Hm)]; [done|].
    rewrite Hl. rewrite (bind_done_nil _ _ (b, w) (Layout (eb_cap b) 1) (b, w) eq_refl).
    rewrite Hd /heap_realloc /= decide_True; [|split_and!; [done|done|lia]]. left. simpl.
    eexists. split; [done|]. simpl. split_and!; [|done..|].
    + split; [|simpl; lia]. right. simpl. split_and!; [lia| |].
      * apply layout_one. by apply N.ltb_lt.
      * eexists. split; [done|]. rewrite app_length take_length replicate_length. lia.
    + rewrite drop_0 take_app_le; [|rewrite take_length; lia]. rewrite drop_0 take_take. f_equal. lia.
Qed.

Lemma in_meta_run c b w : alive (w_ents w) c →
  in_world (get_entity_meta c) (b, w) = Done (meta_at w (uindex c)) (b, w) [].
Proof. intros H. rewrite /in_world /on_snd /zoom /=. by rewrite (get_entity_meta_alive _ _ H). Qed.

(** [with_dynamic_with_data] *)
Definition same_target (b b' : builder) : Prop := eb_entity b' = eb_entity b ∧ eb_meta b' = eb_meta b.

Lemma mem_write_run b bs :
  bbuf b → eb_len b + length bs ≤ eb_cap b →
  ∃ p, mem_write (eb_data b) (eb_len b) bs = Some p ∧ buffer_ok p (eb_cap b) ∧
    take (eb_len b + length bs) (readable p 0) = take (eb_len b) (readable (eb_data b) 0) ++ bs.
Proof.
  intros [Hb Hle] Hn. destruct Hb as [[Hc Hd]|(Hc & Hl & m & Hd & Hm)]; rewrite Hd.
  - assert (eb_len b = 0) as -> by lia. assert (length bs = 0) as Hbs by lia. apply nil_length_inv in Hbs as ->.
    simpl. exists Dangling. split_and!; [done|by left|done].
  - rewrite /mem_write decide_True; [|lia]. eexists. split; [done|]. split.
    + right. split_and!; [done|done|]. eexists. split; [done|]. rewrite /write_at !app_length take_length drop_length. lia.
    + simpl. rewrite !drop_0 /write_at app_assoc take_app_alt //.
      rewrite app_length take_length. lia.
Qed.

Lemma with_data_run b w c src :
  bbuf b →
  match builder_with_data c src (b, w) with
  | Done _ (b', w') ev => ev = [] ∧ w' = w ∧ bbuf b' ∧ same_target b b' ∧ alive (w_ents w) c ∧
      ∃ cm, comp_of w c = Some cm ∧
        ∀ D, pending w b D → pending w b' (D ++ [(c, take (cm_size cm) src)])
  | Panicked r (b', w') ev => ev = [] ∧ w' = w ∧ bbuf b' ∧
      (r = RCapacity ∨ (r = RNoGeneration ∧ ents_is_alive (w_ents w) c = None) ∨
       (r = RDeadComponent ∧ (ents_is_alive (w_ents w) c = Some false ∨ (alive (w_ents w) c ∧ comp_of w c = None))))
  | UB => ∃ cm, alive (w_ents w) c ∧ comp_of w c = Some cm ∧ length src < cm_size cm
  | Deadlock => False
  end.
Proof.
  intros Hb. rewrite /builder_with_data. set (b1 := set_ids (eb_ids b ++ [c]) b).
  rewrite (bind_done_nil _ _ (b, w) () (b1, w) eq_refl).
  assert (bbuf b1) as Hb1 by done.
  pose proof (get_entity_meta_cases w c) as Hm. rewrite {1}/bind /in_world /on_snd /zoom. cbn [fst snd].
  destruct (get_entity_meta c w) as [o w1 ev|r w1 ev| |]; [| |done..].
  2:{ destruct Hm as (-> & -> & -> & E). split_and!; [done..|]. by right; left. }
  destruct Hm as (-> & -> & lv & El & Ho). rewrite add_events_nil.
  destruct o as [em|].
  2:{ cbn [unwrap]. rewrite /bind /=. split_and!; [done..|]. right; right. split; [done|]. destruct lv; [|by left].
      right. split; [done|]. by rewrite /comp_of -Ho. }
  destruct lv; [|done]. assert (comp_of w c = Some (em_comp em)) as Hcm by by rewrite /comp_of -Ho.
  cbn [unwrap]. rewrite (bind_done_nil _ _ (b1, w) em (b1, w) eq_refl).
  rewrite (bind_done_nil _ _ (b1, w) b1 (b1, w) eq_refl).
  set (size := cm_size (em_comp em)).
  assert ((∃ b2, (if decide (eb_cap b1 < eb_len b1 + size) then builder_realloc (Nat.max (eb_len b1 + size) (eb_cap b1 * 2)) else ret ()) (b1, w)
       = Done () (b2, w) [] ∧ bbuf b2 ∧ eb_len b2 = eb_len b ∧ eb_len b + size ≤ eb_cap b2 ∧ same_target b b2 ∧
         eb_ids b2 = eb_ids b ++ [c] ∧
         take (eb_len b) (readable (eb_data b2) 0) = take (eb_len b) (readable (eb_data b) 0)) ∨
     (if decide (eb_cap b1 < eb_len b1 + size) then builder_realloc (Nat.max (eb_len b1 + size) (eb_cap b1 * 2)) else ret ()) (b1, w)
       = Panicked RCapacity (b1, w) []) as Hre.
  { case_decide as Hcap.
    - destruct (realloc_run b1 w (Nat.max (eb_len b1 + size) (eb_cap b1 * 2)) Hb1) as [(b2 & Hrun & Hb2 & Hc2 & Hl2 & Hi2 & He2 & Hm2 & Hn2 & Ht2)|Hp]; [lia|lia|lia| |by right].
      left. exists b2. split_and!; [done|done|done|simpl in *; lia|done|done|done].
    - left. exists b1. split_and!; [done|done|done|simpl in *; lia|done|done|done]. }
  destruct Hre as [(b2 & Hrun & Hb2 & Hl2 & Hc2 & [HT1 HT2] & Hi2 & Ht2)|Hp].
  2:{ rewrite /bind Hp. split_and!; [done..|]. by left. }
  rewrite (bind_done_nil _ _ _ _ _ Hrun). rewrite (bind_done_nil _ _ (b2, w) b2 (b2, w) eq_refl).
  fold size. destruct (decide (length src < size)) as [Hsrc|Hsrc].
  { cbv [ub]. exists (em_comp em). done. }
  assert (length (take size src) = size) as Hts by (rewrite take_length; lia).
  destruct (mem_write_run b2 (take size src) Hb2) as (p & Hp & Hpb & Hpm); [lia|].
  rewrite Hp. cbn [or_ub]. rewrite (bind_done_nil _ _ (b2, w) p (b2, w) eq_refl).
  rewrite /on_fst /zoom /modify /=. split_and!; [done|done| |done|done|].
  { split; [done|]. simpl. lia. }
  exists (em_comp em). split; [done|]. intros D [P1 P2 P3 P4]. constructor; simpl.
  - by rewrite Hi2 P1 fmap_app.
  - rewrite fmap_app concat_app app_length /= app_nil_r Hts. lia.
  - rewrite fmap_app concat_app /= app_nil_r. rewrite Hts in Hpm. rewrite Hpm Hl2 Ht2. by rewrite P3.
  - intros c' v' [H|[= -> ->]%elem_of_list_singleton]%elem_of_app; [by apply P4|].
    split; [done|]. eauto.
Qed.

Lemma bsafe_with_data c src : bsafe (builder_with_data c src).
Proof.
  intros b w Hb. pose proof (with_data_run b w c src Hb) as H.
  destruct (builder_with_data c src (b, w)) as [[] [b' w'] ev|r [b' w'] ev| |]; try done.
  - by destruct H as (_ & _ & ? & _).
  - by destruct H as (_ & _ & ? & _).
Qed.

(** [with_dynamic] *)
Lemma with_dynamic_run b w c :
  bbuf b →
  match builder_with_dynamic c (b, w) with
  | Done _ (b', w') ev => ev = [] ∧ w' = w ∧ bbuf b' ∧ same_target b b' ∧ alive (w_ents w) c ∧
      ∃ cm, comp_of w c = Some cm ∧ cm_size cm = 0 ∧ ∀ D, pending w b D → pending w b' (D ++ [(c, [])])
  | Panicked r (b', w') ev => ev = [] ∧ w' = w ∧ b' = b ∧
      ((r = RNoGeneration ∧ ents_is_alive (w_ents w) c = None) ∨
       (r = RUnwrap ∧ (ents_is_alive (w_ents w) c = Some false ∨ (alive (w_ents w) c ∧ comp_of w c = None))) ∨
       (r = RAssert ∧ alive (w_ents w) c ∧ ∃ cm, comp_of w c = Some cm ∧ cm_size cm ≠ 0))
  | UB | Deadlock => False
  end.
Proof.
  intros Hb. rewrite /builder_with_dynamic.
  pose proof (get_entity_meta_cases w c) as Hm. rewrite {1}/bind /in_world /on_snd /zoom. cbn [fst snd].
  destruct (get_entity_meta c w) as [o w1 ev|r w1 ev| |]; [| |done..].
  2:{ destruct Hm as (-> & -> & -> & E). split_and!; [done..|]. by left. }
  destruct Hm as (-> & -> & lv & El & Ho). rewrite add_events_nil.
  destruct o as [em|].
  2:{ cbn [unwrap]. rewrite /bind /=. split_and!; [done..|]. right; left. split; [done|]. destruct lv; [|by left].
      right. split; [done|]. by rewrite /comp_of -Ho. }
  destruct lv; [|done]. assert (comp_of w c = Some (em_comp em)) as Hcm by by rewrite /comp_of -Ho.
  cbn [unwrap]. rewrite (bind_done_nil _ _ (b, w) em (b, w) eq_refl).
  case_bool_decide as Hsz; cbn [massert].
  2:{ rewrite /bind /=. split_and!; [done..|]. right; right. split; [done|]. eauto. }
  rewrite (bind_done_nil _ _ (b, w) () (b, w) eq_refl). rewrite /on_fst /zoom /modify /=.
  split_and!; [done..|]. exists (em_comp em). split_and!; [done..|]. intros D [P1 P2 P3 P4]. constructor; simpl.
  - by rewrite P1 fmap_app.
  - rewrite fmap_app concat_app app_length /=. lia.
  - by rewrite fmap_app concat_app /= app_nil_r.
  - intros c' v' [H|[= -> ->]%elem_of_list_singleton]%elem_of_app; [by apply P4|]. split; [done|]. eauto.
Qed.
Lemma bsafe_with_dynamic c : bsafe (builder_with_dynamic c).
Proof.
  intros b w Hb. pose proof (with_dynamic_run b w c Hb) as H.
  destruct (builder_with_dynamic c (b, w)) as [[] [b' w'] ev|r [b' w'] ev| |]; try done.
  - by destruct H as (_ & _ & ? & _).
  - by destruct H as (_ & _ & -> & _).
Qed.

(** [build] leaves the buffer alone. *)
Lemma bsafe_build_push k ids off : bsafe (build_push k ids off).
Proof.
  revert off. induction ids as [|c ids IH]; intros off; cbn [build_push]; [apply bsafe_ret|].
  apply bsafe_bind; [apply bsafe_in_world|intros ocm]. apply bsafe_bind; [apply bsafe_unwrap|intros cm].
  apply bsafe_bind; [apply bsafe_in_world|intros a]. apply bsafe_bind; [apply bsafe_unwrap|intros si].
  apply bsafe_bind; [apply bsafe_gets|intros b]. apply bsafe_bind; [apply bsafe_in_world|intros _].
  destruct (offset_ok _ _); [|apply bsafe_ub]. apply bsafe_bind; [apply bsafe_in_world|intros n].
  apply bsafe_bind; [apply bsafe_massert|intros _]. apply IH.
Qed.
Lemma bsafe_create_storages ids off acc : bsafe (create_storages ids off acc).
Proof.
  revert off acc. induction ids as [|c ids IH]; intros off acc; cbn [create_storages]; [apply bsafe_ret|].
  apply bsafe_bind; [|intros v'; apply IH]. apply bsafe_on_unwind.
  apply bsafe_bind; [apply bsafe_in_world|intros ocm]. apply bsafe_bind; [apply bsafe_unwrap|intros cm].
  apply bsafe_bind; [apply bsafe_gets|intros b].
  destruct (uv_push_raw _ _); [destruct (offset_ok _ _)| | |]; [apply bsafe_ret|apply bsafe_ub|apply bsafe_panic|apply bsafe_deadlock|apply bsafe_ub].
Qed.
Lemma bsafe_build : bsafe build.
Proof.
  rewrite /build. apply bsafe_bind; [apply bsafe_gets|intros b]. apply bsafe_bind; [apply bsafe_in_world|intros [k|]].
  - apply bsafe_bind; [apply bsafe_in_world|intros _]. apply bsafe_bind; [apply bsafe_build_push|intros _].
    apply bsafe_bind; [apply bsafe_in_world|intros a]. apply bsafe_bind; [apply bsafe_in_world|intros _]. apply bsafe_ret.
  - apply bsafe_bind; [apply bsafe_in_world|intros _]. apply bsafe_bind.
    + rewrite /create_archetype. apply bsafe_bind; [apply bsafe_gets|intros b']. apply bsafe_bind; [apply bsafe_create_storages|intros ss].
      apply bsafe_bind; [by apply bsafe_modify|intros _]. apply bsafe_bind; [apply bsafe_gets|intros ids].
      apply bsafe_bind; [apply bsafe_on_unwind, bsafe_unwrap|intros lk]. apply bsafe_bind; [apply bsafe_on_unwind, bsafe_massert|intros _].
      apply bsafe_bind; [by apply bsafe_modify|intros _]. apply bsafe_ret.
    + intros na. apply bsafe_bind; [apply bsafe_in_world|intros n]. apply bsafe_bind; [apply bsafe_in_world|intros _]. apply bsafe_ret.
Qed.
Lemma bsafe_builder_with t v : bsafe (builder_with t v).
Proof. apply bsafe_bind; [apply bsafe_in_world|intros c; apply bsafe_with_data]. Qed.
Lemma bsafe_bop o : bsafe (run_bop o).
Proof.
  destruct o; [apply bsafe_builder_with|apply bsafe_with_dynamic|apply bsafe_with_data|].
  apply bsafe_bind; [apply bsafe_build|intros _; apply bsafe_ret].
Qed.
Lemma bsafe_bops bs : bsafe (run_bops bs).
Proof. induction bs; [apply bsafe_ret|]. apply bsafe_bind; [apply bsafe_bop|done]. Qed.

(** ** The end of the builder *)
Lemma builder_drop_run b w : bbuf b →
  ∃ r, builder_drop b w = Done () (set_reuse r w) [] ∧ (reuse_ok (w_reuse w) → reuse_ok r).
Proof.
  intros [Hb Hle]. rewrite /builder_drop. case_decide as Hc.
  { exists (w_reuse w). split; [|done]. by destruct w. }
  rewrite (bind_done_nil _ _ w (w_reuse w) w eq_refl). destruct (w_reuse w) as [u|] eqn:Hu.
  - destruct Hb as [[? _]|(_ & Hl & m & Hd & Hm)]; [done|]. rewrite Hl. cbn [unwrap].
    rewrite (bind_done_nil _ _ w (Layout (eb_cap b) 1) w eq_refl). rewrite Hd /heap_dealloc /= decide_True //.
    exists (Some u). split; [|done]. rewrite -Hu. by destruct w.
  - eexists. split; [done|]. intros _. done.
Qed.
Lemma wp_with_builder {A} b (m : M bw A) w (Q : post world A) (P : ppost world) :
  bbuf b → bsafe m →
  wp m (b, w)
     (λ a s ev, ∀ r, (reuse_ok (w_reuse s.2) → reuse_ok r) → Q a (set_reuse r s.2) ev)
     (λ x s ev, ∀ r, (reuse_ok (w_reuse s.2) → reuse_ok r) → P x (set_reuse r s.2) ev) →
  wp (with_builder b m) w Q P.
Proof.
  intros Hb Hs. rewrite /wp /with_builder. specialize (Hs b w Hb).
  destruct (m (b, w)) as [a [b' w'] ev|x [b' w'] ev| |]; [| |done..]; simpl in *.
  - destruct (builder_drop_run b' w' Hs) as (r & -> & Hr). intros HQ. rewrite app_nil_r. by apply HQ.
  - destruct (builder_drop_run b' w' Hs) as (r & -> & Hr). intros [->|HP]; [by left|]. right. rewrite app_nil_r. by apply HP.
Qed.
