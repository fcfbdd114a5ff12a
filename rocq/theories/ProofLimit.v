(** * C52: calls *)
From Verif Require Import ProofBase SpecSmall World Query History ProofEntities ProofBitset ProofArrayVec ProofUVec.
From Verif Require Export ProofQuietWorld ProofLedger.

(** ** Building and registering types *)
Lemma given_size_eq w b D : pending w b D → given_size w D = length (concat D.*2).
Proof.
  intros Hp. pose proof (pe_comp _ _ _ Hp) as Hc. clear Hp. induction D as [|[c v] D IH]; [done|].
  change (ti_size (tyi w c) + given_size w D = length (v ++ concat D.*2)). rewrite app_length IH.
  - destruct (Hc c v) as (_ & cm & Hcm & ->); [left|]. by rewrite /tyi Hcm.
  - intros c' v' Hin. apply Hc. by right.
Qed.
Lemma build_quiet b w R D : winv w R → pending w b D → small (wbytes w + eb_len b) →
  quiet (λ s, s = (b, w)) build (λ _ s, wbytes s.2 ≤ wbytes w + eb_len b).
Proof.
  intros Hw Hp Hs s ->. rewrite (pe_len _ _ _ Hp) -(given_size_eq _ _ _ Hp) in Hs |- *.
  pose proof (quiet_build_given w R Hw D (eb_entity b) (eb_meta b) Hs w eq_refl) as Hq.
  rewrite -build_given_eq // in Hq; [|intros k; by eapply fits_winv]. by destruct (build (b, w)).
Qed.
Lemma with_builder_quiet {A} b w (m : M bw A) (T : nat) : bbuf b → bsafe m →
  quiet (λ s, s = (b, w)) m (λ _ s, wbytes s.2 ≤ T) → quiet (λ x, x = w) (with_builder b m) (λ _ w', wbytes w' ≤ T).
Proof.
  intros Hb Hm Hq x ->. specialize (Hq _ eq_refl). specialize (Hm b w Hb). rewrite /with_builder.
  destruct (m (b, w)) as [a [b' w'] ev|r [b' w'] ev| |]; try done; destruct (builder_drop_run b' w' Hm) as (r' & -> & _); done.
Qed.
Lemma spawn_empty_eq w : spawn_empty w = bind (spawn_builder None cm_unit) (λ b, with_builder b build) w.
Proof.
  rewrite /spawn_empty /spawn_builder /bind. destruct (in_ents ents_spawn w) as [e s ev| | |]; try done.
  destruct (builder_new e cm_unit s) as [b s1 ev1| | |]; try done. cbn [add_events].
  by destruct (with_builder b build s1) as [? ? ?|? ? ?| |]; cbn; rewrite ?app_assoc.
Qed.
Lemma calm_ents_spawn : calm ents_spawn.
Proof.
  intros s. rewrite /ents_spawn. cbv zeta. destruct (despawned s) as [|idx rest].
  - destruct (_ <? _)%N; [done|]. by destruct (_ !! _) as [[]|].
  - destruct (generations s !! idx) as [[[] g]|]; [done| |done]. destruct (_ <? _)%N; [done|]. by destruct (_ !! _) as [[]|].
Qed.
Lemma spawn_builder_quiet w R cap meta : winv w R → small (default 0 cap) →
  quiet (λ x, x = w) (spawn_builder cap meta)
    (λ b w', wbytes w' = wbytes w ∧ winv w' R ∧ bbuf b ∧ pending w' b [] ∧ eb_len b = 0 ∧ spawn_builder cap meta w = Done b w' []).
Proof.
  intros Hw Hs x ->. pose proof (spawn_builder_spec w R cap meta Hw) as Hspec. rewrite /wp in Hspec.
  destruct (spawn_builder cap meta w) as [b w' ev|r w' ev| |] eqn:E; [| |done..].
  - destruct Hspec as (-> & Hw' & _ & _ & Ea & _ & (F1 & _ & _ & F4)). refine (conj _ (conj Hw' (conj F1 (conj (F4 _) (conj _ eq_refl))))); [by rewrite /wbytes Ea|].
    by rewrite (pe_len _ _ _ (F4 w)).
  - intros ->. clear Hspec. rewrite /spawn_builder in E. apply bind_panic_inv in E as [E|(e & s1 & e1 & e2 & E1 & E & _)].
    + pose proof (calm_zoom (S := world) (λ w, Some (w_ents w)) set_ents _ calm_ents_spawn w) as Hc. rewrite /in_ents in E. by rewrite E in Hc.
    + destruct cap as [n|]; [|rewrite /builder_new /bind /= in E; by destruct (w_reuse s1) as [[[] ]|]].
      rewrite /builder_with_capacity /bind /= in E. destruct (w_reuse s1) as [[[ids p] cp]|] eqn:Er; [by rewrite /builder_new /bind /= Er in E|].
      destruct (decide (n = 0)); [by rewrite /builder_new /bind /= Er in E|].
      destruct (layout_from_size_align n 1) eqn:El; [cbn in E; by destruct (heap_alloc _)|].
      destruct (layout_small n 1) as [l Hl]; [done|done| |congruence]. change (N.of_nat n <= byte_limit)%N in Hs. lia.
Qed.
Lemma get_or_create_quiet w R t : winv w R → small (wbytes w) →
  quiet (λ x, x = w) (get_or_create_type t) (λ _ w', wbytes w' ≤ wbytes w).
Proof.
  intros Hw Hs. rewrite /get_or_create_type. eapply quiet_bind; [apply quiet_gets|]. intros o. cbn beta.
  destruct o as [c|]; [apply quiet_ret; by intros x [-> _]|].
  eapply quiet_bind with (Q := λ _ w', wbytes w' ≤ wbytes w).
  { intros x [-> _]. rewrite spawn_empty_eq.
    enough (quiet (λ x, x = w) (bind (spawn_builder None cm_unit) (λ b, with_builder b build)) (λ _ w', wbytes w' ≤ wbytes w)) as Hq by by apply Hq.
    eapply quiet_bind; [by apply (spawn_builder_quiet w R)|]. intros b. cbn beta.
    intros w1 (Eb & Hw1 & Hb & Hp & Hl & _).
    eapply (with_builder_quiet b w1 build (wbytes w)); [done|apply bsafe_build| |done].
    eapply quiet_mono; [apply (build_quiet b w1 R [])|done|]; try done.
    - rewrite Eb Hl Nat.add_0_r. done.
    - intros ? s' Hx. cbn beta in Hx. lia. }
  intros e. cbn beta. eapply quiet_bind; [apply quiet_gets|]. intros om. cbn beta.
  eapply quiet_bind; [by apply quiet_unwrap|]. intros m. cbn beta. eapply quiet_bind; [by apply quiet_unwrap|]. intros m'. cbn beta.
  eapply quiet_bind; [apply (quiet_modify _ _ (λ _ w', wbytes w' ≤ wbytes w)); by intros w' [[[? _] _] _]|]. intros ?. cbn beta.
  eapply quiet_bind; [by apply (quiet_modify _ _ (λ _ w', wbytes w' ≤ wbytes w))|]. intros ?. by apply quiet_ret.
Qed.

(** ** Builders *)
Lemma realloc_quiet b w n cap : (N.of_nat n <= 2 * byte_limit)%N → eb_cap b = cap → (N.of_nat cap <= byte_limit)%N →
  quiet (λ s, s = (b, w)) (builder_realloc n) (λ _ s, s.2 = w ∧ eb_len s.1 = eb_len b).
Proof.
  intros Hn Hc Hcap s ->. rewrite /builder_realloc. unfold bind at 1.
  assert ((N.of_nat n <? isize_max)%N = true) as ->. { apply N.ltb_lt. rewrite /byte_limit in Hn. change isize_max with (2^63 - 1)%N. lia. }
  cbn [massert]. destruct (bool_decide (0 < n)); [|done]. cbn. rewrite /bind /=.
  destruct (decide (eb_cap b = 0)).
  - destruct (layout_small n 1) as [l ->]; [done|done|lia|]. cbn. destruct (heap_alloc l); [|done]. cbn. done.
  - destruct (layout_small (eb_cap b) 1) as [l ->]; [done|done|rewrite Hc; lia|]. cbn. destruct (heap_realloc _ _ _); [|done]. cbn. done.
Qed.
Lemma with_data_quiet b w c src : (∀ s m, get_entity_meta c w = Done (Some m) s [] → length src = cm_size (em_comp m)) →
  small (eb_len b + length src) →
  quiet (λ s, s = (b, w)) (builder_with_data c src) (λ _ s, s.2 = w ∧ eb_len s.1 ≤ eb_len b + length src).
Proof.
  intros Hfit Hs s ->. rewrite /builder_with_data.
  set (b1 := set_ids (eb_ids b ++ [c]) b). rewrite (bind_done_nil _ _ (b, w) () (b1, w) eq_refl).
  rewrite /bind /in_world /on_snd /zoom. cbn [fst snd].
  pose proof (calm_get_entity_meta c w) as Hc. pose proof (get_entity_meta_cases w c) as Hcs.
  destruct (get_entity_meta c w) as [o w' ev|r w' ev| |] eqn:E; [|done..]. destruct Hcs as (-> & -> & _).
  destruct o as [m|]; [|done]. cbn [unwrap ret add_events app]. specialize (Hfit w m eq_refl). cbn [gets fst].
  change (eb_len b1) with (eb_len b). change (eb_cap b1) with (eb_cap b).
  assert (quiet (S := bw) (λ s, s = (b1, w)) (if decide (eb_cap b < eb_len b + cm_size (em_comp m)) then builder_realloc (Nat.max (eb_len b + cm_size (em_comp m)) (eb_cap b * 2)) else ret ())
    (λ _ s, s.2 = w ∧ eb_len s.1 = eb_len b)) as Hr.
  { rewrite -Hfit. rewrite /small in Hs. destruct (decide _) as [Hlt|_]; [|apply quiet_ret; by intros s ->].
    apply (realloc_quiet b1 w _ (eb_cap b)); [lia|done|lia]. }
  specialize (Hr _ eq_refl). match type of Hr with match ?x with _ => _ end => destruct x as [u [b2 w2] ev|r s ev| |]; [|exact Hr|exact I..] end. destruct Hr as [E2 El]. cbn [fst snd] in E2, El. subst w2.
  cbn [add_events app gets fst]. destruct (decide (length src < _)); [done|]. destruct (mem_write _ _ _); [|done]. cbn [add_events fst snd]. split; [done|]. cbn. rewrite El -Hfit. lia.
Qed.
Lemma bop_quiet b w R o : winv w R → room 0 w → o ≠ BBuild → bop_legal o (b, w) → small (wbytes w) → small (eb_len b + bop_bytes o) →
  quiet (λ s, s = (b, w)) (run_bop o) (λ _ s, wbytes s.2 ≤ wbytes w ∧ eb_len s.1 ≤ eb_len b + bop_bytes o).
Proof.
  intros Hw Hroom Ho Hleg Hs Hl. destruct o as [t v|c|c v|]; [| | |done]; cbn [run_bop bop_legal bop_bytes snd] in *.
  - destruct Hleg as [Ht Hv]. intros s ->. rewrite /builder_with. unfold bind at 1. rewrite /in_world /on_snd /zoom. cbn [fst snd].
    pose proof (get_or_create_quiet w R t Hw Hs w eq_refl) as Hg. pose proof (get_or_create_spec w R t Hw Hroom Ht) as Hsp.
    rewrite /wp in Hsp. destruct (get_or_create_type t w) as [c w1 ev|r w1 ev| |]; [|done..].
    destruct Hsp as (-> & Hgr & Htc & _ & _ & _ & _ & R1 & Hw1 & _).
    pose proof (with_data_quiet b w1 c v) as Hd.
    assert (∀ s m, get_entity_meta c w1 = Done (Some m) s [] → length v = cm_size (em_comp m)) as Hfit.
    { intros s m Hm. pose proof (get_entity_meta_cases w1 c) as Hc. rewrite Hm in Hc. destruct Hc as (_ & _ & lv & El & Hx). destruct lv; [|done].
      rewrite (type_comp w1 R1 t c (em_comp m)); [by rewrite Hv|done|done|done|]. by rewrite /comp_of -Hx. }
    specialize (Hd Hfit Hl _ eq_refl). destruct (builder_with_data c v (b, w1)) as [u [b2 w2] ev2|r s ev2| |]; cbn [add_events]; [|done..].
    cbn [fst snd] in *. destruct Hd as [-> Hd]. done.
  - apply (quiet_mono _ (λ s, s = (b, w)) _ _ (λ _ s, s.2 = w ∧ eb_len s.1 = eb_len b)); [|done|].
    2:{ intros ? s' [-> ->]. lia. }
    intros s ->. rewrite /builder_with_dynamic /bind /in_world /on_snd /zoom. cbn [fst snd].
    pose proof (calm_get_entity_meta c w) as Hc. pose proof (get_entity_meta_cases w c) as Hcs.
    destruct (get_entity_meta c w) as [o w' ev|r w' ev| |] eqn:E; [|done..]. destruct Hcs as (-> & -> & _).
    destruct o as [m|]; [|done]. cbn. by destruct (bool_decide _).
  - destruct Hleg as [_ Hf]. eapply quiet_mono; [apply (with_data_quiet b w c v)|done|]; [exact Hf|done|].
    intros ? s' [-> ?]. by split.
Qed.
Lemma bops_after_quiet bs : bops_builds bs = 0 → ∀ b w R, winv w R → room 0 w → bbuf b → bops_legal bs (b, w) →
  small (wbytes w) → small (eb_len b + sum_list_with bop_bytes bs) →
  quiet (λ s, s = (b, w)) (run_bops bs) (λ _ s, wbytes s.2 ≤ wbytes w).
Proof.
  induction bs as [|o bs IH]; intros Hn b w R Hw Hroom Hb Hleg Hs Hl; cbn [run_bops]; [apply quiet_ret; by intros s ->|].
  assert (o ≠ BBuild ∧ bops_builds bs = 0) as [Ho Hn']. { destruct o; cbn in Hn; done. }
  destruct Hleg as [Hlo Hleg]. cbn [sum_list_with] in Hl. intros s ->. unfold bind at 1.
  pose proof (bop_spec w R b o Hw Hroom Hb Hlo Ho) as S1. rewrite /wp in S1.
  pose proof (bop_quiet b w R o Hw Hroom Ho Hlo Hs) as Q1. specialize (Q1 ltac:(rewrite /small in Hl |- *; lia) _ eq_refl).
  destruct (run_bop o (b, w)) as [u [b1 w1] ev|r s ev| |]; [|done..]. cbn [fst snd] in *. destruct Q1 as [Q1 Q2].
  destruct S1 as (-> & Hb1 & _ & Hg & (R1 & Hw1 & _) & _).
  assert (small (wbytes w1)) as Hs1 by (rewrite /small in Hs |- *; lia).
  assert (small (eb_len b1 + sum_list_with bop_bytes bs)) as Hl1 by (rewrite /small in Hl |- *; lia).
  assert (room 0 w1) as Hroom1 by by eapply grow_room.
  pose proof (IH Hn' b1 w1 R1 Hw1 Hroom1 Hb1 Hleg Hs1 Hl1 _ eq_refl) as Q3.
  destruct (run_bops bs (b1, w1)) as [u2 [b2 w2] ev2|r s ev2| |]; cbn [add_events]; [|done..]. cbn [snd] in *. lia.
Qed.
(** [build] leaves the length of the buffer alone. *)
Definition blen_same {A} (m : M bw A) : Prop := ∀ b w, match m (b, w) with Done _ s _ => eb_len s.1 = eb_len b | _ => True end.
Lemma blen_bind {A B} (m : M bw A) (k : A → M bw B) : blen_same m → (∀ a, blen_same (k a)) → blen_same (bind m k).
Proof.
  intros Hm Hk b w. rewrite /bind. specialize (Hm b w). destruct (m (b, w)) as [a [b1 w1] ev| | |]; [|done..].
  specialize (Hk a b1 w1). cbn in Hm. destruct (k a (b1, w1)) as [a' s' ev'| | |]; cbn; [|done..]. congruence.
Qed.
Lemma blen_ret {A} (a : A) : blen_same (ret a).
Proof. by intros b w. Qed.
Lemma blen_gets {A} (f : bw → A) : blen_same (gets f).
Proof. by intros b w. Qed.
Lemma blen_unwrap {A} (o : option A) r : blen_same (unwrap o r).
Proof. by intros b w; destruct o. Qed.
Lemma blen_massert c r : blen_same (massert c r).
Proof. by intros b w; destruct c. Qed.
Lemma blen_ub {A} : blen_same (@ub bw A).
Proof. by intros b w. Qed.
Lemma blen_panic {A} r : blen_same (panic (A := A) r).
Proof. by intros b w. Qed.
Lemma blen_deadlock {A} : blen_same (deadlock (A := A)).
Proof. by intros b w. Qed.
Lemma blen_in_world {A} (m : M world A) : blen_same (in_world m).
Proof. intros b w. rewrite /in_world /on_snd /zoom /=. by destruct (m w). Qed.
Lemma blen_on_fst f : (∀ b, eb_len (f b) = eb_len b) → blen_same (on_fst (modify f)).
Proof. intros H b w. rewrite /on_fst /zoom /=. apply H. Qed.
Lemma blen_on_unwind {A} (m : M bw A) c : blen_same m → blen_same (on_unwind m c).
Proof. intros Hm b w. rewrite /on_unwind. specialize (Hm b w). destruct (m (b, w)); try done. by destruct c. Qed.
Ltac blen := repeat first [apply blen_bind; [|intros ?] | apply blen_ret | apply blen_gets | apply blen_unwrap | apply blen_massert | apply blen_ub
  | apply blen_panic | apply blen_deadlock | apply blen_in_world | apply blen_on_unwind | by apply blen_on_fst ].
Lemma build_len : blen_same build.
Proof.
  assert (∀ k ids off, blen_same (build_push k ids off)) as Hpush.
  { intros k ids. induction ids as [|c ids IH]; intros off; cbn [build_push]; blen. cbv zeta. destruct (offset_ok _ _); blen. apply IH. }
  assert (∀ ids off acc, blen_same (create_storages ids off acc)) as Hcr.
  { intros ids. induction ids as [|c ids IH]; intros off acc; cbn [create_storages]; blen; [|apply IH].
    cbv zeta. destruct (uv_push_raw _ _); blen. destruct (offset_ok _ _); blen. }
  rewrite /build. blen. destruct (_ : option nat); blen; [apply Hpush|]. rewrite /create_archetype. blen. apply Hcr.
Qed.
Lemma bops_quiet e bs : bops_builds bs ≤ 1 → ∀ b w R D, winv w R → room 1 w → bbuf b → pending w b D →
  eb_entity b = e → alive (w_ents w) e → meta_at w (uindex e) = None → layout_wf (cm_layout (eb_meta b)) → bops_legal bs (b, w) →
  small (wbytes w + eb_len b + sum_list_with bop_bytes bs) →
  quiet (λ s, s = (b, w)) (run_bops bs) (λ _ s, wbytes s.2 ≤ wbytes w + eb_len b + sum_list_with bop_bytes bs).
Proof.
  induction bs as [|o bs IH]; intros Hn b w R D Hw Hroom Hb Hp He Hal Hnone Hlay Hleg Hs; cbn [run_bops].
  { apply quiet_ret. intros s ->. cbn [snd]. lia. }
  assert (room 0 w) as Hroom0 by (rewrite /room in Hroom |- *; lia).
  destruct Hleg as [Hlo Hleg]. cbn [sum_list_with] in Hs |- *. intros s ->. unfold bind at 1.
  assert (o = BBuild ∨ o ≠ BBuild) as [->|Ho] by (destruct o; auto).
  - cbn [run_bop] in *. unfold bind in Hleg |- *. cbn [bop_bytes] in Hs |- *.
    pose proof (build_spec w R b D Hw Hroom0 Hb Hp) as S1. rewrite He in S1. specialize (S1 Hal Hnone Hlay). rewrite /wp in S1.
    pose proof (build_quiet b w R D Hw Hp) as Q1. specialize (Q1 ltac:(rewrite /small in Hs |- *; lia) _ eq_refl).
    pose proof (bsafe_build b w Hb) as B1.
    destruct (build (b, w)) as [u [b1 w1] ev|r s ev| |] eqn:Eb; cbn [add_events ret app] in *; [|done..]. cbn [fst snd] in *.
    destruct S1 as (-> & _ & _ & Hk & _ & R1 & Hw1 & _).
    assert (room 0 w1) as Hroom1. { pose proof (bk_len _ _ _ _ Hk) as Hlen. rewrite /room in Hroom |- *. lia. }
    assert (bops_builds bs = 0) as Hn' by (cbn in Hn; lia).
    assert (eb_len b1 ≤ eb_len b) as Hlen1. { pose proof (build_len b w) as Hx. rewrite Eb in Hx. cbn in Hx. lia. }
    pose proof (bops_after_quiet bs Hn' b1 w1 R1 Hw1 Hroom1 B1 Hleg) as Q2.
    specialize (Q2 ltac:(rewrite /small in Hs |- *; lia) ltac:(rewrite /small in Hs |- *; lia) _ eq_refl).
    destruct (run_bops bs (b1, w1)) as [u2 [b2 w2] ev2|r s ev2| |]; cbn [add_events]; [|done..]. cbn [snd] in *. lia.
  - pose proof (bop_spec w R b o Hw Hroom0 Hb Hlo Ho) as S1. rewrite /wp in S1.
    pose proof (bop_quiet b w R o Hw Hroom0 Ho Hlo) as Q1.
    specialize (Q1 ltac:(rewrite /small in Hs |- *; lia) ltac:(rewrite /small in Hs |- *; lia) _ eq_refl).
    destruct (run_bop o (b, w)) as [u [b1 w1] ev|r s ev| |]; [|done..]. cbn [fst snd] in *. destruct Q1 as [Q1 Q2].
    destruct S1 as (-> & Hb1 & [T1 T2] & Hg & (R1 & Hw1 & _) & d & _ & Hpd).
    assert (room 1 w1) as Hroom1 by by eapply grow_room.
    pose proof (IH ltac:(destruct o; cbn in Hn; done) b1 w1 R1 (D ++ [d]) Hw1 Hroom1 Hb1 (Hpd _ Hp)) as Q3.
    rewrite T1 in Q3. specialize (Q3 He (gr_alive _ _ Hg _ Hal)). rewrite (gr_meta _ _ Hg _ Hal) in Q3. specialize (Q3 Hnone).
    rewrite T2 in Q3. specialize (Q3 Hlay Hleg ltac:(rewrite /small in Hs |- *; lia) _ eq_refl).
    destruct (run_bops bs (b1, w1)) as [u2 [b2 w2] ev2|r s ev2| |]; cbn [add_events]; [|done..]. cbn [snd] in *. lia.
Qed.
(** ** The bytes of the world *)
Definition val_bytes (l : list (ecsid * ecsid * value)) : nat := sum_list_with (λ x : ecsid * ecsid * value, length x.2) l.
Lemma val_bytes_filter l : val_bytes (filter (λ x, x.2 ≠ []) l) = val_bytes l.
Proof.
  induction l as [|[[e c] v] l IH]; [done|]. rewrite filter_cons. cbn [snd]. case_decide as Hn.
  - unfold val_bytes in *. cbn [sum_list_with snd]. by rewrite IH.
  - subst v. rewrite IH. done.
Qed.
Lemma bytes_held_eq w : bytes_held w = val_bytes (held w).
Proof.
  rewrite /bytes_held /cells. induction (held w) as [|x l IH]; [done|]. rewrite !fmap_cons concat_cons app_length IH. done.
Qed.
Section bytes.
  Context (w : world) (R : list (list row)) (Hw : winv w R).
  Local Set Default Proof Using "Hw".
  Lemma col_bytes k a rs c u : w_archs w !! k = Some a → R !! k = Some rs → (c, u) ∈ a_storages a →
    val_bytes (col_cells a rs (c, u)) = ubytes u.
  Proof.
    intros Ha Hrs Hc. destruct (ar_cols _ _ _ (wi_rows _ _ Hw _ _ _ Ha Hrs) _ _ Hc) as (cm & Hcm & Hti & [Hall Hrep]).
    rewrite /col_cells /ubytes. cbn [fst snd]. destruct (decide (uv_size u = 0)) as [Hz|Hz]; [done|]. destruct Hrep as [-> _].
    rewrite /val_bytes (sum_perm _ _ ((λ r : row, (r.1, c, default [] (r.2 !! c))) <$> rs)); [|by rewrite reverse_Permutation].
    rewrite /col in Hall |- *. rewrite fmap_length. clear -Hall. induction rs as [|r rs IH]; [done|].
    rewrite fmap_cons in Hall. apply Forall_cons in Hall as [H1 H2]. specialize (IH H2). cbn in IH |- *. rewrite H1. lia.
  Qed.
  Lemma arch_bytes k a rs : w_archs w !! k = Some a → R !! k = Some rs → val_bytes (arch_drops a rs) = abytes a.
  Proof.
    intros Ha Hrs. rewrite /arch_drops /abytes. assert (∀ s, s ∈ a_storages a → val_bytes (col_cells a rs s) = ubytes s.2) as H.
    { intros [c u] Hc. by eapply col_bytes. }
    induction (a_storages a) as [|s l IH]; [done|]. rewrite fmap_cons. cbn [mjoin list_join sum_list_with]. rewrite /val_bytes sum_app -!/(val_bytes _).
    rewrite H; [|by left]. rewrite IH; [done|]. intros s' Hs'. apply H. by right.
  Qed.
  Lemma world_bytes : wbytes w = bytes_held w.
  Proof.
    rewrite bytes_held_eq -val_bytes_filter /val_bytes. rewrite -(sum_perm _ _ _ (world_drops_held w R Hw)). rewrite -/(val_bytes _) /wbytes /world_drops.
    pose proof (wi_len _ _ Hw) as Hl. pose proof arch_bytes as H. revert Hl H. generalize R. clear. intros R0. revert R0. induction (w_archs w) as [|a l IH]; intros [|rs R] Hl H; try done.
    cbn [zip_with mjoin list_join sum_list_with]. rewrite /val_bytes sum_app -!/(val_bytes _). rewrite (H 0 a rs) //. rewrite -IH; [done|by injection Hl|].
    intros k a' rs' Ha Hrs. by apply (H (S k)).
  Qed.
End bytes.

(** ** Calls *)
Lemma quiet_never {S A} P (m : M S A) Q s : quiet P m Q → P s → ∀ s' ev, m s ≠ Panicked RCapacity s' ev.
Proof. intros H Hs s' ev E. specialize (H s Hs). by rewrite E in H. Qed.
Lemma ret_quiet {S A B} P (m : M S A) Q (f : A → B) : quiet P m Q → quiet P (bind m (λ a, ret (f a))) (λ _ _, True).
Proof. intros H. eapply quiet_bind; [exact H|]. intros a. by apply quiet_ret. Qed.
Lemma spawn_quiet w R cap meta bs fin : winv w R → room 1 w → layout_wf (cm_layout meta) →
  (match spawn_builder cap meta w with Done b w' _ => bops_legal bs (b, w') | _ => True end) → bops_builds bs ≤ 1 →
  small (wbytes w + (default 0 cap + sum_list_with bop_bytes bs)) →
  quiet (λ x, x = w) (spawn_program cap meta bs fin) (λ _ _, True).
Proof.
  intros Hw Hroom Hlay Hleg Hn Hs x ->. rewrite /spawn_program. unfold bind at 1.
  pose proof (spawn_builder_quiet w R cap meta Hw) as Hq. specialize (Hq ltac:(rewrite /small in Hs |- *; lia) w eq_refl).
  pose proof (spawn_builder_spec w R cap meta Hw) as Hsp. rewrite /wp in Hsp.
  destruct (spawn_builder cap meta w) as [b w1 ev|r s ev| |] eqn:E; [|done..].
  destruct Hq as (Eb & Hw1 & Hb & Hp & Hl & _). destruct Hsp as (-> & _ & Hsg & (_ & Hnone & _) & Ea & _ & (_ & _ & Hmeta & _)).
  assert (quiet (λ s, s = (b, w1)) (run_bops bs) (λ _ s, wbytes s.2 ≤ wbytes w + sum_list_with bop_bytes bs)) as Hbs.
  { eapply quiet_mono; [apply (bops_quiet (eb_entity b) bs Hn b w1 R [])|done|]; try done.
    - by rewrite /room Ea.
    - apply Hsg.
    - by rewrite Hmeta.
    - rewrite Eb Hl. rewrite /small in Hs |- *. lia.
    - intros ? s Hx. cbn beta in Hx. rewrite Eb Hl in Hx. lia. }
  pose proof (with_builder_quiet b w1 _ _ Hb (bsafe_bops bs) Hbs) as Hwb.
  assert (quiet (λ x, x = w1) (match fin with BDrop => with_builder b (run_bops bs) | BForget => forget_builder b (run_bops bs) end)
     (λ _ w', wbytes w' ≤ wbytes w + sum_list_with bop_bytes bs)) as Hf.
  { destruct fin; [exact Hwb|]. intros x ->. specialize (Hwb w1 eq_refl). rewrite /forget_builder. specialize (Hbs _ eq_refl).
    destruct (run_bops bs (b, w1)) as [? [] ?| | |]; try done. }
  pose proof (ret_quiet _ _ _ (λ _, eb_entity b) Hf w1 eq_refl) as Hx. rewrite /bind in Hx |- *.
  destruct fin; match type of Hx with match ?y with _ => _ end => destruct y; done end.
Qed.
Lemma with_type_quiet w R t (e : ecsid) (m : ecsid → M world ()) : winv w R → room 1 w → ty_wf t → small (wbytes w) →
  (∀ c w1 R1, winv w1 R1 → wbytes w1 ≤ wbytes w → (∀ cm, comp_of w1 c = Some cm → alive (w_ents w1) c → cm = cm_from_generic t) →
     quiet (λ x, x = w1) (m c) (λ _ _, True)) →
  quiet (λ x, x = w) (let* alive := is_alive e in do* massert alive RAssert in let* c := get_or_create_type t in m c) (λ _ _, True).
Proof.
  intros Hw Hroom Ht Hs Hm. eapply quiet_bind; [apply (quiet_is_alive w R Hw)|]. intros al. cbn beta.
  eapply quiet_bind; [by apply quiet_massert|]. intros ?. cbn beta. apply quiet_pure. intros _.
  intros x ->. unfold bind. assert (room 0 w) as Hroom0 by (rewrite /room in Hroom |- *; lia).
  pose proof (get_or_create_quiet w R t Hw Hs w eq_refl) as Hq. pose proof (get_or_create_spec w R t Hw Hroom0 Ht) as Hsp. rewrite /wp in Hsp.
  destruct (get_or_create_type t w) as [c w1 ev|r s ev| |]; [|done..]. destruct Hsp as (-> & _ & Htc & _ & _ & _ & _ & R1 & Hw1 & _).
  assert (quiet (λ x, x = w1) (m c) (λ _ _, True)) as Hmc.
  { apply (Hm c w1 R1); [done|done|]. intros cm Hcm Hal. by eapply type_comp. }
  specialize (Hmc w1 eq_refl). by destruct (m c w1).
Qed.
Lemma quiet_unwound {S A B C D} P (m1 : M S A) (m2 : A → M S B) (m3 : M S C) (k : C → M S D) cl Q :
  quiet P (let* a := m1 in do* m2 a in let* c := m3 in k c) Q →
  quiet P (let* c := on_unwind (let* a := m1 in do* m2 a in m3) (Some cl) in k c) Q.
Proof.
  intros H s Hs. specialize (H s Hs). rewrite /bind /on_unwind in H |- *. destruct (m1 s) as [a s1 ev1| | |]; [|done..].
  destruct (m2 a s1) as [b s2 ev2| | |]; [|done..]. destruct (m3 s2) as [c s3 ev3| | |]; [|done..]. cbn in H |- *. by destruct (k c s3).
Qed.
Lemma step_quiet o w R : winv w R → op_legal o w → op_tame o w → small (wbytes w + call_bytes (SWorld o)) →
  quiet (λ x, x = w) (step o) (λ _ _, True).
Proof.
  intros Hw Hleg [Hroom Htame] Hs. pose proof (calm_step o) as Hcalm.
  assert (small (wbytes w)) as Hs0 by (rewrite /small in Hs |- *; lia).
  assert (∀ (w1 : world) R1, winv w1 R1 → (λ x, x = w1) w1 → bounded w1 (T0 w1) w1) as HB. { intros. by eapply bounded_winv. }
  destruct o as [cap meta bs fin|e|e t v|e t|e c|e c v|e c|t|e c v|e t|e]; cbn [step op_legal] in *; try by apply quiet_calm.
  - destruct Hleg as [Hlay Hleg]. eapply ret_quiet. by apply (spawn_quiet w R).
  - destruct Hleg as (_ & Ht & Hv). eapply ret_quiet. apply quiet_unwound, (with_type_quiet w R t e (λ c, add_component_with_data e c v)); try done.
    intros c w1 R1 Hw1 Hb Hcm. eapply quiet_mono; [apply (quiet_add w1 R1 Hw1 e c v)|intros x ->; by eapply HB|done].
    + intros Hal. cbn [call_bytes] in Hs. rewrite /T0 /tyi. destruct (comp_of w1 c) as [cm|]; cbn [default].
      * rewrite (Hcm cm) //. change (small (wbytes w1 + ty_size t)). rewrite /small in Hs |- *. lia.
      * change (small (wbytes w1 + 0)). rewrite /small in Hs |- *. lia.
    + rewrite /T0 /small in Hs0 |- *. lia.
  - destruct Hleg as (_ & Ht). eapply ret_quiet. apply (with_type_quiet w R t e (λ c, remove_component_dynamic e c)); try done.
    intros c w1 R1 Hw1 Hb _. eapply quiet_mono; [apply (quiet_remove w1 R1 Hw1 e c)|intros x ->; by eapply HB|done].
    rewrite /T0 /small in Hs0 |- *. lia.
  - eapply ret_quiet. rewrite /add_component_dynamic.
    eapply quiet_bind; [apply (quiet_is_alive w R Hw)|]. intros al. cbn beta. eapply quiet_bind; [by apply quiet_massert|]. intros ?. cbn beta.
    eapply quiet_bind; [apply (quiet_is_alive w R Hw)|]. intros al2. cbn beta. eapply quiet_bind; [by apply quiet_massert|]. intros ?. cbn beta.
    eapply quiet_bind; [apply (quiet_get_meta w R Hw)|]. intros ocm. cbn beta. eapply quiet_bind; [by apply quiet_unwrap|]. intros cm. cbn beta.
    eapply quiet_bind; [by apply quiet_massert|]. intros ?. cbn beta. intros x [[[[[-> _] _] Hm] ->] Hz%bool_decide_eq_true].
    assert (bounded w (T0 w) w) as Hbw by by eapply bounded_winv.
    enough (quiet (bounded w (T0 w)) (add_component_with_data e c []) (λ _ _, True)) as Hq by by apply Hq.
    apply (quiet_add w R Hw); [|done]. intros _. rewrite -(meta_tyi w R Hw _ _ _ _ Hbw Hm).
    change (ti_size (cm_type_info (em_comp cm))) with (cm_size (em_comp cm)). by rewrite Hz Nat.add_0_r.
  - destruct Hleg as (_ & _ & Hf). eapply ret_quiet. eapply quiet_mono; [apply (quiet_add w R Hw e c v)|intros x ->; by eapply HB|done]; [|done].
    intros Hal. cbn [call_bytes] in Hs. rewrite /tyi /comp_of. destruct (meta_at w (uindex c)) as [em|] eqn:Em; cbn [fmap option_fmap option_map default].
    + change (small (wbytes w + cm_size (em_comp em))).
      rewrite -(Hf w em); [done|]. rewrite (get_entity_meta_alive w c) // Em //.
    + change (small (wbytes w + 0)). by rewrite Nat.add_0_r.
  - eapply ret_quiet. eapply quiet_mono; [apply (quiet_remove w R Hw e c)|intros x ->; by eapply HB|done]. done.
  - eapply ret_quiet. by apply (get_or_create_quiet w R).
Qed.
Lemma calm_releasing {A} gs (m : M world A) : calm m → calm (releasing gs m).
Proof. intros H w. specialize (H w). rewrite /releasing. by destruct (m w). Qed.
Lemma calm_write_lock i : calm (acquire_write i).
Proof. apply calm_zoom. intros l. destruct (decide _); [done|]. by destruct (rw_poisoned l). Qed.
Lemma calm_read_lock i : calm (acquire_read i).
Proof. apply calm_zoom. intros l. destruct (rw_writer l); [done|]. by destruct (rw_poisoned l). Qed.
Lemma calm_dq_lock fs gs b : calm (dq_lock fs gs b).
Proof.
  revert gs b. induction fs as [|f fs IH]; intros gs b; cbn [dq_lock]; calm. apply calm_releasing. destruct f; [..]; apply calm_write_lock || apply calm_read_lock.
Qed.
Lemma calm_sq_lock fs gs : calm (sq_lock fs gs).
Proof.
  revert gs. induction fs as [|f fs IH]; intros gs; cbn [sq_lock]; calm. apply calm_releasing. calm; apply calm_write_lock || apply calm_read_lock.
Qed.
Lemma sstep_quiet s o : reachable s → sop_legal o s → sop_tame o s →
  (N.of_nat (bytes_held (ss_world s) + call_bytes o) <= byte_limit)%N → ∀ s' ev, sstep o s ≠ Panicked RCapacity s' ev.
Proof.
  intros Hr Hleg Htame Hs. pose proof (reachable_inv s Hr) as Hi. destruct (sv_world _ Hi) as ((R & Hw) & _).
  assert (calm (sstep o) → ∀ s' ev, sstep o s ≠ Panicked RCapacity s' ev) as Hcalm. { intros H s' ev E. specialize (H s). by rewrite E in H. }
  rewrite -(world_bytes _ _ Hw) in Hs.
  destruct o as [o|fs|ps|i u|i|i n j v]; cbn [sstep] in *.
  - destruct Hleg as [Hleg _]. pose proof (step_quiet o _ R Hw Hleg Htame Hs _ eq_refl) as Hq. intros s' ev E.
    apply bind_panic_inv in E as [E|(? & ? & ? & ? & _ & E & _)]; [|done]. rewrite in_sworld_run in E.
    destruct (step o (ss_world s)); try done. by injection E as ->.
  - apply Hcalm. rewrite /open_query. calm. apply calm_zoom. rewrite /dq_new. calm. apply calm_dq_lock.
  - apply Hcalm. rewrite /open_query. calm. apply calm_zoom. rewrite /sq_new. calm. apply calm_sq_lock.
  - apply Hcalm. rewrite /close_query. calm. apply calm_zoom. calm.
  - apply Hcalm. rewrite /close_query. calm.
  - apply Hcalm. calm; apply calm_zoom; [apply calm_query_item|]. rewrite /ptr_store. calm.
Qed.

(** ** Histories *)
Lemma concat_perm (l1 l2 : list (ecsid * value)) : l1 ≡ₚ l2 → length (concat l1.*2) = length (concat l2.*2).
Proof.
  induction 1 as [|x l1 l2 _ IH|x y l|l1 l2 l3 _ IH1 _ IH2]; [done|..]; rewrite ?fmap_cons ?concat_cons ?app_length; lia.
Qed.
Definition pbytes (l : list (ecsid * value)) : nat := length (concat l.*2).
Lemma pbytes_app l1 l2 : pbytes (l1 ++ l2) = pbytes l1 + pbytes l2.
Proof. by rewrite /pbytes fmap_app concat_app app_length. Qed.
Lemma given_bytes w bs D : given w bs D → pbytes D = sum_list_with bop_bytes bs.
Proof.
  rewrite /given. revert D. induction bs as [|o bs IH]; intros D H.
  - by apply Forall2_nil_inv_l in H as ->.
  - apply Forall2_cons_inv_l in H as ([c v] & D' & Hg & HD & ->). change (length (v ++ concat D'.*2) = bop_bytes o + sum_list_with bop_bytes bs).
    rewrite app_length -(IH D' HD) /pbytes. f_equal. destruct o; cbn in Hg |- *; naive_solver.
Qed.
Lemma before_bytes bs : sum_list_with bop_bytes (bops_before bs) ≤ sum_list_with bop_bytes bs.
Proof. induction bs as [|o bs IH]; [done|]. destruct o; cbn in IH |- *; lia. Qed.
Lemma build_in (bs : list bop) : BBuild ∈ bs ∨ BBuild ∉ bs.
Proof.
  induction bs as [|o bs [IH|IH]]; [right; by apply not_elem_of_nil|left; by right|].
  assert (o = BBuild ∨ o ≠ BBuild) as [->|Ho] by (destruct o; auto); [left; by left|]. right. intros [?|?]%elem_of_cons; congruence.
Qed.
Lemma books_bytes w o r n : books w o r n → pbytes (took n) ≤ passed_bytes o.
Proof.
  intros H. assert (∀ bs, given w (bops_before bs) (took n) → pbytes (took n) ≤ sum_list_with bop_bytes bs) as Hg.
  { intros bs Hb. rewrite (given_bytes _ _ _ Hb). apply before_bytes. }
  assert (took n = [] ∧ dropt n = [] ∧ lost n = [] → pbytes (took n) ≤ passed_bytes o) as Hnil. { intros [-> _]. cbn. lia. }
  assert (took n = [] → pbytes (took n) ≤ passed_bytes o) as Hno. { intros ->. cbn. lia. }
  assert (∀ c v, took n = [(c, v)] → pbytes (took n) = length v) as Hone. { intros c v ->. by rewrite /pbytes /= app_nil_r. }
  destruct o as [o|fs|ps|i u|i|i k j v]; [|by apply Hnil..|].
  2:{ destruct r as [r|r]; [|by apply Hnil]. destruct H as (_ & [[Ht _]|(c & v0 & Ht & _)]); [by apply Hno|]. by rewrite (Hone _ _ Ht). }
  destruct o as [cap meta bs fin|e|e t v|e t|e c|e c v|e c|t|e c v|e t|e]; cbn [books passed_bytes] in *.
  - destruct r as [r|r].
    + destruct H as (_ & _ & H1 & H2). destruct (build_in bs) as [Hi|Hi]; [by apply Hg, H1|]. by apply Hno, H2.
    + destruct r; try (destruct H as (_ & _ & [Ht|[_ Hb]]); [by apply Hno|by apply Hg]). destruct H as [Hb _]. by apply Hg.
  - destruct r as [[[]| |]|]; try by apply Hnil. destruct b; [|by apply Hnil]. destruct H as [Ht _]. by apply Hno.
  - destruct r as [r|r]; [|by apply Hnil]. destruct H as (_ & _ & c & _ & [[_ Ht]|[_ Ht]]); [by rewrite (Hone _ _ Ht)|by apply Hno].
  - destruct r as [r|r]; [|by apply Hnil]. destruct H as (Ht & _). by apply Hno.
  - destruct r as [r|r]; [|by apply Hnil]. destruct H as (_ & _ & Ht). by rewrite (Hone _ _ Ht).
  - destruct r as [r|r]; [|by apply Hnil]. destruct H as (_ & _ & [(_ & _ & Ht)|(_ & Ht)]); [by rewrite (Hone _ _ Ht)|by apply Hno].
  - destruct r as [r|r]; [|by apply Hnil]. destruct H as (Ht & _). by apply Hno.
  - by apply Hnil.
  - destruct r as [[[]| |]|]; try by apply Hnil. destruct b; [|by apply Hnil]. destruct H as (_ & Ht & _). by rewrite (Hone _ _ Ht).
  - by apply Hnil.
  - by apply Hnil.
Qed.
Lemma took_bytes (l : list (sop * res * list event)) (ns : list entry) : length ns = length l →
  (∀ i o r ev n, l !! i = Some (o, r, ev) → ns !! i = Some n → pbytes (took n) ≤ passed_bytes o) →
  pbytes (ns ≫= took) ≤ sum_list_with passed_bytes (calls_of l).
Proof.
  revert ns. induction l as [|[[o r] ev] l IH]; intros [|n ns] Hl H; try done.
  rewrite bind_cons pbytes_app. cbn [calls_of fmap list_fmap sum_list_with fst]. specialize (IH ns ltac:(by injection Hl)).
  pose proof (H 0 o r ev n eq_refl eq_refl). enough (pbytes (ns ≫= took) ≤ sum_list_with passed_bytes (calls_of l)) by (rewrite /calls_of in H1; lia).
  apply IH. intros i o' r' ev' n' Hi Hn. by apply (H (S i) o' r' ev').
Qed.
Lemma history_bytes l s : steps sess_new l s → bytes_held (ss_world s) ≤ sum_list_with passed_bytes (calls_of l).
Proof.
  intros Hst. destruct (steps_ledger _ _ _ sess_new_inv Hst) as (ns & [Hlen Hb] & Hbal & _).
  apply concat_perm in Hbal. change (pbytes (cells (ss_world s) ++ (ns ≫= dropt) ++ (ns ≫= lost)) = pbytes (ns ≫= took)) in Hbal.
  rewrite pbytes_app in Hbal. assert (pbytes (ns ≫= took) ≤ sum_list_with passed_bytes (calls_of l)) as Ht.
  { apply took_bytes; [done|]. intros i o r ev n Hi Hn. destruct (Hb i o r ev n Hi Hn) as (si & _ & Hbk & _). by eapply books_bytes. }
  rewrite /bytes_held. rewrite /pbytes in Hbal, Ht |- *. lia.
Qed.
Lemma history_quiet l s o : steps sess_new l s → sop_legal o s → sop_tame o s →
  (N.of_nat (sum_list_with passed_bytes (calls_of l) + call_bytes o) <= byte_limit)%N → ∀ s' ev, sstep o s ≠ Panicked RCapacity s' ev.
Proof.
  intros Hst Hl Ht Hs. apply sstep_quiet; [by exists l|done|done|]. pose proof (history_bytes l s Hst). lia.
Qed.
Lemma capacity_refused s cap meta bs fin : reachable s → w_reuse (ss_world s) = None → (isize_max < N.of_nat cap)%N →
  ∃ r s' ev, sstep (SWorld (OSpawn (Some cap) meta bs fin)) s = Panicked r s' ev ∧ (r = RCapacity ∨ r = ROutOfIds).
Proof.
  intros Hr Hre Hcap. destruct (sv_world _ (reachable_inv s Hr)) as ((R & Hw) & _).
  pose proof (spawn_builder_spec _ R (Some cap) meta Hw) as Hsp. rewrite /wp in Hsp.
  cbn [sstep step]. rewrite /bind in_sworld_run /spawn_program /bind.
  assert (match spawn_builder (Some cap) meta (ss_world s) with Done _ _ _ => False | _ => True end) as Hd.
  { rewrite /spawn_builder /bind /in_ents /zoom. destruct (ents_spawn (w_ents (ss_world s))) as [e w1 ev| | |]; try done.
    rewrite /builder_with_capacity /bind /=. rewrite Hre. destruct (decide (cap = 0)) as [->|Hn]; [by cbn in Hcap|].
    assert (layout_from_size_align cap 1 = None) as ->; [|done].
    rewrite /layout_from_size_align. destruct (_ && _)%bool eqn:E; [|done]. apply andb_true_iff in E as [_ E]. apply N.leb_le in E. lia. }
  destruct (spawn_builder (Some cap) meta (ss_world s)) as [b w1 ev|r w1 ev| |]; try done.
  eexists r, _, _. split; [reflexivity|]. destruct Hsp as [Hx|Hx]; [by left|]. right. apply Hx.
Qed.
