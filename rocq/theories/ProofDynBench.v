(** * The benches with dynamic components (C71) *)
From Verif Require Import ProofBase SpecSmall World History ProofEntities ProofBitset ProofArrayVec ProofUVec.
From Verif Require Export SpecDynBench ProofIterBench ProofForEachDyn ProofRecorded.

(** ** Spawning with dynamic components is legal *)
Definition mm2 (s s' : bw) : Prop := w_meta s'.2 = w_meta s.2.
#[local] Instance mm2_preorder : PreOrder mm2.
Proof. split; [done|]. intros s1 s2 s3. rewrite /mm2. congruence. Qed.
Lemma mk_on_fst {A} (m : M builder A) : keeping mm2 (@on_fst builder world A m).
Proof. intros [b w]. rewrite /on_fst /zoom. simpl. by destruct (m b). Qed.
Lemma mk_get_meta c : keeping mm2 (in_world (get_entity_meta c)).
Proof.
  intros [b w]. rewrite /in_world /on_snd /zoom /get_entity_meta /is_alive /bind /gets. simpl. destruct (ents_is_alive (w_ents w) c) as [[]|]; done.
Qed.
Ltac mkeep := repeat (lazymatch goal with
  | |- keeping _ (bind _ _) => apply keeping_bind; [apply _| |intros ?]
  | |- keeping _ (ret _) => apply keeping_ret; apply _
  | |- keeping _ ub => apply keeping_ub; apply _
  | |- keeping _ (gets _) => apply keeping_gets; apply _
  | |- keeping _ (massert _ _) => apply keeping_massert; apply _
  | |- keeping _ (unwrap _ _) => apply keeping_unwrap; apply _
  | |- keeping _ (or_ub _) => apply keeping_or_ub; apply _
  | |- keeping mm2 (on_fst _) => apply mk_on_fst
  | |- keeping mm2 (in_world (get_entity_meta _)) => apply mk_get_meta
  | |- keeping _ (if ?b then _ else _) => destruct b
  | |- keeping _ (let _ := _ in _) => cbv zeta
  end).
Lemma mk_realloc n : keeping mm2 (builder_realloc n).
Proof. rewrite /builder_realloc. mkeep. Qed.
Lemma mk_with_data c v : keeping mm2 (builder_with_data c v).
Proof. rewrite /builder_with_data. mkeep. apply mk_realloc. Qed.
Lemma mk_spawn_builder cm w b w' ev : spawn_builder None cm w = Done b w' ev → w_meta w' = w_meta w.
Proof.
  rewrite /spawn_builder /builder_new /bind /in_ents /zoom /gets. destruct (ents_spawn (w_ents w)) as [e en ?| | |]; [|done..]. cbn.
  destruct (w_reuse w) as [[[ids p] cap]|]; cbn; by intros [= _ <- _].
Qed.
Lemma value_fits_meta w w' c v : w_meta w' = w_meta w → lives w c → value_fits w c v → value_fits w' c v.
Proof.
  intros Hm Hl H s m E. apply (H w). rewrite /get_entity_meta (bind_done_nil _ _ _ _ _ Hl) /gets -Hm. revert E.
  rewrite /get_entity_meta /is_alive /bind /gets. destruct (ents_is_alive (w_ents w') c) as [[]|]; cbn; [|done..]. by intros [= ->].
Qed.
Lemma fits_value w p : fits_in w p → id_wf p.1 ∧ lives w p.1 ∧ value_fits w p.1 p.2.
Proof.
  intros (H1 & cm & H2 & H3). split; [done|]. split; [by eapply recorded_lives|]. intros s m E. rewrite /recorded E in H2. by subst cm.
Qed.
Lemma dyn_legal w p : layout_wf (cm_layout p.1) → Forall (fits_in w) p.2 → op_legal (spawn_dynamic p) w.
Proof.
  intros Hl Hp. split; [done|]. destruct (spawn_builder None p.1 w) as [b w' ev| | |] eqn:E; [|done..]. apply mk_spawn_builder in E.
  assert (w_meta (b, w').2 = w_meta w) as Hm by done. clear E. revert Hm. generalize (b, w') as s. clear Hl.
  induction Hp as [|[c v] l H Hp IH]; intros s Hm; cbn [fmap list_fmap app bops_legal]; [split; [done|]; destruct (run_bop _ s); done|].
  apply fits_value in H as (H1 & H2 & H3). split; [split; [done|by eapply value_fits_meta]|].
  cbn [run_bop fst snd]. pose proof (mk_with_data c v s) as Hk. destruct (builder_with_data c v s) as [a s' ev'| | |]; [|done..]. apply IH. by rewrite Hk.
Qed.
Lemma dyn_tame w p : (N.of_nat (length (w_archs w) + 1) <= u32_max)%N → op_tame (spawn_dynamic p) w.
Proof. intros H. split; [done|]. destruct p as [cm l]. cbn. induction l; cbn; [lia|done]. Qed.
Lemma tt_dynamic p : keeping tt (step (spawn_dynamic p)).
Proof.
  cbn [step spawn_dynamic]. rewrite /spawn_program /spawn_builder. apply keeping_bind; [apply tt_preorder| |intros; apply keeping_ret, tt_preorder].
  apply keeping_bind; [apply tt_preorder| |intros b].
  - apply keeping_bind; [apply tt_preorder|apply tk_ents_spawn|intros e; apply tk_builder_new].
  - apply keeping_bind; [apply tt_preorder| |intros; apply keeping_ret, tt_preorder]. apply tk_with_builder.
    destruct p as [cm l]. cbn [fst snd]. induction l as [|[c v] l IH]; cbn [run_bops fmap list_fmap app run_bop].
    + apply keeping_bind; [apply tt2_preorder| |intros; apply keeping_ret, tt2_preorder]. apply keeping_bind; [apply tt2_preorder|apply tk_build|intros; apply keeping_ret, tt2_preorder].
    + apply keeping_bind; [apply tt2_preorder|apply tk_builder_with_data|intros _; exact IH].
Qed.
Lemma dyn_before l : bops_before (((λ q : ecsid * value, BWithDynData q.1 q.2) <$> l) ++ [BBuild]) = (λ q, BWithDynData q.1 q.2) <$> l.
Proof. apply bops_before_app. intros (p & ? & _)%elem_of_list_fmap. done. Qed.
Lemma given_dyn w l D : given w ((λ q, BWithDynData q.1 q.2) <$> l) D → D = l.
Proof.
  rewrite /given Forall2_fmap_l. intros H. induction H as [|[c v] [c' v'] l D [Hc Hv] H IH]; [done|]. cbn in *. by subst.
Qed.
Lemma dyn_sums p : call_ids (SWorld (spawn_dynamic p)) = 1 ∧ call_bytes (SWorld (spawn_dynamic p)) = ids_bytes p ∧ passed_bytes (SWorld (spawn_dynamic p)) = ids_bytes p.
Proof.
  destruct p as [cm l]. cbn [snd]. assert (sum_list_with bop_bytes (((λ q : ecsid * value, BWithDynData q.1 q.2) <$> l) ++ [BBuild]) = ids_bytes (cm, l)) as H.
  { rewrite sum_list_with_app /= Nat.add_0_r /ids_bytes. cbn [snd]. induction l as [|q l IH]; [done|]. cbn. by rewrite IH. }
  split; [|split; exact H]. cbn. f_equal. rewrite sum_list_with_app /= Nat.add_0_r. clear H. induction l as [|q l IH]; [done|]. exact IH.
Qed.
(** ** One more *)
Lemma dyn_spawn_one h s p : steps sess_new h s → Forall (λ q, q = None) (ss_open s) → layout_wf (cm_layout p.1) → Forall (fits_in (ss_world s)) p.2 → NoDup p.2.*1 →
  dyn_roomy h (ss_world s) [p] →
  ∃ e w', sstep (SWorld (spawn_dynamic p)) s = Done (SRet (RId e)) (Sess w' (ss_open s)) [] ∧ dyn_populated (ss_world s) w' [p] [e] ∧
    steps sess_new (h ++ [(SWorld (spawn_dynamic p), ROk (SRet (RId e)), [])]) (Sess w' (ss_open s)) ∧
    length (w_archs w') ≤ S (Nat.max 1 (length (w_archs (ss_world s)))).
Proof.
  intros Hst Hop Hlay Hfit Hnd (Hids & Hbytes & Harch). assert (reachable s) as Hs by (by exists h).
  assert (reachable_world (ss_world s)) as Hrw by (by exists s). pose proof (reachable_world_ok _ Hrw) as Hok.
  change (length [p]) with 1 in Hids, Harch. change (sum_list_with ids_bytes [p]) with (ids_bytes p + 0) in Hbytes.
  assert (N.of_nat (length (w_archs (ss_world s)) + 1) <= u32_max)%N as Hroom by lia.
  set (o := SWorld (spawn_dynamic p)). pose proof (dyn_legal _ p Hlay Hfit) as Hleg0. pose proof (dyn_tame _ p Hroom) as Htame0.
  assert (sop_legal o s) as Hleg by (split; [done|]; by right).
  assert (sop_tame o s) as Htame by done.
  pose proof (history_ids h s o Hst Hleg Htame) as Hid. pose proof (history_quiet h s o Hst Hleg Htame) as Hq.
  destruct (dyn_sums p) as (Hb0 & Hb1 & Hb2). specialize (Hid ltac:(rewrite /o Hb0; lia)). specialize (Hq ltac:(rewrite /o Hb1; lia)).
  pose proof (spawn_view _ None p.1 _ BDrop Hok Hleg0 Htame0) as Hv. change (OSpawn None p.1 _ BDrop) with (spawn_dynamic p) in Hv. rewrite dyn_before in Hv.
  pose proof (tt_dynamic p (ss_world s)) as Htt. rewrite /o sworld_run in Hid, Hq. rewrite /o sworld_run.
  assert (BBuild ∈ ((λ q : ecsid * value, BWithDynData q.1 q.2) <$> p.2) ++ [BBuild]) as Hbb. { apply elem_of_app. right. by left. }
  destruct (step (spawn_dynamic p) (ss_world s)) as [r w' ev|r w' ev| |] eqn:E; [| |done..].
  - destruct Hv as (-> & e & D & -> & (S1 & S2 & S3 & S4 & S5 & S6) & HD & [(_ & _ & [B1 B2] & Hrec)|[Hn _]]); [|done]. apply given_dyn in HD as ->.
    destruct (step_done_ok _ _ _ _ _ Hok Hleg0 Htame0 E) as [Hok' Hinfo].
    assert (∀ c, ¬ new_type (ss_world s) w' c) as Hnew. { intros c (t & H1 & H2). apply (H2 c). rewrite /type_id -Htt. exact H1. }
    exists e, w'. split; [done|]. split.
    + split; [done|]. split; [apply NoDup_singleton|].
      assert (lives w' e) as Hle by (apply S4; [done|by left]).
      split. { intros [|i] e0 p0 [= <-] [= <-]. split; [done|]. split; [done|]. split; [done|]. split; [apply B1; by left|done]. }
      split. { intros e0 c x. rewrite B2. split.
        - intros [[-> H]|H]; [right; by exists 0, p|by left].
        - intros [H|([|i] & p0 & [= <-] & [= <-] & H)]; [by right|by left]. }
      split. { intros e0 H0. rewrite (S4 e0 H0) elem_of_list_singleton. pose proof (Hnew e0). tauto. }
      split. { intros e0. rewrite B1 elem_of_list_singleton. pose proof (Hnew e0). tauto. }
      split. { intros t c. by rewrite /type_id Htt. }
      intros c cm H1 H2. apply Hinfo; [done|]. apply S4; [done|]. by right; left.
    + assert (sstep o s = Done (SRet (RId e)) (Sess w' (ss_open s)) []) as Eo by by rewrite /o sworld_run E.
      split; [by eapply steps_done|]. apply (goes_archs o s (ROk (SRet (RId e))) (Sess w' (ss_open s)) [] (reachable_inv _ Hs)). done.
  - exfalso.
    assert (∀ e, spawned (ss_world s) w' e → (∀ e0, stored (ss_world s) e0 → stored w' e0) → ¬ (∃ o, o ∈ ((λ q : ecsid * value, BWithDynData q.1 q.2) <$> p.2) ++ [BBuild] ∧ bop_rejected w' o r)) as Hno.
    { intros e (S1 & S2 & S3 & S4 & S5 & S6) Hsto (o0 & [(q & -> & Hq0)%elem_of_list_fmap|Ho]%elem_of_app & Hrej); [|apply elem_of_list_singleton in Ho as ->; done].
      pose proof (proj1 (Forall_forall _ _) Hfit _ Hq0) as (H1 & cm & H2 & H3). pose proof (recorded_lives _ _ _ H2) as Hl. pose proof (recorded_stored _ _ _ Hok H1 H2) as Hsx.
      assert (lives w' q.1) as Hl' by (apply S4; [done|by right; left]). destruct Hrej as [[_ Hu]|[_ [Hu|Hu]]]; [|done|by apply Hu, Hsto].
      rewrite /unissued in Hu. rewrite /lives in Hl'. congruence. }
    destruct Hv as [->|[(_ & _ & D & HD & Hnn)|[(-> & _)|(e & Hsp & H)]]]; [by eapply Hq|by apply given_dyn in HD as ->|by eapply Hid|].
    destruct H as [(H & _ & (_ & Hsto & _))|[(_ & _ & D & HD & Hnn & _)|(H & _ & _ & D & _ & _ & [Hsto _] & _)]].
    + eapply Hno; [done| |exact H]. intros e0 H0. apply Hsto. by left.
    + by apply given_dyn in HD as ->.
    + eapply Hno; [done| |exact H]. intros e0 H0. apply Hsto. by right; left.
Qed.
Lemma dyn_populated_nil w : dyn_populated w w [] [].
Proof.
  split; [done|]. split; [constructor|]. split; [intros i e p H; by rewrite lookup_nil in H|]. split.
  { intros e c x. split; [by left|]. intros [H|(i & p & H & _)]; [done|]. by rewrite lookup_nil in H. }
  split. { intros e _. split; [by right|]. intros [?%elem_of_nil|?]; done. }
  split. { intros e. split; [by right|]. intros [?%elem_of_nil|?]; done. }
  done.
Qed.
Lemma dyn_populated_cons w w1 w2 p ps e es : dyn_populated w w1 [p] [e] → dyn_populated w1 w2 ps es → dyn_populated w w2 (p :: ps) (e :: es).
Proof.
  intros (_ & _ & S3 & S4 & S5 & S6 & S7 & S8) (P1 & P2 & P3 & P4 & P5 & P6 & P7 & P8).
  destruct (S3 0 e p eq_refl eq_refl) as (He1 & He2 & He3 & He4 & He5).
  assert (∀ e0, e0 ∈ es → id_wf e0 ∧ ¬ lives w1 e0) as Hes.
  { intros e0 [i Hi]%elem_of_list_lookup_1. destruct (lookup_lt_is_Some_2 ps i) as [p0 Hp0]; [rewrite -P1; by eapply lookup_lt_Some|]. destruct (P3 i e0 p0 Hi Hp0) as (H1 & H2 & _). done. }
  split; [by cbn; f_equal|]. split. { constructor; [|done]. by intros (_ & ?)%Hes. }
  split. { intros [|i] e0 p0 H1 H2.
    - injection H1 as <-. injection H2 as <-. split; [done|]. split; [done|]. split; [apply P5; [done|by right]|]. split; [apply P6; by right|]. by apply P8.
    - destruct (P3 i e0 p0 H1 H2) as (H3 & H4 & H5). split; [done|]. split; [|done]. intros Hl. apply H4, S5; [done|by right]. }
  split. { intros e0 c x. rewrite P4 S4. split.
    - intros [[H|([|i] & p0 & [= <-] & [= <-] & H)]|(i & p0 & H1 & H2 & H3)]; [by left|right; by exists 0, p|right; by exists (S i), p0].
    - intros [H|([|i] & p0 & H1 & H2 & H3)]; [by left; left| |right; by exists i, p0]. left; right. exists 0, p0. cbn in *. by simplify_eq. }
  split. { intros e0 H0. rewrite (P5 e0 H0) (S5 e0 H0) !elem_of_cons elem_of_nil. tauto. }
  split. { intros e0. rewrite (P6 e0) (S6 e0) !elem_of_cons elem_of_nil. tauto. }
  split. { intros t c. by rewrite (P7 t c) (S7 t c). }
  intros c cm H1 H2. rewrite (P8 c cm H1); [by apply S8|]. apply S5; [done|by right].
Qed.
(** ** All of them *)
Lemma fits_records w w' p : same_records w w' → fits_in w p → fits_in w' p.
Proof. intros H (H1 & cm & H2 & H3). split; [done|]. exists cm. split; [|done]. apply H; [done|by eapply recorded_lives|done]. Qed.
Lemma spawn_dynamics_run ps : ∀ h s, steps sess_new h s → Forall (λ q, q = None) (ss_open s) →
  Forall (λ p, layout_wf (cm_layout p.1) ∧ Forall (fits_in (ss_world s)) p.2 ∧ NoDup p.2.*1) ps → dyn_roomy h (ss_world s) ps →
  ∃ es h' w', spawn_dynamics ps s = Done es (Sess w' (ss_open s)) [] ∧ dyn_populated (ss_world s) w' ps es ∧ steps sess_new (h ++ h') (Sess w' (ss_open s)) ∧
    calls_of h' = (λ p, SWorld (spawn_dynamic p)) <$> ps ∧ length (w_archs w') ≤ length ps + Nat.max 1 (length (w_archs (ss_world s))).
Proof.
  induction ps as [|p ps IH]; intros h s Hst Hop Hps Hroom.
  - exists [], [], (ss_world s). rewrite app_nil_r sess_eta. split; [done|]. split; [apply dyn_populated_nil|]. split; [done|]. split; [done|]. cbn; lia.
  - apply Forall_cons in Hps as [(Hlay & Hfit & Hnd) Hps]. destruct Hroom as (R1 & R2 & R3). cbn [sum_list_with length] in R1, R2, R3.
    destruct (dyn_spawn_one h s p Hst Hop Hlay Hfit Hnd) as (e & w1 & E1 & Hsp & Hst1 & Hlen).
    { split; [|split]; cbn [sum_list_with length]; lia. }
    destruct (IH _ _ Hst1 Hop) as (es & h2 & w2 & E2 & Hp & Hst2 & Hc2 & Hlen2); cbn [ss_world ss_open] in *.
    { eapply Forall_impl; [exact Hps|]. intros p0 (H1 & H2 & H3). split; [done|]. split; [|done]. eapply Forall_impl; [exact H2|]. intros q. apply fits_records, Hsp. }
    { destruct (dyn_sums p) as (Hb0 & _ & Hb2). split; [|split].
      - rewrite /calls_of !fmap_app sum_list_with_app. cbn [fmap list_fmap fst sum_list_with]. rewrite Hb0. rewrite /calls_of in R1. lia.
      - rewrite /calls_of !fmap_app sum_list_with_app. cbn [fmap list_fmap fst sum_list_with]. rewrite Hb2. rewrite /calls_of in R2. lia.
      - lia. }
    exists (e :: es), ((SWorld (spawn_dynamic p), ROk (SRet (RId e)), []) :: h2), w2. split.
    { cbn [spawn_dynamics]. rewrite (bind_done_nil _ _ _ _ _ E1) (bind_done_nil _ _ _ _ _ E2). done. }
    split; [by eapply dyn_populated_cons|]. split; [by rewrite -app_assoc in Hst2|]. split; [cbn; by f_equal|]. cbn [length] in *. lia.
Qed.
Lemma spawn_dynamics_done h s ps : steps sess_new h s → Forall (λ q, q = None) (ss_open s) →
  Forall (λ p, layout_wf (cm_layout p.1) ∧ Forall (fits_in (ss_world s)) p.2 ∧ NoDup p.2.*1) ps → dyn_roomy h (ss_world s) ps →
  ∃ es s', spawn_dynamics ps s = Done es s' [] ∧ ss_open s' = ss_open s ∧ dyn_populated (ss_world s) (ss_world s') ps es.
Proof. intros H1 H2 H3 H4. destruct (spawn_dynamics_run ps h s H1 H2 H3 H4) as (es & h' & w' & E & Hp & _). by exists es, (Sess w' (ss_open s)). Qed.

(** ** One run *)
Lemma written_to_iff xs : unshared_ids xs → ∀ us c v, written_to xs us c = Some v ↔ ∃ j, xs !! j = Some (FMut c) ∧ us !! j = Some (Some v).
Proof.
  induction xs as [|x xs IH]; intros Hun us c v.
  { split; [by destruct us|]. intros (j & Hj & _). by rewrite lookup_nil in Hj. }
  assert (unshared_ids xs) as Hun'. { intros j j' c' x' H1 H2 H3. pose proof (Hun (S j) (S j') c' x' H1 H2 H3). lia. }
  specialize (IH Hun'). destruct us as [|u us].
  { split; [by destruct x|]. intros (j & _ & Hj). by rewrite lookup_nil in Hj. }
  assert (x ≠ FMut c → written_to (x :: xs) (u :: us) c = written_to xs us c) as Hne. { intros Hx. destruct x; try done. cbn. case_decide; [congruence|done]. }
  assert ((∃ j, (x :: xs) !! j = Some (FMut c) ∧ (u :: us) !! j = Some (Some v)) ↔ (x = FMut c ∧ u = Some v) ∨ ∃ j, xs !! j = Some (FMut c) ∧ us !! j = Some (Some v)) as ->.
  { split; [intros ([|j] & H1 & H2); [left; cbn in *; split; congruence|right; by exists j]|]. intros [[-> ->]|(j & H1 & H2)]; [by exists 0|by exists (S j)]. }
  destruct (decide (x = FMut c)) as [->|Hx].
  - cbn. rewrite decide_True; [|done]. split; [by left|]. intros [[_ ?]|(j & H1 & _)]; [done|]. by pose proof (Hun 0 (S j) c (FMut c) eq_refl H1 eq_refl).
  - rewrite (Hne Hx) IH. split; [by right|]. by intros [[? _]|?].
Qed.
Lemma row_updated_ids xs g e l : (row_updated xs g e l).*1 = l.*1.
Proof. rewrite /row_updated. destruct (mapM _ _); [|done]. rewrite -list_fmap_compose. done. Qed.
Lemma tabulates_ids_step w w' xs g es ls : NoDup es → length es = length ls → Forall (λ l, NoDup l.*1) ls → (∀ e, e ∈ es → stored w e) →
  tabulates_ids w es ls → unshared_ids xs → all_rows_updated w w' xs g → tabulates_ids w' es (zip_with (row_updated xs g) es ls).
Proof.
  intros Hnd Hlen Hls Hsto Htab Hun (_ & _ & _ & Hup) e c v. rewrite Hup.
  destruct (decide (e ∈ es)) as [[i Hi]%elem_of_list_lookup|Hne].
  2:{ split.
      - intros [(_ & ys & j & Hreads & Hj & _)|[Hh _]].
        + destruct (Forall2_lookup_l _ _ _ _ _ Hreads Hj) as (y & _ & Hy). cbn in Hy. destruct Hy as (v1 & Hh & _). apply Htab in Hh as (i & l & H1 & _). by destruct Hne; eapply elem_of_list_lookup_2.
        + apply Htab in Hh as (i & l & H1 & _). by destruct Hne; eapply elem_of_list_lookup_2.
      - intros (i & l & H1 & _). by destruct Hne; eapply elem_of_list_lookup_2. }
  destruct (lookup_lt_is_Some_2 ls i) as [l Hl]; [rewrite -Hlen; by eapply lookup_lt_Some|].
  pose proof (elem_of_list_lookup_2 _ _ _ Hl) as Hlin. pose proof (proj1 (Forall_forall _ _) Hls _ Hlin) as Hndl. cbn in Hndl.
  assert (∀ c x, holds w e c x ↔ (c, x) ∈ l) as Hh.
  { intros c1 x. rewrite (Htab e c1 x). split; [|intros H1; by exists i, l]. intros (i' & l' & H1 & H2 & H3).
    pose proof (NoDup_lookup _ _ _ _ Hnd H1 Hi) as ->. rewrite Hl in H2. by injection H2 as <-. }
  assert (∀ x y, reads w e x y ↔ item_fetched e l x = Some y) as Hreads.
  { intros x y. rewrite /reads /item_fetched. destruct (fetch_id x) as [c1|]; [|split; [by intros ->|by intros [= ->]]]. split.
    - intros (x1 & H1%Hh & ->). apply (elem_of_list_to_map (M:=gmap ecsid)) in H1; [|done]. apply fmap_Some. exists x1. split; [exact H1|done].
    - intros (x1 & H1 & ->)%fmap_Some. apply (elem_of_list_to_map (M:=gmap ecsid)) in H1; [|done]. exists x1. split; [|done]. by apply Hh. }
  assert (∀ c v, new_row_value w xs g e c v ↔ ∃ ys, mapM (item_fetched e l) xs = Some ys ∧ written_to xs (g ys) c = Some v) as Hnv.
  { intros c1 x. split.
    - intros (_ & ys & j & H1 & H2 & H3). exists ys. split.
      + apply mapM_Some. eapply Forall2_impl; [exact H1|]. intros p y. apply Hreads.
      + apply (written_to_iff _ Hun). by exists j.
    - intros (ys & H1%mapM_Some & (j & H2 & H3)%(written_to_iff _ Hun)).
      assert (Forall2 (reads w e) xs ys) as Hs. { eapply Forall2_impl; [exact H1|]. intros p y. apply Hreads. }
      split; [|by exists ys, j]. split; [apply Hsto; by eapply elem_of_list_lookup_2|]. intros f c2 [k Hk]%elem_of_list_lookup_1 Hc2.
      destruct (Forall2_lookup_l _ _ _ _ _ Hs Hk) as (y & _ & Hy). rewrite /reads Hc2 in Hy. destruct Hy as (x2 & H6 & _). by exists x2. }
  transitivity ((c, v) ∈ row_updated xs g e l).
  2:{ split.
      - intros H1. exists i, (row_updated xs g e l). split; [done|]. split; [|done]. rewrite lookup_zip_with Hi. cbn. by rewrite Hl.
      - intros (i' & l' & H1 & H2 & H3). pose proof (NoDup_lookup _ _ _ _ Hnd H1 Hi) as ->. rewrite lookup_zip_with Hi in H2. cbn in H2. rewrite Hl in H2. by injection H2 as <-. }
  setoid_rewrite Hnv. rewrite Hh /row_updated. destruct (mapM (item_fetched e l) xs) as [ys|] eqn:Eys.
  - split.
    + intros [(ys' & [= <-] & H2)|[H1 H3]].
      * apply (written_to_iff _ Hun) in H2 as Hj. destruct Hj as (j & Hj & _). apply mapM_Some in Eys. destruct (Forall2_lookup_l _ _ _ _ _ Eys Hj) as (y & _ & Hy).
        cbn in Hy. apply fmap_Some in Hy as (x1 & H4 & _). apply (elem_of_list_to_map (M:=gmap ecsid)) in H4; [|done]. apply elem_of_list_fmap. exists (c, x1). split; [|done]. cbn. by rewrite H2.
      * apply elem_of_list_fmap. exists (c, v). split; [|done]. cbn. destruct (written_to xs (g ys) c) as [v'|] eqn:E; [|done]. destruct (H3 v'). by exists ys.
    + intros ([c1 x1] & [= -> ->] & H1)%elem_of_list_fmap. cbn in *. destruct (written_to xs (g ys) c1) as [v'|] eqn:E.
      * left. by exists ys.
      * right. split; [done|]. intros v' (ys' & [= <-] & H3). congruence.
  - split; [intros [(ys & ? & _)|[? _]]; done|]. intros ?. right. split; [done|]. intros v' (ys & ? & _). done.
Qed.
(** ** Many runs *)
Lemma iter_ids m xs g e l : (Nat.iter m (row_updated xs g e) l).*1 = l.*1.
Proof. induction m as [|m IH]; [done|]. cbn. by rewrite row_updated_ids. Qed.
Lemma zip_elem {B} (f : ecsid → list (ecsid * B) → list (ecsid * B)) es ls l : (∀ e l, (f e l).*1 = l.*1) → l ∈ zip_with f es ls → ∃ l0, l0 ∈ ls ∧ l.*1 = l0.*1.
Proof. intros Hf (i & H)%elem_of_list_lookup. apply lookup_zip_with_Some in H as (e & l0 & -> & _ & Hl). exists l0. split; [by eapply elem_of_list_lookup_2|apply Hf]. Qed.
Lemma tabulates_ids_steps xs g es m : unshared_ids xs → NoDup es → ∀ w w' ls, length es = length ls → Forall (λ l, NoDup l.*1) ls → (∀ e, e ∈ es → stored w e) →
  tabulates_ids w es ls → nsteps (λ w w', all_rows_updated w w' xs g) m w w' →
  tabulates_ids w' es (zip_with (λ e, Nat.iter m (row_updated xs g e)) es ls) ∧ same_lives w w' ∧ same_stored w w' ∧ same_types w w'.
Proof.
  intros Hun Hnd. induction m as [|m IH]; intros w w' ls Hlen Hls Hsto Htab Hs.
  { inversion Hs; subst. assert (zip_with (λ e, Nat.iter 0 (row_updated xs g e)) es ls = ls) as ->; [|done].
    clear -Hlen. revert ls Hlen. induction es as [|e es IH]; intros [|l ls]; [done..|]. cbn. intros [= H]. f_equal. by apply IH. }
  inversion Hs as [|n x w1 z H1 H2]; subst. pose proof (tabulates_ids_step _ _ _ _ _ _ Hnd Hlen Hls Hsto Htab Hun H1) as Htab1. destruct H1 as (L1 & L2 & L3 & _).
  destruct (IH w1 w' (zip_with (row_updated xs g) es ls)) as (T & M1 & M2 & M3).
  - rewrite zip_with_length. lia.
  - apply Forall_forall. intros l (l0 & Hin & ->)%zip_elem; [|apply row_updated_ids]. by apply (proj1 (Forall_forall _ _) Hls).
  - intros e He. by apply L2, Hsto.
  - done.
  - done.
  - assert (zip_with (λ e, Nat.iter (S m) (row_updated xs g e)) es ls = zip_with (λ e, Nat.iter m (row_updated xs g e)) es (zip_with (row_updated xs g) es ls)) as ->.
    { clear. revert ls. induction es as [|e es IH]; intros [|l ls]; [done..|]. cbn [zip_with]. f_equal; [|apply IH]. by rewrite Nat.iter_succ_r. }
    split; [done|]. split; [|split]; [intros e He; by rewrite (M1 e He) (L1 e He)|intros e; by rewrite (M2 e) (L2 e)|intros t c; by rewrite (M3 t c) (L3 t c)].
Qed.
Lemma recorded_shape w w' c cm : shape w w' → recorded w c cm → recorded w' c cm.
Proof. intros Hs. rewrite /recorded. destruct (get_entity_meta c w) as [m s ev| | |] eqn:E; [|done..]. by rewrite (meta_shape _ _ _ _ _ _ Hs E). Qed.
Lemma drops_recorded w cs cms l : NoDup cs → (∀ c cm, made_as cs cms c cm → recorded w c cm) → (∀ c, c ∈ l.*1 → ∃ cm, made_as cs cms c cm) →
  (filter (λ p : ecsid * value, p.2 ≠ []) l ≫= λ p, dropping w p.1 p.2) = drops_by cs cms l.
Proof.
  intros Hnd Hrec Hl. rewrite /drops_by. induction l as [|[c v] l IH]; [done|]. rewrite bind_cons filter_cons. cbn [fst snd].
  rewrite -IH; [|intros c' Hc'; apply Hl; by right]. case_decide as D1; case_decide as D2; [by rewrite D2 in D1| |done|tauto]. rewrite bind_cons. cbn [fst snd]. f_equal.
  destruct (Hl c) as (cm & Hm); [by left|]. pose proof (Hrec c cm Hm) as Hr. destruct Hm as (i & Hi & Hi').
  assert ((list_to_map (zip cs cms) : gmap ecsid component_meta) !! c = Some cm) as ->.
  { apply elem_of_list_to_map.
    - clear -Hnd. revert cms. induction Hnd as [|c cs Hn Hnd IH]; intros [|cm cms]; [constructor..|]. cbn. constructor; [|apply IH]. intros ([c' cm'] & -> & H%elem_of_zip_l)%elem_of_list_fmap. done.
    - apply elem_of_list_lookup. exists i. apply lookup_zip_with_Some. by exists c, cm. }
  rewrite /dropping /dtor. rewrite /recorded in Hr. destruct (get_entity_meta c w) as [[m|]| | |]; [|done..]. by rewrite Hr.
Qed.
(** ** The whole programs *)
Lemma dyn_bench_run cms ls xs g m : Forall (λ cm, layout_wf (cm_layout cm)) cms → (N.of_nat (length cms) + 1 <= u32_max)%N →
  (∀ cs, NoDup cs → length cs = length cms → sensible cms cs (ls cs) (xs cs) g) →
  ∃ cs es N, length cs = length cms ∧ length es = length (ls cs) ∧ NoDup (cs ++ es) ∧ ∀ fuel, N < fuel →
    ∃ s, dyn_bench cms ls xs g fuel m (FSess sess_new ∅) = Done (cs, es) (FSess s ∅) [] ∧
      (∀ e, e ∈ cs ++ es → id_wf e) ∧ (∀ e, id_wf e → lives (ss_world s) e ↔ e ∈ cs ++ es) ∧ (∀ e, stored (ss_world s) e ↔ e ∈ cs ++ es) ∧
      (∀ c cm, made_as cs cms c cm → recorded (ss_world s) c cm) ∧
      tabulates_ids (ss_world s) es (zip_with (λ e, Nat.iter m (row_updated (xs cs) g e)) es (ls cs)) ∧
      ∃ ev, world_drop (ss_world s) = Some ev ∧ ev ≡ₚ zip_with (λ e, Nat.iter m (row_updated (xs cs) g e)) es (ls cs) ≫= drops_by cs cms.
Proof.
  intros Hlay Hcms Hsens.
  destruct (spawn_dynamics_run ((λ cm, (cm, [])) <$> cms) [] sess_new) as (cs & h0 & w0 & E0 & Hp0 & Hst0 & Hcalls0 & Hlen0); [constructor|constructor| | |].
  { apply Forall_fmap. eapply Forall_impl; [exact Hlay|]. intros cm H. split; [exact H|]. split; constructor. }
  { assert (sum_list_with ids_bytes ((λ cm : component_meta, (cm, [])) <$> cms) = 0) as Hz. { clear. induction cms as [|cm l IH]; [done|]. exact IH. }
    split; [|split]; cbn [calls_of fmap list_fmap sum_list_with]; rewrite ?Hz ?fmap_length.
    - pose proof (eq_refl : u32_max = 4294967295%N) as Hu. change (2 ^ 32)%N with 4294967296%N. lia.
    - by vm_compute.
    - change (length (w_archs (ss_world sess_new))) with 0. lia. }
  cbn [app ss_open sess_new] in Hst0, E0. rewrite fmap_length in Hlen0. change (length (w_archs (ss_world sess_new))) with 0 in Hlen0.
  destruct Hp0 as (A1 & A2 & A3 & A4 & A5 & A6 & A7 & A8). rewrite fmap_length in A1.
  destruct (Hsens cs A2 A1) as (S1 & S2 & S3 & S4 & S5 & S6 & S7). set (l0 := ls cs) in *. set (xs0 := xs cs) in *.
  set (s0 := Sess w0 []) in *.
  assert (∀ c cm, made_as cs cms c cm → id_wf c ∧ lives w0 c ∧ recorded w0 c cm) as Hmade0.
  { intros c cm (i & H1 & H2). destruct (A3 i c (cm, []) H1) as (H3 & _ & H4 & _ & H5); [by rewrite list_lookup_fmap H2|]. done. }
  destruct (spawn_dynamics_run ((λ l, (cm_unit, l)) <$> l0) h0 s0) as (es & h1 & w1 & E1 & Hp1 & Hst1 & Hcalls1 & Hlen1); [done|constructor| | |].
  { apply Forall_fmap. eapply Forall_impl; [exact S1|]. intros l [H1 H2]. split; [done|]. split; [|done]. apply Forall_forall. intros [c v] Hin. destruct (H2 c v Hin) as (cm & H3 & H4).
    destruct (Hmade0 c cm H3) as (H5 & _ & H6). split; [done|]. by exists cm. }
  { rewrite /dyn_roomy. assert (sum_list_with call_ids (calls_of h0) = length cms) as ->. { rewrite Hcalls0. clear. induction cms as [|cm l IH]; [done|]. cbn [fmap list_fmap sum_list_with]. rewrite (proj1 (dyn_sums _)). cbn [length]. by f_equal. }
    assert (sum_list_with passed_bytes (calls_of h0) = 0) as ->. { rewrite Hcalls0. clear. induction cms as [|cm l IH]; [done|]. cbn [fmap list_fmap sum_list_with]. rewrite (proj2 (proj2 (dyn_sums _))). exact IH. }
    assert (sum_list_with ids_bytes ((λ l, (cm_unit, l)) <$> l0) = sum_list_with (λ l, sum_list_with (λ q, length q.2) l) l0) as Hz. { clear. induction l0 as [|l l' IH]; [done|]. cbn. by rewrite IH. }
    split; [|split]; rewrite ?Hz ?fmap_length.
    - pose proof (eq_refl : u32_max = 4294967295%N) as Hu. change (2 ^ 32)%N with 4294967296%N. lia.
    - exact S7.
    - cbn [ss_world s0]. lia. }
  cbn [ss_world ss_open s0] in *. set (s1 := Sess w1 []) in *. destruct Hp1 as (P1 & P2 & P3 & P4 & P5 & P6 & P7 & P8). rewrite fmap_length in P1.
  assert (∀ i e l, es !! i = Some e → l0 !! i = Some l → id_wf e ∧ ¬ lives w0 e ∧ lives w1 e ∧ stored w1 e) as Hes.
  { intros i e l H1 H2. destruct (P3 i e (cm_unit, l) H1) as (H3 & H4 & H5 & H6 & _); [by rewrite list_lookup_fmap H2|done]. }
  assert (∀ e, e ∈ es → id_wf e ∧ ¬ lives w0 e ∧ lives w1 e ∧ stored w1 e) as Hes'.
  { intros e [i Hi]%elem_of_list_lookup_1. destruct (lookup_lt_is_Some_2 l0 i) as [l Hl]; [rewrite -P1; by eapply lookup_lt_Some|]. by eapply Hes. }
  assert (∀ c, c ∈ cs → id_wf c ∧ lives w0 c) as Hcs'.
  { intros c [i Hi]%elem_of_list_lookup_1. destruct (lookup_lt_is_Some_2 cms i) as [cm Hcm]; [rewrite -A1; by eapply lookup_lt_Some|]. destruct (Hmade0 c cm) as (H1 & H2 & _); [by exists i|done]. }
  assert (tabulates_ids w1 es l0) as Htab.
  { intros e c x. rewrite P4 A4. split.
    - intros [[(k & i & a & j & u & Ha & _)|(i & p & _ & H & H')]|(i & p & H1 & H2 & H3)]; [by rewrite lookup_nil in Ha| |].
      + rewrite list_lookup_fmap in H. apply fmap_Some in H as (cm & _ & ->). by apply elem_of_nil in H'.
      + rewrite list_lookup_fmap in H2. apply fmap_Some in H2 as (l & H2 & ->). by exists i, l.
    - intros (i & l & H1 & H2 & H3). right. exists i, (cm_unit, l). split; [done|]. split; [|done]. by rewrite list_lookup_fmap H2. }
  assert (∀ c cm, made_as cs cms c cm → recorded w1 c cm) as Hmade1.
  { intros c cm (H1 & H2 & H3)%Hmade0. by apply P8. }
  assert (Forall (λ l, NoDup l.*1) l0) as Hnd by (eapply Forall_impl; [exact S1|]; by intros l [? _]).
  assert (∀ e, id_wf e → lives w1 e ↔ e ∈ cs ++ es) as Hl1.
  { intros e He. rewrite (P5 e He) (A5 e He) elem_of_app. split; [|tauto]. intros [?|[?|H]]; [by right|by left|]. by vm_compute in H. }
  assert (∀ e, stored w1 e ↔ e ∈ cs ++ es) as Hs1.
  { intros e. rewrite (P6 e) (A6 e) elem_of_app. split; [|tauto]. intros [?|[?|(k & i & a & Ha & _)]]; [by right|by left|]. by rewrite lookup_nil in Ha. }
  assert (calls_of (h0 ++ h1) = (λ p, SWorld (spawn_dynamic p)) <$> (((λ cm, (cm, [])) <$> cms) ++ ((λ l, (cm_unit, l)) <$> l0))) as Hcalls.
  { rewrite fmap_app -Hcalls0 -Hcalls1 /calls_of. by rewrite !fmap_app. }
  assert (closed_by (h0 ++ h1) s1) as Hcl.
  { split; [done|]. split; [|split; [split|constructor]].
    - intros i Hi. rewrite Hcalls in Hi. by apply elem_of_list_fmap in Hi as (? & ? & _).
    - intros i Hi. rewrite Hcalls in Hi. by apply elem_of_list_fmap in Hi as (? & ? & _).
    - intros o r ev Hi. assert (o ∈ calls_of (h0 ++ h1)) as Ho by (exact (elem_of_list_fmap_1 fst _ _ (elem_of_list_fmap_1 fst _ _ Hi))).
      rewrite Hcalls in Ho. apply elem_of_list_fmap in Ho as (? & -> & _). by intros []. }
  assert (∀ x c, x ∈ xs0 → fetch_id x = Some c → ∃ cm, id_wf c ∧ recorded w1 c cm ∧ cm_size cm mod l_align (cm_layout cm) = 0 ∧ (cm_size cm ≠ 0 ∨ l_align (cm_layout cm) = 1)) as Hx.
  { intros x c H1 H2. destruct (S4 x c H1 H2) as (_ & cm & H3 & H4 & H5). exists cm. split; [by destruct (Hmade0 c cm H3)|]. split; [by apply Hmade1|done]. }
  destruct (druns_update' xs0 g (h0 ++ h1) s1 m) as (N & HN); [|done|done|done| | | |].
  { apply Forall_forall. intros x H1 c H2. by destruct (Hx x c H1 H2) as (cm & ? & _). }
  { intros x c H1 H2. destruct (S4 x c H1 H2) as ((l & Hl & ([c' v] & -> & Hin)%elem_of_list_fmap) & _). apply elem_of_list_lookup_1 in Hl as [i Hi].
    destruct (lookup_lt_is_Some_2 es i) as [e He]; [rewrite P1; by eapply lookup_lt_Some|].
    assert (holds w1 e c' v) as (k & i' & a & j & u & H3 & _ & H4 & _) by (apply Htab; by exists i, l). by exists k, a, j, u. }
  { apply Forall_forall. intros x H1 c cm H2 H3. destruct (Hx x c H1 H2) as (cm' & _ & H4 & H5). assert (cm = cm') as ->; [|done]. rewrite /recorded in H3, H4. change (ss_world s1) with w1 in H3. destruct (get_entity_meta c w1) as [[m1|]| | |]; [|done..]. congruence. }
  { intros ys j v Hg. destruct (S5 ys j v Hg) as (c & cm & H1 & H2 & H3). exists c. split; [done|]. intros s2 m2 E. pose proof (Hmade1 c cm H2) as H4. rewrite /recorded E in H4. by subst cm. }
  exists cs, es, N. split; [done|]. split; [done|]. split.
  { apply NoDup_app. split; [done|]. split; [|done]. intros c (_ & H1)%Hcs' (_ & H2 & _)%Hes'. done. }
  intros fuel Hf. destruct (HN fuel Hf) as (l' & s & E2 & (Hst' & _ & _ & Hop') & Hn & Hsh). exists s.
  split. { rewrite /dyn_bench. rewrite (bind_done_nil _ _ _ _ _ (in_sess_done _ _ _ _ _ _ E0)) (bind_done_nil _ _ _ _ _ (in_sess_done _ _ _ _ _ _ E1)) (bind_done_nil _ _ _ _ _ E2). done. }
  destruct (tabulates_ids_steps xs0 g es m S3 P2 w1 (ss_world s) l0) as (T & L1 & L2 & L3); [done|done|by intros e (_ & _ & _ & ?)%Hes'|done|done|].
  split. { intros e [H|H]%elem_of_app; [by apply Hcs'|by apply Hes']. }
  split. { intros e He. by rewrite (L1 e He) (Hl1 e He). }
  split. { intros e. by rewrite (L2 e) (Hs1 e). }
  assert (∀ c cm, made_as cs cms c cm → recorded (ss_world s) c cm) as Hmade.
  { intros c cm Hm%Hmade1. by eapply recorded_shape. }
  split; [done|]. split; [done|]. set (l2 := zip_with _ es l0) in *.
  assert (∀ l, l ∈ l2 → ∃ l', l' ∈ l0 ∧ l.*1 = l'.*1) as Hl2. { intros l Hl. eapply (zip_elem (λ e, Nat.iter m (row_updated xs0 g e))); [|exact Hl]. intros. apply iter_ids. }
  destruct (drop_ids (ss_world s) es l2) as (ev & E & Hev); [|done| | |done|].
  { exists s. split; [by exists l'|done]. }
  { rewrite /l2 zip_with_length. lia. }
  { apply Forall_forall. intros l (l3 & H1 & ->)%Hl2. by apply (proj1 (Forall_forall _ _) Hnd). }
  exists ev. split; [done|]. rewrite Hev. apply reflexive_eq. change (zip_with _ es (ls cs)) with l2. clearbody l2. clear -Hl2 Hmade S1 A2.
  induction l2 as [|l l2 IH]; [done|]. rewrite !bind_cons. rewrite IH; [|intros l' H; apply Hl2; by right]. f_equal. apply drops_recorded; [done|done|].
  intros c Hc. destruct (Hl2 l) as (l' & H1 & H2); [by left|]. rewrite H2 in Hc. apply elem_of_list_fmap in Hc as ([c' v] & -> & Hin).
  destruct (proj1 (Forall_forall _ _) S1 _ H1) as [_ H3]. destruct (H3 c' v Hin) as (cm & H4 & _). by exists cm.
Qed.
