(** * Static queries for zero-sized types of alignment above 1 *)
From Verif Require Import ProofBase SpecSmall World History ProofEntities ProofBitset ProofArrayVec ProofUVec.
From Verif Require Import ProofStatic ProofSession ProofAccess ProofRows.

Lemma tame_dec p : {param_tame p} + {¬ param_tame p}.
Proof.
  rewrite /param_tame. destruct (param_ty p) as [t|]; [|left; by intros t].
  destruct (decide (ty_size t ≠ 0 ∨ ty_align t = 1)) as [H|H]; [left; by intros ? [= <-]|right]. intros Hx. by apply H, Hx.
Qed.

Section misaligned.
  Context (w : world) (R : list (list row)) (Hw : winv w R) (Hroom : room 0 w).
  Local Set Default Proof Using "Hw Hroom".

  Lemma cast_ptr_ub e k a i p f : placed w e k i → w_archs w !! k = Some a → param_fetch w p = Some f →
    (∀ c, fetch_id f = Some c → c ∈ a_comp_ids a) → ¬ param_tame p → cast_ptr p (fptr k a i f).1 w = UB.
  Proof.
    intros Hp Ha Hpf Hf Hnt. destruct (placed_get _ _ Hw _ _ _ Hp) as (a' & rs & m & Ha' & He & Hrs & Hr). simplify_eq.
    destruct (fetch_id f) as [c|] eqn:Ef.
    2:{ apply (param_fetch_none _ _ Hw _ _ Hpf) in Ef. destruct Hnt. intros t Ht. congruence. }
    destruct (proj1 (param_fetch_id _ _ Hw _ _ c Hpf) Ef) as (t & Hpt & Ht).
    destruct (fptr_comp _ _ Hw k a i f c Ha Ef (Hf c eq_refl)) as (j & u & Hj & ->). cbn [fst].
    destruct (column_type _ _ Hw _ _ _ _ _ _ Ha Hj Ht) as (Hwf & Hsz & Hal).
    destruct (column_value _ _ Hw _ _ _ _ _ _ _ _ _ Hrs Hr Ha Hj) as (v' & cm & Hm' & _ & _ & Hrep & _).
    destruct (decide (ty_size t = 0)) as [Hz|Hnz]; [|destruct Hnt; intros t' Ht'; left; congruence].
    destruct (decide (ty_align t = 1)) as [H1|H1]; [destruct Hnt; intros t' Ht'; right; congruence|].
    assert (col_aligned w (PCol k j (i * uv_size u)) (ty_align t) = false) as Hca.
    { rewrite /col_aligned Ha Hj /=. apply andb_false_iff. left. rewrite -Hsz in Hz. apply (uv_rep_zst _ _ Hz) in Hrep as (_ & -> & _).
      by apply bool_decide_eq_false. }
    rewrite /cast_ptr. destruct p as [t'|t'|]; cbn [param_ty] in Hpt; [injection Hpt as -> ..|done]; rewrite Hca; by destruct (deref_val w _ _).
  Qed.
  Lemma cast_ptrs_ub e k a i ps fs : placed w e k i → w_archs w !! k = Some a → typed w ps fs → matching fs a → ¬ Forall param_tame ps →
    cast_ptrs (zip ps (pos_ptrs w fs (k, i))) w = UB.
  Proof.
    intros Hp Ha Hty. rewrite /pos_ptrs /= Ha.
    induction Hty as [|p f ps fs Hpf Hty IH]; [intros _ []; by constructor|]. intros [Hf Hm]%(matching_cons w R Hw) Hnt.
    cbn [fmap list_fmap zip zip_with cast_ptrs]. destruct (tame_dec p) as [Htp|Htp].
    - destruct (cast_ptr_run _ _ Hw _ _ _ _ _ _ Hp Ha Hpf Hf Htp) as [Hc _]. rewrite (bind_done_nil _ _ _ _ _ Hc).
      rewrite /bind IH; [done..|]. intros Ht. by apply Hnt; constructor.
    - by rewrite /bind (cast_ptr_ub _ _ _ _ _ _ Hp Ha Hpf Hf Htp).
  Qed.

  (** The first row is undefined behaviour; without rows nothing happens. *)
  Lemma si_next_bad ps fs it S0 : typed w ps fs → ¬ Forall param_tame ps → si_at w ps fs it S0 → ¬ unmatched w fs (si_arch it) →
    match S0 with
    | [] => ∃ it', si_next it w = Done (None, it') w [] ∧ si_at w ps fs it' [] ∧ ¬ unmatched w fs (si_arch it')
    | _ => si_next it w = UB
    end.
  Proof.
    intros Hty Htame. rewrite /si_next. intros Hat. assert (length (future (si_arch it)) + 2 ≤ arch_fuel (si_arch it)) as Hfuel.
    { apply (future_length w R Hw). apply Hat. }
    revert it S0 Hat Hfuel. generalize arch_fuel as F. intros F it. generalize (F (si_arch it)). clear F.
    intros fuel. revert it. induction fuel as [|fuel IH]; intros it S0 (Hps & Hb & Hok & S1 & Hin & ->) Hfuel Hnu; [lia|].
    cbn [si_next_fuel]. destruct (si_intra_run _ _ Hw Hroom ps fs it S1 Hty Hps Hin) as (it1 & Hrun & Hin' & Hp1 & Hf1 & Ha1 & Hsame & Hhd).
    rewrite (bind_done_nil _ _ _ _ _ Hrun).
    destruct S1 as [|[k i] S1]; cbn [head tail fmap option_fmap option_map app] in *.
    - destruct (future (si_arch it)) as [|k ks] eqn:Ef.
      + destruct (arch_next_end _ _ Hw _ Hb Ef) as (b' & Hn & Hb' & Hf'). rewrite (bind_done_nil _ _ _ _ _ Hn). cbn [mbind list_bind].
        eexists. split; [done|]. split.
        * split_and!; [done|done|cbn [si_arch]; rewrite Hf'; by intros ? ?%elem_of_nil|]. exists []. cbn [si_arch]. rewrite Hf'.
          split; [|done]. left. rewrite (Hsame eq_refl) in Hin'. destruct Hin' as [[? _]|(k & a & i & _ & _ & _ & Hnil & _)]; [done|].
          cbn [si_remaining]. destruct (si_remaining it); [done|done].
        * cbn [si_arch]. intros (k & a & Hk & _). rewrite Hf' in Hk. by apply elem_of_nil in Hk.
      + destruct (Hok k) as [[a Ha] Hfs]; [left|].
        destruct (arch_next_run _ _ Hw _ _ _ Hb Ef a Ha) as (b' & Hn & Hb' & Hf'). rewrite (bind_done_nil _ _ _ _ _ Hn).
        rewrite Hfs. cbn [unwrap]. rewrite (bind_done_nil _ _ w fs w eq_refl).
        destruct (param_ptrs_run _ _ Hw k a fs Ha) as [[Hm Hc]|[Hm Hc]]; rewrite (bind_done_nil _ _ _ _ _ Hc).
        2:{ destruct Hnu. exists k, a. rewrite Ef. split_and!; [left|done..]. }
        cbn [unwrap]. rewrite (bind_done_nil _ _ w ((λ f, (fptr k a 0 f).1) <$> fs) w eq_refl).
        eapply (IH (SIter (si_params it) (Some fs) b' (length (a_entities a)) ((λ f, (fptr k a 0 f).1) <$> fs)) ((k :: ks) ≫= arows w)).
        * split_and!; [done|done|cbn [si_arch]; rewrite Hf'; intros; split; [apply Hok; by right|done]|].
          exists (arows w k). split; [|cbn [si_arch]; by rewrite Hf'].
          right. exists k, a, 0. cbn [si_remaining si_ptrs]. rewrite /arows Ha. done.
        * cbn [si_arch]. rewrite Hf'. cbn [length] in Hfuel. lia.
        * cbn [si_arch]. intros (k' & a' & Hk' & ?). apply Hnu. exists k', a'. rewrite Ef. rewrite Hf' in Hk'. split; [by right|done].
    - destruct (Hhd (k, i) eq_refl) as (a & e & Ha & Hm & Hpl). cbn [fst snd] in Ha, Hpl.
      by rewrite Hps /bind (cast_ptrs_ub e k a i ps fs Hpl Ha Hty Hm Htame).
  Qed.
  Lemma si_run_bad ps fs it : typed w ps fs → ¬ Forall param_tame ps → ∀ n, si_at w ps fs it [] → ¬ unmatched w fs (si_arch it) →
    ∃ it', si_run n it w = Done (replicate n None, it') w [].
  Proof.
    intros Hty Htame n. revert it. induction n as [|n IH]; intros it Hat Hu; [by exists it|]. cbn [si_run].
    destruct (si_next_bad _ _ _ _ Hty Htame Hat Hu) as (it1 & Hr & Hat1 & Hu1). rewrite (bind_done_nil _ _ _ _ _ Hr).
    destruct (IH it1 Hat1 Hu1) as (it2 & Hr2). rewrite (bind_done_nil _ _ _ _ _ Hr2). by exists it2.
  Qed.
  Lemma untame_nonempty ps : ¬ Forall param_tame ps → ps ≠ [].
  Proof using Type. intros H ->. apply H. by constructor. Qed.
  Lemma sq_bad_rows q fs : sq_fetches q = Some fs → typed w (sq_params q) fs → ¬ Forall param_tame (sq_params q) → ready w fs →
    ((∃ e, wants w (sq_params q) e) → ∀ n, iter_static q (S n) w = UB) ∧
    ((∀ e, ¬ wants w (sq_params q) e) → ∀ n, iter_static q n w = Done (replicate n None) w []).
  Proof.
    intros Hfs Hty Htame Hr.
    assert (fs ≠ []) as Hne. { intros ->. apply Forall2_nil_inv_r in Hty. by apply (untame_nonempty (sq_params q)). }
    destruct (ready_archs _ _ Hw Hroom _ Hr Hne) as (b & Hb & Hinv & Hnd & Hsome & Hun & Hin).
    destruct (sq_iter_at _ _ Hw Hroom q fs b Hfs Hb Hinv Hsome) as (it & Hit & Hat & Hitb). rewrite -Hitb in Hun.
    destruct (wanted_rows _ _ Hw _ _ Hnd Hin) as (es & Hes & _ & Hpl). pose proof (si_next_bad _ _ _ _ Hty Htame Hat Hun) as Hnx.
    split; intros Hwt n; rewrite /iter_static (bind_done_nil _ _ _ _ _ Hit).
    - destruct Hwt as [e He%(wants_wanted _ _ Hw Hroom _ _ _ Hty)%(proj2 Hes)].
      destruct (future b ≫= arows w) as [|p S0]; [apply Forall2_nil_inv_r in Hpl as ->; by apply elem_of_nil in He|].
      cbn [si_run]. by rewrite /bind Hnx.
    - destruct (future b ≫= arows w) as [|p S0] eqn:E.
      + destruct (si_run_bad _ _ _ Hty Htame n Hat Hun) as (it' & Hr'). by rewrite (bind_done_nil _ _ _ _ _ Hr').
      + inversion Hpl as [|e ? es' ? He]; subst. destruct (Hwt e). apply (wants_wanted _ _ Hw Hroom _ _ _ Hty), (proj2 Hes). left.
  Qed.

  Lemma sq_get_bad q e : resolved w q → ¬ Forall param_tame (sq_params q) → (sq_fetches q = None → ∀ e, ¬ wants w (sq_params q) e) →
    (wants w (sq_params q) e ∧ sq_get q e w = UB) ∨ (¬ wants w (sq_params q) e ∧ sq_get q e w = Done None w []) ∨
    (sq_get q e w = Panicked RNoGeneration w [] ∧ ents_is_alive (w_ents w) e = None).
  Proof.
    intros Hres Htame Hnone. rewrite /sq_get. pose proof (is_alive_cases w e) as Hal.
    destruct (is_alive e w) as [b w' ev|r w' ev| |] eqn:Er; [| |done..].
    2:{ destruct Hal as (-> & -> & -> & Hal). right. right. split; [by rewrite /bind Er|done]. }
    destruct Hal as (-> & -> & Hb & Hal). rewrite (bind_done_nil _ _ _ _ _ Er). destruct b; cbn [negb].
    2:{ right. left. split; [|done]. intros [(k & i & Hp) _]. destruct (placed_get _ _ Hw _ _ _ Hp) as (a & rs & m & _ & _ & H1 & H2).
        destruct (wi_row _ _ Hw _ _ _ _ _ H1 H2) as [Ha _]. apply Hb in Ha. done. }
    assert (alive (w_ents w) e) as Hae by by apply Hb.
    rewrite (bind_done_nil _ _ _ _ _ (get_entity_meta_alive _ _ Hae)).
    destruct (meta_at w (uindex e)) as [em|] eqn:Hem.
    2:{ right. left. split; [|done]. intros [(k & i & Hp) _]. destruct (placed_get _ _ Hw _ _ _ Hp) as (a & rs & m & _ & _ & H1 & H2).
        destruct (wi_row _ _ Hw _ _ _ _ _ H1 H2) as [_ Hm]. rewrite Hem in Hm. done. }
    destruct (winv_meta_row _ _ Hw _ _ Hae Hem) as (rs & m & Hrs & Hr).
    set (k := im_arch (em_inst em)) in *. set (i := im_index (em_inst em)) in *.
    assert (placed w e k i) as Hp by (apply (ProofObserve.placed_row _ _ Hw); eauto).
    pose proof Hp as (a & Ha & He). rewrite (bind_done_nil _ _ _ _ _ (get_arch_done _ _ _ Ha)).
    assert (i < length (a_entities a)) as Hi by by eapply lookup_lt_Some.
    rewrite bool_decide_true //. rewrite (bind_done_nil _ _ w () w eq_refl).
    rewrite /resolved in Hres. destruct (sq_fetches q) as [fs|] eqn:Hfs.
    2:{ right. left. split; [by apply Hnone|done]. }
    destruct (param_ptrs_run _ _ Hw k a fs Ha) as [[Hm Hc]|[Hm Hc]]; rewrite (bind_done_nil _ _ _ _ _ Hc).
    - left. split; [apply (wants_wanted _ _ Hw Hroom _ _ _ Hres); by eapply (wanted_matching _ _ Hw)|].
      rewrite (bind_done_nil _ _ _ _ _ (offset_ptrs_run _ _ Hw k a 0 i _ fs Hres Ha Hm ltac:(lia))).
      pose proof (cast_ptrs_ub e k a i _ fs Hp Ha Hres Hm Htame) as Hcast.
      rewrite /pos_ptrs /= Ha in Hcast. by rewrite Nat.add_0_l /bind Hcast.
    - right. left. split; [|done]. rewrite (wants_wanted _ _ Hw Hroom _ _ _ Hres). intros Hwt. apply Hm. by eapply (wanted_matching _ _ Hw).
  Qed.
End misaligned.
Local Set Default Proof Using "Type".

Lemma typed_locks ls w ps fs : typed w ps fs → typed (set_locks ls w) ps fs.
Proof. done. Qed.
Lemma open_misaligned s ps i s' q : reachable s → Forall param_wf ps → ¬ Forall param_tame ps →
  sstep (SOpenStat ps) s = Done (SHandle i) s' [] → ss_open s' !! i = Some (Some (QStat q)) →
  (∀ e, wants (ss_world s') ps e → sq_get q e (ss_world s') = UB) ∧
  (∀ e, ¬ wants (ss_world s') ps e → ¬ unissued (ss_world s') e → sq_get q e (ss_world s') = Done None (ss_world s') []) ∧
  ((∃ e, wants (ss_world s') ps e) → ∀ n, iter_static q (S n) (ss_world s') = UB) ∧
  ((∀ e, ¬ wants (ss_world s') ps e) → types_in_use (ss_world s') ps ∨ unregistered (ss_world s') ps →
     ∀ n, iter_static q n (ss_world s') = Done (replicate n None) (ss_world s') []).
Proof.
  intros Hs%reachable_inv Hwf Htame. destruct (sv_locks _ Hs) as [F HF]. rewrite open_stat_run.
  pose proof (sq_new_run (ss_world s) _ ps (λ c i, sinv_lock_lt s c i Hs) HF) as H.
  destruct (sq_new ps (ss_world s)) as [q' w' ev|r w' ev| |] eqn:Hrun; [|done..]. intros [= <- <- ->]. cbn [ss_open ss_world].
  rewrite lookup_app_r // Nat.sub_diag. intros [= ->].
  destruct H as (_ & <- & Hg & (_ & _ & _ & ls & -> & Hlen)). pose proof (sv_world _ Hs) as Hok.
  apply (wok_locks _ ls Hlen) in Hok as [[R Hw] Hroom].
  assert (resolved (set_locks ls (ss_world s)) q) as Hres.
  { rewrite /resolved. destruct (sq_fetches q); [by apply Hg|done]. }
  assert (sq_fetches q = None → unregistered (set_locks ls (ss_world s)) (sq_params q)) as Hnone.
  { intros E. rewrite E in Hg. destruct Hg as [Hn _]. by apply (none_unregistered (ss_world s)). }
  pose proof (λ e, sq_get_bad _ _ Hw Hroom q e Hres Htame (λ E e, unregistered_wants _ _ _ (Hnone E))) as Hget.
  split_and!.
  - intros e He. destruct (Hget e) as [[_ ?]|[[? _]|[_ Hx]]]; [done|done|]. exfalso.
    destruct He as [(k & j & Hp) _]. destruct (placed_get _ _ Hw _ _ _ Hp) as (a & rs & m & _ & _ & H1 & H2).
    destruct (wi_row _ _ Hw _ _ _ _ _ H1 H2) as [Ha _]. rewrite /alive in Ha. congruence.
  - intros e He Hu. destruct (Hget e) as [[? _]|[[_ ?]|[_ Hx]]]; [done|done|]. destruct Hu. by apply unissued_oob.
  - intros He. destruct (sq_fetches q) as [fs|] eqn:Hfs.
    2:{ destruct He as [e He]. by destruct (unregistered_wants _ _ e (Hnone eq_refl)). }
    rewrite /resolved Hfs in Hres. destruct (sq_bad_rows _ _ Hw Hroom q fs Hfs Hres Htame) as [Hx _]; [|by apply Hx].
    destruct He as [e He%(wants_wanted _ _ Hw Hroom _ _ _ Hres)]. pose proof He as [(k & j & Hp) _].
    destruct (placed_get _ _ Hw _ _ _ Hp) as (a & rs & m & Ha & _). eapply (good_row_ready _ _ (k, j)). exists a, e. split_and!; [done| |done].
    by eapply (wanted_matching _ _ Hw).
  - intros He Hu. destruct (sq_fetches q) as [fs|] eqn:Hfs.
    + rewrite /resolved Hfs in Hres. destruct Hu as [Hu|(p & t & Hp & Ht & Hn)].
      * apply (sq_bad_rows _ _ Hw Hroom q fs Hfs Hres Htame); [|done]. apply (ready_in_use _ _ _ Hw). by apply (types_in_use_fetches _ _ _ _ Hw Hres).
      * exfalso. apply elem_of_list_lookup in Hp as [j Hp]. destruct (Forall2_lookup_l _ _ _ _ _ Hres Hp) as (f & Hf & Hpf).
        destruct (fetch_id f) as [c|] eqn:Ef; [|apply (param_fetch_none _ _ Hw _ _ Hpf) in Ef; congruence].
        destruct (proj1 (param_fetch_id _ _ Hw _ _ c Hpf) Ef) as (t' & Ht' & Hc). apply (Hn c). congruence.
    + intros n. destruct (sq_none_rows _ _ Hw Hroom q Hfs) as (it & Hit & Hr). destruct (Hr n) as (it' & Hr').
      rewrite /iter_static (bind_done_nil _ _ _ _ _ Hit) (bind_done_nil _ _ _ _ _ Hr'). rewrite calls_nil. done.
Qed.
