(** * Access to components by the open queries: exclusion, release, panics on creation *)
From Verif Require Import ProofBase SpecSmall World History ProofEntities ProofBitset ProofArrayVec ProofUVec.
From Verif Require Export ProofHistory.

(** *** The state of the locks is that of the open queries *)
Lemma count_open w g l : g ≠ GNone →
  (∀ i q, l !! i = Some (Some q) → open_ok w q) →
  count g (open_guards l) = count g (guard_of w <$> open_fetches (Sess w l)).
Proof.
  intros Hg. rewrite /open_fetches. cbn [ss_open]. induction l as [|o l IH]; intros Hl; [done|].
  rewrite open_guards_cons bind_cons fmap_app !count_app. f_equal.
  - destruct o as [[q|q]|]; [| |done].
    + destruct (Hl 0 (QDyn q) eq_refl) as [H _]. cbn [from_option oq_guards]. by rewrite H.
    + destruct (Hl 0 (QStat q) eq_refl) as (_ & _ & H). cbn [from_option oq_guards]. destruct (sq_fetches q) as [fs|].
      * by destruct H as [-> _].
      * destruct H as [_ ->]. cbn. apply count_0. intros [-> _]%elem_of_replicate. done.
  - apply IH. intros i q Hi. by apply (Hl (S i)).
Qed.
Lemma accounts_fetches s F : sinv s → accounts (w_locks (ss_world s)) (open_guards (ss_open s) ++ F) →
  accounts (w_locks (ss_world s)) ((guard_of (ss_world s) <$> open_fetches s) ++ F).
Proof.
  intros Hs [H1 H2]. split.
  - apply Forall_app. split; [|by apply Forall_app in H1 as [_ ?]]. apply Forall_fmap, Forall_forall. intros f _. cbn.
    rewrite /guard_in /guard_of. destruct f as [|c|c]; [done|..];
      (destruct (w_lock_lookup (ss_world s) !! c) eqn:E; [|done]); by eapply sinv_lock_lt.
  - intros i l Hl. destruct (H2 i l Hl) as (Ha & Hb & Hc). destruct s as [w op]. cbn [ss_world ss_open] in *.
    rewrite /account !count_app. rewrite !count_app in Ha, Hb.
    rewrite -!(count_open w _ op); [done|done|apply (sv_open _ Hs)|done|apply (sv_open _ Hs)].
Qed.

Lemma guard_read w f i : guard_of w f = GRead i ↔ ∃ c, f = FImmut c ∧ w_lock_lookup w !! c = Some i.
Proof. destruct f as [|c|c]; cbn; [naive_solver|..]; destruct (w_lock_lookup w !! c) eqn:E; naive_solver. Qed.
Lemma guard_write w f i : guard_of w f = GWrite i ↔ ∃ c, f = FMut c ∧ w_lock_lookup w !! c = Some i.
Proof. destruct f as [|c|c]; cbn; [naive_solver|..]; destruct (w_lock_lookup w !! c) eqn:E; naive_solver. Qed.
Lemma compat_exclusive w R fs : winv w R → compat (guard_of w <$> fs) ↔ exclusive w fs.
Proof.
  intros Hw. split.
  - intros H i j c f Hij Hi Hj Hf [x Hx].
    destruct (H i j x (guard_of w f) Hij) as [H1 H2].
    + rewrite list_lookup_fmap Hi /=. by rewrite Hx.
    + by rewrite list_lookup_fmap Hj.
    + destruct f as [|c'|c']; simplify_eq/=; rewrite Hx in H1 H2; done.
  - intros H i j x g Hij Hi Hj. rewrite list_lookup_fmap in Hi. rewrite list_lookup_fmap in Hj.
    destruct (fs !! i) as [f|] eqn:Ei; [|done]. destruct (fs !! j) as [f'|] eqn:Ej; [|done]. injection Hi as Hi. injection Hj as <-.
    apply guard_write in Hi as (c & -> & Hc).
    split; [intros (c' & -> & Hc')%guard_read|intros (c' & -> & Hc')%guard_write];
      (assert (c' = c) as -> by by eapply (wi_locks_inj _ _ Hw)); eapply (H i j); eauto; by eexists.
Qed.
Lemma compat_app_l gs gs' : compat (gs ++ gs') → compat gs.
Proof. intros H i j l g Hij Hi Hj. by eapply H; [exact Hij|apply lookup_app_l_Some..]. Qed.

Lemma open_exclusive s : reachable s → exclusive (ss_world s) (open_fetches s).
Proof.
  intros Hs%reachable_inv. destruct (sv_world _ Hs) as [[R Hw] _]. apply (compat_exclusive _ _ _ Hw).
  destruct (sv_locks _ Hs) as [F HF]. eapply compat_app_l, accounts_compat, accounts_fetches; done.
Qed.

(** *** Without leaked queries *)
Lemma sstep_accounts o s F : sinv s → sop_legal o s → sop_tame o s → (∀ i, o ≠ SForget i) →
  accounts (w_locks (ss_world s)) (open_guards (ss_open s) ++ F) →
  match sstep o s with
  | Done _ s' _ | Panicked _ s' _ => accounts (w_locks (ss_world s')) (open_guards (ss_open s') ++ F)
  | _ => True
  end.
Proof.
  intros Hs Hleg Htame Hf HF. pose proof (λ Ho, query_view o s Hs Hleg Htame Ho) as Hv.
  destruct o as [o|fs|ps|i u|i|i n j v]; cbn [sstep] in *.
  - clear Hv. rewrite /bind in_sworld_run. pose proof (keep_step o (ss_world s)) as Hk.
    destruct (step o (ss_world s)) as [r w' ev|r w' ev| |]; [| |done..]; cbn; destruct Hk as [[n ->] _]; by apply accounts_grow.
  - clear Hv. rewrite /open_query {1}/bind in_sworld_run {1}/bind.
    pose proof (dq_new_run (ss_world s) _ fs (λ c i, sinv_lock_lt s c i Hs) HF) as H.
    destruct (dq_new fs (ss_world s)) as [q w' ev|r w' ev| |] eqn:Hrun; [| |done..]; cbn.
    + destruct H as (_ & _ & Hg & _ & (Hacc & _)). eapply accounts_perm; [|exact Hacc].
      fold (open_guards (ss_open s ++ [Some (QDyn q)])). rewrite open_guards_app /= Hg. rewrite app_assoc. f_equiv. apply Permutation_app_comm.
    + by destruct H as (_ & _ & H & _).
  - clear Hv. rewrite /open_query {1}/bind in_sworld_run {1}/bind.
    pose proof (sq_new_run (ss_world s) _ ps (λ c i, sinv_lock_lt s c i Hs) HF) as H.
    destruct (sq_new ps (ss_world s)) as [q w' ev|r w' ev| |] eqn:Hrun; [| |done..]; cbn.
    + destruct H as (_ & _ & _ & (Hacc & _)). eapply accounts_perm; [|exact Hacc].
      fold (open_guards (ss_open s ++ [Some (QStat q)])). rewrite open_guards_app /=. rewrite app_assoc. f_equiv. apply Permutation_app_comm.
    + by destruct H as (_ & H & _).
  - rewrite (bind_done_nil _ _ s s s eq_refl). destruct (ss_open s !! i) as [[q|]|] eqn:Hi; [|done..]. cbn.
    apply release_all_accounts. eapply accounts_perm; [|exact HF]. rewrite app_assoc. f_equiv. by apply open_guards_none.
  - by destruct (Hf i).
  - clear Hv. rewrite (bind_done_nil _ _ s s s eq_refl). destruct (ss_open s !! i) as [[q|]|] eqn:Hi; [|done..].
    destruct (Hleg _ Hi) as (fs & c & Hfs & Hj & Hv). pose proof (sv_world _ Hs) as Hok.
    pose proof (query_item_run _ q n Hok (sv_open _ Hs _ _ Hi)) as H. rewrite /wp in H.
    rewrite {1}/bind in_sworld_run. destruct (query_item q n (ss_world s)) as [o w' ev|r w' ev| |] eqn:Eq; [| |done..].
    + destruct H as (-> & -> & Ho). rewrite sess_eta. destruct o as [ps|]; [|done]. cbn [mbind option_bind].
      destruct (ps !! j) as [q0|] eqn:Hq0; [|done]. destruct (Ho _ eq_refl) as (fs' & p & Hfs' & Hg & ->).
      rewrite Hfs in Hfs'. injection Hfs' as <-. destruct Hok as [[R Hw] Hroom].
      destruct (ptr_store_run _ _ _ _ _ _ _ _ Hw Hg Hj Hv Hq0) as (e & w' & He & Hrun & Hk & _ & Hlo & _).
      rewrite /bind in_sworld_run Hrun. cbn. by rewrite Hlo.
    + cbn. destruct H as [->|(-> & _)]; [|done]. exfalso. revert Eq. pose proof (calm_query_item q n (ss_world s)) as Hc. intros E. by rewrite E in Hc.
Qed.

Lemma calls_app l l' : calls_of (l ++ l') = calls_of l ++ calls_of l'.
Proof. by rewrite /calls_of !fmap_app. Qed.
Lemma steps_accounts l s : steps sess_new l s → no_forget l → accounts (w_locks (ss_world s)) (open_guards (ss_open s)).
Proof.
  intros H. remember sess_new as s0 eqn:E0. induction H as [s|s0 l s1 o r s2 ev H IH Hl Ht E|s0 l s1 o r s2 ev H IH Hl Ht E Hr]; intros Hn; subst.
  - split; [apply Forall_nil_2|]. by intros i l.
  - assert (sinv s1) as Hs by (apply reachable_inv; by exists l).
    pose proof (sstep_accounts o s1 [] Hs Hl Ht) as Hst. rewrite E !app_nil_r in Hst. apply Hst.
    + intros i ->. apply (Hn i). rewrite calls_app. apply elem_of_app. right. apply elem_of_list_here.
    + apply IH; [done|]. intros i Hi. apply (Hn i). rewrite calls_app. apply elem_of_app. by left.
  - assert (sinv s1) as Hs by (apply reachable_inv; by exists l).
    pose proof (sstep_accounts o s1 [] Hs Hl Ht) as Hst. rewrite E !app_nil_r in Hst. apply Hst.
    + intros i ->. apply (Hn i). rewrite calls_app. apply elem_of_app. right. apply elem_of_list_here.
    + apply IH; [done|]. intros i Hi. apply (Hn i). rewrite calls_app. apply elem_of_app. by left.
Qed.

(** *** Poisoned locks *)
Lemma release_poisoned g w i : poisoned (release_lock false g w) i → poisoned w i.
Proof.
  destruct g as [|k|k]; cbn [release_lock]; [done|..]; intros (l & Hl & Hp); cbn [w_locks set_locks] in Hl;
    (destruct (decide (k = i)) as [->|Hne]; [|rewrite list_lookup_alter_ne // in Hl; by exists l]);
    rewrite list_lookup_alter in Hl; destruct (w_locks w !! i) as [l0|] eqn:E; try done; injection Hl as <-; exists l0;
    split; try done; cbn in Hp; by rewrite ?orb_false_r in Hp.
Qed.
Lemma release_all_poisoned gs w i : poisoned (release_all false gs w) i → poisoned w i.
Proof.
  rewrite /release_all. revert w. induction gs as [|g gs IH]; intros w; simpl; [done|]. intros H%IH. by eapply release_poisoned.
Qed.
Lemma sstep_poisoned o s i : sinv s → sop_legal o s → sop_tame o s → (∀ k, o ≠ SDrop k true) →
  match sstep o s with
  | Done _ s' _ => poisoned (ss_world s') i → poisoned (ss_world s) i
  | Panicked _ s' _ => ¬ opens o → poisoned (ss_world s') i → poisoned (ss_world s) i
  | _ => True
  end.
Proof.
  intros Hs Hleg Htame Hf. destruct (sv_locks _ Hs) as [F HF].
  destruct o as [o|fs|ps|k u|k|k n j v]; cbn [sstep] in *.
  - rewrite /bind in_sworld_run. pose proof (keep_step o (ss_world s)) as Hk.
    assert (∀ w', (∃ n, w_locks w' = w_locks (ss_world s) ++ replicate n rw_new) → poisoned w' i → poisoned (ss_world s) i) as Hgrow.
    { intros w' [n Hn] (l & Hl & Hp). rewrite Hn in Hl. apply lookup_app_Some in Hl as [Hl|[_ Hl]]; [by exists l|].
      apply lookup_replicate in Hl as [-> _]. done. }
    destruct (step o (ss_world s)) as [r w' ev|r w' ev| |]; [| |done..]; cbn; destruct Hk as [Hk _]; [|intros _]; by apply Hgrow.
  - rewrite /open_query {1}/bind in_sworld_run {1}/bind.
    pose proof (dq_new_run (ss_world s) _ fs (λ c i, sinv_lock_lt s c i Hs) HF) as H.
    destruct (dq_new fs (ss_world s)) as [q w' ev|r w' ev| |] eqn:Hrun; [| |done..]; cbn; [|by intros []].
    destruct H as (_ & _ & _ & _ & (_ & _ & Hp & _)). by apply Hp.
  - rewrite /open_query {1}/bind in_sworld_run {1}/bind.
    pose proof (sq_new_run (ss_world s) _ ps (λ c i, sinv_lock_lt s c i Hs) HF) as H.
    destruct (sq_new ps (ss_world s)) as [q w' ev|r w' ev| |] eqn:Hrun; [| |done..]; cbn; [|by intros []].
    destruct H as (_ & _ & _ & (_ & _ & Hp & _)). by apply Hp.
  - rewrite (bind_done_nil _ _ s s s eq_refl). destruct (ss_open s !! k) as [[q|]|] eqn:Hi; [|cbn; tauto..]. cbn.
    destruct u; [by destruct (Hf k)|]. apply release_all_poisoned.
  - cbn. tauto.
  - rewrite (bind_done_nil _ _ s s s eq_refl). destruct (ss_open s !! k) as [[q|]|] eqn:Hi; [|cbn; tauto..].
    destruct (Hleg _ Hi) as (fs & c & Hfs & Hj & Hv). pose proof (sv_world _ Hs) as Hok.
    pose proof (query_item_run _ q n Hok (sv_open _ Hs _ _ Hi)) as H. rewrite /wp in H.
    rewrite {1}/bind in_sworld_run. destruct (query_item q n (ss_world s)) as [o w' ev|r w' ev| |] eqn:Eq; [| |done..].
    + destruct H as (-> & -> & Ho). rewrite sess_eta. destruct o as [ps|]; [|cbn; tauto]. cbn [mbind option_bind].
      destruct (ps !! j) as [q0|] eqn:Hq0; [|cbn; tauto]. destruct (Ho _ eq_refl) as (fs' & p & Hfs' & Hg & ->).
      rewrite Hfs in Hfs'. injection Hfs' as <-. destruct Hok as [[R Hw] Hroom].
      destruct (ptr_store_run _ _ _ _ _ _ _ _ Hw Hg Hj Hv Hq0) as (e & w' & He & Hrun & Hk & _ & Hlo & _).
      rewrite /bind in_sworld_run Hrun. cbn. rewrite /poisoned. by rewrite Hlo.
    + cbn. intros _. destruct H as [->|(-> & _)]; [|done]. exfalso. revert Eq. pose proof (calm_query_item q n (ss_world s)) as Hc. intros E. by rewrite E in Hc.
Qed.
Lemma steps_poisoned l s i : steps sess_new l s → no_unwinding l → ¬ poisoned (ss_world s) i.
Proof.
  intros H. remember sess_new as s0 eqn:E0. induction H as [s|s0 l s1 o r s2 ev H IH Hl Ht E|s0 l s1 o r s2 ev H IH Hl Ht E Hr]; intros [Hn1 Hn2]; subst.
  - by intros (x & Hx & _).
  - assert (sinv s1) as Hs by (apply reachable_inv; by exists l).
    pose proof (sstep_poisoned o s1 i Hs Hl Ht) as Hst. rewrite E in Hst. intros Hp%Hst.
    + revert Hp. apply IH; [done|]. split; intros.
      * intros Hi. apply (Hn1 i0). rewrite calls_app. apply elem_of_app. by left.
      * eapply Hn2, elem_of_app. by left.
    + intros k ->. apply (Hn1 k). rewrite calls_app. apply elem_of_app. right. apply elem_of_list_here.
  - assert (sinv s1) as Hs by (apply reachable_inv; by exists l).
    pose proof (sstep_poisoned o s1 i Hs Hl Ht) as Hst. rewrite E in Hst. intros Hp%Hst.
    + revert Hp. apply IH; [done|]. split; intros.
      * intros Hi. apply (Hn1 i0). rewrite calls_app. apply elem_of_app. by left.
      * eapply Hn2, elem_of_app. by left.
    + intros k ->. apply (Hn1 k). rewrite calls_app. apply elem_of_app. right. apply elem_of_list_here.
    + eapply Hn2, elem_of_app. right. apply elem_of_list_here.
Qed.

(** *** Creation of queries *)
Lemma in_use_known w R c : winv w R → in_use w c → known w c.
Proof. intros Hw (k & L & HL & Hc)%(in_use_ids _ _ Hw). apply (wi_comps _ _ Hw _ _ _ HL Hc). Qed.
Lemma unlocked_unused w R f : winv w R → unlocked w f → ∃ c, fetch_id f = Some c ∧ ¬ in_use w c.
Proof. intros Hw (c & Hf & Hc). exists c. split; [done|]. intros [x Hx]%(in_use_known _ _ _ Hw). congruence. Qed.
Lemma open_fetches_snoc w l o : open_fetches (Sess w (l ++ [o])) = open_fetches (Sess w l) ++ open_fetches (Sess w [o]).
Proof. rewrite /open_fetches /=. by rewrite bind_app /= app_nil_r. Qed.
Lemma exclusive_locks w w' fs : w_lock_lookup w' = w_lock_lookup w → exclusive w' fs → exclusive w fs.
Proof. rewrite /exclusive /known. by intros ->. Qed.
Lemma typed_asks w ps fs : typed w ps fs ↔ Forall2 (asks w) ps fs.
Proof.
  rewrite /typed. split; intros H; (eapply Forall2_impl; [exact H|]); clear H; intros p f; destruct p as [t|t|]; cbn; rewrite /type_id.
  - destruct (w_types w !! t); [|done]. intros [= <-]. eauto.
  - destruct (w_types w !! t); [|done]. intros [= <-]. eauto.
  - by intros [= <-].
  - by intros (c & -> & ->).
  - by intros (c & -> & ->).
  - by intros ->.
Qed.
Lemma none_unregistered w ps : none_fetch w ps → unregistered w ps.
Proof.
  intros (p & Hp & Hn). exists p. rewrite /type_id. destruct p as [t|t|]; cbn in Hn; [| |done];
    (destruct (w_types w !! t) eqn:E; [done|]); exists t; (split_and!; [done..|]); congruence.
Qed.
Lemma unregistered_typed w ps fs : unregistered w ps → ¬ typed w ps fs.
Proof.
  intros (p & t & Hp & Ht & Hn) Hty%typed_asks. apply elem_of_list_lookup in Hp as [i Hi].
  destruct (Forall2_lookup_l _ _ _ _ _ Hty Hi) as (f & _ & Hf). destruct p; simplify_eq/=; destruct Hf as (c & Hc & _); by apply (Hn c).
Qed.
Lemma unlocked_typed w R ps fs : winv w R → typed w ps fs → Exists (unlocked w) fs → not_in_use w ps.
Proof.
  intros Hw Hty%typed_asks (f & Hf & (c & Hc & Hu)%(unlocked_unused _ _ _ Hw))%Exists_exists.
  apply elem_of_list_lookup in Hf as [i Hi]. destruct (Forall2_lookup_r _ _ _ _ _ Hty Hi) as (p & Hp & Ha). exists p.
  apply elem_of_list_lookup_2 in Hp.
  destruct p as [t|t|]; cbn in Ha; [destruct Ha as (c' & H1 & ->)..|by subst]; exists t, c'; simplify_eq/=; done.
Qed.

Lemma open_dyn_run fs s :
  sstep (SOpenDyn fs) s = match dq_new fs (ss_world s) with
                          | Done q w ev => Done (SHandle (length (ss_open s))) (Sess w (ss_open s ++ [Some (QDyn q)])) ev
                          | Panicked r w ev => Panicked r (Sess w (ss_open s)) ev
                          | Deadlock => Deadlock | UB => UB end.
Proof.
  cbn [sstep]. rewrite /open_query {1}/bind in_sworld_run {1}/bind. destruct (dq_new fs (ss_world s)) as [q w ev|r w ev| |]; try done.
  cbn. by rewrite !app_nil_r.
Qed.
Lemma open_stat_run ps s :
  sstep (SOpenStat ps) s = match sq_new ps (ss_world s) with
                          | Done q w ev => Done (SHandle (length (ss_open s))) (Sess w (ss_open s ++ [Some (QStat q)])) ev
                          | Panicked r w ev => Panicked r (Sess w (ss_open s)) ev
                          | Deadlock => Deadlock | UB => UB end.
Proof.
  cbn [sstep]. rewrite /open_query {1}/bind in_sworld_run {1}/bind. destruct (sq_new ps (ss_world s)) as [q w ev|r w ev| |]; try done.
  cbn. by rewrite !app_nil_r.
Qed.
Lemma open_dyn_view l s fs : steps sess_new l s → no_forget l → Forall fetch_wf fs →
  match sstep (SOpenDyn fs) s with
  | Done r s' ev => ev = [] ∧ r = SHandle (length (ss_open s)) ∧ same_view (ss_world s) (ss_world s') ∧
      (∃ q, ss_open s' = ss_open s ++ [Some (QDyn q)] ∧ dq_fetches q = fs) ∧
      exclusive (ss_world s) (open_fetches s ++ fs)
  | Panicked r s' ev => ev = [] ∧ same_view (ss_world s) (ss_world s') ∧ ss_open s' = ss_open s ∧
      r = RPoisoned ∧ ¬ no_unwinding l
  | Deadlock => ¬ exclusive (ss_world s) (open_fetches s ++ fs)
  | UB => False
  end.
Proof.
  intros Hst Hnf Hwf. assert (reachable s) as Hre by by exists l. pose proof (reachable_inv _ Hre) as Hs.
  pose proof (steps_accounts _ _ Hst Hnf) as Hacc.
  assert (accounts (w_locks (ss_world s)) (guard_of (ss_world s) <$> open_fetches s)) as Hacc'.
  { rewrite -(app_nil_r (guard_of _ <$> _)). apply accounts_fetches; [done|]. by rewrite app_nil_r. }
  assert (∀ r s' ev, sstep (SOpenDyn fs) s = Done r s' ev → reachable s') as Hnext.
  { intros r s' ev E. eexists. eapply steps_done; [exact Hst|..|exact E]; done. }
  rewrite open_dyn_run. rewrite open_dyn_run in Hnext.
  pose proof (dq_new_run (ss_world s) _ fs (λ c i, sinv_lock_lt s c i Hs) Hacc') as H.
  destruct (dq_new fs (ss_world s)) as [q w' ev|r w' ev| |] eqn:Hrun; [| |..|done].
  - destruct H as (-> & Hf & _ & _ & (_ & _ & _ & Hls)). split_and!; [done..|by apply only_locks_view|by exists q|].
    specialize (Hnext _ _ _ eq_refl). apply open_exclusive in Hnext. destruct Hls as (ls & -> & _). cbn [ss_world] in Hnext.
    rewrite open_fetches_snoc in Hnext. rewrite /open_fetches /= app_nil_r Hf in Hnext. by eapply exclusive_locks; [|exact Hnext].
  - destruct H as (-> & (-> & f & c & i & _ & _ & _ & Hpo) & _ & Hls). cbn [ss_world ss_open]. split_and!; [done|by apply only_locks_view|done..|].
    intros Hu. by apply (steps_poisoned _ _ i Hst Hu).
  - cbn [ss_world ss_open]. destruct (sv_world _ Hs) as [[R Hw] _]. intros Hex. apply H. rewrite -fmap_app. by apply (compat_exclusive _ _ _ Hw).
Qed.
Lemma open_stat_view l s ps : steps sess_new l s → no_forget l → Forall param_wf ps → Forall param_tame ps →
  match sstep (SOpenStat ps) s with
  | Done r s' ev => ev = [] ∧ r = SHandle (length (ss_open s)) ∧ same_view (ss_world s) (ss_world s') ∧
      (∃ q, ss_open s' = ss_open s ++ [Some (QStat q)] ∧ sq_params q = ps ∧
         match sq_fetches q with
         | Some fs => Forall2 (asks (ss_world s)) ps fs ∧ exclusive (ss_world s) (open_fetches s ++ fs)
         | None => unregistered (ss_world s) ps
         end)
  | Panicked r s' ev => ev = [] ∧ same_view (ss_world s) (ss_world s') ∧ ss_open s' = ss_open s ∧
      ((r = RPoisoned ∧ ¬ no_unwinding l) ∨ (r = RIndex ∧ not_in_use (ss_world s) ps))
  | Deadlock => ∃ fs, Forall2 (asks (ss_world s)) ps fs ∧ ¬ exclusive (ss_world s) (open_fetches s ++ fs)
  | UB => False
  end.
Proof.
  intros Hst Hnf Hwf Htm. assert (reachable s) as Hre by by exists l. pose proof (reachable_inv _ Hre) as Hs.
  pose proof (steps_accounts _ _ Hst Hnf) as Hacc. destruct (sv_world _ Hs) as [[R Hw] _].
  assert (accounts (w_locks (ss_world s)) (guard_of (ss_world s) <$> open_fetches s)) as Hacc'.
  { rewrite -(app_nil_r (guard_of _ <$> _)). apply accounts_fetches; [done|]. by rewrite app_nil_r. }
  assert (∀ r s' ev, sstep (SOpenStat ps) s = Done r s' ev → reachable s') as Hnext.
  { intros r s' ev E. eexists. eapply steps_done; [exact Hst|..|exact E]; done. }
  rewrite open_stat_run. rewrite open_stat_run in Hnext.
  pose proof (sq_new_run (ss_world s) _ ps (λ c i, sinv_lock_lt s c i Hs) Hacc') as H.
  destruct (sq_new ps (ss_world s)) as [q w' ev|r w' ev| |] eqn:Hrun; [| |..|done].
  - destruct H as (-> & Hf & Hg & (_ & _ & _ & Hls)). split_and!; [done..|by apply only_locks_view|].
    exists q. split_and!; [done..|].
    specialize (Hnext _ _ _ eq_refl). apply open_exclusive in Hnext. destruct Hls as (ls & -> & _). cbn [ss_world] in Hnext.
    destruct (sq_fetches q) as [fs|] eqn:Efs; [|by apply none_unregistered, Hg]. split; [by apply typed_asks, Hg|].
    rewrite open_fetches_snoc in Hnext. rewrite /open_fetches /= app_nil_r Efs in Hnext. by eapply exclusive_locks; [|exact Hnext].
  - destruct H as (-> & _ & (fs & Hty & Hr) & Hls). cbn [ss_world ss_open]. split_and!; [done|by apply only_locks_view|done..|].
    destruct Hr as [(-> & f & c & i & _ & _ & _ & Hpo)|[-> Hex]]; [left|right]; (split; [done|]).
    + intros Hu. by apply (steps_poisoned _ _ i Hst Hu).
    + by eapply unlocked_typed.
  - cbn [ss_world ss_open]. destruct H as (fs & Hty & H). exists fs. split; [by apply typed_asks|]. intros Hex. apply H. rewrite -fmap_app.
    by apply (compat_exclusive _ _ _ Hw).
Qed.

(** *** Release *)
Lemma open_drop o s r s' ev : sinv s → opens o → sstep o s = Done r s' ev →
  ∃ i, r = SHandle i ∧ sstep (SDrop i false) s' = Done SNothing (Sess (ss_world s) (ss_open s ++ [None])) [].
Proof.
  intros Hs Ho. destruct (sv_locks _ Hs) as [F HF]. destruct o as [|fs|ps| | |]; try done; clear Ho.
  - rewrite open_dyn_run. pose proof (dq_new_run (ss_world s) _ fs (λ c i, sinv_lock_lt s c i Hs) HF) as H.
    destruct (dq_new fs (ss_world s)) as [q w' ev'|r' w' ev'| |] eqn:Hrun; [|done..].
    destruct H as (-> & Hf & Hg & _ & (_ & Hrel & _)). intros [= <- <- <-]. exists (length (ss_open s)). split; [done|]. cbn [sstep].
    lazymatch goal with |- _ ?s = _ => rewrite (bind_done_nil _ _ s s s eq_refl) end. cbn [ss_open id]. rewrite lookup_app_r // Nat.sub_diag. cbn [lookup list_lookup oq_guards].
    rewrite Hg /bind in_sworld_run /modify /close_query /modify. cbn [ss_world ss_open]. rewrite Hrel insert_app_r_alt // Nat.sub_diag. done.
  - rewrite open_stat_run. pose proof (sq_new_run (ss_world s) _ ps (λ c i, sinv_lock_lt s c i Hs) HF) as H.
    destruct (sq_new ps (ss_world s)) as [q w' ev'|r' w' ev'| |] eqn:Hrun; [|done..].
    destruct H as (-> & Hf & Hg & (_ & Hrel & _)). intros [= <- <- <-]. exists (length (ss_open s)). split; [done|]. cbn [sstep].
    lazymatch goal with |- _ ?s = _ => rewrite (bind_done_nil _ _ s s s eq_refl) end. cbn [ss_open id]. rewrite lookup_app_r // Nat.sub_diag. cbn [lookup list_lookup oq_guards].
    rewrite /bind in_sworld_run /modify /close_query /modify. cbn [ss_world ss_open]. rewrite Hrel insert_app_r_alt // Nat.sub_diag. done.
Qed.
