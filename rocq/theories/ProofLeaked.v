(** * Locks that are never free again: leaked queries, poison *)
From Verif Require Import ProofBase SpecSmall World History ProofEntities ProofBitset ProofArrayVec ProofUVec.
From Verif Require Export SpecLocks ProofQueryLaws.

Definition pk (w w' : world) : Prop :=
  w_lock_lookup w ⊆ w_lock_lookup w' ∧ ∀ i, poisoned w i → poisoned w' i.
Global Instance pk_preorder : PreOrder pk.
Proof. split; [done|]. intros w1 w2 w3 [A1 B1] [A2 B2]. split; [by trans (w_lock_lookup w2)|auto]. Qed.
Lemma lk_pk w w' : lk w w' → pk w w'.
Proof. intros [[n Hn] Hl]. split; [done|]. intros i (l & Hi & Hp). exists l. split; [|done]. rewrite Hn. by apply lookup_app_l_Some. Qed.
Lemma same_locks_pk w w' : w_lock_lookup w' = w_lock_lookup w → w_locks w' = w_locks w → pk w w'.
Proof. intros E1 E2. split; [by rewrite E1|]. intros i. by rewrite /poisoned E2. Qed.

Lemma pk_acquire_write i : keeping pk (acquire_write i).
Proof.
  intros w. rewrite /acquire_write /in_lock /zoom. destruct (w_locks w !! i) as [l|] eqn:Hl; [|done]. case_decide; [done|].
  destruct (rw_poisoned l) eqn:Hp; cbn.
  - split; [done|]. intros k (l' & Hk & Hp'). rewrite /poisoned. cbn. rewrite list_insert_id //. by exists l'.
  - split; [done|]. intros k (l' & Hk & Hp'). exists l'. split; [|done]. cbn. rewrite list_lookup_insert_ne //. intros ->. congruence.
Qed.
Lemma pk_acquire_read i : keeping pk (acquire_read i).
Proof.
  intros w. rewrite /acquire_read /in_lock /zoom. destruct (w_locks w !! i) as [l|] eqn:Hl; [|done]. destruct (rw_writer l); [done|].
  destruct (rw_poisoned l) eqn:Hp; cbn.
  - split; [done|]. intros k (l' & Hk & Hp'). rewrite /poisoned. cbn. rewrite list_insert_id //. by exists l'.
  - split; [done|]. intros k (l' & Hk & Hp'). exists l'. split; [|done]. cbn. rewrite list_lookup_insert_ne //. intros ->. congruence.
Qed.
Lemma pk_release u g w : pk w (release_lock u g w).
Proof.
  destruct g as [|k|k]; cbn [release_lock]; [done|..]; (split; [done|]); intros i (l & Hl & Hp); rewrite /poisoned; cbn [w_locks set_locks];
    (destruct (decide (k = i)) as [->|Hne]; [|rewrite list_lookup_alter_ne //; by exists l]);
    rewrite list_lookup_alter Hl; cbn; eexists; (split; [done|]); cbn; by rewrite Hp.
Qed.
Lemma pk_release_all u gs w : pk w (release_all u gs w).
Proof.
  rewrite /release_all. revert w. induction gs as [|g gs IH]; intros w; simpl; [done|]. etrans; [apply (pk_release u g)|apply IH].
Qed.
Lemma pk_releasing {A} gs (m : M world A) : keeping pk m → keeping pk (releasing gs m).
Proof.
  intros H w. specialize (H w). rewrite /releasing. destruct (m w); try done. etrans; [done|]. apply pk_release_all.
Qed.
Lemma pk_gets {A} (f : world → A) : keeping pk (gets f).
Proof. by intros w. Qed.
Lemma pk_acquire f i : keeping pk (match f with FMut _ => acquire_write i | _ => acquire_read i end).
Proof. destruct f; [apply pk_acquire_read|apply pk_acquire_write|apply pk_acquire_read]. Qed.
Lemma pk_dq_lock fs gs inc : keeping pk (dq_lock fs gs inc).
Proof.
  revert gs inc. induction fs as [|f fs IH]; intros gs inc; cbn [dq_lock]; [by intros w|]. destruct (fetch_id f) as [c|]; [|apply IH].
  apply (keeping_bind pk); [apply pk_gets|]. intros [i|]; [|apply IH].
  apply (keeping_bind pk); [apply pk_releasing, pk_acquire|]. intros g. apply IH.
Qed.
Lemma pk_sq_lock fs gs : keeping pk (sq_lock fs gs).
Proof.
  revert gs. induction fs as [|f fs IH]; intros gs; cbn [sq_lock]; [by intros w|].
  apply (keeping_bind pk); [|intros g; apply IH]. apply pk_releasing. destruct (fetch_id f) as [c|]; [|by intros w].
  apply (keeping_bind pk); [apply pk_gets|]. intros o. apply (keeping_bind pk); [|intros i; apply pk_acquire].
  destruct o; by intros w.
Qed.
Lemma pk_dq_new fs : keeping pk (dq_new fs).
Proof. rewrite /dq_new. apply (keeping_bind pk); [apply pk_dq_lock|]. intros [gs inc]. by intros w. Qed.
Lemma pk_sq_new ps : keeping pk (sq_new ps).
Proof.
  rewrite /sq_new. apply (keeping_bind pk); [apply pk_gets|]. intros [fs|]; [|by intros w].
  apply (keeping_bind pk); [apply pk_sq_lock|]. by intros gs w.
Qed.

(** *** A poisoned lock is not granted *)
Lemma acquire_clean f i w g w' ev :
  (match f with FMut _ => acquire_write i | _ => acquire_read i end) w = Done g w' ev → ¬ poisoned w i.
Proof.
  intros E (l & Hl & Hp). destruct f; rewrite /acquire_write /acquire_read /in_lock /zoom Hl Hp in E; repeat case_match; done.
Qed.
Lemma releasing_done {A} gs (m : M world A) w a w' ev : releasing gs m w = Done a w' ev → m w = Done a w' ev.
Proof. rewrite /releasing. by destruct (m w). Qed.
Lemma dq_lock_clean fs gs inc w x w' ev : dq_lock fs gs inc w = Done x w' ev →
  ∀ f c i, f ∈ fs → fetch_id f = Some c → w_lock_lookup w !! c = Some i → ¬ poisoned w i.
Proof.
  revert gs inc w ev. induction fs as [|f fs IH]; intros gs inc w ev; cbn [dq_lock]; [by intros _ ? ? ? ?%elem_of_nil|].
  destruct (fetch_id f) as [c0|] eqn:Hf.
  - rewrite (bind_done_nil _ _ w (w_lock_lookup w !! c0) w eq_refl). destruct (w_lock_lookup w !! c0) as [i0|] eqn:Hc0.
    + intros (g & w1 & ev1 & ev2 & E1 & E2 & _)%bind_done_inv. apply releasing_done in E1.
      pose proof (acquire_clean _ _ _ _ _ _ E1) as Hcl. pose proof (pk_acquire f i0 w) as Hk. rewrite E1 in Hk. destruct Hk as [Hk1 Hk2].
      intros f' c i [->|Hin]%elem_of_cons Hf' Hi; [by simplify_eq|]. intros Hp. eapply (IH _ _ _ _ E2); [done|done|by eapply lookup_weaken|by apply Hk2].
    + intros E f' c i [->|Hin]%elem_of_cons Hf' Hi; [by simplify_eq|]. by eapply IH.
  - intros E f' c i [->|Hin]%elem_of_cons Hf' Hi; [by simplify_eq|]. by eapply IH.
Qed.
Lemma sq_lock_clean fs gs w x w' ev : sq_lock fs gs w = Done x w' ev →
  ∀ f c i, f ∈ fs → fetch_id f = Some c → w_lock_lookup w !! c = Some i → ¬ poisoned w i.
Proof.
  revert gs w ev. induction fs as [|f fs IH]; intros gs w ev; cbn [sq_lock]; [by intros _ ? ? ? ?%elem_of_nil|].
  intros (g & w1 & ev1 & ev2 & E1 & E2 & _)%bind_done_inv. apply releasing_done in E1.
  destruct (fetch_id f) as [c0|] eqn:Hf.
  - rewrite (bind_done_nil _ _ w (w_lock_lookup w !! c0) w eq_refl) in E1. destruct (w_lock_lookup w !! c0) as [i0|] eqn:Hc0; [|done].
    rewrite (bind_done_nil _ _ w i0 w eq_refl) in E1.
    pose proof (acquire_clean _ _ _ _ _ _ E1) as Hcl. pose proof (pk_acquire f i0 w) as Hk. rewrite E1 in Hk. destruct Hk as [Hk1 Hk2].
    intros f' c i [->|Hin]%elem_of_cons Hf' Hi; [by simplify_eq|]. intros Hp. eapply (IH _ _ _ E2); [done|done|by eapply lookup_weaken|by apply Hk2].
  - injection E1 as <- <- <-. intros f' c i [->|Hin]%elem_of_cons Hf' Hi; [by simplify_eq|]. by eapply IH.
Qed.

(** *** Through histories *)
Lemma sstep_pk o s : sinv s → sop_legal o s → sop_tame o s →
  match sstep o s with Done _ s' _ | Panicked _ s' _ => pk (ss_world s) (ss_world s') | _ => True end.
Proof.
  intros Hs Hleg Htame. destruct o as [o|fs|ps|k u|k|k n j v].
  - cbn [sstep]. rewrite /bind in_sworld_run. pose proof (keep_step o (ss_world s)) as Hk.
    destruct (step o (ss_world s)) as [r w' ev|r w' ev| |]; [| |done..]; cbn; by apply lk_pk.
  - rewrite open_dyn_run. pose proof (pk_dq_new fs (ss_world s)) as H. by destruct (dq_new fs (ss_world s)).
  - rewrite open_stat_run. pose proof (pk_sq_new ps (ss_world s)) as H. by destruct (sq_new ps (ss_world s)).
  - cbn [sstep]. rewrite (bind_done_nil _ _ s s s eq_refl). destruct (ss_open s !! k) as [[q|]|] eqn:Hi; [|done..]. cbn. apply pk_release_all.
  - done.
  - cbn [sstep] in *. rewrite (bind_done_nil _ _ s s s eq_refl). destruct (ss_open s !! k) as [[q|]|] eqn:Hi; [|done..].
    destruct (Hleg _ Hi) as (fs & c & Hfs & Hj & Hv). pose proof (sv_world _ Hs) as Hok.
    pose proof (query_item_run _ q n Hok (sv_open _ Hs _ _ Hi)) as H. rewrite /wp in H.
    rewrite {1}/bind in_sworld_run. destruct (query_item q n (ss_world s)) as [o w' ev|r w' ev| |] eqn:Eq; [| |done..].
    + destruct H as (-> & -> & Ho). rewrite sess_eta. destruct o as [ps|]; [|done]. cbn [mbind option_bind].
      destruct (ps !! j) as [q0|] eqn:Hq0; [|done]. destruct (Ho _ eq_refl) as (fs' & p & Hfs' & Hg & ->).
      rewrite Hfs in Hfs'. injection Hfs' as <-. destruct Hok as [[R Hw] Hroom].
      destruct (ptr_store_run _ _ _ _ _ _ _ _ Hw Hg Hj Hv Hq0) as (e & w' & He & Hrun & Hk & _ & Hlo & _).
      rewrite /bind in_sworld_run Hrun. cbn. split.
      * apply map_subseteq_spec. intros c' i' Hc'. by apply (kp_locks _ _ Hk).
      * intros i'. by rewrite /poisoned Hlo.
    + cbn. destruct H as [->|(-> & _)]; [|done]. exfalso. revert Eq. pose proof (calm_query_item q n (ss_world s)) as Hc. intros E. by rewrite E in Hc.
Qed.
Lemma steps_pk s l s' : sinv s → steps s l s' → pk (ss_world s) (ss_world s').
Proof.
  intros Hs H. induction H as [s|s0 l s1 o r s2 ev H IH Hl Ht E|s0 l s1 o r s2 ev H IH Hl Ht E Hr]; [done|..];
    specialize (IH Hs); pose proof (sstep_pk o s1 (steps_inv _ _ _ Hs H) Hl Ht) as Hx; rewrite E in Hx; by etrans.
Qed.
(** The guards of leaked queries stay out. *)
Lemma steps_leaked s l s' F : sinv s → steps s l s' → accounts (w_locks (ss_world s)) (open_guards (ss_open s) ++ F) →
  ∃ F', accounts (w_locks (ss_world s')) (open_guards (ss_open s') ++ F') ∧ ∀ g, g ∈ F → g ∈ F'.
Proof.
  intros Hs H HF. induction H as [s|s0 l s1 o r s2 ev H IH Hl Ht E|s0 l s1 o r s2 ev H IH Hl Ht E Hr]; [by exists F|..];
    destruct (IH Hs HF) as (F1 & HF1 & Hin); pose proof (steps_inv _ _ _ Hs H) as Hs1.
  - assert ((∃ i, o = SForget i) ∨ ∀ i, o ≠ SForget i) as [[i ->]|Hn] by (destruct o; eauto).
    + cbn in E. injection E as <- <- <-. destruct (ss_open s1 !! i) as [[q|]|] eqn:Hi.
      * exists (oq_guards q ++ F1). split; [|intros g Hg; apply elem_of_app; auto]. cbn. eapply accounts_perm; [|exact HF1].
        rewrite (open_guards_none _ _ _ Hi). rewrite !app_assoc. f_equiv. apply Permutation_app_comm.
      * exists F1. split; [|done]. cbn. by rewrite list_insert_id.
      * exists F1. split; [|done]. cbn. rewrite list_insert_ge //. by apply lookup_ge_None.
    + exists F1. split; [|done]. pose proof (sstep_accounts o s1 F1 Hs1 Hl Ht) as Hx. rewrite E in Hx. by apply Hx.
  - exists F1. split; [|done]. pose proof (sstep_accounts o s1 F1 Hs1 Hl Ht) as Hx. rewrite E in Hx. apply Hx; [|done]. by intros i ->.
Qed.

(** *** Clashes *)
Lemma accounts_clash ls A B g g' k : accounts ls (A ++ B) → g ∈ A → g' ∈ B → lock_of g = Some k → lock_of g' = Some k →
  g = GWrite k ∨ g' = GWrite k → False.
Proof.
  intros Hacc%accounts_compat [i Hi]%elem_of_list_lookup [j Hj]%elem_of_list_lookup Hg Hg' Hw.
  pose proof (lookup_lt_Some _ _ _ Hi) as Hlt.
  assert ((A ++ B) !! i = Some g) as Hi' by by apply lookup_app_l_Some.
  assert ((A ++ B) !! (length A + j) = Some g') as Hj'. { rewrite lookup_app_r; [|lia]. by rewrite Nat.add_sub_swap // Nat.sub_diag. }
  destruct Hw as [->| ->].
  - destruct (Hacc i (length A + j) k g' ltac:(lia) Hi' Hj') as [H1 H2]. destruct g'; by simplify_eq/=.
  - destruct (Hacc (length A + j) i k g ltac:(lia) Hj' Hi') as [H1 H2]. destruct g; by simplify_eq/=.
Qed.
Lemma guard_of_lock w f c i : fetch_id f = Some c → w_lock_lookup w !! c = Some i → lock_of (guard_of w f) = Some i.
Proof. intros Hf Hc. destruct f as [|c'|c']; [done|..]; injection Hf as ->; cbn; by rewrite Hc. Qed.
Lemma open_guard w q fs f : open_ok w q → oq_fetches w q = Some fs → f ∈ fs → guard_of w f ∈ oq_guards q.
Proof.
  intros Hok Hfs Hf. destruct q as [q|q]; cbn in *.
  - injection Hfs as <-. destruct Hok as [-> _]. by apply elem_of_list_fmap_1.
  - destruct Hok as (_ & _ & Hg). rewrite Hfs in Hg. destruct Hg as [-> _]. by apply elem_of_list_fmap_1.
Qed.
(** What a call that opened a query asked for was granted. *)
Lemma typed_request w ps fs p f : typed w ps fs → p ∈ ps → asks w p f → f ∈ fs.
Proof.
  intros Hty%typed_asks [i Hi]%elem_of_list_lookup Ha. destruct (Forall2_lookup_l _ _ _ _ _ Hty Hi) as (f' & Hf' & Ha').
  assert (f = f') as ->; [|by eapply elem_of_list_lookup_2].
  destruct p as [t|t|]; cbn in Ha, Ha'; [|..|congruence]; destruct Ha as (c & H1 & ->), Ha' as (c' & H2 & ->); rewrite /type_id in H1 H2; congruence.
Qed.
Lemma requests_granted s o f r s' ev F : sinv s → requests (ss_world s) o f →
  accounts (w_locks (ss_world s)) (open_guards (ss_open s) ++ F) → sstep o s = Done r s' ev →
  ∃ gs, accounts (w_locks (ss_world s')) (gs ++ (open_guards (ss_open s) ++ F)) ∧ guard_of (ss_world s) f ∈ gs ∧
    ∀ c i, fetch_id f = Some c → w_lock_lookup (ss_world s) !! c = Some i → ¬ poisoned (ss_world s) i.
Proof.
  intros Hs Hreq HF. destruct o as [o|fs|ps|k u|k|k n j v]; try done.
  - rewrite open_dyn_run. pose proof (dq_new_run (ss_world s) _ fs (λ c i, sinv_lock_lt s c i Hs) HF) as H.
    destruct (dq_new fs (ss_world s)) as [q w' ev'|r' w' ev'| |] eqn:Hrun; intros E; cbn in E; [injection E as <- <- <-|discriminate E..].
    destruct H as (_ & _ & Hg & _ & (Hacc & _)). exists (guard_of (ss_world s) <$> fs). split; [exact Hacc|]. split; [by apply elem_of_list_fmap_1|].
    intros c i Hc Hi. apply bind_done_inv in Hrun as (x & w1 & ev1 & ev2 & E1 & _). by eapply dq_lock_clean.
  - rewrite open_stat_run. pose proof (sq_new_run (ss_world s) _ ps (λ c i, sinv_lock_lt s c i Hs) HF) as H.
    destruct (sq_new ps (ss_world s)) as [q w' ev'|r' w' ev'| |] eqn:Hrun; intros E; cbn in E; [injection E as <- <- <-|discriminate E..].
    destruct H as (_ & _ & Hq & (Hacc & _)). destruct Hreq as (Hur & p & Hp & Ha). destruct (sq_fetches q) as [fs|] eqn:Hfs.
    + destruct Hq as (Hty & Hg & _). pose proof (typed_request _ _ _ _ _ Hty Hp Ha) as Hf.
      exists (sq_guards q). split; [exact Hacc|]. split; [rewrite Hg; by apply elem_of_list_fmap_1|].
      intros c i Hc Hi. rewrite /sq_new (bind_done_nil _ _ (ss_world s) (mapM (param_fetch (ss_world s)) ps) (ss_world s) eq_refl) in Hrun.
      destruct (mapM (param_fetch (ss_world s)) ps) as [fs'|] eqn:Em; [|by injection Hrun as <- _ _].
      apply bind_done_inv in Hrun as (x & w1 & ev1 & ev2 & E1 & E2 & _). injection E2 as <- _ _. injection Hfs as ->. by eapply sq_lock_clean.
    + destruct Hq as [Hn%none_unregistered _]. done.
Qed.

Lemma leaked_query s i q fs f c r1 s1 ev1 l s2 o f' r s3 ev : reachable s →
  ss_open s !! i = Some (Some q) → oq_fetches (ss_world s) q = Some fs → f ∈ fs → fetch_id f = Some c → known (ss_world s) c →
  sstep (SForget i) s = Done r1 s1 ev1 → steps s1 l s2 →
  requests (ss_world s2) o f' → fetch_id f' = Some c → f = FMut c ∨ f' = FMut c →
  sstep o s2 ≠ Done r s3 ev.
Proof.
  intros Hs%reachable_inv Hi Hfs Hf Hc [k Hk] E1 Hst Hreq Hc' Hw E.
  destruct (sv_locks _ Hs) as [F HF]. cbn in E1. injection E1 as <- <- <-.
  set (s1 := Sess (ss_world s) (<[i := None]> (ss_open s))) in *.
  assert (sinv s1) as Hs1. { pose proof (sstep_inv (SForget i) s Hs I I) as H. exact H. }
  assert (accounts (w_locks (ss_world s1)) (open_guards (ss_open s1) ++ (oq_guards q ++ F))) as HF1.
  { cbn. eapply accounts_perm; [|exact HF]. rewrite (open_guards_none _ _ _ Hi). rewrite !app_assoc. f_equiv. apply Permutation_app_comm. }
  destruct (steps_leaked _ _ _ _ Hs1 Hst HF1) as (F2 & HF2 & Hin). pose proof (steps_inv _ _ _ Hs1 Hst) as Hs2.
  destruct (steps_pk _ _ _ Hs1 Hst) as [Hlk _]. assert (w_lock_lookup (ss_world s2) !! c = Some k) as Hk2 by by eapply lookup_weaken.
  destruct (requests_granted _ _ _ _ _ _ _ Hs2 Hreq HF2 E) as (gs & Hacc & Hg & _).
  eapply (accounts_clash _ gs _ _ (guard_of (ss_world s) f) k Hacc Hg).
  - apply elem_of_app. right. apply Hin, elem_of_app. left. eapply open_guard; [by eapply (sv_open _ Hs)|done|done].
  - by eapply guard_of_lock.
  - by eapply guard_of_lock.
  - destruct Hw as [-> | ->]; cbn; [rewrite Hk|rewrite Hk2]; auto.
Qed.
Lemma poisoned_request s k c l s2 o f r s3 ev : sinv s → poisoned (ss_world s) k → w_lock_lookup (ss_world s) !! c = Some k → steps s l s2 →
  requests (ss_world s2) o f → fetch_id f = Some c → sstep o s2 ≠ Done r s3 ev.
Proof.
  intros Hs Hp Hk Hst Hreq Hf E. destruct (steps_pk _ _ _ Hs Hst) as [Hlk Hpo]. pose proof (steps_inv _ _ _ Hs Hst) as Hs2.
  destruct (sv_locks _ Hs2) as [F HF]. destruct (requests_granted _ _ _ _ _ _ _ Hs2 Hreq HF E) as (gs & _ & _ & Hcl).
  eapply Hcl; [done|by eapply lookup_weaken|by apply Hpo].
Qed.
Lemma release_poisons gs w k : GWrite k ∈ gs → k < length (w_locks w) → poisoned (release_all true gs w) k.
Proof.
  rewrite /release_all. revert w. induction gs as [|g gs IH]; intros w; [by intros ?%elem_of_nil|]. cbn [foldl].
  intros [<-|Hin]%elem_of_cons Hk.
  - apply (pk_release_all true gs). apply lookup_lt_is_Some in Hk as [l Hl]. cbn [release_lock]. eexists. cbn. rewrite list_lookup_alter Hl.
    split; [done|]. cbn. apply orb_true_r.
  - apply IH; [done|]. destruct (release_locks true g w) as (ls & -> & Hl). cbn. by rewrite Hl.
Qed.
Lemma poisoned_query s i q fs c r1 s1 ev1 l s2 o f r s3 ev : reachable s →
  ss_open s !! i = Some (Some q) → oq_fetches (ss_world s) q = Some fs → FMut c ∈ fs → known (ss_world s) c →
  sstep (SDrop i true) s = Done r1 s1 ev1 → steps s1 l s2 →
  requests (ss_world s2) o f → fetch_id f = Some c → sstep o s2 ≠ Done r s3 ev.
Proof.
  intros Hs%reachable_inv Hi Hfs Hf [k Hk] E1 Hst. pose proof (sstep_inv (SDrop i true) s Hs I I) as Hs1. rewrite E1 in Hs1.
  cbn [sstep] in E1. rewrite (bind_done_nil _ _ s s s eq_refl) Hi in E1. cbn in E1. injection E1 as <- <- <-.
  eapply poisoned_request; [exact Hs1| | |exact Hst].
  - cbn. apply release_poisons; [|by eapply sinv_lock_lt]. pose proof (open_guard _ _ _ _ (sv_open _ Hs _ _ Hi) Hfs Hf) as H. cbn in H. by rewrite Hk in H.
  - cbn. destruct (release_all_locks true (oq_guards q) (ss_world s)) as (ls & -> & _). exact Hk.
Qed.
Lemma release_readers gs w : (∀ k, GWrite k ∉ gs) → release_all true gs w = release_all false gs w.
Proof.
  rewrite /release_all. revert w. induction gs as [|g gs IH]; intros w Hn; [done|]. cbn [foldl].
  assert (release_lock true g w = release_lock false g w) as ->. { destruct g as [|k|k]; [done..|]. destruct (Hn k). by left. }
  apply IH. intros k Hk. apply (Hn k). by right.
Qed.
Lemma readers_dropped s i q fs : reachable s → ss_open s !! i = Some (Some q) → oq_fetches (ss_world s) q = Some fs →
  (∀ c, FMut c ∈ fs → ¬ known (ss_world s) c) → sstep (SDrop i true) s = sstep (SDrop i false) s.
Proof.
  intros Hs%reachable_inv Hi Hfs Hn. cbn [sstep]. rewrite !(bind_done_nil _ _ s s s eq_refl) Hi. cbn. rewrite release_readers; [done|].
  intros k Hk. pose proof (sv_open _ Hs _ _ Hi) as Hok.
  assert (oq_guards q = guard_of (ss_world s) <$> fs) as Hg.
  { destruct q as [q|q]; cbn in *; [injection Hfs as <-; by destruct Hok|]. destruct Hok as (_ & _ & Hok). rewrite Hfs in Hok. by destruct Hok. }
  rewrite Hg in Hk. apply elem_of_list_fmap in Hk as (f & E & Hf). symmetry in E. apply guard_write in E as (c & -> & Hc). eapply Hn; [done|by eexists].
Qed.
Lemma used_known s c : reachable s → in_use (ss_world s) c → known (ss_world s) c.
Proof. intros Hs%reachable_inv. destruct (sv_world _ Hs) as [[R Hw] _]. by apply (in_use_known _ _ _ Hw). Qed.
