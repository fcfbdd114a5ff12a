(** * The invariant of sessions *)
From Verif Require Import ProofBase SpecSmall World History ProofEntities ProofBitset ProofArrayVec ProofUVec.
From Verif Require Export ProofGuards ProofStep.

(** *** Opening *)
Lemma dq_new_run w G fs : (∀ c i, w_lock_lookup w !! c = Some i → i < length (w_locks w)) → accounts (w_locks w) G →
  match dq_new fs w with
  | Done q w' ev => ev = [] ∧ dq_fetches q = fs ∧ dq_guards q = guard_of w <$> fs ∧
      (dq_incomplete q = true ↔ Exists (unlocked w) fs) ∧ acquired w G (guard_of w <$> fs) w'
  | Panicked r w' ev => ev = [] ∧ panicked_guards w fs r ∧ accounts (w_locks w') G ∧
      ∃ ls, w' = set_locks ls w ∧ length ls = length (w_locks w)
  | Deadlock => ¬ compat (G ++ (guard_of w <$> fs))
  | UB => False
  end.
Proof.
  intros Hl Hacc. rewrite /dq_new /bind. pose proof (dq_lock_run w Hl G fs [] false w (acquired_nil _ _ Hacc)) as H.
  destruct (dq_lock fs [] false w) as [[gs inc] w' ev|r w' ev| |]; [|done..].
  destruct H as (-> & -> & Ha & Hi). simpl. split_and!; [done..| |done]. rewrite Hi. naive_solver.
Qed.
Definition none_fetch (w : world) (ps : list param) : Prop := ∃ p, p ∈ ps ∧ param_fetch w p = None.
Lemma mapM_param w ps : match mapM (param_fetch w) ps with Some fs => typed w ps fs | None => none_fetch w ps end.
Proof.
  destruct (mapM (param_fetch w) ps) as [fs|] eqn:E.
  - by apply mapM_Some_1.
  - apply mapM_None_1 in E. by apply Exists_exists in E.
Qed.
Lemma sq_new_run w G ps : (∀ c i, w_lock_lookup w !! c = Some i → i < length (w_locks w)) → accounts (w_locks w) G →
  match sq_new ps w with
  | Done q w' ev => ev = [] ∧ sq_params q = ps ∧
      match sq_fetches q with
      | Some fs => typed w ps fs ∧ sq_guards q = guard_of w <$> fs ∧ ¬ Exists (unlocked w) fs
      | None => none_fetch w ps ∧ sq_guards q = replicate (length ps) GNone
      end ∧ acquired w G (sq_guards q) w'
  | Panicked r w' ev => ev = [] ∧ accounts (w_locks w') G ∧
      (∃ fs, typed w ps fs ∧ (panicked_guards w fs r ∨ r = RIndex ∧ Exists (unlocked w) fs)) ∧
      ∃ ls, w' = set_locks ls w ∧ length ls = length (w_locks w)
  | Deadlock => ∃ fs, typed w ps fs ∧ ¬ compat (G ++ (guard_of w <$> fs))
  | UB => False
  end.
Proof.
  intros Hl Hacc. rewrite /sq_new (bind_done_nil _ _ w (mapM (param_fetch w) ps) w eq_refl).
  pose proof (mapM_param w ps) as Hm. destruct (mapM (param_fetch w) ps) as [fs|].
  - rewrite /bind. pose proof (sq_lock_run w Hl G fs [] w (acquired_nil _ _ Hacc)) as H.
    destruct (sq_lock fs [] w) as [gs w' ev|r w' ev| |]; [| |eauto|done].
    + destruct H as (-> & -> & Ha & Hi). simpl. done.
    + destruct H as (-> & Hx & Ha & Hi). split_and!; [done..| |done]. eauto.
  - simpl. split_and!; [done..|]. generalize (length ps). intros n.
    assert (replicate n GNone ++ G ≡ₚ G ++ replicate n GNone) as Hp by apply Permutation_app_comm.
    induction n as [|n IH]; [by apply acquired_nil|]. rewrite replicate_S_end. apply acquired_none. apply IH, Permutation_app_comm.
Qed.

(** *** The world does not depend on the states of its locks *)
Lemma winv_locks w R ls : length ls = length (w_locks w) → winv w R → winv (set_locks ls w) R.
Proof.
  intros Hlen []. constructor; try done. cbn [w_lock_lookup w_locks set_locks]. intros c i Hc. rewrite Hlen. eauto.
Qed.
Lemma wok_locks w ls : length ls = length (w_locks w) → WOk w → WOk (set_locks ls w).
Proof. intros Hlen [[R Hw] Hr]. split; [exists R; by apply winv_locks|done]. Qed.

(** *** Open queries *)
Definition open_ok (w : world) (q : oquery) : Prop :=
  match q with
  | QDyn q => dq_guards q = guard_of w <$> dq_fetches q ∧ (dq_incomplete q = true ↔ Exists (unlocked w) (dq_fetches q))
  | QStat q => resolved w q ∧ Forall param_tame (sq_params q) ∧
      match sq_fetches q with
      | Some fs => sq_guards q = guard_of w <$> fs ∧ ¬ Exists (unlocked w) fs
      | None => none_fetch w (sq_params q) ∧ sq_guards q = replicate (length (sq_params q)) GNone
      end
  end.
Lemma open_ok_same w w' q : w_lock_lookup w' = w_lock_lookup w → w_types w' = w_types w → open_ok w q → open_ok w' q.
Proof.
  intros H1 H2. destruct q as [q|q]; rewrite /open_ok /resolved /typed /none_fetch /param_fetch /unlocked.
  - by rewrite /guard_of H1.
  - by rewrite /guard_of H1 H2.
Qed.
Definition open_guards (l : list (option oquery)) : list lguard := l ≫= (λ o, from_option oq_guards [] o).
Record sinv (s : sess) : Prop := {
  sv_world : WOk (ss_world s);
  sv_locks : ∃ F, accounts (w_locks (ss_world s)) (open_guards (ss_open s) ++ F);
  sv_open : ∀ i q, ss_open s !! i = Some (Some q) → open_ok (ss_world s) q
}.

Lemma open_guards_cons o l : open_guards (o :: l) = from_option oq_guards [] o ++ open_guards l.
Proof. done. Qed.
Lemma open_guards_none l i q : l !! i = Some (Some q) → open_guards l ≡ₚ oq_guards q ++ open_guards (<[i := None]> l).
Proof.
  revert i. induction l as [|o l IH]; intros i Hi; [done|]. destruct i as [|i]; cbn in Hi; cbn [insert list_insert]; rewrite !open_guards_cons.
  - by injection Hi as ->.
  - rewrite (IH i Hi). rewrite !app_assoc. f_equiv; [apply Permutation_app_comm|done].
Qed.
Lemma open_guards_app l o : open_guards (l ++ [o]) = open_guards l ++ from_option oq_guards [] o.
Proof. rewrite /open_guards bind_app /=. by rewrite app_nil_r. Qed.

Lemma sinv_lock_lt s c i : sinv s → w_lock_lookup (ss_world s) !! c = Some i → i < length (w_locks (ss_world s)).
Proof. intros [[[R Hw] _] _ _]. apply (wi_locks _ _ Hw). Qed.

(** *** Items of open queries *)
Lemma last_take_S {A} n (l : list A) x : l !! n = Some x → last (take (S n) l) = Some x.
Proof. intros H. erewrite take_S_r; [|exact H]. by rewrite last_snoc. Qed.
Lemma calls_nth {A} n (l : list A) : mjoin (last (calls (S n) l)) = l !! n.
Proof.
  rewrite /calls. destruct (l !! n) as [x|] eqn:E.
  - rewrite (last_take_S n _ (Some x)); [done|]. apply lookup_app_l_Some. by rewrite list_lookup_fmap E.
  - apply lookup_ge_None in E. rewrite (last_take_S n _ None); [done|].
    rewrite lookup_app_r; rewrite fmap_length //. apply lookup_replicate. split; [done|lia].
Qed.
Lemma pos_items_fst w ps fs p : length ps = length fs → (∃ a, w_archs w !! p.1 = Some a) → (pos_items w ps fs p).*1 = pos_ptrs w fs p.
Proof.
  intros Hlen [a Ha]. rewrite /pos_items /pos_ptrs Ha. revert ps Hlen. induction fs as [|f fs IH]; intros [|p' ps] Hlen; try done.
  simpl. f_equal. apply IH. simpl in Hlen. lia.
Qed.
Lemma query_item_run w q n : WOk w → open_ok w q →
  wp (query_item q n) w
     (λ o w' ev, w' = w ∧ ev = [] ∧
        ∀ ps, o = Some ps → ∃ fs p, oq_fetches w q = Some fs ∧ good_row w fs p ∧ ps = pos_ptrs w fs p)
     (λ r w' ev, w' = w ∧ ev = [] ∧ (r = RUnwrap ∨ r = RIndex)).
Proof.
  intros [[R Hw] Hroom] Hq. destruct q as [q|q]; cbn [query_item].
  - apply wp_bind. destruct (dq_iter_run _ _ Hw Hroom q) as [(it & S0 & Hit & Hat)|Hit]; rewrite /wp Hit; [|right; auto].
    apply wp_bind. destruct (di_run_run _ _ Hw _ (S n) _ _ Hat) as [(it' & Hr & _ & Hg)|(Hr & _)]; rewrite /wp Hr; [|right; auto].
    split_and!; [done..|]. intros ps. fold (calls (S n) (pos_ptrs w (dq_fetches q) <$> S0)). rewrite calls_nth list_lookup_fmap.
    destruct (S0 !! n) as [p|] eqn:Hp; [|done]. intros [= <-]. exists (dq_fetches q), p. split_and!; [done| |done]. eapply Hg; [|done]. lia.
  - destruct Hq as (Hres & Htame & _). apply wp_bind. rewrite /resolved in Hres. destruct (sq_fetches q) as [fs|] eqn:Hfs.
    + destruct (arch_search_run _ _ Hw Hroom fs) as [(b & Hb & Hv)|(Hb & _)].
      * destruct (sq_iter_at _ _ Hw Hroom q fs b Hfs Hb) as (it & Hit & Hat & _); [apply Hv|intros; by eapply (visits_archs _ _ Hw Hroom)|].
        rewrite /wp Hit. apply wp_bind.
        destruct (si_run_run _ _ Hw Hroom _ _ (S n) _ _ Hres Htame Hat) as [(it' & Hr & _ & Hg)|(Hr & _)]; rewrite /wp Hr; [|right; auto].
        split_and!; [done..|]. intros ps. rewrite calls_nth list_lookup_fmap.
        match goal with |- context [?S0 !! n] => destruct (S0 !! n) as [p|] eqn:Hp end; [|done]. intros [= <-]. exists fs, p.
        assert (good_row w fs p) as Hgp by (eapply Hg; [|done]; lia). split_and!; [done..|].
        apply pos_items_fst; [by eapply Forall2_length|]. destruct Hgp as (a & e & Ha & _). eauto.
      * rewrite /wp /sq_iter /sq_arch_iter Hfs /bind. unfold arch_search, bind in Hb. rewrite Hb. right. auto.
    + destruct (sq_none_rows _ _ Hw Hroom q Hfs) as (it & Hit & Hr). rewrite /wp Hit. destruct (Hr (S n)) as (it' & Hrun).
      apply wp_bind. rewrite /wp Hrun. split_and!; [done..|]. intros ps. by rewrite calls_nth.
Qed.

(** *** Writing through a pointer *)
Lemma ptr_store_run w R fs p j c v q0 : winv w R → good_row w fs p → fs !! j = Some (FMut c) → value_fits w c v →
  pos_ptrs w fs p !! j = Some q0 →
  ∃ e w', placed w e p.1 p.2 ∧ ptr_store q0 v w = Done () w' [] ∧ write_done w R e c v w'.
Proof.
  intros Hw (a & e & Ha & Hm & Hp) Hj Hv Hq. exists e.
  destruct (placed_get _ _ Hw _ _ _ Hp) as (a' & rs & m & Ha' & He & Hrs & Hr). simplify_eq.
  rewrite /pos_ptrs Ha list_lookup_fmap Hj in Hq. injection Hq as <-.
  assert (c ∈ a_comp_ids a) as Hc by (eapply Hm; [by eapply elem_of_list_lookup_2|done]).
  destruct (fptr_comp _ _ Hw p.1 a p.2 (FMut c) c Ha eq_refl Hc) as (js & u & Hjs & ->). cbn [fst ptr_store].
  destruct (column_value _ _ Hw _ _ _ _ _ _ _ _ _ Hrs Hr Ha Hjs) as (v0 & cm & Hm0 & Hcm & Hti & _ & _ & Hlen0 & _).
  assert (holds w e c v0) as Hh. { apply (holds_row _ _ Hw). exists m. split; [by eexists _, _, _|done]. }
  destruct (holds_size _ _ Hw _ _ _ Hh) as (Hac & cm' & Hcm' & Hlen1).
  assert (length v = cm_size cm') as Hlen by by eapply value_fits_comp.
  destruct (write_row _ _ Hw p.1 p.2 rs e m c v0 v a js u) as (a' & Hrun & Hids & Hw' & Hk); try done; [congruence|].
  cbn zeta in *. eexists. split_and!; [done..|]. rewrite /write_done. split_and!; try done; [by eapply arch_ids_insert|].
  exists m, v0. eexists. split_and!; [by eexists _, _, _|done|congruence|done|]. exact (write_rows _ _ Hw _ _ _ _ _ _ Hrs Hr).
Qed.

(** *** Every call keeps the invariant *)
Lemma in_sworld_run {A} (m : M world A) s :
  in_sworld m s = match m (ss_world s) with
                  | Done a w ev => Done a (Sess w (ss_open s)) ev
                  | Panicked r w ev => Panicked r (Sess w (ss_open s)) ev
                  | Deadlock => Deadlock | UB => UB end.
Proof. rewrite /in_sworld /zoom. by destruct (m (ss_world s)). Qed.

Lemma sinv_open s q w' gs : sinv s → ss_open s = ss_open s →
  (∀ F, accounts (w_locks (ss_world s)) (open_guards (ss_open s) ++ F) → acquired (ss_world s) (open_guards (ss_open s) ++ F) gs w') →
  gs = oq_guards q → open_ok (ss_world s) q → sinv (Sess w' (ss_open s ++ [Some q])).
Proof.
  intros [Hok [F HF] Hop] _ Hacq -> Hq. destruct (Hacq F HF) as (Hacc & _ & _ & ls & -> & Hlen). constructor.
  - cbn [ss_world]. by apply wok_locks.
  - exists F. cbn [ss_world ss_open]. eapply accounts_perm; [|exact Hacc]. rewrite open_guards_app /=.
    rewrite app_assoc. f_equiv. apply Permutation_app_comm.
  - cbn [ss_world ss_open]. intros i q' [Hi|[Hi Hi']]%lookup_app_Some.
    + eapply open_ok_same; [..|by eapply Hop]; done.
    + apply list_lookup_singleton_Some in Hi' as [_ [= ->]]. by eapply open_ok_same; [..|done].
Qed.
Lemma sinv_panic s w' : sinv s → 
  (∀ F, accounts (w_locks (ss_world s)) (open_guards (ss_open s) ++ F) → accounts (w_locks w') (open_guards (ss_open s) ++ F)) →
  (∃ ls, w' = set_locks ls (ss_world s) ∧ length ls = length (w_locks (ss_world s))) → sinv (Sess w' (ss_open s)).
Proof.
  intros [Hok [F HF] Hop] Hacc (ls & -> & Hlen). constructor; [by apply wok_locks|by exists F; apply Hacc|].
  intros i q Hi. eapply open_ok_same; [..|by eapply Hop]; done.
Qed.

Lemma sess_eta s : Sess (ss_world s) (ss_open s) = s.
Proof. by destruct s. Qed.

(** The calls on a shared world do not change it. *)
Lemma is_alive_same e w :
  match is_alive e w with Done _ w' ev | Panicked _ w' ev => w' = w ∧ ev = [] | _ => False end.
Proof. rewrite /is_alive /bind /gets /=. by destruct (ents_is_alive (w_ents w) e). Qed.
Lemma shared_step o w : op_shared o →
  match step o w with Done _ w' ev | Panicked _ w' ev => w' = w ∧ ev = [] | _ => False end.
Proof.
  destruct o as [cap meta bs fin|e|e t v|e t|e c|e c v|e c|t|e c v|e t|e]; try done; intros _; cbn [step].
  - rewrite /has_component /bind /=. destruct (w_types w !! t) as [c|]; [|done].
    rewrite /get_entity_meta /bind /=. pose proof (is_alive_same e w) as H.
    destruct (is_alive e w) as [b w1 ev|r w1 ev| |]; [|by destruct H as [-> ->]|done..]. destruct H as [-> ->]. destruct b; [|done]. cbn.
    destruct (mjoin (w_meta w !! uindex e)) as [m|]; [|done]. rewrite /get_arch /bind /=. by destruct (w_archs w !! im_arch (em_inst m)).
  - rewrite /bind. pose proof (is_alive_same e w) as H. destruct (is_alive e w); [|done..]. by destruct H as [-> ->].
Qed.

Lemma sstep_inv o s : sinv s → sop_legal o s → sop_tame o s →
  match sstep o s with
  | Done _ s' _ => sinv s'
  | Panicked r s' _ => resumable r → sinv s'
  | Deadlock => opens o
  | UB => False
  end.
Proof.
  intros Hs Hleg Htame. destruct o as [o|fs|ps|i u|i|i n j v]; cbn [sstep].
  - destruct Hleg as [Hleg Hnone]. cbn [sop_tame] in Htame. rewrite /bind in_sworld_run.
    pose proof (step_inv o _ (proj1 (sv_world _ Hs)) Hleg Htame) as H. pose proof (keep_step o (ss_world s)) as Hk. rewrite /wp in H.
    destruct Hnone as [Hsh|Hnone].
    { pose proof (shared_step o (ss_world s) Hsh) as Hss. destruct (step o (ss_world s)) as [r w' ev|r w' ev| |]; [| |done..];
        destruct Hss as [-> ->]; cbn; by rewrite sess_eta. }
    assert (∀ w', WOk w' → lk (ss_world s) w' → sinv (Sess w' (ss_open s))) as Hn.
    { intros w' Hok [[n Hn] _]. constructor; [done| |].
      - destruct (sv_locks _ Hs) as [F HF]. exists F. cbn [ss_world ss_open]. rewrite Hn. by apply accounts_grow.
      - intros i q Hi. cbn [ss_open] in Hi. eapply Forall_lookup_1 in Hnone; [|exact Hi]. done. }
    destruct (step o (ss_world s)) as [r w' ev|r w' ev| |]; [| |done..].
    + cbn. by apply Hn.
    + intros [H1 H2]. destruct H as [?|H]; [done|]. apply Hn; [by apply H|done].
  - rewrite /open_query {1}/bind in_sworld_run {1}/bind.
    destruct (sv_locks _ Hs) as [F HF].
    pose proof (dq_new_run (ss_world s) _ fs (λ c i, sinv_lock_lt s c i Hs) HF) as H.
    destruct (dq_new fs (ss_world s)) as [q w' ev|r w' ev| |] eqn:Hrun; [| |done..]; cbn.
    + destruct H as (-> & Hf & Hg & Hi & Ha). apply (sinv_open s (QDyn q) w' (guard_of (ss_world s) <$> fs)); [done..| |done|].
      * intros F' HF'. pose proof (dq_new_run (ss_world s) _ fs (λ c i, sinv_lock_lt s c i Hs) HF') as H.
        rewrite Hrun in H. by destruct H as (_ & _ & _ & _ & ?).
      * rewrite /open_ok Hf. done.
    + intros _. destruct H as (-> & _ & _ & Hls). apply sinv_panic; [done| |done].
      intros F' HF'. pose proof (dq_new_run (ss_world s) _ fs (λ c i, sinv_lock_lt s c i Hs) HF') as H.
      rewrite Hrun in H. by destruct H as (_ & _ & ? & _).
  - cbn [sop_tame] in Htame. rewrite /open_query {1}/bind in_sworld_run {1}/bind.
    destruct (sv_locks _ Hs) as [F HF].
    pose proof (sq_new_run (ss_world s) _ ps (λ c i, sinv_lock_lt s c i Hs) HF) as H.
    destruct (sq_new ps (ss_world s)) as [q w' ev|r w' ev| |] eqn:Hrun; [| |done..]; cbn.
    + destruct H as (-> & Hf & Hg & Ha). apply (sinv_open s (QStat q) w' (sq_guards q)); [done..| |done|].
      * intros F' HF'. pose proof (sq_new_run (ss_world s) _ ps (λ c i, sinv_lock_lt s c i Hs) HF') as H.
        rewrite Hrun in H. by destruct H as (_ & _ & _ & ?).
      * rewrite /open_ok /resolved Hf. destruct (sq_fetches q); [|done]. destruct Hg as (? & ? & ?). done.
    + intros _. destruct H as (-> & _ & _ & Hls). apply sinv_panic; [done| |done].
      intros F' HF'. pose proof (sq_new_run (ss_world s) _ ps (λ c i, sinv_lock_lt s c i Hs) HF') as H.
      rewrite Hrun in H. by destruct H as (_ & ? & _).
  - rewrite (bind_done_nil _ _ s s s eq_refl). destruct (ss_open s !! i) as [[q|]|] eqn:Hi; [|done..]. cbn.
    destruct Hs as [Hok [F HF] Hop]. destruct (release_all_locks u (oq_guards q) (ss_world s)) as (ls & Hls & Hlen). constructor; cbn.
    + rewrite Hls. by apply wok_locks.
    + exists F. apply release_all_accounts. eapply accounts_perm; [|exact HF]. rewrite app_assoc. f_equiv. by apply open_guards_none.
    + intros i' q' [(_ & ? & _)|(Hne & Hi')]%list_lookup_insert_Some; [done|]. rewrite Hls. eapply open_ok_same; [..|by eapply Hop]; done.
  - cbn. destruct Hs as [Hok [F HF] Hop]. constructor; cbn; [done| |].
    + destruct (ss_open s !! i) as [[q|]|] eqn:Hi.
      * exists (oq_guards q ++ F). eapply accounts_perm; [|exact HF]. rewrite (open_guards_none _ _ _ Hi).
        rewrite app_assoc. f_equiv. apply Permutation_app_comm.
      * exists F. by rewrite list_insert_id.
      * exists F. rewrite list_insert_ge; [done|by apply lookup_ge_None].
    + intros i' q' [(_ & ? & _)|(Hne & Hi')]%list_lookup_insert_Some; [done|]. by eapply Hop.
  - rewrite (bind_done_nil _ _ s s s eq_refl). destruct (ss_open s !! i) as [[q|]|] eqn:Hi; [|done..].
    destruct (Hleg _ Hi) as (fs & c & Hfs & Hj & Hv). pose proof (sv_world _ Hs) as Hok.
    pose proof (query_item_run _ q n Hok (sv_open _ Hs _ _ Hi)) as H. rewrite /wp in H.
    rewrite {1}/bind in_sworld_run. destruct (query_item q n (ss_world s)) as [o w' ev|r w' ev| |]; [| |done..].
    + destruct H as (-> & -> & Ho). rewrite sess_eta. destruct o as [ps|]; [|done]. cbn [mbind option_bind].
      destruct (ps !! j) as [q0|] eqn:Hq0; [|done]. destruct (Ho _ eq_refl) as (fs' & p & Hfs' & Hg & ->).
      rewrite Hfs in Hfs'. injection Hfs' as <-. destruct Hok as [[R Hw] Hroom].
      destruct (ptr_store_run _ _ _ _ _ _ _ _ Hw Hg Hj Hv Hq0) as (e & w' & He & Hrun & Hk & _ & Hlo & Hll & Hids & m & v0 & R' & _ & _ & _ & Hw' & _).
      rewrite /bind in_sworld_run Hrun. cbn. destruct Hs as [_ [F HF] Hop]. constructor; cbn.
      * split; [by exists R'|]. rewrite /room -(arch_ids_length w') Hids arch_ids_length. exact Hroom.
      * exists F. by rewrite Hlo.
      * intros i' q' Hi'. eapply open_ok_same; [..|by eapply Hop]; [done|apply Hk].
    + destruct H as [->|(-> & -> & _)]; [by intros [? _]|]. intros _. by rewrite sess_eta.
Qed.

Lemma world_new_ok : WOk world_new.
Proof.
  split; [|done]. exists []. constructor; try done.
  - exact ents_wf_new.
  - apply Forall_nil_2.
  - intros i k. split; [|by intros (L & c & HL & _)]. rewrite /bs_bit /=. done.
  - split_and!; [|done|]; [|intros k Hk; cbn in Hk; lia]. exact bv_wf_new.
Qed.
Lemma sess_new_inv : sinv sess_new.
Proof.
  constructor; [exact world_new_ok| |done]. exists []. split; [apply Forall_nil_2|]. intros i l Hl. done.
Qed.
Lemma steps_inv s0 l s : sinv s0 → steps s0 l s → sinv s.
Proof.
  intros H0. induction 1 as [|s0 l s1 o r s2 ev Hst IH Hleg Htame Hrun|s0 l s1 o r s2 ev Hst IH Hleg Htame Hrun Hres]; [done|..].
  - pose proof (sstep_inv o s1 (IH H0) Hleg Htame) as H. by rewrite Hrun in H.
  - pose proof (sstep_inv o s1 (IH H0) Hleg Htame) as H. rewrite Hrun in H. by apply H.
Qed.
Lemma reachable_inv s : reachable s → sinv s.
Proof. intros [l Hl]. eapply steps_inv; [exact sess_new_inv|done]. Qed.
Lemma reachable_world_ok w : reachable_world w → WOk w.
Proof. intros (s & Hs & <- & _). by apply sv_world, reachable_inv. Qed.
