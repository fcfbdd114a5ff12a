(** * Queries: the iterators from creation to exhaustion *)
From Verif Require Import ProofBase SpecSmall World History ProofEntities ProofBitset ProofArrayVec ProofUVec.
From Verif Require Export ProofQueryRun.

Lemma word_not_wf x : word_wf x → word_wf (word_not x).
Proof.
  intros H. apply word_wf_iff. intros j Hj. rewrite /word_not N.lxor_spec (testbit_high _ _ H Hj).
  change (word_modulus - 1)%N with (N.ones 64). rewrite N.ones_spec_high //. change usize_bits with 64 in Hj. lia.
Qed.

Section iter.
  Context (w : world) (R : list (list row)) (Hw : winv w R) (Hroom : room 0 w).
  Local Set Default Proof Using "Hw Hroom".

  (** An archetype iterator that visits nothing. *)
  Lemma arch_none (fm : N → N) {A} (l : list A) : (∀ x, word_wf x → word_wf (fm x)) →
    let b := bi_new ((λ _, (bv_data (w_entbits w), fm)) <$> l) 0 in bi_inv b ∧ future b = [].
  Proof.
    intros Hfm b. split; [|apply future_new_zero]. apply bi_new_inv.
    intros ws f (x & [= -> ->] & _)%elem_of_list_fmap. destruct (wi_entbits _ _ Hw) as ((Hd & _) & _).
    eapply Forall_impl; [exact Hd|done].
  Qed.

  (** *** Dynamic queries *)
  Lemma dq_arch_iter_run q :
    (∃ b, dq_arch_iter q w = Done b w [] ∧
       if dq_incomplete q then bi_inv b ∧ future b = [] else visits w (dq_fetches q) b) ∨
    (dq_arch_iter q w = Panicked RUnwrap w [] ∧ dq_incomplete q = false ∧
       ∃ f c, f ∈ dq_fetches q ∧ fetch_id f = Some c ∧ w_bitset w !! uindex c = None).
  Proof.
    rewrite /dq_arch_iter. destruct (dq_incomplete q).
    - left. eexists. split; [done|]. apply arch_none, word_not_wf.
    - destruct (arch_search_run _ _ Hw Hroom (dq_fetches q)) as [(b & Hb & Hv)|(Hb & Hx)]; [left; eauto|right; eauto].
  Qed.
  Lemma visits_archs fs b k : visits w fs b → k ∈ future b → is_Some (w_archs w !! k).
  Proof. intros (_ & _ & H) (_ & a & Ha & _)%H. eauto. Qed.

  Lemma dq_iter_at q b : dq_arch_iter q w = Done b w [] → bi_inv b → (∀ k, k ∈ future b → is_Some (w_archs w !! k)) →
    ∃ it, dq_iter q w = Done it w [] ∧ di_at w (dq_fetches q) it (future b ≫= arows w) ∧ di_arch it = b.
  Proof.
    intros Hb Hinv Hk. rewrite /dq_iter (bind_done_nil _ _ _ _ _ Hb). eexists. split; [done|]. split; [|done].
    split_and!; [done..|]. exists []. split; [|done]. left. done.
  Qed.
  Lemma dq_iter_run q :
    (∃ it S0, dq_iter q w = Done it w [] ∧ di_at w (dq_fetches q) it S0) ∨ dq_iter q w = Panicked RUnwrap w [].
  Proof.
    destruct (dq_arch_iter_run q) as [(b & Hb & Hv)|(Hb & _)].
    - left. assert (bi_inv b ∧ ∀ k, k ∈ future b → is_Some (w_archs w !! k)) as [H1 H2].
      { destruct (dq_incomplete q).
        - destruct Hv as [? Hf]. split; [done|]. rewrite Hf. by intros k ?%elem_of_nil.
        - split; [by destruct Hv|]. intros k. by eapply visits_archs. }
      destruct (dq_iter_at q b Hb H1 H2) as (it & Hit & Hat & _). eauto.
    - right. by rewrite /dq_iter /bind Hb.
  Qed.
  Lemma ready_matching fs b : ready w fs → visits w fs b → ∀ k a, k ∈ future b → w_archs w !! k = Some a → matching fs a.
  Proof.
    intros Hr (_ & _ & Hv) k a Hk Ha. apply Hv in Hk as [_ Hn]. apply (ready_near _ _ Hw Hroom _ _ Hr) in Hn as (a' & Ha' & Hm). by simplify_eq.
  Qed.
  Lemma ready_archs fs : ready w fs → fs ≠ [] →
    ∃ b, arch_search fs w = Done b w [] ∧ bi_inv b ∧ NoDup (future b) ∧
      (∀ k, k ∈ future b → is_Some (w_archs w !! k)) ∧ ¬ unmatched w fs b ∧
      ∀ k, k ∈ future b ↔ ∃ a, w_archs w !! k = Some a ∧ matching fs a.
  Proof.
    intros Hr Hne. destruct (arch_search_ready _ _ Hw Hroom fs Hr Hne) as (b & Hb & Hinv & Hs & Hin).
    exists b. split_and!; [done|done|by apply lt_sorted_nodup| | |done].
    - intros k (a & Ha & _)%Hin. by exists a.
    - intros (k & a & (a' & Ha' & Hm)%Hin & Ha & Hnm). by simplify_eq.
  Qed.
  Lemma dq_ready_rows q : dq_incomplete q = false → ready w (dq_fetches q) → dq_fetches q ≠ [] →
    ∃ it es items, dq_iter q w = Done it w [] ∧
      enumerates (wanted w (dq_fetches q)) es ∧ Forall2 (shows_row w (dq_fetches q)) es items ∧
      ∀ n, ∃ it', di_run n it w = Done (calls n items, it') w [].
  Proof.
    intros Hi Hr Hne. destruct (ready_archs _ Hr Hne) as (b & Hb & Hinv & Hnd & Hsome & Hun & Hin).
    destruct (dq_iter_at q b) as (it & Hit & Hat & Hitb); [by rewrite /dq_arch_iter Hi|done..|].
    destruct (wanted_rows _ _ Hw _ _ Hnd Hin) as (es & Hes & Hsh & _). exists it, es. eexists. split_and!; [done..|].
    intros n. destruct (di_run_run _ _ Hw _ n _ _ Hat) as [(it' & H & _)|(_ & Hu)]; [|by rewrite Hitb in Hu].
    exists it'. exact H.
  Qed.
  Lemma dq_incomplete_rows q : dq_incomplete q = true →
    ∃ it, dq_iter q w = Done it w [] ∧ ∀ n, ∃ it', di_run n it w = Done (calls n [], it') w [].
  Proof.
    intros Hi. destruct (dq_arch_iter_run q) as [(b & Hb & Hv)|(_ & ? & _)]; [|congruence]. rewrite Hi in Hv. destruct Hv as [Hinv Hf].
    destruct (dq_iter_at q b) as (it & Hit & Hat & Hitb); [done..|rewrite Hf; by intros k ?%elem_of_nil|].
    exists it. split; [done|]. intros n. rewrite Hf in Hat.
    destruct (di_run_run _ _ Hw _ n _ _ Hat) as [(it' & H & _)|(_ & k & a & Hk & _)]; [eauto|].
    rewrite Hitb Hf in Hk. by apply elem_of_nil in Hk.
  Qed.

  (** *** Columns *)
  Definition pos_column (fs : list fetch) (k : nat) : list (qptr * nat) :=
    match w_archs w !! k with
    | Some a => (λ f, ((fptr k a 0 f).1, length (a_entities a))) <$> fs
    | None => []
    end.
  Lemma ci_run_run fs n it : ci_fetches it = fs → bi_inv (ci_arch it) → (∀ k, k ∈ future (ci_arch it) → is_Some (w_archs w !! k)) →
    (∃ it', ci_run n it w = Done (calls n (pos_column fs <$> future (ci_arch it)), it') w []) ∨
    (ci_run n it w = Panicked RIndex w [] ∧ unmatched w fs (ci_arch it)).
  Proof.
    revert it. induction n as [|n IH]; intros it Hfs Hb Hok; cbn [ci_run]; [left; by exists it|].
    rewrite /ci_next. destruct (future (ci_arch it)) as [|k ks] eqn:Ef.
    - destruct (arch_next_end _ _ Hw _ Hb Ef) as (b' & Hn & Hb' & Hf').
      assert (ci_next it w = Done (None, CIter (ci_fetches it) b') w []) as Hr by by rewrite /ci_next (bind_done_nil _ _ _ _ _ Hn).
      rewrite /ci_next in Hr. rewrite (bind_done_nil _ _ _ _ _ Hr).
      destruct (IH (CIter (ci_fetches it) b')) as [(it' & Hr')|(_ & (k & a & Hk & _))]; [done|done|cbn [ci_arch]; rewrite Hf'; by intros ? ?%elem_of_nil|..].
      2:{ cbn [ci_arch] in Hk. rewrite Hf' in Hk. by apply elem_of_nil in Hk. }
      left. exists it'. rewrite (bind_done_nil _ _ _ _ _ Hr'). cbn [ci_arch]. rewrite Hf'. done.
    - destruct (Hok k) as [a Ha]; [left|].
      destruct (arch_next_run _ _ Hw _ _ _ Hb Ef a Ha) as (b' & Hn & Hb' & Hf').
      destruct (create_ptrs_run _ _ Hw k a fs Ha) as [[Hm Hc]|[Hm Hc]].
      + assert (ci_next it w = Done (Some (pos_column fs k), CIter (ci_fetches it) b') w []) as Hr.
        { rewrite /ci_next (bind_done_nil _ _ _ _ _ Hn) Hfs (bind_done_nil _ _ _ _ _ Hc) /pos_column Ha -list_fmap_compose. done. }
        rewrite /ci_next in Hr. rewrite (bind_done_nil _ _ _ _ _ Hr).
        destruct (IH (CIter (ci_fetches it) b')) as [(it' & Hr')|(Hr' & (k' & a' & Hk & Hka))]; [done|done|cbn [ci_arch]; rewrite Hf'; intros; apply Hok; by right|..].
        * left. exists it'. rewrite (bind_done_nil _ _ _ _ _ Hr'). cbn [ci_arch]. rewrite Hf' -calls_step. done.
        * right. split; [by rewrite /bind Hr'|]. exists k', a'. cbn [ci_arch] in Hk. rewrite Hf' in Hk. rewrite Ef. split; [by right|done].
      + right. split.
        * rewrite {1}/bind (bind_done_nil _ _ _ _ _ Hn) Hfs. by rewrite /bind Hc.
        * exists k, a. rewrite Ef. split; [left|done].
  Qed.
  Lemma fetch_size_fptr k a i f : w_archs w !! k = Some a → (∀ c, fetch_id f = Some c → c ∈ a_comp_ids a) →
    (fptr k a i f).2 = fetch_size w f.
  Proof.
    intros Ha Hf. rewrite /fetch_size. destruct (fetch_id f) as [c|] eqn:Ef.
    - destruct (fptr_comp _ _ Hw k a i f c Ha Ef (Hf c eq_refl)) as (j & u & Hj & ->). simpl.
      destruct (winv_get_rows _ _ Hw _ _ Ha) as (rs & Hrs & Hrows).
      destruct (ar_cols _ _ _ Hrows c u (elem_of_list_lookup_2 _ _ _ Hj)) as (cm & Hcm & Hti & _).
      destruct (wi_comps _ _ Hw k (a_comp_ids a) c) as (Hal & _ & _); [apply arch_ids_lookup; eauto|by apply Hf|].
      rewrite get_entity_meta_alive //. rewrite /comp_of in Hcm. apply fmap_Some in Hcm as (em & -> & ->). by rewrite /uv_size Hti.
    - by rewrite /fptr Ef.
  Qed.
  Lemma column_rows_arows fs k a : fs ≠ [] → w_archs w !! k = Some a → matching fs a →
    column_rows w fs (pos_column fs k) = pos_ptrs w fs <$> arows w k ∧ even_column (pos_column fs k).
  Proof.
    intros Hne Ha Hm. rewrite /pos_column Ha. split.
    - rewrite /column_rows /arows Ha -list_fmap_compose.
      assert (default 0 (snd <$> head ((λ f, ((fptr k a 0 f).1, length (a_entities a))) <$> fs)) = length (a_entities a)) as -> by by destruct fs.
      apply list_fmap_ext. intros _ i _. rewrite /pos_ptrs /= Ha.
      clear Hne. induction fs as [|f fs IH]; [done|]. apply (matching_cons w R Hw) in Hm as [Hf Hm]. cbn [fmap list_fmap zip_with fst].
      rewrite (IH Hm) -(fetch_size_fptr k a 0 f Ha Hf) (fptr_plus _ _ Hw). done.
    - intros x y (f & -> & _)%elem_of_list_fmap (g & -> & _)%elem_of_list_fmap. done.
  Qed.
  Lemma dq_columns q : dq_fetches q ≠ [] → (dq_incomplete q = false → ready w (dq_fetches q)) →
    ∃ it ct cols, dq_iter q w = Done it w [] ∧ dq_column_iter q w = Done ct w [] ∧
      Forall even_column cols ∧
      (∀ n, ∃ it', di_run n it w = Done (calls n (cols ≫= column_rows w (dq_fetches q)), it') w []) ∧
      (∀ n, ∃ ct', ci_run n ct w = Done (calls n cols, ct') w []).
  Proof.
    intros Hne Hr.
    assert (∃ b, dq_arch_iter q w = Done b w [] ∧ bi_inv b ∧ (∀ k, k ∈ future b → is_Some (w_archs w !! k)) ∧ ¬ unmatched w (dq_fetches q) b)
      as (b & Hb & Hinv & Hsome & Hun).
    { destruct (dq_incomplete q) eqn:Hi.
      - destruct (dq_arch_iter_run q) as [(b & Hb & Hv)|(_ & ? & _)]; [|congruence]. rewrite Hi in Hv. destruct Hv as [Hinv Hf].
        exists b. split_and!; [done..|rewrite Hf; by intros k ?%elem_of_nil|]. intros (k & a & Hk & _). rewrite Hf in Hk. by apply elem_of_nil in Hk.
      - destruct (ready_archs _ (Hr eq_refl) Hne) as (b & Hb & Hinv & _ & Hsome & Hun & _). exists b.
        rewrite {1}/dq_arch_iter Hi. done. }
    destruct (dq_iter_at q b Hb Hinv Hsome) as (it & Hit & Hat & Hitb).
    exists it, (CIter (dq_fetches q) b), (pos_column (dq_fetches q) <$> future b). split_and!; [done|..].
    - by rewrite /dq_column_iter (bind_done_nil _ _ _ _ _ Hb).
    - apply Forall_fmap, Forall_forall. intros k Hk. destruct (Hsome k Hk) as [a Ha].
      eapply column_rows_arows; [done|exact Ha|]. destruct (matching_dec _ _ Hw (dq_fetches q) _ _ Ha) as [|Hnm]; [done|].
      exfalso. apply Hun. by exists k, a.
    - intros n. destruct (di_run_run _ _ Hw _ n _ _ Hat) as [(it' & H & _)|(_ & Hu)]; [|by rewrite Hitb in Hu].
      exists it'. rewrite H. unfold calls. f_equal. f_equal. f_equal. f_equal. f_equal.
      assert (∀ k, k ∈ future b → column_rows w (dq_fetches q) (pos_column (dq_fetches q) k) = pos_ptrs w (dq_fetches q) <$> arows w k) as Hall.
      { intros k Hk. destruct (Hsome k Hk) as [a Ha]. eapply column_rows_arows; [done|exact Ha|].
        destruct (matching_dec _ _ Hw (dq_fetches q) _ _ Ha) as [|Hnm]; [done|]. exfalso. apply Hun. by exists k, a. }
      clear -Hall. induction (future b) as [|k ks IH]; [done|]. rewrite fmap_cons !bind_cons fmap_app. f_equal.
      + symmetry. apply Hall. left.
      + apply IH. intros; apply Hall; by right.
    - intros n. destruct (ci_run_run (dq_fetches q) n (CIter (dq_fetches q) b)) as [?|(_ & Hu)]; done.
  Qed.
  Lemma ci_run_any q n :
    wp (let* it := dq_column_iter q in ci_run n it) w (λ _ w' ev, w' = w ∧ ev = [])
       (λ r w' ev, w' = w ∧ ev = [] ∧ (r = RUnwrap ∨ r = RIndex)).
  Proof.
    rewrite /dq_column_iter. apply wp_bind, wp_bind. destruct (dq_arch_iter_run q) as [(b & Hb & Hv)|(Hb & _)]; rewrite /wp Hb; [|right; auto].
    apply wp_ret. rewrite /wp.
    destruct (ci_run_run (dq_fetches q) n (CIter (dq_fetches q) b)) as [(it' & ->)|(-> & _)]; [done| | |done|right; auto].
    - cbn [ci_arch]. destruct (dq_incomplete q); apply Hv.
    - cbn [ci_arch]. intros k Hk. destruct (dq_incomplete q); [|by eapply visits_archs]. destruct Hv as [_ Hf]. rewrite Hf in Hk. by apply elem_of_nil in Hk.
  Qed.
  Lemma di_run_any q n :
    wp (let* it := dq_iter q in di_run n it) w (λ _ w' ev, w' = w ∧ ev = [])
       (λ r w' ev, w' = w ∧ ev = [] ∧ (r = RUnwrap ∨ r = RIndex)).
  Proof.
    apply wp_bind. destruct (dq_iter_run q) as [(it & S0 & Hr & Hat)|Hr]; rewrite /wp Hr; [|right; auto].
    destruct (di_run_run _ _ Hw _ n _ _ Hat) as [(it' & -> & _)|(-> & _)]; [done|right; auto].
  Qed.
End iter.
