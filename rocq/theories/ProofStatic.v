(** * Static queries *)
From Verif Require Import ProofBase SpecSmall World History ProofEntities ProofBitset ProofArrayVec ProofUVec.
From Verif Require Export ProofQueryIter.

Section static.
  Context (w : world) (R : list (list row)) (Hw : winv w R) (Hroom : room 0 w).
  Local Set Default Proof Using "Hw Hroom".

  Definition sintra_at (fs : list fetch) (it : siter) (S1 : list (nat * nat)) : Prop :=
    (si_remaining it = 0 ∧ S1 = []) ∨
    ∃ k a i, w_archs w !! k = Some a ∧ matching fs a ∧ i + si_remaining it = length (a_entities a) ∧
      S1 = pair k <$> seq i (si_remaining it) ∧ si_ptrs it = (λ f, (fptr k a i f).1) <$> fs.
  (** The iterator is about to yield the rows [S0]. *)
  Definition si_at (ps : list param) (fs : list fetch) (it : siter) (S0 : list (nat * nat)) : Prop :=
    si_params it = ps ∧ bi_inv (si_arch it) ∧
    (∀ k, k ∈ future (si_arch it) → is_Some (w_archs w !! k) ∧ si_fetches it = Some fs) ∧
    ∃ S1, sintra_at fs it S1 ∧ S0 = S1 ++ (future (si_arch it) ≫= arows w).

  Lemma si_intra_run ps fs it S1 : typed w ps fs → si_params it = ps → sintra_at fs it S1 →
    ∃ it', si_intra_next it w = Done (pos_ptrs w fs <$> head S1, it') w [] ∧ sintra_at fs it' (tail S1) ∧
      si_params it' = si_params it ∧ si_fetches it' = si_fetches it ∧ si_arch it' = si_arch it ∧
      (S1 = [] → it' = it) ∧ ∀ p, head S1 = Some p → good_row w fs p.
  Proof.
    intros Hty Hps. rewrite /si_intra_next. intros [(H0 & ->)|(k & a & i & Ha & Hm & Hlen & -> & Hptr)].
    { rewrite decide_True //. exists it. split; [done|]. split_and!; [by left|done..]. }
    case_decide as H0.
    { exists it. rewrite H0. split; [done|]. split_and!; [by left|done..]. }
    rewrite Hptr Hps. assert (i + 1 ≤ length (a_entities a)) as Hi by lia.
    rewrite (bind_done_nil _ _ _ _ _ (offset_ptrs_run _ _ Hw k a i 1 ps fs Hty Ha Hm Hi)).
    destruct (si_remaining it) as [|n] eqn:En; [done|]. cbn [seq fmap list_fmap head tail].
    eexists. split; [|split_and!].
    - unfold ret. f_equal. f_equal. simpl. f_equal. by rewrite /pos_ptrs /= Ha.
    - right. exists k, a, (S i). cbn [si_remaining si_ptrs]. rewrite Nat.sub_succ Nat.sub_0_r. split_and!; [done|done|lia|done|].
      rewrite snd_zip; [by rewrite Nat.add_1_r|]. rewrite fmap_length. by rewrite (Forall2_length _ _ _ Hty).
    - done.
    - done.
    - done.
    - done.
    - intros p [= <-]. destruct (lookup_lt_is_Some_2 (a_entities a) i) as [e He]; [lia|]. exists a, e. split_and!; [done..|]. by exists a.
  Qed.

  Lemma si_next_run ps fs it S0 : typed w ps fs → Forall param_tame ps → si_at ps fs it S0 →
    (∃ it', si_next it w = Done (pos_items w ps fs <$> head S0, it') w [] ∧ si_at ps fs it' (tail S0) ∧
       (∀ p, head S0 = Some p → good_row w fs p) ∧
       (unmatched w fs (si_arch it') → unmatched w fs (si_arch it))) ∨
    (si_next it w = Panicked RUnwrap w [] ∧ unmatched w fs (si_arch it)).
  Proof.
    intros Hty Htame. rewrite /si_next. intros Hat. assert (length (future (si_arch it)) + 2 ≤ arch_fuel (si_arch it)) as Hfuel.
    { apply (future_length w R Hw). apply Hat. }
    revert it S0 Hat Hfuel. generalize arch_fuel as F. intros F it. generalize (F (si_arch it)). clear F.
    intros fuel. revert it. induction fuel as [|fuel IH]; intros it S0 (Hps & Hb & Hok & S1 & Hin & ->) Hfuel; [lia|].
    cbn [si_next_fuel]. destruct (si_intra_run ps fs it S1 Hty Hps Hin) as (it1 & Hrun & Hin' & Hp1 & Hf1 & Ha1 & Hsame & Hhd).
    rewrite (bind_done_nil _ _ _ _ _ Hrun).
    destruct S1 as [|[k i] S1]; cbn [head tail fmap option_fmap option_map app] in *.
    - destruct (future (si_arch it)) as [|k ks] eqn:Ef.
      + destruct (arch_next_end _ _ Hw _ Hb Ef) as (b' & Hn & Hb' & Hf'). rewrite (bind_done_nil _ _ _ _ _ Hn). left.
        eexists. split; [done|]. split; [|split; [done|]].
        * split_and!; [done|done|cbn [si_arch]; rewrite Hf'; by intros ? ?%elem_of_nil|]. exists []. cbn [si_arch]. rewrite Hf'.
          split; [|done]. left. rewrite (Hsame eq_refl) in Hin'. destruct Hin' as [[? _]|(k & a & i & _ & _ & _ & Hnil & _)]; [done|].
          cbn [si_remaining]. destruct (si_remaining it); [done|done].
        * cbn [si_arch]. intros (k & a & Hk & _). rewrite Hf' in Hk. by apply elem_of_nil in Hk.
      + destruct (Hok k) as [[a Ha] Hfs]; [left|].
        destruct (arch_next_run _ _ Hw _ _ _ Hb Ef a Ha) as (b' & Hn & Hb' & Hf'). rewrite (bind_done_nil _ _ _ _ _ Hn).
        rewrite Hfs. cbn [unwrap]. rewrite (bind_done_nil _ _ w fs w eq_refl).
        destruct (param_ptrs_run _ _ Hw k a fs Ha) as [[Hm Hc]|[Hm Hc]]; rewrite (bind_done_nil _ _ _ _ _ Hc).
        2:{ right. split; [done|]. exists k, a. rewrite Ef. split_and!; [left|done..]. }
        cbn [unwrap]. rewrite (bind_done_nil _ _ w ((λ f, (fptr k a 0 f).1) <$> fs) w eq_refl).
        assert (unmatched w fs b' → unmatched w fs (si_arch it)) as Hun.
        { intros (k' & a' & Hk' & ?). exists k', a'. rewrite Ef. rewrite Hf' in Hk'. split; [by right|done]. }
        destruct (IH (SIter (si_params it) (Some fs) b' (length (a_entities a)) ((λ f, (fptr k a 0 f).1) <$> fs)) ((k :: ks) ≫= arows w)) as [(it' & Hr & Hat & Hg & Hu)|(Hr & Hu)].
        * split_and!; [done|done|cbn [si_arch]; rewrite Hf'; intros; split; [apply Hok; by right|done]|].
          exists (arows w k). split; [|cbn [si_arch]; by rewrite Hf'].
          right. exists k, a, 0. cbn [si_remaining si_ptrs]. rewrite /arows Ha. done.
        * cbn [si_arch]. rewrite Hf'. cbn [length] in Hfuel. lia.
        * left. exists it'. split_and!; [done..|]. cbn [si_arch] in Hu. tauto.
        * right. cbn [si_arch] in Hu. tauto.
    - destruct (Hhd (k, i) eq_refl) as (a & e & Ha & Hm & Hpl). cbn [fst snd] in Ha, Hpl.
      destruct (cast_ptrs_run _ _ Hw e k a i ps fs Hpl Ha Hty Hm Htame) as [Hc _]. rewrite Hps (bind_done_nil _ _ _ _ _ Hc).
      left. exists it1. split; [done|]. rewrite Ha1. split; [|split; [exact Hhd|done]]. split_and!; [congruence|by rewrite Ha1| |].
      + rewrite Ha1 Hf1. done.
      + exists S1. rewrite Ha1. done.
  Qed.
  Lemma si_run_run ps fs n it S0 : typed w ps fs → Forall param_tame ps → si_at ps fs it S0 →
    (∃ it', si_run n it w = Done (calls n (pos_items w ps fs <$> S0), it') w [] ∧ si_at ps fs it' (drop n S0) ∧
       ∀ m p, m < n → S0 !! m = Some p → good_row w fs p) ∨
    (si_run n it w = Panicked RUnwrap w [] ∧ unmatched w fs (si_arch it)).
  Proof.
    intros Hty Htame. revert it S0. induction n as [|n IH]; intros it S0 Hat; cbn [si_run].
    { left. exists it. split_and!; [done..|]. intros; lia. }
    destruct (si_next_run _ _ _ _ Hty Htame Hat) as [(it1 & Hr & Hat1 & Hg1 & Hu1)|(Hr & Hu)].
    2:{ right. split; [by rewrite /bind Hr|done]. }
    rewrite (bind_done_nil _ _ _ _ _ Hr).
    destruct (IH it1 (tail S0) Hat1) as [(it2 & Hr2 & Hat2 & Hg2)|(Hr2 & Hu2)].
    - left. rewrite (bind_done_nil _ _ _ _ _ Hr2). exists it2. split; [|split; [by destruct S0; rewrite /= ?drop_nil in Hat2 |- *|]].
      2:{ intros [|m] p Hm Hp; destruct S0 as [|p0 S0]; [done|by apply Hg1|done|]. eapply (Hg2 m); [lia|done]. }
      unfold ret. f_equal. f_equal. rewrite -calls_step. destruct S0; done.
    - right. split; [|by apply Hu1]. by rewrite /bind Hr2.
  Qed.

  (** *** The whole life of an iterator of a query [q] over [ps] resolved to [ofs] *)
  Definition resolved (q : squery) : Prop :=
    match sq_fetches q with
    | Some fs => typed w (sq_params q) fs
    | None => True
    end.
  Lemma sq_iter_at q fs b : sq_fetches q = Some fs → arch_search fs w = Done b w [] → bi_inv b →
    (∀ k, k ∈ future b → is_Some (w_archs w !! k)) →
    ∃ it, sq_iter q w = Done it w [] ∧ si_at (sq_params q) fs it (future b ≫= arows w) ∧ si_arch it = b.
  Proof.
    intros Hfs Hb Hinv Hk. rewrite /sq_iter /sq_arch_iter Hfs. unfold arch_search in Hb. rewrite (bind_done_nil _ _ _ _ _ Hb).
    eexists. split; [done|]. split; [|done]. split_and!; [done..| |].
    - cbn [si_arch si_fetches]. intros k H. split; [by apply Hk|done].
    - exists []. split; [|done]. left. done.
  Qed.
  Lemma si_run_empty n it : si_remaining it = 0 → bi_inv (si_arch it) → future (si_arch it) = [] →
    ∃ it', si_run n it w = Done (calls n [], it') w [].
  Proof.
    revert it. induction n as [|n IH]; intros it H0 Hb Hf; cbn [si_run]; [by exists it|].
    destruct (arch_next_end _ _ Hw _ Hb Hf) as (b' & Hn & Hb' & Hf').
    assert (si_next it w = Done (None, SIter (si_params it) (si_fetches it) b' (si_remaining it) (si_ptrs it)) w []) as Hr.
    { rewrite /si_next /arch_fuel. cbn [Nat.add si_next_fuel]. rewrite /si_intra_next decide_True //.
      rewrite (bind_done_nil _ _ w (None, it) w eq_refl) (bind_done_nil _ _ _ _ _ Hn). done. }
    rewrite (bind_done_nil _ _ _ _ _ Hr). destruct (IH (SIter (si_params it) (si_fetches it) b' (si_remaining it) (si_ptrs it))) as (it' & Hr'); [done..|].
    rewrite (bind_done_nil _ _ _ _ _ Hr'). exists it'. done.
  Qed.
  Lemma sq_none_rows q : sq_fetches q = None →
    ∃ it, sq_iter q w = Done it w [] ∧ ∀ n, ∃ it', si_run n it w = Done (calls n [], it') w [].
  Proof.
    intros Hfs. rewrite /sq_iter /sq_arch_iter Hfs. eexists. split; [done|]. intros n.
    destruct (arch_none _ _ Hw Hroom identity_map (sq_params q)) as [Hinv Hf]; [done|].
    by apply si_run_empty.
  Qed.
  Lemma wants_wanted ps fs e : typed w ps fs → wants w ps e ↔ wanted w fs e.
  Proof.
    intros Hty. rewrite /wants /wanted. f_equiv. split.
    - intros H f c (j & Hf)%elem_of_list_lookup Hc. destruct (Forall2_lookup_r _ _ _ _ _ Hty Hf) as (p & Hp & Hpf).
      destruct (proj1 (param_fetch_id _ _ Hw _ _ c Hpf) Hc) as (t & Hpt & Ht).
      destruct (H p t) as (c' & Ht' & Hc'); [by eapply elem_of_list_lookup_2|done|]. rewrite /type_id in Ht, Ht'. by simplify_eq.
    - intros H p t (j & Hp)%elem_of_list_lookup Hpt. destruct (Forall2_lookup_l _ _ _ _ _ Hty Hp) as (f & Hf & Hpf).
      destruct (fetch_id f) as [c|] eqn:Ef; [|apply (param_fetch_none _ _ Hw _ _ Hpf) in Ef; congruence].
      destruct (proj1 (param_fetch_id _ _ Hw _ _ c Hpf) Ef) as (t' & Hpt' & Ht). exists c. split; [congruence|].
      eapply H; [by eapply elem_of_list_lookup_2|done].
  Qed.
  Lemma sq_ready_rows q fs : sq_fetches q = Some fs → typed w (sq_params q) fs → Forall param_tame (sq_params q) →
    ready w fs → fs ≠ [] →
    ∃ it es items, sq_iter q w = Done it w [] ∧
      enumerates (wants w (sq_params q)) es ∧ Forall2 (yields_row w (sq_params q)) es items ∧
      ∀ n, ∃ it', si_run n it w = Done (calls n items, it') w [].
  Proof.
    intros Hfs Hty Htame Hr Hne. destruct (ready_archs _ _ Hw Hroom _ Hr Hne) as (b & Hb & Hinv & Hnd & Hsome & Hun & Hin).
    destruct (sq_iter_at q fs b Hfs Hb Hinv Hsome) as (it & Hit & Hat & Hitb).
    destruct (wanted_rows _ _ Hw _ _ Hnd Hin) as (es & Hes & _ & Hpl).
    exists it, es, (pos_items w (sq_params q) fs <$> (future b ≫= arows w)). split_and!; [done| | |].
    - destruct Hes as [H1 H2]. split; [done|]. intros e. by rewrite H2 (wants_wanted _ _ _ Hty).
    - apply Forall2_fmap_r, Forall2_same_length_lookup_2; [by eapply Forall2_length|].
      intros j e [k i] He Hp. pose proof (Forall2_lookup_lr _ _ _ _ _ _ Hpl He Hp) as Hpl1. simpl in Hpl1.
      destruct (proj1 (elem_of_allrows _ _ Hw (future b) k i) (elem_of_list_lookup_2 _ _ _ Hp)) as [(a & Ha & Hm)%Hin _].
      by eapply (cast_ptrs_run _ _ Hw e k a i).
    - intros n. destruct (si_run_run _ _ n _ _ Hty Htame Hat) as [(it' & H & _)|(_ & Hu)]; [eauto|]. by rewrite Hitb in Hu.
  Qed.
  Lemma si_run_any q n : resolved q → Forall param_tame (sq_params q) →
    wp (let* it := sq_iter q in si_run n it) w (λ _ w' ev, w' = w ∧ ev = [])
       (λ r w' ev, w' = w ∧ ev = [] ∧ r = RUnwrap).
  Proof.
    intros Hres Htame. apply wp_bind. rewrite /resolved in Hres. destruct (sq_fetches q) as [fs|] eqn:Hfs.
    - destruct (arch_search_run _ _ Hw Hroom fs) as [(b & Hb & Hv)|(Hb & _)].
      + destruct (sq_iter_at q fs b Hfs Hb) as (it & Hit & Hat & _); [apply Hv|intros; by eapply (visits_archs _ _ Hw Hroom)|].
        rewrite /wp Hit. destruct (si_run_run _ _ n _ _ Hres Htame Hat) as [(it' & -> & _)|(-> & _)]; [done|right; done].
      + rewrite /wp /sq_iter /sq_arch_iter Hfs /bind. unfold arch_search, bind in Hb. rewrite Hb. right. done.
    - destruct (sq_none_rows q Hfs) as (it & Hit & Hr). rewrite /wp Hit. destruct (Hr n) as (it' & ->). done.
  Qed.

  (** *** [StaticQuery::get] *)
  Lemma sq_get_run q e : resolved q → Forall param_tame (sq_params q) →
    (∃ o, sq_get q e w = Done o w [] ∧ is_Some (ents_is_alive (w_ents w) e) ∧
       match o with
       | Some xs => is_Some (sq_fetches q) ∧ wants w (sq_params q) e ∧ yields_row w (sq_params q) e xs
       | None => sq_fetches q = None ∨ ¬ wants w (sq_params q) e
       end) ∨
    (sq_get q e w = Panicked RNoGeneration w [] ∧ ents_is_alive (w_ents w) e = None).
  Proof.
    intros Hres Htame. rewrite /sq_get. pose proof (is_alive_cases w e) as Hal.
    destruct (is_alive e w) as [b w' ev|r w' ev| |] eqn:Er; [| |done..].
    2:{ destruct Hal as (-> & -> & -> & Hal). right. split; [by rewrite /bind Er|done]. }
    destruct Hal as (-> & -> & Hb & Hal). left. rewrite (bind_done_nil _ _ _ _ _ Er). rewrite Hal.
    destruct b; cbn [negb].
    2:{ exists None. split_and!; [done|eauto|]. right. intros [(k & i & Hp) _]. destruct (placed_get _ _ Hw _ _ _ Hp) as (a & rs & m & _ & _ & H1 & H2).
        destruct (wi_row _ _ Hw _ _ _ _ _ H1 H2) as [Ha _]. apply Hb in Ha. done. }
    assert (alive (w_ents w) e) as Hae by by apply Hb.
    rewrite (bind_done_nil _ _ _ _ _ (get_entity_meta_alive _ _ Hae)).
    destruct (meta_at w (uindex e)) as [em|] eqn:Hem.
    2:{ exists None. split_and!; [done|eauto|]. right. intros [(k & i & Hp) _]. destruct (placed_get _ _ Hw _ _ _ Hp) as (a & rs & m & _ & _ & H1 & H2).
        destruct (wi_row _ _ Hw _ _ _ _ _ H1 H2) as [_ Hm]. rewrite Hem in Hm. done. }
    destruct (winv_meta_row _ _ Hw _ _ Hae Hem) as (rs & m & Hrs & Hr).
    set (k := im_arch (em_inst em)) in *. set (i := im_index (em_inst em)) in *.
    assert (placed w e k i) as Hp by (apply (placed_row _ _ Hw); eauto).
    pose proof Hp as (a & Ha & He). rewrite (bind_done_nil _ _ _ _ _ (get_arch_done _ _ _ Ha)).
    assert (i < length (a_entities a)) as Hi by by eapply lookup_lt_Some.
    rewrite bool_decide_true //. rewrite (bind_done_nil _ _ w () w eq_refl).
    rewrite /resolved in Hres. destruct (sq_fetches q) as [fs|] eqn:Hfs.
    2:{ exists None. split; [done|]. split; [eauto|]. by left. }
    destruct (param_ptrs_run _ _ Hw k a fs Ha) as [[Hm Hc]|[Hm Hc]]; rewrite (bind_done_nil _ _ _ _ _ Hc).
    - rewrite (bind_done_nil _ _ _ _ _ (offset_ptrs_run _ _ Hw k a 0 i _ fs Hres Ha Hm ltac:(lia))).
      destruct (cast_ptrs_run _ _ Hw e k a i _ fs Hp Ha Hres Hm Htame) as [Hcast Hy].
      rewrite /pos_ptrs /= Ha in Hcast. rewrite Nat.add_0_l (bind_done_nil _ _ _ _ _ Hcast).
      eexists. split; [done|]. split; [eauto|]. split; [eauto|]. split; [|done]. apply (wants_wanted _ _ _ Hres). by eapply (wanted_matching _ _ Hw).
    - exists None. split_and!; [done|eauto|]. right. rewrite (wants_wanted _ _ _ Hres). intros Hwt. apply Hm. by eapply (wanted_matching _ _ Hw).
  Qed.
End static.
Local Set Default Proof Using "Type".
