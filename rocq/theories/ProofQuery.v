(** * Queries: iterating over the archetypes and their rows *)
From Verif Require Import ProofBase SpecSmall World History ProofEntities ProofBitset ProofArrayVec ProofUVec.
From Verif Require Export ProofStep.

(** Every fetched component is a component of the archetype. *)
Definition matching (fs : list fetch) (a : archetype) : Prop :=
  ∀ f c, f ∈ fs → fetch_id f = Some c → c ∈ a_comp_ids a.
(** The pointer and the stride for fetch [f] at row [i] of archetype [k]. *)
Definition fptr (k : nat) (a : archetype) (i : nat) (f : fetch) : qptr * nat :=
  match fetch_id f with
  | None => (PEnt k (i * ecsid_size), ecsid_size)
  | Some c =>
      match a_lookup a !! c with
      | Some j => match a_storages a !! j with
                  | Some s => (PCol k j (i * uv_size s.2), uv_size s.2)
                  | None => (PNull, 0)
                  end
      | None => (PNull, 0)
      end
  end.
(** The rows of archetype [k]. *)
Definition arows (w : world) (k : nat) : list (nat * nat) :=
  match w_archs w !! k with Some a => pair k <$> seq 0 (length (a_entities a)) | None => [] end.
Definition pos_ptrs (w : world) (fs : list fetch) (p : nat * nat) : list qptr :=
  match w_archs w !! p.1 with
  | Some a => (λ f, (fptr p.1 a p.2 f).1) <$> fs
  | None => []
  end.

Section query.
  Context (w : world) (R : list (list row)) (Hw : winv w R).
  Local Set Default Proof Using "Hw".

  Lemma fetch_column k a c : w_archs w !! k = Some a → c ∈ a_comp_ids a →
    ∃ j u, a_lookup a !! c = Some j ∧ a_storages a !! j = Some (c, u).
  Proof.
    intros Ha [j Hj]%elem_of_list_lookup. destruct (winv_storage _ _ Hw _ _ _ _ Ha Hj) as [u Hu].
    exists j, u. split; [|done]. by apply (as_lookup _ (wi_shape _ _ Hw _ _ Ha)).
  Qed.
  Lemma matching_cons f fs a : matching (f :: fs) a ↔ (∀ c, fetch_id f = Some c → c ∈ a_comp_ids a) ∧ matching fs a.
  Proof. rewrite /matching. setoid_rewrite elem_of_cons. naive_solver. Qed.
  Lemma matching_dec fs k a : w_archs w !! k = Some a → matching fs a ∨ ¬ matching fs a.
  Proof.
    intros Ha. induction fs as [|f fs IH]; [left; by intros f c ?%elem_of_nil|]. rewrite matching_cons.
    destruct IH as [IH|IH]; [|tauto]. destruct (fetch_id f) as [c|]; [|left; naive_solver].
    destruct (decide (c ∈ a_comp_ids a)); [left|right]; naive_solver.
  Qed.

  (** *** Pointers into one archetype *)
  Lemma create_ptrs_run k a fs : w_archs w !! k = Some a →
    (matching fs a ∧ create_ptrs k a fs w = Done (fptr k a 0 <$> fs) w []) ∨
    (¬ matching fs a ∧ create_ptrs k a fs w = Panicked RIndex w []).
  Proof.
    intros Ha. induction fs as [|f fs IH]; cbn [create_ptrs].
    { left. split; [|done]. by intros f c ?%elem_of_nil. }
    rewrite matching_cons.
    destruct (fetch_id f) as [c|] eqn:Ef.
    - destruct (a_lookup a !! c) as [j|] eqn:Hj.
      + pose proof (proj1 (as_lookup _ (wi_shape _ _ Hw _ _ Ha) c j) Hj) as Hc.
        destruct (winv_storage _ _ Hw _ _ _ _ Ha Hc) as [u Hu].
        assert (create_ptr k a f w = Done (fptr k a 0 f) w []) as Hrun.
        { rewrite /create_ptr Ef Hj. cbn [unwrap]. rewrite (bind_done_nil _ _ w j w eq_refl) Hu. cbn [unwrap].
          rewrite (bind_done_nil _ _ w (c, u) w eq_refl) /fptr Ef Hj Hu. done. }
        rewrite (bind_done_nil _ _ _ _ _ Hrun). destruct IH as [[Hm IH]|[Hm IH]].
        * left. split.
          { split; [|done]. intros c' [= <-]. by eapply elem_of_list_lookup_2. }
          rewrite (bind_done_nil _ _ _ _ _ IH). done.
        * right. split; [tauto|]. rewrite /bind IH. done.
      + right. split.
        * intros [H _]. destruct (fetch_column _ _ _ Ha (H c eq_refl)) as (j & u & ? & _). congruence.
        * rewrite /bind /create_ptr Ef Hj. done.
    - assert (create_ptr k a f w = Done (fptr k a 0 f) w []) as Hrun by by rewrite /create_ptr /fptr Ef.
      rewrite (bind_done_nil _ _ _ _ _ Hrun). destruct IH as [[Hm IH]|[Hm IH]].
      * left. split; [done|]. rewrite (bind_done_nil _ _ _ _ _ IH). done.
      * right. split; [tauto|]. rewrite /bind IH. done.
  Qed.
  Lemma fptr_S k a i f : ptr_move (fptr k a i f).1 (fptr k a i f).2 = (fptr k a (S i) f).1 ∧ (fptr k a i f).2 = (fptr k a (S i) f).2.
  Proof.
    rewrite /fptr. destruct (fetch_id f) as [c|]; simpl.
    - destruct (a_lookup a !! c) as [j|]; [|done]. destruct (a_storages a !! j) as [s|]; [|done]. simpl. split; [|done]. f_equal. lia.
    - split; [|done]. f_equal. rewrite /ecsid_size. lia.
  Qed.
  Lemma ptr_move_0 p : ptr_move p 0 = p.
  Proof. destruct p; simpl; rewrite ?Nat.add_0_r; done. Qed.
  Lemma column_extent k i rs e m c a j u : R !! k = Some rs → rs !! i = Some (e, m) → w_archs w !! k = Some a →
    a_storages a !! j = Some (c, u) → uv_size u ≠ 0 →
    ∃ mem, uv_data u = Heap (uv_align u) mem ∧ S i * uv_size u ≤ length mem ∧ length rs * uv_size u ≤ length mem.
  Proof.
    intros Hrs Hr Ha Hj Hs. destruct (column_value _ _ Hw _ _ _ _ _ _ _ _ _ Hrs Hr Ha Hj) as (v & cm & _ & _ & _ & Hrep & _).
    apply uv_rep_sized in Hrep as (Hf & Hlen & Hd); [|done].
    assert (i < length rs) as Hi by by eapply lookup_lt_Some.
    destruct Hd as [(_ & _ & Hnil)|(rest & Hd & Hcap & _)].
    { exfalso. apply (f_equal length) in Hnil. rewrite col_length /= in Hnil. lia. }
    exists (concat (col c rs) ++ rest). split; [done|]. rewrite app_length.
    assert (length (concat (col c rs)) = length rs * uv_size u) as ->.
    { rewrite -(col_length c rs). clear -Hf. induction Hf as [|x l Hx Hf IH]; [done|]. simpl. rewrite app_length Hx IH. done. }
    split; nia.
  Qed.
  Lemma fptr_add k a i f : w_archs w !! k = Some a → i < length (a_entities a) →
    ptr_add (fptr k a i f).1 (fptr k a i f).2 w = Done (fptr k a (S i) f).1 w [].
  Proof.
    intros Ha Hi. destruct (fptr_S k a i f) as [Hmv _]. rewrite /ptr_add. case_decide as H0.
    { by rewrite -Hmv H0 ptr_move_0. }
    assert (∃ ext, ptr_extent w (fptr k a i f).1 = Some ext ∧ ptr_off (fptr k a i f).1 + (fptr k a i f).2 ≤ ext) as (ext & -> & Hext);
      [|by rewrite decide_True // Hmv].
    destruct (winv_get_rows _ _ Hw _ _ Ha) as (rs & Hrs & Hrows).
    rewrite (ar_ents _ _ _ Hrows) fmap_length in Hi. destruct (lookup_lt_is_Some_2 rs i Hi) as [[e m] Hr].
    revert H0. rewrite /fptr. destruct (fetch_id f) as [c|]; simpl.
    - destruct (a_lookup a !! c) as [j|] eqn:Hj; [|done]. destruct (a_storages a !! j) as [[c' u]|] eqn:Hu; [|done]. simpl. intros Hs.
      destruct (column_extent _ _ _ _ _ _ _ _ _ Hrs Hr Ha Hu Hs) as (mem & Hd & Hle & _).
      rewrite Ha /= Hu /= Hd. eexists. split; [done|]. lia.
    - intros _. rewrite Ha /=. eexists. split; [done|]. rewrite (ar_ents _ _ _ Hrows) fmap_length /ecsid_size. lia.
  Qed.
  Lemma advance_run k a i fs : w_archs w !! k = Some a → i < length (a_entities a) →
    advance (fptr k a i <$> fs) w = Done (fptr k a (S i) <$> fs) w [].
  Proof.
    intros Ha Hi. induction fs as [|f fs IH]; [done|]. cbn [fmap list_fmap advance].
    destruct (fptr_S k a i f) as [_ Hs]. pose proof (fptr_add k a i f Ha Hi) as Hadd.
    destruct (fptr k a i f) as [p n] eqn:E. simpl in *.
    rewrite (bind_done_nil _ _ _ _ _ Hadd) (bind_done_nil _ _ _ _ _ IH) Hs. by destruct (fptr k a (S i) f).
  Qed.

  (** *** The archetype iterator *)
  Lemma arch_next_run b k ks : bi_inv b → future b = k :: ks →
    ∀ a, w_archs w !! k = Some a →
    ∃ b', arch_next b w = Done (Some (k, a), b') w [] ∧ bi_inv b' ∧ future b' = ks.
  Proof.
    intros Hb Hf a Ha. destruct (bi_next_spec b Hb) as (b' & Hb' & Hn & Hf'). exists b'.
    rewrite /arch_next Hn Hf. cbn [head]. rewrite (bind_done_nil _ _ _ _ _ (get_arch_done _ _ _ Ha)). rewrite Hf' Hf. done.
  Qed.
  Lemma arch_next_end b : bi_inv b → future b = [] →
    ∃ b', arch_next b w = Done (None, b') w [] ∧ bi_inv b' ∧ future b' = [].
  Proof.
    intros Hb Hf. destruct (bi_next_spec b Hb) as (b' & Hb' & Hn & Hf'). exists b'.
    rewrite /arch_next Hn Hf. cbn [head]. rewrite Hf' Hf. done.
  Qed.
  Lemma word_bits_length base r x : length (word_bits base r x) ≤ r.
  Proof. rewrite /word_bits. etrans; [apply filter_length|]. by rewrite seq_length. Qed.
  Lemma stream_length base ws : length (stream base ws) ≤ usize_bits * length ws.
  Proof.
    revert base. induction ws as [|x ws IH]; intros base; cbn [stream length]; [lia|]. rewrite app_length.
    pose proof (word_bits_length base usize_bits x). specialize (IH (base + usize_bits)). lia.
  Qed.
  Lemma future_length b : bi_inv b → length (future b) + 2 ≤ arch_fuel b.
  Proof.
    intros (_ & Hr & _). rewrite /future /arch_fuel.
    etrans; [apply Nat.add_le_mono_r, filter_length|]. rewrite app_length.
    pose proof (word_bits_length (bi_index b) (bi_remaining b) (bi_bits b)) as H1.
    pose proof (stream_length (bi_index b + bi_remaining b) (combined (bi_iters b))) as H2.
    assert (length (combined (bi_iters b)) ≤ match bi_iters b with [] => 0 | (ws, _) :: _ => length ws end) as H3.
    { rewrite /combined. destruct (bi_iters b) as [|[ws f] rest]; [done|]. apply comb_length. }
    nia.
  Qed.

  (** *** Dynamic queries *)
  (** A row of an archetype that has all fetched components. *)
  Definition good_row (fs : list fetch) (p : nat * nat) : Prop :=
    ∃ a e, w_archs w !! p.1 = Some a ∧ matching fs a ∧ placed w e p.1 p.2.
  Definition intra_at (fs : list fetch) (ii : intra) (S0 : list (nat * nat)) : Prop :=
    (in_remaining ii = 0 ∧ S0 = []) ∨
    ∃ k a i, w_archs w !! k = Some a ∧ matching fs a ∧ i + in_remaining ii = length (a_entities a) ∧
      S0 = pair k <$> seq i (in_remaining ii) ∧ in_ptrs ii = fptr k a i <$> fs.
  (** The iterator is about to yield the rows [S0]. *)
  Definition di_at (fs : list fetch) (it : diter) (S0 : list (nat * nat)) : Prop :=
    di_fetches it = fs ∧ bi_inv (di_arch it) ∧ (∀ k, k ∈ future (di_arch it) → is_Some (w_archs w !! k)) ∧
    ∃ S1, intra_at fs (di_intra it) S1 ∧ S0 = S1 ++ (future (di_arch it) ≫= arows w).
  Definition unmatched (fs : list fetch) (b : biter) : Prop :=
    ∃ k a, k ∈ future b ∧ w_archs w !! k = Some a ∧ ¬ matching fs a.

  Lemma intra_next_run fs ii S1 : intra_at fs ii S1 →
    ∃ ii', intra_next ii w = Done (pos_ptrs w fs <$> head S1, ii') w [] ∧ intra_at fs ii' (tail S1) ∧
      ∀ p, head S1 = Some p → good_row fs p.
  Proof.
    rewrite /intra_next. intros [(H0 & ->)|(k & a & i & Ha & Hm & Hlen & -> & Hps)].
    { rewrite decide_True //. exists ii. split; [done|]. split; [|done]. by left. }
    case_decide as H0.
    { exists ii. rewrite H0. split; [done|]. split; [|done]. left. done. }
    assert (i < length (a_entities a)) as Hi by lia.
    rewrite Hps (bind_done_nil _ _ _ _ _ (advance_run k a i fs Ha Hi)).
    destruct (in_remaining ii) as [|n] eqn:En; [done|]. cbn [seq fmap list_fmap head tail].
    eexists. split.
    - unfold ret. f_equal. f_equal. simpl. f_equal. rewrite /pos_ptrs /= Ha -list_fmap_compose. done.
    - split.
      + right. exists k, a, (S i). cbn [in_remaining in_ptrs]. rewrite Nat.sub_succ Nat.sub_0_r. split_and!; [done|done|lia|done|done].
      + intros p [= <-]. destruct (lookup_lt_is_Some_2 (a_entities a) i Hi) as [e He]. exists a, e. split_and!; [done..|]. by exists a.
  Qed.

  Lemma di_next_run fs it S0 : di_at fs it S0 →
    (∃ it', di_next it w = Done (pos_ptrs w fs <$> head S0, it') w [] ∧ di_at fs it' (tail S0) ∧
       (∀ p, head S0 = Some p → good_row fs p) ∧
       (unmatched fs (di_arch it') → unmatched fs (di_arch it))) ∨
    (di_next it w = Panicked RIndex w [] ∧ unmatched fs (di_arch it)).
  Proof.
    rewrite /di_next. intros Hat. assert (length (future (di_arch it)) + 2 ≤ arch_fuel (di_arch it)) as Hfuel.
    { apply future_length. apply Hat. }
    revert it S0 Hat Hfuel. generalize arch_fuel as F. intros F it. generalize (F (di_arch it)). clear F.
    intros fuel. revert it. induction fuel as [|fuel IH]; intros it S0 (Hfs & Hb & Hok & S1 & Hin & ->) Hfuel; [lia|].
    cbn [di_next_fuel]. destruct (intra_next_run _ _ _ Hin) as (ii & Hrun & Hin' & Hgood). rewrite (bind_done_nil _ _ _ _ _ Hrun).
    destruct S1 as [|p S1]; cbn [head tail fmap option_fmap option_map app] in *.
    - destruct (future (di_arch it)) as [|k ks] eqn:Ef.
      + destruct (arch_next_end _ Hb Ef) as (b' & Hn & Hb' & Hf'). rewrite (bind_done_nil _ _ _ _ _ Hn). left.
        eexists. split; [done|]. split; [|split; [done|]].
        * split_and!; [done|done|cbn [di_arch]; rewrite Hf'; by intros ? ?%elem_of_nil|]. exists []. cbn [di_arch]. by rewrite Hf'.
        * cbn [di_arch]. intros (k & a & Hk & _). rewrite Hf' in Hk. by apply elem_of_nil in Hk.
      + destruct (Hok k) as [a Ha]; [left|].
        destruct (arch_next_run _ _ _ Hb Ef a Ha) as (b' & Hn & Hb' & Hf'). rewrite (bind_done_nil _ _ _ _ _ Hn).
        rewrite Hfs. destruct (create_ptrs_run k a fs Ha) as [[Hm Hc]|[Hm Hc]].
        2:{ right. split; [by rewrite /bind Hc|]. exists k, a. rewrite Ef. split_and!; [left|done..]. }
        rewrite (bind_done_nil _ _ _ _ _ Hc).
        assert (unmatched fs b' → unmatched fs (di_arch it)) as Hun.
        { intros (k' & a' & Hk' & ?). exists k', a'. rewrite Ef. rewrite Hf' in Hk'. split; [by right|done]. }
        destruct (IH (DIter fs b' (Intra (length (a_entities a)) (fptr k a 0 <$> fs))) ((k :: ks) ≫= arows w)) as [(it' & Hr & Hat & Hg & Hu)|(Hr & Hu)].
        * split_and!; [done|done|cbn [di_arch]; rewrite Hf'; intros; apply Hok; by right|].
          exists (arows w k). split; [|cbn [di_arch]; by rewrite Hf'].
          right. exists k, a, 0. cbn [in_remaining in_ptrs di_intra]. rewrite /arows Ha. done.
        * cbn [di_arch]. rewrite Hf'. cbn [length] in Hfuel. lia.
        * left. exists it'. split_and!; [done..|]. cbn [di_arch] in Hu. tauto.
        * right. cbn [di_arch] in Hu. tauto.
    - left. eexists. split; [done|]. split; [|split; [exact Hgood|done]]. split_and!; [done..|]. by exists S1.
  Qed.

  Lemma di_run_run fs n it S0 : di_at fs it S0 →
    (∃ it', di_run n it w = Done (take n ((Some <$> (pos_ptrs w fs <$> S0)) ++ replicate n None), it') w [] ∧
       di_at fs it' (drop n S0) ∧ ∀ m p, m < n → S0 !! m = Some p → good_row fs p) ∨
    (di_run n it w = Panicked RIndex w [] ∧ unmatched fs (di_arch it)).
  Proof.
    revert it S0. induction n as [|n IH]; intros it S0 Hat; cbn [di_run].
    { left. exists it. split_and!; [done..|]. intros; lia. }
    destruct (di_next_run _ _ _ Hat) as [(it1 & Hr & Hat1 & Hg1 & Hu1)|(Hr & Hu)].
    2:{ right. split; [by rewrite /bind Hr|done]. }
    rewrite (bind_done_nil _ _ _ _ _ Hr).
    destruct (IH it1 (tail S0) Hat1) as [(it2 & Hr2 & Hat2 & Hg2)|(Hr2 & Hu2)].
    - left. rewrite (bind_done_nil _ _ _ _ _ Hr2). exists it2. split; [|split; [by destruct S0; rewrite /= ?drop_nil in Hat2 |- *|]].
      2:{ intros [|m] p Hm Hp; destruct S0 as [|p0 S0]; [done|by apply Hg1|done|]. eapply (Hg2 m); [lia|done]. }
      unfold ret. f_equal. f_equal. destruct S0 as [|p S0]; cbn [head tail fmap option_fmap option_map list_fmap].
      + done.
      + cbn [app take]. f_equal. change (replicate (S n) None) with (@None (list qptr) :: replicate n None).
        rewrite -(replicate_S n (@None (list qptr))) replicate_S_end app_assoc. symmetry. apply take_app_le.
        rewrite app_length replicate_length. lia.
    - right. split; [|by apply Hu1]. by rewrite /bind Hr2.
  Qed.
End query.
