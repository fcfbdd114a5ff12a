(** * Queries: the rows yielded, related to what the world contains *)
From Verif Require Import ProofBase SpecSmall World History ProofEntities ProofBitset ProofArrayVec ProofUVec.
From Verif Require Export ProofArchIter SpecQuery.

Definition ent_at (w : world) (p : nat * nat) : option ecsid := a ← w_archs w !! p.1; a_entities a !! p.2.
Definition item_of (w : world) (p : param) (q : qptr) : qptr * item :=
  (q, match param_ty p with
      | None => IEnt (default (EcsId 0 0) (deref_ent w q))
      | Some t => IVal (default [] (deref_val w q (ty_size t)))
      end).
Definition typed (w : world) (ps : list param) (fs : list fetch) : Prop :=
  Forall2 (λ p f, param_fetch w p = Some f) ps fs.
Definition pos_items (w : world) (ps : list param) (fs : list fetch) (p : nat * nat) : list (qptr * item) :=
  zip_with (item_of w) ps (pos_ptrs w fs p).

Lemma lt_sorted_nodup (l : list nat) : StronglySorted lt l → NoDup l.
Proof.
  induction 1 as [|x l Hs IH Hx]; constructor; [|done]. intros Hin. eapply Forall_forall in Hx; [|exact Hin]. lia.
Qed.
Lemma is_pow2_0 : is_pow2 0 = false.
Proof. done. Qed.
Lemma ty_wf_align t : ty_wf t → ty_align t ≠ 0.
Proof.
  intros [H _] E. rewrite /layout_wf /= /layout_from_size_align /= E is_pow2_0 in H. done.
Qed.
Lemma calls_step {A} n (l : list A) : head l :: calls n (tail l) = calls (S n) l.
Proof.
  rewrite /calls. destruct l as [|x l]; cbn [head tail fmap list_fmap app take]; [done|]. f_equal.
  rewrite replicate_S_end app_assoc. symmetry. apply take_app_le. rewrite app_length replicate_length. lia.
Qed.

Section rows.
  Context (w : world) (R : list (list row)) (Hw : winv w R).
  Local Set Default Proof Using "Hw".

  (** *** Rows as entities *)
  Lemma elem_of_arows k k' i : (k', i) ∈ arows w k ↔ k' = k ∧ ∃ e, placed w e k i.
  Proof.
    rewrite /arows /placed. destruct (w_archs w !! k) as [a|].
    - rewrite elem_of_list_fmap. split.
      + intros (j & [= -> ->] & [_ Hj]%elem_of_seq). split; [done|].
        destruct (lookup_lt_is_Some_2 (a_entities a) j) as [e He]; [lia|]. eauto.
      + intros (-> & e & a' & [= <-] & He). exists i. split; [done|]. apply elem_of_seq.
        apply lookup_lt_Some in He. lia.
    - split; [by intros ?%elem_of_nil|]. by intros (_ & e & a & ? & _).
  Qed.
  Lemma elem_of_allrows ks k i : (k, i) ∈ ks ≫= arows w ↔ k ∈ ks ∧ ∃ e, placed w e k i.
  Proof.
    rewrite elem_of_list_bind. split.
    - intros (k0 & [-> He]%elem_of_arows & Hk). done.
    - intros [Hk He]. exists k. split; [|done]. by apply elem_of_arows.
  Qed.
  Lemma arows_nodup k : NoDup (arows w k).
  Proof.
    rewrite /arows. destruct (w_archs w !! k); [|constructor].
    apply NoDup_fmap_2; [by intros ? ? [=]|]. apply NoDup_seq.
  Qed.
  Lemma allrows_nodup ks : NoDup ks → NoDup (ks ≫= arows w).
  Proof.
    induction 1 as [|k ks Hk Hks IH]; [constructor|]. rewrite bind_cons. apply NoDup_app. split_and!; [apply arows_nodup| |done].
    intros [k' i] [-> _]%elem_of_arows [? _]%elem_of_allrows. done.
  Qed.
  Lemma placed_unique e k i k' i' : placed w e k i → placed w e k' i' → k = k' ∧ i = i'.
  Proof.
    intros (rs & m & H1 & H2)%(placed_row _ _ Hw) (rs' & m' & H3 & H4)%(placed_row _ _ Hw).
    by destruct (winv_row_unique _ _ Hw _ _ _ _ _ _ _ _ _ H1 H2 H3 H4) as (? & ? & _).
  Qed.
  Lemma ent_at_placed k i e : ent_at w (k, i) = Some e ↔ placed w e k i.
  Proof. rewrite /ent_at /placed /=. destruct (w_archs w !! k) as [a|]; simpl; naive_solver. Qed.
  (** The entities of a list of rows. *)
  Lemma rows_entities (S0 : list (nat * nat)) : NoDup S0 → (∀ k i, (k, i) ∈ S0 → ∃ e, placed w e k i) →
    ∃ es, NoDup es ∧ Forall2 (λ e p, placed w e p.1 p.2) es S0 ∧
      ∀ e, e ∈ es ↔ ∃ k i, (k, i) ∈ S0 ∧ placed w e k i.
  Proof.
    induction 1 as [|[k i] S0 Hp HS IH]; intros Hall.
    { exists []. split_and!; [constructor..|]. intros e. split; [by intros ?%elem_of_nil|]. by intros (? & ? & ?%elem_of_nil & _). }
    destruct IH as (es & Hnd & Hf & Hin); [intros k' i' H; apply Hall; by right|].
    destruct (Hall k i) as [e He]; [left|]. exists (e :: es). split_and!.
    - constructor; [|done]. intros (k' & i' & H & He')%Hin. destruct (placed_unique _ _ _ _ _ He He') as [-> ->]. done.
    - by constructor.
    - intros e'. rewrite elem_of_cons Hin. split.
      + intros [->|(k' & i' & H & ?)]; [exists k, i; split; [left|done]|]. exists k', i'. split; [by right|done].
      + intros (k' & i' & [[= -> ->]|H]%elem_of_cons & He'); [|right; eauto]. left.
        destruct He as (a & Ha & He), He' as (a' & Ha' & He'). by simplify_eq.
  Qed.

  (** *** What the pointers of a row show *)
  Lemma placed_get e k i : placed w e k i →
    ∃ a rs m, w_archs w !! k = Some a ∧ a_entities a !! i = Some e ∧ R !! k = Some rs ∧ rs !! i = Some (e, m).
  Proof.
    intros Hp. destruct (proj1 (placed_row _ _ Hw _ _ _) Hp) as (rs & m & Hrs & Hr). destruct Hp as (a & Ha & He). eauto 10.
  Qed.
  Lemma placed_has e k i c a : placed w e k i → w_archs w !! k = Some a → has w e c ↔ c ∈ a_comp_ids a.
  Proof.
    intros Hp Ha. destruct (placed_get _ _ _ Hp) as (a' & rs & m & Ha' & He & Hrs & Hr). simplify_eq. split.
    - intros (v & (m' & Hm' & Hv)%(holds_row _ _ Hw)).
      assert (m' = m) as -> by (eapply (row_fun _ _ Hw); [exact Hm'|by exists k, i, rs]).
      apply (ar_dom _ _ _ (wi_rows _ _ Hw _ _ _ Ha Hrs) (e, m)); [by eapply elem_of_list_lookup_2|]. by exists v.
    - intros Hc. destruct (proj2 (ar_dom _ _ _ (wi_rows _ _ Hw _ _ _ Ha Hrs) (e, m) c (elem_of_list_lookup_2 _ _ _ Hr)) Hc) as [v Hv].
      exists v. apply (holds_row _ _ Hw). exists m. split; [by exists k, i, rs|done].
  Qed.
  Lemma wanted_matching fs e k i a : placed w e k i → w_archs w !! k = Some a → wanted w fs e ↔ matching fs a.
  Proof.
    intros Hp Ha. rewrite /wanted /matching. split.
    - intros [_ H] f c Hf Hc. eapply placed_has; eauto.
    - intros H. split; [by exists k, i|]. intros f c Hf Hc. eapply placed_has; eauto.
  Qed.
  Lemma fptr_comp k a i f c : w_archs w !! k = Some a → fetch_id f = Some c → c ∈ a_comp_ids a →
    ∃ j u, a_storages a !! j = Some (c, u) ∧ fptr k a i f = (PCol k j (i * uv_size u), uv_size u).
  Proof.
    intros Ha Hf Hc. destruct (fetch_column _ _ Hw _ _ _ Ha Hc) as (j & u & Hj & Hu). exists j, u. split; [done|].
    by rewrite /fptr Hf Hj Hu.
  Qed.
  Lemma deref_ent_fptr k a i : w_archs w !! k = Some a → deref_ent w (PEnt k (i * ecsid_size)) = a_entities a !! i.
  Proof.
    intros Ha. rewrite /deref_ent /ecsid_size decide_True; [|by rewrite Nat.mod_mul].
    rewrite Ha. cbn [mbind option_bind]. by rewrite Nat.div_mul.
  Qed.
  Lemma fptr_shows e k i a f : placed w e k i → w_archs w !! k = Some a →
    (∀ c, fetch_id f = Some c → c ∈ a_comp_ids a) → shows w e f (fptr k a i f).1.
  Proof.
    intros Hp Ha Hf. rewrite /shows. destruct (placed_get _ _ _ Hp) as (a' & rs & m & Ha' & He & Hrs & Hr). simplify_eq.
    destruct (fetch_id f) as [c|] eqn:Ef.
    - destruct (fptr_comp k a i f c Ha Ef (Hf c eq_refl)) as (j & u & Hj & ->).
      destruct (column_value _ _ Hw _ _ _ _ _ _ _ _ _ Hrs Hr Ha Hj) as (v & cm & Hv & _ & _ & _ & _ & Hlen & Hread).
      exists v. split; [apply (holds_row _ _ Hw); exists m; split; [by exists k, i, rs|done]|].
      rewrite /deref_val /= Ha /= Hj /= Hlen. done.
    - rewrite /fptr Ef. cbn [fst]. rewrite (deref_ent_fptr _ _ _ Ha). done.
  Qed.
  Lemma pos_shows fs e k i a : placed w e k i → w_archs w !! k = Some a → matching fs a →
    shows_row w fs e (pos_ptrs w fs (k, i)).
  Proof.
    intros Hp Ha Hm. rewrite /shows_row /pos_ptrs /= Ha. apply Forall2_fmap_r, Forall2_same_length_lookup_2; [done|].
    intros j f f' Hf Hf'. simplify_eq. eapply fptr_shows; [done..|]. intros c Hc. eapply Hm; [by eapply elem_of_list_lookup_2|done].
  Qed.

  (** The rows of the archetypes that match are those of the wanted entities. *)
  Lemma wanted_rows fs ks : NoDup ks → (∀ k, k ∈ ks ↔ ∃ a, w_archs w !! k = Some a ∧ matching fs a) →
    ∃ es, enumerates (wanted w fs) es ∧ Forall2 (shows_row w fs) es (pos_ptrs w fs <$> (ks ≫= arows w)) ∧
      Forall2 (λ e p, placed w e p.1 p.2) es (ks ≫= arows w).
  Proof.
    intros Hnd Hks. destruct (rows_entities (ks ≫= arows w)) as (es & Hes & Hf & Hin).
    { by apply allrows_nodup. }
    { by intros k i [_ ?]%elem_of_allrows. }
    exists es. split; [split; [done|]|].
    - intros e. rewrite Hin. split.
      + intros (k & i & [(a & Ha & Hm)%Hks _]%elem_of_allrows & Hp). by eapply wanted_matching.
      + intros Hwt. pose proof Hwt as [(k & i & Hp) _]. exists k, i. split; [|done]. apply elem_of_allrows. split; [|by exists e].
        destruct (placed_get _ _ _ Hp) as (a & rs & m & Ha & _). apply Hks. exists a. split; [done|]. by eapply wanted_matching.
    - split; [|done]. apply Forall2_fmap_r, Forall2_same_length_lookup_2; [by eapply Forall2_length|].
      intros j e [k i] He Hp. pose proof (Forall2_lookup_lr _ _ _ _ _ _ Hf He Hp) as Hpl. simpl in Hpl.
      destruct (proj1 (elem_of_allrows ks k i) (elem_of_list_lookup_2 _ _ _ Hp)) as [(a & Ha & Hm)%Hks _].
      by eapply pos_shows.
  Qed.

  (** *** Static parameters *)
  Lemma param_fetch_id p f c : param_fetch w p = Some f → fetch_id f = Some c ↔
    ∃ t, param_ty p = Some t ∧ type_id w t c.
  Proof.
    rewrite /type_id. destruct p as [t|t|]; simpl; intros Hf; [..|simplify_eq/=; naive_solver];
      destruct (w_types w !! t) as [c'|] eqn:Et; simplify_eq/=; naive_solver.
  Qed.
  Lemma param_fetch_none p f : param_fetch w p = Some f → fetch_id f = None ↔ param_ty p = None.
  Proof.
    destruct p as [t|t|]; simpl; intros Hf; [..|simplify_eq/=; naive_solver];
      destruct (w_types w !! t) as [c'|] eqn:Et; simplify_eq/=; naive_solver.
  Qed.
  Lemma column_type k a j c u t : w_archs w !! k = Some a → a_storages a !! j = Some (c, u) → type_id w t c →
    ty_wf t ∧ uv_size u = ty_size t ∧ uv_align u = ty_align t.
  Proof.
    intros Ha Hj Ht. destruct (winv_get_rows _ _ Hw _ _ Ha) as (rs & Hrs & Hrows).
    destruct (ar_cols _ _ _ Hrows c u (elem_of_list_lookup_2 _ _ _ Hj)) as (cm & Hcm & Hti & _).
    assert (c ∈ a_comp_ids a) as Hc.
    { rewrite -(as_storages _ (wi_shape _ _ Hw _ _ Ha)). apply elem_of_list_fmap. exists (c, u). split; [done|].
      by eapply elem_of_list_lookup_2. }
    destruct (wi_comps _ _ Hw k (a_comp_ids a) c) as (Hal & _ & _); [apply arch_ids_lookup; eauto|done|].
    pose proof (type_comp _ _ _ _ _ Hw Ht Hal Hcm) as ->. split; [by eapply (wi_types _ _ Hw)|].
    by rewrite /uv_size /uv_align Hti.
  Qed.
  Lemma typed_size k a i p f : w_archs w !! k = Some a → param_fetch w p = Some f →
    (∀ c, fetch_id f = Some c → c ∈ a_comp_ids a) → (fptr k a i f).2 = param_size p.
  Proof.
    intros Ha Hf Hm. destruct (fetch_id f) as [c|] eqn:Ef.
    - destruct (fptr_comp k a i f c Ha Ef (Hm c eq_refl)) as (j & u & Hj & ->). simpl.
      destruct (proj1 (param_fetch_id _ _ c Hf) Ef) as (t & Hpt & Ht).
      destruct (column_type _ _ _ _ _ _ Ha Hj Ht) as (_ & -> & _). destruct p; naive_solver.
    - rewrite /fptr Ef. apply (param_fetch_none _ _ Hf) in Ef. by destruct p.
  Qed.
  Lemma param_ptrs_run k a fs : w_archs w !! k = Some a →
    (matching fs a ∧ param_ptrs k a fs w = Done (Some ((λ f, (fptr k a 0 f).1) <$> fs)) w []) ∨
    (¬ matching fs a ∧ param_ptrs k a fs w = Done None w []).
  Proof.
    intros Ha. induction fs as [|f fs IH]; cbn [param_ptrs].
    { left. split; [|done]. by intros f c ?%elem_of_nil. }
    rewrite (matching_cons w R Hw). rewrite /param_ptr. destruct (fetch_id f) as [c|] eqn:Ef.
    - destruct (a_lookup a !! c) as [j|] eqn:Hj.
      + pose proof (proj1 (as_lookup _ (wi_shape _ _ Hw _ _ Ha) c j) Hj) as Hc.
        destruct (winv_storage _ _ Hw _ _ _ _ Ha Hc) as [u Hu]. rewrite Hu. cbn [unwrap].
        assert (PCol k j 0 = (fptr k a 0 f).1) as -> by by rewrite /fptr Ef Hj Hu.
        rewrite (bind_done_nil _ _ w (Some (fptr k a 0 f).1) w eq_refl).
        destruct IH as [[Hm IH]|[Hm IH]]; rewrite (bind_done_nil _ _ _ _ _ IH).
        * left. split; [|done]. split; [|done]. intros c' [= <-]. by eapply elem_of_list_lookup_2.
        * right. split; [tauto|done].
      + right. split; [|done]. intros [H _]. destruct (fetch_column _ _ Hw _ _ _ Ha (H c eq_refl)) as (j & u & ? & _). congruence.
    - assert (PEnt k 0 = (fptr k a 0 f).1) as -> by by rewrite /fptr Ef.
      rewrite (bind_done_nil _ _ w (Some (fptr k a 0 f).1) w eq_refl).
      destruct IH as [[Hm IH]|[Hm IH]]; rewrite (bind_done_nil _ _ _ _ _ IH).
      + left. split; [|done]. split; [|done]. done.
      + right. split; [tauto|done].
  Qed.
  Lemma fptr_plus k a i n f : ptr_move (fptr k a i f).1 (n * (fptr k a i f).2) = (fptr k a (i + n) f).1.
  Proof.
    rewrite /fptr. destruct (fetch_id f) as [c|]; cbn [fst snd ptr_move].
    - destruct (a_lookup a !! c) as [j|]; [|done]. destruct (a_storages a !! j) as [s|]; [|done]. cbn [fst snd ptr_move]. f_equal. lia.
    - f_equal. lia.
  Qed.
  Lemma fptr_extent k a i f : w_archs w !! k = Some a → i ≤ length (a_entities a) → (fptr k a i f).2 ≠ 0 → 0 < length (a_entities a) →
    ∃ ext, (∀ i', ptr_extent w (fptr k a i' f).1 = Some ext) ∧ ptr_off (fptr k a i f).1 ≤ ext.
  Proof.
    intros Ha Hi H0 Hn.
    destruct (winv_get_rows _ _ Hw _ _ Ha) as (rs & Hrs & Hrows).
    rewrite (ar_ents _ _ _ Hrows) fmap_length in Hi, Hn. destruct (lookup_lt_is_Some_2 rs 0 Hn) as [[e m] Hr].
    revert H0. rewrite /fptr. destruct (fetch_id f) as [c|]; cbn [fst snd ptr_off ptr_extent].
    - destruct (a_lookup a !! c) as [j|] eqn:Hj; [|done]. destruct (a_storages a !! j) as [[c' u]|] eqn:Hu; [|done]. cbn [fst snd ptr_off ptr_extent]. intros Hs.
      destruct (column_extent _ _ Hw _ _ _ _ _ _ _ _ _ Hrs Hr Ha Hu Hs) as (mem & Hd & _ & Hle).
      exists (length mem). rewrite Ha /= Hu /= Hd. split; [done|]. nia.
    - intros _. rewrite Ha. cbn [mbind option_bind]. eexists. split; [done|]. rewrite (ar_ents _ _ _ Hrows) fmap_length. nia.
  Qed.
  Lemma fptr_add_n k a i n f : w_archs w !! k = Some a → i + n ≤ length (a_entities a) →
    ptr_add (fptr k a i f).1 (n * (fptr k a i f).2) w = Done (fptr k a (i + n) f).1 w [].
  Proof.
    intros Ha Hi. rewrite /ptr_add. rewrite -fptr_plus. case_decide as H0.
    { by rewrite H0 (ptr_move_0 w R Hw). }
    assert ((fptr k a (i + n) f).2 = (fptr k a i f).2) as Hs2.
    { rewrite /fptr. destruct (fetch_id f); [|done]. destruct (a_lookup a !! _); [|done]. by destruct (a_storages a !! _). }
    apply Nat.neq_mul_0 in H0 as [Hn0 Hs0].
    assert ((fptr k a i f).1 ≠ PNull) as Hnn.
    { move: Hs0. rewrite /fptr. destruct (fetch_id f); [|done]. destruct (a_lookup a !! _); [|done]. by destruct (a_storages a !! _). }
    destruct (fptr_extent k a (i + n) f Ha) as (ext & Hext & Hle); [done|by rewrite Hs2|lia|].
    rewrite Hext decide_True //. rewrite -fptr_plus in Hle. by destruct (fptr k a i f).1.
  Qed.
  Lemma offset_ptrs_run k a i n ps fs : typed w ps fs → w_archs w !! k = Some a → matching fs a → i + n ≤ length (a_entities a) →
    offset_ptrs n (zip ps ((λ f, (fptr k a i f).1) <$> fs)) w = Done (zip ps ((λ f, (fptr k a (i + n) f).1) <$> fs)) w [].
  Proof.
    intros Hty Ha Hm Hi. induction Hty as [|p f ps fs Hpf Hty IH]; [done|]. apply (matching_cons w R Hw) in Hm as [Hf Hm].
    cbn [fmap list_fmap zip zip_with offset_ptrs]. rewrite -(typed_size k a i p f Ha Hpf Hf).
    rewrite (bind_done_nil _ _ _ _ _ (fptr_add_n k a i n f Ha Hi)) (bind_done_nil _ _ _ _ _ (IH Hm)). done.
  Qed.
  Lemma cast_ptr_run e k a i p f : placed w e k i → w_archs w !! k = Some a → param_fetch w p = Some f →
    (∀ c, fetch_id f = Some c → c ∈ a_comp_ids a) → param_tame p →
    cast_ptr p (fptr k a i f).1 w = Done (item_of w p (fptr k a i f).1) w [] ∧
    yields w e p (item_of w p (fptr k a i f).1).
  Proof.
    intros Hp Ha Hpf Hf Htame. pose proof (fptr_shows _ _ _ _ _ Hp Ha Hf) as Hsh.
    destruct (placed_get _ _ _ Hp) as (a' & rs & m & Ha' & He & Hrs & Hr). simplify_eq.
    rewrite /shows in Hsh. rewrite /item_of /yields. destruct (fetch_id f) as [c|] eqn:Ef.
    - destruct (proj1 (param_fetch_id _ _ c Hpf) Ef) as (t & Hpt & Ht). rewrite Hpt. cbn [fst snd].
      destruct Hsh as (v & Hv & Hd).
      destruct (fptr_comp k a i f c Ha Ef (Hf c eq_refl)) as (j & u & Hj & Hfp). rewrite Hfp in Hd |- *. cbn [fst].
      destruct (column_type _ _ _ _ _ _ Ha Hj Ht) as (Hwf & Hsz & Hal).
      destruct (column_value _ _ Hw _ _ _ _ _ _ _ _ _ Hrs Hr Ha Hj) as (v' & cm & Hm' & _ & _ & Hrep & Hcol & Hlen' & Hread).
      assert (v' = v) as ->.
      { apply (holds_row _ _ Hw) in Hv as (m2 & Hm2 & Hv). assert (m2 = m) as -> by (eapply (row_fun _ _ Hw); [exact Hm2|by exists k, i, rs]). rewrite Hv in Hm'. by injection Hm'. }
      assert (length v = ty_size t) as Hlen by congruence. rewrite Hlen in Hd. rewrite Hd. cbn [default].
      assert (col_aligned w (PCol k j (i * uv_size u)) (ty_align t) = true) as Hca.
      { rewrite /col_aligned Ha Hj /=. apply andb_true_iff. split.
        - rewrite /ptr_aligned. destruct (decide (uv_size u = 0)) as [Hz|Hnz].
          + apply (uv_rep_zst _ _ Hz) in Hrep as (_ & -> & _). apply bool_decide_eq_true. destruct (Htame _ Hpt) as [?|?]; [congruence|done].
          + apply (uv_rep_sized _ _ Hnz) in Hrep as (_ & _ & [(_ & _ & Hnil)|(rest & -> & _)]).
            { by rewrite Hnil in Hcol. }
            apply bool_decide_eq_true. rewrite Hal. split; [by apply ty_wf_align|]. apply Nat.mod_same. by apply ty_wf_align.
        - apply bool_decide_eq_true. rewrite Hsz. destruct Hwf as [Hlw Hmod]. pose proof (ty_wf_align t (conj Hlw Hmod)) as Ha0. apply Nat.mod_divides in Hmod as [q ->]; [|done].
          rewrite (Nat.mul_comm (ty_align t)) Nat.mul_assoc. by apply Nat.mod_mul. }
      split.
      + rewrite /cast_ptr. destruct p as [t'|t'|]; simplify_eq/=; rewrite Hd Hca //.
      + exists c, v. split_and!; [done..| |done]. by rewrite Hlen.
    - assert (param_ty p = None) as Hpt by by apply (param_fetch_none _ _ Hpf). rewrite Hpt. cbn [fst snd].
      rewrite Hsh. split; [|done]. destruct p; [done..|]. rewrite /cast_ptr Hsh //.
  Qed.
  Lemma cast_ptrs_run e k a i ps fs : placed w e k i → w_archs w !! k = Some a → typed w ps fs → matching fs a → Forall param_tame ps →
    cast_ptrs (zip ps (pos_ptrs w fs (k, i))) w = Done (pos_items w ps fs (k, i)) w [] ∧
    yields_row w ps e (pos_items w ps fs (k, i)).
  Proof.
    intros Hp Ha Hty. rewrite /pos_items /pos_ptrs /= Ha. rewrite /yields_row.
    induction Hty as [|p f ps fs Hpf Hty IH]; [intros; split; [done|constructor]|]. intros [Hf Hm]%(matching_cons w R Hw) [Htp Ht]%Forall_cons.
    destruct (cast_ptr_run _ _ _ _ _ _ Hp Ha Hpf Hf Htp) as [Hc Hy]. destruct (IH Hm Ht) as [IHc IHy].
    cbn [fmap list_fmap zip zip_with cast_ptrs]. split; [|by constructor].
    rewrite (bind_done_nil _ _ _ _ _ Hc) (bind_done_nil _ _ _ _ _ IHc). done.
  Qed.
End rows.
Local Set Default Proof Using "Type".
