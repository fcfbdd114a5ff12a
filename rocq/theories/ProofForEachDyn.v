(** * Loops over a dynamic query (C67) *)
From Verif Require Import ProofBase SpecSmall World Query History ProofEntities ProofBitset ProofArrayVec ProofUVec ProofKnown.
From Verif Require Export SpecForEachDyn ProofForEach ProofAlias.

(** ** Worlds of the same shape *)
Lemma all_in_use_shape w w' xs : shape w w' → all_in_use w xs → all_in_use w' xs.
Proof. intros Hs H x c Hx Hc. eapply in_use_shape; [done|by eapply H]. Qed.
Lemma meta_shape w w' c m s ev : shape w w' → get_entity_meta c w = Done m s ev → get_entity_meta c w' = Done m w' ev.
Proof.
  intros (_ & _ & _ & He & Hm & _). rewrite /get_entity_meta /is_alive /bind /gets -He.
  destruct (ents_is_alive (w_ents w) c) as [[]|]; cbn; [rewrite -Hm|..]; by intros [= <- <- <-].
Qed.
Lemma value_fits_shape w w' c v : shape w w' → value_fits w c v → value_fits w' c v.
Proof. intros Hs H s m Hm. eapply H. eapply meta_shape; [by apply shape_sym|done]. Qed.
Lemma castable_shape w w' x : shape w w' → castable w x → castable w' x.
Proof.
  intros Hs H c cm Hc Hr. apply (H c cm Hc). revert Hr. rewrite /recorded. destruct (get_entity_meta c w') as [m s ev|r s ev| |] eqn:E; [|done..].
  by rewrite (meta_shape _ _ _ _ _ _ (shape_sym _ _ Hs) E).
Qed.
Lemma wanted_shape w w' xs e : WOk w' → WOk w → shape w w' → wanted w' xs e ↔ wanted w xs e.
Proof.
  intros Ho' Ho Hs. rewrite /wanted (stored_shape _ _ Hs e). apply and_iff_compat_l. split; intros H x c Hx Hc; specialize (H x c Hx Hc).
  - eapply has_shape; [exact Ho'|done|by apply shape_sym|done].
  - eapply has_shape; [exact Ho|done..].
Qed.

(** ** The entities of the rows *)
Definition dpos (w : world) (it : diter) : list (nat * nat) := future (di_arch it) ≫= arows w.
Definition dcourse (w : world) (q : dquery) (it : diter) (es : list ecsid) : Prop :=
  dq_iter q w = Done it w [] ∧ Forall2 (λ e p, placed w e p.1 p.2) es (dpos w it).
Lemma dpos_shape w w' it : shape w w' → dpos w' it = dpos w it.
Proof.
  intros Hs. rewrite /dpos. induction (future (di_arch it)) as [|k ks IH]; [done|]. rewrite !bind_cons IH. f_equal.
  rewrite /arows. destruct (shape_lookup w w' k Hs) as [a b (_ & Ha & _)|]; [|done]. by rewrite Ha.
Qed.
Lemma dcourse_shape w w' q it es : shape w w' → dcourse w q it es → dcourse w' q it es.
Proof.
  intros Hs [H1 H2]. destruct (alike_eq_done _ _ _ _ _ _ (alike_dq_iter q) Hs H1) as (_ & <- & H1'). split; [done|].
  rewrite (dpos_shape _ _ _ Hs). eapply Forall2_impl; [exact H2|]. intros e p. by apply placed_shape.
Qed.
Lemma dcourse_fun w q it it' es es' : dcourse w q it es → dcourse w q it' es' → it' = it ∧ es' = es.
Proof.
  intros [H1 H2] [H3 H4]. rewrite H1 in H3. injection H3 as <-. split; [done|]. revert es' H4. induction H2 as [|e p es ps (a & Ha & He) _ IH]; intros es' H4.
  - by apply Forall2_nil_inv_r in H4.
  - apply Forall2_cons_inv_r in H4 as (e' & es2 & (a' & Ha' & He') & H4 & ->). rewrite Ha in Ha'. injection Ha' as <-. rewrite He in He'. injection He' as <-. f_equal. by apply IH.
Qed.
Lemma dynamic_exact s i q : reachable s → ss_open s !! i = Some (Some (QDyn q)) → dq_fetches q ≠ [] → all_in_use (ss_world s) (dq_fetches q) →
  let w := ss_world s in
  ∃ it es, dcourse w q it es ∧ enumerates (wanted w (dq_fetches q)) es ∧ Forall (good_row w (dq_fetches q)) (dpos w it) ∧
    ∀ n, iter_dyn q n w = Done (calls n (pos_ptrs w (dq_fetches q) <$> dpos w it)) w [].
Proof.
  intros Hs%reachable_inv Hi Hne Hu w. destruct (sv_world _ Hs) as [[R Hw] Hroom]. destruct (sv_open _ Hs _ _ Hi) as [_ Hinc]. fold w in Hw, Hroom, Hu, Hinc.
  assert (dq_incomplete q = false) as Hf. { apply not_true_iff_false. intros Hx%Hinc. by eapply in_use_locked. }
  assert (ready w (dq_fetches q)) as Hr by by apply (ready_in_use _ _ _ Hw).
  destruct (ready_archs _ _ Hw Hroom _ Hr Hne) as (b & Hb & Hinv & Hnd & Hsome & Hun & Hin).
  destruct (dq_iter_at _ _ Hw Hroom q b) as (it & Hit & Hat & Hitb); [by rewrite /dq_arch_iter Hf|done..|].
  destruct (wanted_rows _ _ Hw _ _ Hnd Hin) as (es & Hes & _ & Hpl).
  assert (dpos w it = future b ≫= arows w) as Hsp by by rewrite /dpos Hitb.
  exists it, es. rewrite /dcourse Hsp. split_and!; try done.
  - apply Forall_forall. intros [k j] Hp. apply (elem_of_allrows _ _ Hw) in Hp as [Hk [e He]]. apply Hin in Hk as (a & Ha & Hm). by exists a, e.
  - intros n. destruct (di_run_run _ _ Hw _ n _ _ Hat) as [(it' & H & _)|(_ & Hx)]; [|by rewrite Hitb in Hx].
    by rewrite /iter_dyn (bind_done_nil _ _ _ _ _ Hit) (bind_done_nil _ _ _ _ _ H).
Qed.

(** ** Reading an item *)
Lemma read_ptr_run f R e k a m x : winv (ss_world (fs_sess f)) R → placed (ss_world (fs_sess f)) e k m → w_archs (ss_world (fs_sess f)) !! k = Some a →
  (∀ c, fetch_id x = Some c → c ∈ a_comp_ids a) → castable (ss_world (fs_sess f)) x →
  ∃ y, read_ptr x (fptr k a m x).1 f = Done y f [] ∧ reads (ss_world (fs_sess f)) e x y.
Proof.
  set (w := ss_world (fs_sess f)). intros Hw Hp Ha Hf Hcast. pose proof (fptr_shows _ _ Hw _ _ _ _ _ Hp Ha Hf) as Hsh.
  rewrite /shows in Hsh. rewrite /read_ptr /reads. fold w. destruct (fetch_id x) as [c|] eqn:Ef; [|rewrite Hsh; by eexists].
  destruct Hsh as (v & Hv & Hd). destruct (holds_size _ _ Hw _ _ _ Hv) as (Hal & cm & Hcm & Hlen). pose proof Hcm as Hrec.
  apply (recorded_comp _ _ _ Hal) in Hrec. rewrite (get_entity_meta_alive _ _ Hal). rewrite /recorded (get_entity_meta_alive _ _ Hal) in Hrec.
  destruct (meta_at w (uindex c)) as [em|] eqn:Hem; [|done]. subst cm. rewrite -Hlen Hd.
  assert (col_aligned w (fptr k a m x).1 (l_align (cm_layout (em_comp em))) = true) as Hca.
  2:{ rewrite Hca. exists (IVal v). split; [done|]. by exists v. }
  destruct (Hcast c (em_comp em) Ef) as [Hmod Hz]. { by apply (recorded_comp _ _ _ Hal). }
  destruct (placed_get _ _ Hw _ _ _ Hp) as (a' & rs & mm & Ha' & He & Hrs & Hrow). simplify_eq.
  destruct (fptr_comp _ _ Hw k a m x c Ha Ef (Hf c eq_refl)) as (js & u & Hjs & ->). cbn [fst].
  destruct (column_value _ _ Hw _ _ _ _ _ _ _ _ _ Hrs Hrow Ha Hjs) as (v' & cm' & _ & Hcm' & Hti & Hrep & _).
  rewrite Hcm in Hcm'. injection Hcm' as <-.
  assert (uv_size u = cm_size (em_comp em)) as Hus by by rewrite /uv_size Hti. assert (uv_align u = l_align (cm_layout (em_comp em))) as Hua by by rewrite /uv_align Hti.
  assert (l_align (cm_layout (em_comp em)) ≠ 0) as Hnz. { intros E. rewrite E in Hmod, Hz. cbn in Hmod. destruct Hz; [|done]. congruence. }
  rewrite /col_aligned Ha Hjs. cbn [snd]. apply andb_true_iff. split.
  - destruct (decide (uv_size u = 0)) as [Hz0|Hnz0].
    + apply (uv_rep_zst _ _ Hz0) in Hrep as (_ & -> & _). apply bool_decide_eq_true. destruct Hz; [congruence|done].
    + destruct (column_extent _ _ Hw _ _ _ _ _ _ _ _ _ Hrs Hrow Ha Hjs Hnz0) as (mem & Hd' & _). rewrite Hd' Hua. apply bool_decide_eq_true. split; [done|]. by apply Nat.mod_same.
  - apply bool_decide_eq_true. rewrite Hus. apply Nat.mod_divides in Hmod as [z ->]; [|done]. rewrite (Nat.mul_comm (l_align (cm_layout (em_comp em)))) Nat.mul_assoc. by apply Nat.mod_mul.
Qed.
Lemma read_ptrs_run f R e k a m xs : winv (ss_world (fs_sess f)) R → placed (ss_world (fs_sess f)) e k m → w_archs (ss_world (fs_sess f)) !! k = Some a →
  matching xs a → Forall (castable (ss_world (fs_sess f))) xs →
  ∃ ys, read_ptrs xs (pos_ptrs (ss_world (fs_sess f)) xs (k, m)) f = Done ys f [] ∧ Forall2 (reads (ss_world (fs_sess f)) e) xs ys.
Proof.
  intros Hw Hp Ha. rewrite /pos_ptrs. cbn [fst snd]. rewrite Ha. induction xs as [|x xs IH]; intros Hm Hc; [exists []; by split|].
  apply (matching_cons _ _ Hw) in Hm as [Hf Hm]. apply Forall_cons in Hc as [Hcx Hc].
  destruct (read_ptr_run f R e k a m x Hw Hp Ha Hf Hcx) as (y & Hy & Hry). destruct (IH Hm Hc) as (ys & Hys & Hrys).
  exists (y :: ys). split; [|by constructor]. cbn [fmap list_fmap read_ptrs]. by rewrite (bind_done_nil _ _ _ _ _ Hy) (bind_done_nil _ _ _ _ _ Hys).
Qed.
Lemma pos_ptrs_length w xs p : good_row w xs p → length (pos_ptrs w xs p) = length xs.
Proof. intros (a & e & Ha & _). by rewrite /pos_ptrs Ha fmap_length. Qed.

Section loop.
  Context (f0 : fsess) (i : nat) (q : dquery) (g : list item → list (option value)).
  Notation w0 := (ss_world (fs_sess f0)).
  Notation xs := (dq_fetches q).
  Context (it : diter) (es : list ecsid).
  Context (Hre0 : freachable f0) (Hi : ss_open (fs_sess f0) !! i = Some (Some (QDyn q))) (Hne : xs ≠ []) (Hu0 : all_in_use w0 xs)
    (Hcast0 : Forall (castable w0) xs) (Hc0 : dcourse w0 q it es) (Hes : enumerates (wanted w0 xs) es) (Hfits : rows_fit w0 xs g).
  Local Set Default Proof Using "All".

  (** The loop has taken [n] items. *)
  Definition damid (f : fsess) (n : nat) : Prop :=
    freachable f ∧ ss_open (fs_sess f) = ss_open (fs_sess f0) ∧ shape w0 (ss_world (fs_sess f)) ∧ only_stores (fs_sess f0) (fs_sess f) ∧
    ∃ itc seen, length seen = n ∧ fs_iters f = <[i := FlRows itc seen]> (fs_iters f0).

  Lemma damid_exact f n : damid f n → let w := ss_world (fs_sess f) in
    Forall (good_row w xs) (dpos w it) ∧ dcourse w q it es ∧ ∀ n, iter_dyn q n w = Done (calls n (pos_ptrs w xs <$> dpos w it)) w [].
  Proof.
    intros (Hre & Ho & Hs & _) w. destruct (dynamic_exact (fs_sess f) i q) as (it' & es' & H4 & _ & H5 & H7).
    - by apply freachable_reachable.
    - by rewrite Ho.
    - done.
    - by eapply all_in_use_shape.
    - destruct (dcourse_fun _ _ _ _ _ _ (dcourse_shape _ _ _ _ _ Hs Hc0) H4) as [-> ->]. done.
  Qed.

  Lemma damid_next f n : damid f n →
    ∃ f', damid f' (S n) ∧ fs_sess f' = fs_sess f ∧
      match es !! n with
      | Some e => ∃ ps ys, fstep (FNext i) f = Done (FRow (Some ps)) f' [] ∧ read_ptrs xs ps f' = Done ys f' [] ∧ Forall2 (reads (ss_world (fs_sess f)) e) xs ys
      | None => fstep (FNext i) f = Done (FRow None) f' []
      end.
  Proof.
    intros Ha. pose proof (damid_exact _ _ Ha) as (Hg & Hcs & Hit). destruct Ha as (Hre & Ho & Hs & Hos & itc & seen & Hlen & Hfl).
    pose proof (freachable_ok _ Hre) as [Hre' Hfv]. destruct (sv_world _ (reachable_inv _ Hre')) as [[R Hw] Hroom].
    destruct (next_rows f Hre' Hfv i itc seen) as (q' & Hq' & Hseen & Hn); [by rewrite Hfl lookup_insert|].
    rewrite Ho Hi in Hq'. injection Hq' as <-. rewrite Hit in Hn. destruct Hn as (_ & _ & o & it' & Hrs & Hon & Hstep).
    apply calls_S_last in Hrs as Hrs'; [|done]. destruct Hrs' as [-> _]. rewrite Hrs Hlen in Hstep.
    exists (answered f i (FlRows it' (seen ++ [(pos_ptrs (ss_world (fs_sess f)) xs <$> dpos (ss_world (fs_sess f)) it) !! n]))).
    split; [|split; [done|]].
    - split; [by apply (freachable_done f (FNext i) _ _ _ Hre I I Hstep)|]. split; [done|]. split; [done|]. split; [done|]. eexists _, _. split; [|cbn; by rewrite Hfl insert_insert].
      rewrite app_length /= Hlen. lia.
    - destruct Hcs as [_ Hcs]. destruct (es !! n) as [e|] eqn:He.
      + destruct (Forall2_lookup_l _ _ _ _ _ Hcs He) as ([k m] & Hp & Hpl). cbn in Hpl.
        assert (good_row (ss_world (fs_sess f)) xs (k, m)) as (a & e' & Hka & Hm & _) by (eapply Forall_forall; [exact Hg|by eapply elem_of_list_lookup_2]).
        rewrite list_lookup_fmap Hp in Hstep |- *. cbn in Hstep |- *. exists (pos_ptrs (ss_world (fs_sess f)) xs (k, m)).
        destruct (read_ptrs_run (answered f i (FlRows it' (seen ++ [Some (pos_ptrs (ss_world (fs_sess f)) xs (k, m))]))) R e k a m xs) as (ys & Hys & Hr); [done..| |by exists ys].
        eapply Forall_impl; [exact Hcast0|]. intros x. by apply castable_shape.
      + apply lookup_ge_None in He. rewrite (Forall2_length _ _ _ Hcs) in He. apply lookup_ge_None in He. rewrite list_lookup_fmap He in Hstep |- *. done.
  Qed.

  Lemma damid_store f n e j c v : damid f (S n) → es !! n = Some e → xs !! j = Some (FMut c) → value_fits w0 c v →
    ∃ f', fstep (FStore i n j 0 v) f = Done FNothing f' [] ∧ damid f' (S n) ∧ sets (ss_world (fs_sess f)) (ss_world (fs_sess f')) e c v.
  Proof.
    intros Ha He Hj Hv0. pose proof (damid_exact _ _ Ha) as (Hg & [_ Hcs] & Hit). destruct Ha as (Hre & Ho & Hs & Hos & itc & seen & Hlen & Hfl).
    set (w := ss_world (fs_sess f)) in *.
    pose proof (freachable_ok _ Hre) as [Hre' Hfv]. destruct (sv_world _ (reachable_inv _ Hre')) as [[R Hw] Hroom].
    assert (fs_iters f !! i = Some (FlRows itc seen)) as Hfi by by rewrite Hfl lookup_insert.
    destruct (Hfv _ _ Hfi) as (q' & Hq' & Hon). rewrite Ho Hi in Hq'. injection Hq' as <-.
    destruct (on_course_iter _ _ _ Hon) as (Hrun & _). fold w in Hrun. rewrite Hit in Hrun. injection Hrun as Hseen.
    destruct (Forall2_lookup_l _ _ _ _ _ Hcs He) as (p & Hp & Hpl).
    assert (good_row w xs p) as Hgp by (eapply Forall_forall; [exact Hg|by eapply elem_of_list_lookup_2]).
    assert (seen !! n = Some (Some (pos_ptrs w xs p))) as Hn.
    { rewrite -Hseen calls_lookup; [|lia]. by rewrite list_lookup_fmap Hp. }
    destruct (lookup_lt_is_Some_2 (pos_ptrs w xs p) j) as [p0 Hp0]; [rewrite pos_ptrs_length //; by eapply lookup_lt_Some|].
    assert (value_fits w c v) as Hvf by by eapply value_fits_shape.
    destruct (ptr_store_run w R xs p j c v p0 Hw Hgp Hj Hvf Hp0) as (e' & w' & Hpl' & Hst & Hwd).
    assert (e' = e) as ->.
    { destruct Hpl as (a & Ha1 & Ha2), Hpl' as (a' & Hb1 & Hb2). congruence. }
    pose proof (write_done_view _ _ _ _ _ _ Hw Hwd) as (_ & _ & _ & Hsets & _).
    assert (fstep (FStore i n j 0 v) f = Done FNothing (FSess (Sess w' (ss_open (fs_sess f))) (fs_iters f)) []) as Hstep.
    { assert (handed (FlRows itc seen) n j 0 (length v) = Some p0) as Hh by (rewrite /handed Hn /= Hp0 //).
      cbn [fstep]. rewrite (bind_done_nil _ _ f f f eq_refl) Hfi. cbn [mbind option_bind]. rewrite Hh /bind in_fworld_run. fold w. by rewrite Hst. }
    assert (fop_legal (FStore i n j 0 v) f) as Hleg.
    { cbn. intros q' Hq'. rewrite Ho Hi in Hq'. injection Hq' as <-. exists xs, c. done. }
    eexists. split; [exact Hstep|]. split; [split; [|split; [|split; [|split]]]|].
    - by eapply freachable_done.
    - done.
    - cbn. eapply shape_trans; [exact Hs|]. pose proof (shape_store p0 v w) as H. by rewrite Hst in H.
    - eapply only_stores_trans; [exact Hos|]. pose proof (fstep_plain _ _ Hre Hleg I) as Hpl0. rewrite Hstep in Hpl0. destruct Hpl0 as (l & Hl & Hst').
      exists l. split; [done|]. inversion Hl; subst; [|done]. apply Forall_singleton. eauto.
    - by eexists _, _.
    - done.
  Qed.

  Lemma dmut_unique j j' c : xs !! j = Some (FMut c) → xs !! j' = Some (FMut c) → j = j'.
  Proof.
    intros Hj Hj'. destruct (decide (j = j')) as [|Hn]; [done|]. exfalso. pose proof (freachable_reachable _ Hre0) as Hre.
    destruct (sv_world _ (reachable_inv _ Hre)) as [[R Hw] Hroom].
    eapply (open_exclusive_at (fs_sess f0) i (QDyn q) xs j c i (QDyn q) xs j' (FMut c)); try done; [congruence|].
    eapply in_use_known; [exact Hw|]. eapply Hu0; [by eapply elem_of_list_lookup_2|done].
  Qed.

  (** What the first [j] writes of a row give to component [c]. *)
  Definition dwr (us : list (option value)) (j : nat) (c : ecsid) (v : value) : Prop :=
    ∃ j', j' < j ∧ xs !! j' = Some (FMut c) ∧ us !! j' = Some (Some v).
  Lemma dwr_none us j : us !! j = Some None → ∀ c v, dwr us (S j) c v ↔ dwr us j c v.
  Proof.
    intros Hj c v. split; intros (j' & Hlt & H1 & H3); exists j'; split_and!; try done; [|lia].
    destruct (decide (j' = j)) as [->|]; [congruence|lia].
  Qed.
  Lemma dwr_some us j c v : us !! j = Some (Some v) → xs !! j = Some (FMut c) →
    (∀ v0, ¬ dwr us j c v0) ∧ ∀ c0 v0, dwr us (S j) c0 v0 ↔ (c0 = c ∧ v0 = v) ∨ dwr us j c0 v0.
  Proof.
    intros Hj Hp. split.
    - intros v0 (j' & Hlt & H1 & H3). pose proof (dmut_unique _ _ _ Hp H1). lia.
    - intros c0 v0. split.
      + intros (j' & Hlt & H1 & H3). destruct (decide (j' = j)) as [->|Hn].
        * left. split; congruence.
        * right. exists j'. split_and!; try done. lia.
      + intros [[-> ->]|(j' & Hlt & H1 & H3)]; [by exists j; split_and!; try done; lia|]. exists j'. split_and!; try done. lia.
  Qed.
  Lemma drow_loop n e us0 us j f w1 : es !! n = Some e → us = drop j us0 → damid f (S n) →
    (∀ j v, us0 !! j = Some (Some v) → ∃ c, xs !! j = Some (FMut c) ∧ value_fits w0 c v) →
    (∀ e0 c v, holds (ss_world (fs_sess f)) e0 c v ↔ (e0 = e ∧ dwr us0 j c v) ∨ (holds w1 e0 c v ∧ ¬ (e0 = e ∧ ∃ v', dwr us0 j c v'))) →
    ∃ f', update_row i n j us f = Done () f' [] ∧ damid f' (S n) ∧
      ∀ e0 c v, holds (ss_world (fs_sess f')) e0 c v ↔ (e0 = e ∧ dwr us0 (length us0) c v) ∨ (holds w1 e0 c v ∧ ¬ (e0 = e ∧ ∃ v', dwr us0 (length us0) c v')).
  Proof.
    intros He. revert j f. induction us as [|u us IH]; intros j f Hus Ha Hf Hh; cbn [update_row].
    - exists f. split; [done|]. split; [done|]. assert (length us0 ≤ j) as Hle.
      { apply (f_equal length) in Hus. rewrite drop_length in Hus. cbn in Hus. lia. }
      assert (∀ c v, dwr us0 j c v ↔ dwr us0 (length us0) c v) as Hwr.
      { intros c v. split; intros (j' & Hlt & H1 & H3); exists j'; split_and!; try done; [by eapply lookup_lt_Some|lia]. }
      intros e0 c v. rewrite Hh. setoid_rewrite Hwr. done.
    - assert (us0 !! j = Some u ∧ us = drop (S j) us0) as [Hj Hus'].
      { destruct (us0 !! j) as [u'|] eqn:Hj.
        - rewrite (drop_S _ _ _ Hj) in Hus. by injection Hus as <- <-.
        - apply lookup_ge_None in Hj. rewrite drop_ge in Hus; [done|lia]. }
      destruct u as [v|].
      + destruct (Hf _ _ Hj) as (c & Hp & Hv). destruct (damid_store f n e j c v Ha He Hp Hv) as (f' & Hst & Ha' & Hsets).
        rewrite (bind_done_nil _ _ f () f'). 2:{ by rewrite (bind_done_nil _ _ _ _ _ Hst). }
        apply IH; [done..|]. destruct (dwr_some us0 j c v Hj Hp) as [Hno Hwr]. intros e0 c0 v0. rewrite Hsets Hh. setoid_rewrite Hwr.
        destruct (decide (e0 = e)) as [->|Hd]; [|naive_solver]. destruct (decide (c0 = c)) as [->|Hd]; [|naive_solver]. naive_solver.
      + rewrite (bind_done_nil _ _ f () f eq_refl). apply IH; [done..|]. intros e0 c0 v0. rewrite Hh. setoid_rewrite (dwr_none us0 j Hj). done.
  Qed.

  (** What holds after [n] items. *)
  Definition rows_upto (w : world) (n : nat) : Prop := ∀ e c v,
    holds w e c v ↔ (e ∈ take n es ∧ new_row_value w0 xs g e c v) ∨ (holds w0 e c v ∧ ¬ (e ∈ take n es ∧ ∃ v', new_row_value w0 xs g e c v')).
  Lemma reads_fun e x y y' : reads w0 e x y → reads w0 e x y' → y = y'.
  Proof.
    rewrite /reads. destruct (fetch_id x) as [c|]; [|by intros -> ->]. intros (v & H2 & ->) (v' & H2' & ->).
    destruct (sv_world _ (reachable_inv _ (freachable_reachable _ Hre0))) as [[R Hw] _].
    by rewrite (holds_fun _ _ _ _ _ _ Hw H2 H2').
  Qed.
  Lemma dfresh_row n e : es !! n = Some e → e ∉ take n es.
  Proof.
    intros He (k & Hk)%elem_of_list_lookup. destruct Hes as [Hnd _]. pose proof (lookup_lt_Some _ _ _ Hk) as Hl. rewrite take_length in Hl.
    rewrite lookup_take in Hk; [|lia]. pose proof (NoDup_lookup _ _ _ _ Hnd He Hk). lia.
  Qed.
  Lemma dloop_ok fuel n f : damid f n → rows_upto (ss_world (fs_sess f)) n → n ≤ length es → length es - n < fuel →
    ∃ f', each_row xs g i n fuel f = Done (length es) f' [] ∧ damid f' (S (length es)) ∧ rows_upto (ss_world (fs_sess f')) (length es).
  Proof.
    revert n f. induction fuel as [|fuel IH]; intros n f Ha Hd Hle Hfuel; [lia|]. cbn [each_row].
    destruct (damid_next f n Ha) as (f1 & Ha1 & Hf1 & Hn). destruct (es !! n) as [e|] eqn:He.
    2:{ rewrite (bind_done_nil _ _ _ _ _ Hn). apply lookup_ge_None in He. assert (n = length es) as -> by lia. exists f1. split; [done|]. split; [done|]. by rewrite Hf1. }
    destruct Hn as (ps & ys & Hstep & Hread & Hy). rewrite (bind_done_nil _ _ _ _ _ Hstep) (bind_done_nil _ _ _ _ _ Hread). pose proof (dfresh_row n e He) as Hfresh.
    assert (Forall2 (reads w0 e) xs ys) as Hsees.
    { eapply Forall2_impl; [exact Hy|]. intros x y. rewrite /reads. destruct (fetch_id x) as [c|]; [|done].
      intros (v & H2 & H3). exists v. split; [|done]. apply Hd in H2 as [[? _]|[? _]]; done. }
    assert (∀ c v, new_row_value w0 xs g e c v ↔ dwr (g ys) (length (g ys)) c v) as Hnv.
    { intros c v. split.
      - intros (_ & ys' & j & H1 & H2 & H4). assert (ys' = ys) as ->.
        { clear -H1 Hsees Hre0 Hi Hne Hu0 Hcast0 Hc0 Hes Hfits. revert ys H1 Hsees. generalize xs. intros l ys H. revert ys. induction H; intros ys H'; inversion H'; subst; [done|]. f_equal; [by eapply reads_fun|by apply IHForall2]. }
        exists j. split_and!; try done. by eapply lookup_lt_Some.
      - intros (j & _ & H1 & H3). split; [apply Hes; by eapply elem_of_list_lookup_2|]. by exists ys, j. }
    destruct (drow_loop n e (g ys) (g ys) 0 f1 (ss_world (fs_sess f))) as (f2 & Hrow & Ha2 & Hh2); [done|done|done|intros; by eapply Hfits|..].
    { intros e0 c v. rewrite Hf1. split; [|intros [(_ & j & Hlt & _)|[? _]]; [lia|done]]. intros Hh. right. split; [done|]. intros (_ & v' & j & Hlt & _). lia. }
    rewrite (bind_done_nil _ _ _ _ _ Hrow). apply lookup_lt_Some in He as Hlt. apply IH; [done| |lia|lia].
    intros e0 c v. rewrite Hh2 (Hd e0 c v) (take_S_r _ _ _ He). setoid_rewrite elem_of_app. setoid_rewrite elem_of_list_singleton.
    destruct (decide (e0 = e)) as [->|Hd0].
    - setoid_rewrite <- Hnv. naive_solver.
    - naive_solver.
  Qed.
  Lemma for_each_row_ok fuel : length es < fuel →
    ∃ f', for_each_row xs g i fuel f0 = Done (length es) f' [] ∧ ss_open (fs_sess f') = ss_open (fs_sess f0) ∧ fs_iters f' = delete i (fs_iters f0) ∧
      freachable f' ∧ only_stores (fs_sess f0) (fs_sess f') ∧ shape w0 (ss_world (fs_sess f')) ∧ all_rows_updated w0 (ss_world (fs_sess f')) xs g.
  Proof.
    intros Hfuel. assert (fstep (FIter i) f0 = Done FNothing (answered f0 i (FlRows it [])) []) as Hst.
    { cbn [fstep]. rewrite (bind_done_nil _ _ f0 () (ended f0 i) eq_refl) (bind_done_nil _ _ (ended f0 i) (ended f0 i) (ended f0 i) eq_refl).
      cbn [ended fs_sess]. rewrite Hi. destruct Hc0 as [Hit _]. rewrite /bind in_fworld_run. cbn [fs_sess fs_iters]. rewrite Hit. cbn. by rewrite sess_eta fly_delete. }
    rewrite /for_each_row (bind_done_nil _ _ _ _ _ Hst).
    destruct (dloop_ok fuel 0 (answered f0 i (FlRows it []))) as (f1 & Hl & Ha1 & Hd1); [..|lia|lia|].
    { split; [by apply (freachable_done f0 (FIter i) _ _ _ Hre0 I I Hst)|]. split; [done|]. split; [apply shape_refl|]. split; [apply only_stores_refl|]. by exists it, []. }
    { intros e c v. rewrite take_0. split; [|intros [[?%elem_of_nil _]|[? _]]; done]. intros Hh. right. split; [done|]. by intros [?%elem_of_nil _]. }
    rewrite (bind_done_nil _ _ _ _ _ Hl). destruct Ha1 as (Hre & Ho & Hs & Hos & itc & seen & _ & Hfl).
    rewrite (bind_done_nil _ _ f1 FNothing (ended f1 i) eq_refl). exists (ended f1 i). split; [done|]. split; [done|]. split; [by rewrite /= Hfl delete_insert_delete|].
    split; [by apply (freachable_done f1 (FEnd i) FNothing _ [] Hre I I eq_refl)|]. split; [done|]. split; [done|]. split; [by apply lives_shape|]. split; [by apply stored_shape|]. split; [by apply types_shape|].
    intros e c v. cbn [ended fs_sess]. rewrite (Hd1 e c v) take_ge //. assert (∀ v, new_row_value w0 xs g e c v → e ∈ es) as Hin by (intros ? [? _]; by apply Hes). naive_solver.
  Qed.
End loop.
Local Set Default Proof Using "Type".

Lemma rows_updated' f i q g : freachable f → ss_open (fs_sess f) !! i = Some (Some (QDyn q)) → dq_fetches q ≠ [] →
  all_in_use (ss_world (fs_sess f)) (dq_fetches q) → Forall (castable (ss_world (fs_sess f))) (dq_fetches q) → rows_fit (ss_world (fs_sess f)) (dq_fetches q) g →
  ∃ es, enumerates (wanted (ss_world (fs_sess f)) (dq_fetches q)) es ∧
    ∀ fuel, length es < fuel → ∃ f', for_each_row (dq_fetches q) g i fuel f = Done (length es) f' [] ∧
      ss_open (fs_sess f') = ss_open (fs_sess f) ∧ fs_iters f' = delete i (fs_iters f) ∧ freachable f' ∧
      only_stores (fs_sess f) (fs_sess f') ∧ shape (ss_world (fs_sess f)) (ss_world (fs_sess f')) ∧
      all_rows_updated (ss_world (fs_sess f)) (ss_world (fs_sess f')) (dq_fetches q) g.
Proof.
  intros Hre Hi Hne Hu Hc Hf. destruct (dynamic_exact (fs_sess f) i q) as (it & es & Hco & Hes & _); [by apply freachable_reachable|done..|].
  exists es. split; [done|]. intros fuel Hfuel. by eapply for_each_row_ok.
Qed.
Lemma rows_updated f i q g : freachable f → ss_open (fs_sess f) !! i = Some (Some (QDyn q)) → dq_fetches q ≠ [] →
  all_in_use (ss_world (fs_sess f)) (dq_fetches q) → Forall (castable (ss_world (fs_sess f))) (dq_fetches q) → rows_fit (ss_world (fs_sess f)) (dq_fetches q) g →
  ∃ es, enumerates (wanted (ss_world (fs_sess f)) (dq_fetches q)) es ∧
    ∀ fuel, length es < fuel → ∃ f', for_each_row (dq_fetches q) g i fuel f = Done (length es) f' [] ∧
      ss_open (fs_sess f') = ss_open (fs_sess f) ∧ fs_iters f' = delete i (fs_iters f) ∧ freachable f' ∧
      all_rows_updated (ss_world (fs_sess f)) (ss_world (fs_sess f')) (dq_fetches q) g.
Proof.
  intros Hre Hi Hne Hu Hc Hf. destruct (rows_updated' f i q g Hre Hi Hne Hu Hc Hf) as (es & Hes & H). exists es. split; [done|]. intros fuel Hfuel.
  destruct (H fuel Hfuel) as (f' & H1 & H2 & H3 & H4 & _ & _ & H5). by exists f'.
Qed.
Lemma no_rows f i q g fuel : freachable f → ss_open (fs_sess f) !! i = Some (Some (QDyn q)) →
  dq_fetches q = [] ∨ (¬ all_in_use (ss_world (fs_sess f)) (dq_fetches q) ∧ ¬ left_over (ss_world (fs_sess f)) (dq_fetches q)) →
  0 < fuel → for_each_row (dq_fetches q) g i fuel f = Done 0 (ended f i) [].
Proof.
  intros Hre Hi Hun Hfuel. pose proof (freachable_reachable _ Hre) as Hs.
  assert (iter_dyn q 1 (ss_world (fs_sess f)) = Done [None] (ss_world (fs_sess f)) [] ∧ ¬ left_over (ss_world (fs_sess f)) (dq_fetches q)) as [Hx Hlo].
  { destruct Hun as [He|[Hn Hl]].
    - split; [by rewrite (open_dyn_empty _ _ _ _ Hs Hi He)|]. intros [_ H]. apply H. rewrite He. by intros ? ? ?%elem_of_nil.
    - split; [|done]. pose proof (open_dyn_none _ i q 1 Hs Hi Hn) as H. destruct (iter_dyn q 1 _); [|by destruct H as (_ & _ & _ & ?)|done..].
      by destruct H as (-> & -> & ->). }
  pose proof (flight_start f i _ Hre Hi) as Hst. destruct (fstep (FIter i) f) as [r f1 ev|r f1 ev| |] eqn:E; [| |done..].
  2:{ destruct Hst as (_ & _ & fs & H & ?). cbn in H. by injection H as <-. }
  destruct Hst as (-> & -> & [it seen|it seen|it seen] & -> & Hseen); try done. subst seen.
  destruct fuel as [|fuel]; [lia|].
  pose proof (freachable_done f (FIter i) _ _ _ Hre I I E) as Hre1. pose proof (freachable_ok _ Hre1) as [Hre1' Hfv].
  destruct (next_rows _ Hre1' Hfv i it []) as (q' & Hq' & Hseen & Hn); [by rewrite /= lookup_insert|].
  cbn [answered fs_sess] in Hq', Hn. rewrite Hi in Hq'. injection Hq' as <-. cbn [length] in Hn. rewrite Hx in Hn.
  destruct Hn as (_ & _ & o & it' & Ho & _ & Hn). injection Ho as <-.
  assert (each_row (dq_fetches q) g i 0 (S fuel) (answered f i (FlRows it [])) = Done 0 (answered (answered f i (FlRows it [])) i (FlRows it' [None])) []) as Hl.
  { cbn [each_row]. by rewrite (bind_done_nil _ _ _ _ _ Hn). }
  rewrite /for_each_row (bind_done_nil _ _ _ _ _ E) (bind_done_nil _ _ _ _ _ Hl). rewrite /ended /answered /bind /=. by rewrite !delete_insert_delete.
Qed.

(** ** Whole runs *)
Lemma all_rows_locks w w' xs g ls ls' : all_rows_updated w w' xs g → all_rows_updated (set_locks ls w) (set_locks ls' w') xs g.
Proof.
  intros (H1 & H2 & H3 & H4). split; [|split; [exact H2|split; [exact H3|exact H4]]].
  intros e He. pose proof (lives_shape _ _ (shape_locks w ls) e He) as Ha. pose proof (lives_shape _ _ (shape_locks w' ls') e He) as Hb. by rewrite Hb Ha H1.
Qed.
Lemma rows_fit_shape w w' xs g : shape w w' → rows_fit w xs g → rows_fit w' xs g.
Proof. intros Hs H ys j v Hj. destruct (H ys j v Hj) as (c & Hc & Hv). exists c. split; [done|]. by eapply value_fits_shape. Qed.
Section run.
  Context (xs : list fetch) (g : list item → list (option value)).
  Context (Hwf : Forall fetch_wf xs) (Hne : xs ≠ []) (Hun : unshared_ids xs).
  Local Set Default Proof Using "All".

  Definition runnable (w : world) : Prop := all_in_use w xs ∧ Forall (castable w) xs ∧ rows_fit w xs g.
  Lemma runnable_shape w w' : shape w w' → runnable w → runnable w'.
  Proof.
    intros Hs (H1 & H2 & H3). split; [by eapply all_in_use_shape|]. split; [|by eapply rows_fit_shape]. eapply Forall_impl; [exact H2|]. intros x. by apply castable_shape.
  Qed.
  Lemma drun_ok l s : closed_by l s → runnable (ss_world s) →
    ∃ es, enumerates (wanted (ss_world s) xs) es ∧ ∀ fuel, length es < fuel →
      ∃ l' s', run_dynamic xs g fuel (FSess s ∅) = Done (length es) (FSess s' ∅) [] ∧ closed_by l' s' ∧ shape (ss_world s) (ss_world s') ∧
        all_rows_updated (ss_world s) (ss_world s') xs g.
  Proof.
    intros (Hst & Hf & Hu & Hop) Hrun. assert (reachable s) as Hs by (by exists l). destruct (sv_world _ (reachable_inv _ Hs)) as [[R Hw] Hroom].
    assert (open_fetches s = []) as Hof. { rewrite /open_fetches. clear -Hop. induction Hop as [|q ? -> _ IH]; [done|]. cbn. done. }
    destruct (creates_dyn l s xs Hst Hf Hu Hwf) as (s1 & q & E & Hop1 & Hq & _).
    { rewrite Hof /=. intros j j' c f Hjj Hj Hj' Hfc. exfalso. apply Hjj. by eapply Hun. }
    set (i := length (ss_open s)) in *.
    assert (steps sess_new (l ++ [(SOpenDyn xs, ROk (SHandle i), [])]) s1) as Hst1 by by eapply steps_done.
    assert (ss_open s1 !! i = Some (Some (QDyn q))) as Hi1 by by rewrite Hop1 lookup_app_r // Nat.sub_diag.
    destruct (opens_released s (SOpenDyn xs) _ s1 [] Hs I E) as (i' & [= <-] & E2). fold i in E2.
    destruct (drop_run s1 i _ false Hi1) as (ls & E2'). rewrite E2 in E2'. injection E2' as Hw1 Hop2.
    assert (shape (ss_world s1) (ss_world s)) as Hsh by (rewrite Hw1; apply shape_locks).
    assert (reachable s1) as Hs1 by by eexists.
    destruct (runnable_shape _ _ (shape_sym _ _ Hsh) Hrun) as (Hr1 & Hr2 & Hr3).
    destruct (rows_updated' (FSess s1 ∅) i q g) as (es & Hes & Hloop).
    { by apply reachable_freachable. } { done. } { by rewrite Hq. } { by rewrite Hq. } { by rewrite Hq. } { by rewrite Hq. }
    rewrite Hq in Hes, Hloop. cbn [fs_sess fs_iters] in Hes, Hloop.
    exists es. split; [rewrite Hw1; exact Hes|]. intros fuel Hfuel. destruct (Hloop fuel Hfuel) as ([s2 its] & HR & Ho2 & Hits & Hre2 & Hos & Hsh2 & Hall).
    cbn [fs_sess fs_iters] in Ho2, Hits, Hos, Hsh2, Hall. rewrite delete_empty in Hits. subst its.
    assert (ss_open s2 !! i = Some (Some (QDyn q))) as Hi2 by by rewrite Ho2. destruct (drop_run s2 i _ false Hi2) as (ls2 & E3).
    set (s3 := Sess (set_locks ls2 (ss_world s2)) (<[i := None]> (ss_open s2))) in *.
    destruct (only_stores_history _ _ s2 Hst1) as (l2 & Hst2 & Hf2 & Hu2); [by apply no_forget_snoc|by eapply no_unwinding_snoc|done|].
    exists (l2 ++ [(SDrop i false, ROk SNothing, [])]), s3. split; [|split; [|split]].
    - assert (fstep (FCall (SOpenDyn xs)) (FSess s ∅) = Done (FRet (SHandle i)) (FSess s1 ∅) []) as F1 by (rewrite fcall_run; cbn [fs_sess]; by rewrite E).
      assert (fstep (FCall (SDrop i false)) (FSess s2 ∅) = Done (FRet SNothing) (FSess s3 ∅) []) as F2 by (rewrite fcall_run; cbn [fs_sess]; by rewrite E3 /= delete_empty).
      rewrite /run_dynamic (bind_done_nil _ _ _ _ _ F1) (bind_done_nil _ _ _ _ _ HR) (bind_done_nil _ _ _ _ _ F2). done.
    - split; [by eapply steps_done|]. split; [by apply no_forget_snoc|]. split; [by eapply no_unwinding_snoc|].
      cbn. rewrite Ho2 Hop1 insert_app_r_alt // Nat.sub_diag /=. apply Forall_app. split; [done|by constructor].
    - cbn. eapply shape_trans; [by apply shape_sym|]. eapply shape_trans; [done|]. apply shape_locks.
    - cbn. rewrite Hw1. by apply all_rows_locks.
  Qed.
  Lemma druns_ok m : ∀ l s es, closed_by l s → runnable (ss_world s) → enumerates (wanted (ss_world s) xs) es → ∀ fuel, length es < fuel →
    ∃ l' s', run_dynamics xs g fuel m (FSess s ∅) = Done () (FSess s' ∅) [] ∧ closed_by l' s' ∧
      nsteps (λ w w', all_rows_updated w w' xs g) m (ss_world s) (ss_world s') ∧ shape (ss_world s) (ss_world s').
  Proof.
    induction m as [|m IH]; intros l s es Hcl Hu Hes fuel Hfuel; [exists l, s; split; [done|]; split; [done|]; split; [constructor|apply shape_refl]|].
    destruct (drun_ok l s Hcl Hu) as (es' & Hes' & Hrun). assert (length es' = length es) as Hlen.
    { apply Permutation_length, NoDup_Permutation; [apply Hes'|apply Hes|]. intros e. destruct Hes as [_ H1], Hes' as [_ H2]. by rewrite H1 H2. }
    destruct (Hrun fuel) as (l1 & s1 & E & Hcl1 & Hsh & Hall); [lia|].
    assert (∀ e, wanted (ss_world s1) xs e ↔ wanted (ss_world s) xs e) as Hwants.
    { destruct Hcl as (Hst & _), Hcl1 as (Hst1 & _). intros e. apply wanted_shape; [apply (sv_world _ (reachable_inv s1 (ex_intro _ _ Hst1)))|apply (sv_world _ (reachable_inv s (ex_intro _ _ Hst)))|done]. }
    destruct (IH l1 s1 es Hcl1 (runnable_shape _ _ Hsh Hu)) with (fuel := fuel) as (l2 & s2 & E2 & Hcl2 & Hn2 & Hsh2); [|done|].
    { destruct Hes as [H1 H2]. split; [done|]. intros e. by rewrite H2 Hwants. }
    exists l2, s2. split; [|split; [done|split; [by econstructor|by eapply shape_trans]]]. cbn [run_dynamics]. by rewrite (bind_done_nil _ _ _ _ _ E).
  Qed.
End run.
Local Set Default Proof Using "Type".
Lemma drun_updates xs g l s : Forall fetch_wf xs → xs ≠ [] → unshared_ids xs → closed_by l s →
  all_in_use (ss_world s) xs → Forall (castable (ss_world s)) xs → rows_fit (ss_world s) xs g →
  ∃ es, enumerates (wanted (ss_world s) xs) es ∧ ∀ fuel, length es < fuel →
    ∃ l' s', run_dynamic xs g fuel (FSess s ∅) = Done (length es) (FSess s' ∅) [] ∧ closed_by l' s' ∧ all_rows_updated (ss_world s) (ss_world s') xs g.
Proof.
  intros H1 H2 H3 H4 H5 H6 H7. destruct (drun_ok xs g H1 H2 H3 l s H4 (conj H5 (conj H6 H7))) as (es & Hes & H). exists es. split; [done|]. intros fuel Hf.
  destruct (H fuel Hf) as (l' & s' & Ha & Hb & _ & Hc). by exists l', s'.
Qed.
Lemma druns_update' xs g l s m : Forall fetch_wf xs → xs ≠ [] → unshared_ids xs → closed_by l s →
  all_in_use (ss_world s) xs → Forall (castable (ss_world s)) xs → rows_fit (ss_world s) xs g →
  ∃ N, ∀ fuel, N < fuel → ∃ l' s', run_dynamics xs g fuel m (FSess s ∅) = Done () (FSess s' ∅) [] ∧ closed_by l' s' ∧
    nsteps (λ w w', all_rows_updated w w' xs g) m (ss_world s) (ss_world s') ∧ shape (ss_world s) (ss_world s').
Proof.
  intros H1 H2 H3 H4 H5 H6 H7. destruct (drun_ok xs g H1 H2 H3 l s H4 (conj H5 (conj H6 H7))) as (es & Hes & _). exists (length es). intros fuel Hf.
  by eapply (druns_ok xs g H1 H2 H3 m l s es H4 (conj H5 (conj H6 H7)) Hes fuel Hf).
Qed.
Lemma druns_update xs g l s m : Forall fetch_wf xs → xs ≠ [] → unshared_ids xs → closed_by l s →
  all_in_use (ss_world s) xs → Forall (castable (ss_world s)) xs → rows_fit (ss_world s) xs g →
  ∃ N, ∀ fuel, N < fuel → ∃ l' s', run_dynamics xs g fuel m (FSess s ∅) = Done () (FSess s' ∅) [] ∧ closed_by l' s' ∧
    nsteps (λ w w', all_rows_updated w w' xs g) m (ss_world s) (ss_world s').
Proof.
  intros H1 H2 H3 H4 H5 H6 H7. destruct (druns_update' xs g l s m H1 H2 H3 H4 H5 H6 H7) as (N & H). exists N. intros fuel Hf.
  destruct (H fuel Hf) as (l' & s' & Ha & Hb & Hc & _). by exists l', s'.
Qed.
