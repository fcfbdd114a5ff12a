(** * Loops over a query (C66) *)
From Verif Require Import ProofBase SpecSmall World Query History ProofEntities ProofBitset ProofArrayVec ProofUVec ProofKnown.
From Verif Require Export SpecForEach ProofFlightHist ProofLedger ProofQueryLaws ProofPlayground.

(** ** Worlds of the same shape *)
Lemma shape_ptr_trans p q r : shape_ptr p q → shape_ptr q r → shape_ptr p r.
Proof. destruct p, q, r; try done. cbn. intros [-> ->] [-> ->]. done. Qed.
Lemma shape_ptr_sym p q : shape_ptr p q → shape_ptr q p.
Proof. destruct p, q; try done. cbn. intros [-> ->]. done. Qed.
Lemma Forall2_trans' {A} (P : A → A → Prop) l1 l2 l3 : (∀ x y z, P x y → P y z → P x z) → Forall2 P l1 l2 → Forall2 P l2 l3 → Forall2 P l1 l3.
Proof. intros H H1. revert l3. induction H1; intros l3 H3; inversion H3; subst; constructor; eauto. Qed.
Lemma Forall2_sym' {A} (P : A → A → Prop) l1 l2 : (∀ x y, P x y → P y x) → Forall2 P l1 l2 → Forall2 P l2 l1.
Proof. intros H H1. induction H1; constructor; eauto. Qed.
Lemma shape_col_trans x y z : shape_col x y → shape_col y z → shape_col x z.
Proof. intros (H1 & H2 & H3 & H4 & H) (H1' & H2' & H3' & H4' & H'). rewrite /shape_col. split_and!; try congruence. by eapply shape_ptr_trans. Qed.
Lemma shape_col_sym x y : shape_col x y → shape_col y x.
Proof. intros (H1 & H2 & H3 & H4 & H). rewrite /shape_col. split_and!; try done. by eapply shape_ptr_sym. Qed.
Lemma shape_arch_trans a b c : shape_arch a b → shape_arch b c → shape_arch a c.
Proof. intros (H1 & H2 & H3 & H) (H1' & H2' & H3' & H'). split; [congruence|]. split; [congruence|]. split; [congruence|]. eapply Forall2_trans'; [exact shape_col_trans|done..]. Qed.
Lemma shape_arch_sym a b : shape_arch a b → shape_arch b a.
Proof. intros (H1 & H2 & H3 & H). split; [done|]. split; [done|]. split; [done|]. eapply Forall2_sym'; [exact shape_col_sym|done]. Qed.
Lemma shape_trans w w' w'' : shape w w' → shape w' w'' → shape w w''.
Proof.
  intros (H & H1 & H2 & H3 & H4 & H5 & H6) (H' & H1' & H2' & H3' & H4' & H5' & H6'). split; [|split_and!; congruence].
  eapply Forall2_trans'; [exact shape_arch_trans|done..].
Qed.
Lemma shape_sym w w' : shape w w' → shape w' w.
Proof. intros (H & H1 & H2 & H3 & H4 & H5 & H6). split; [|done]. eapply Forall2_sym'; [exact shape_arch_sym|done]. Qed.
Lemma placed_shape w w' e k i : shape w w' → placed w e k i → placed w' e k i.
Proof.
  intros Hs (a & Ha & He). pose proof (shape_lookup w w' k Hs) as H. rewrite Ha in H. inversion H as [? b (_ & Hb & _) H1 H2|]; subst.
  exists b. by rewrite -Hb.
Qed.
Lemma stored_shape w w' : shape w w' → same_stored w w'.
Proof. intros Hs e. split; intros (k & i & H); exists k, i; eapply placed_shape; try done. by apply shape_sym. Qed.
Lemma lives_shape w w' : shape w w' → same_lives w w'.
Proof. intros (_ & _ & _ & H & _). by apply same_ents. Qed.
Lemma types_shape w w' : shape w w' → same_types w w'.
Proof. intros (_ & _ & _ & _ & _ & H & _). by apply same_tys. Qed.
Lemma in_use_shape w w' c : shape w w' → in_use w c → in_use w' c.
Proof.
  intros Hs (k & a & j & u & Ha & Hj). pose proof (shape_lookup w w' k Hs) as H. rewrite Ha in H. inversion H as [? b Hab H1 H2|]; subst.
  pose proof (shape_arch_storage a b j Hab) as H'. rewrite Hj in H'. inversion H' as [? [c' u'] Hc H3 H4|]; subst. destruct Hc as [Hc _]. cbn in Hc. subst.
  by exists k, b, j, u'.
Qed.
Lemma types_in_use_shape w w' ps : shape w w' → types_in_use w ps → types_in_use w' ps.
Proof. intros Hs H p t Hp Ht. destruct (H p t Hp Ht) as (c & Hc & Hu). exists c. split; [by apply (types_shape _ _ Hs)|by eapply in_use_shape]. Qed.

Lemma has_shape w w' e c : WOk w → WOk w' → shape w w' → has w e c → has w' e c.
Proof.
  intros [[R Hw] _] [[R' Hw'] _] Hs Hh. assert (∃ k i, placed w e k i) as (k & i & Hp).
  { destruct Hh as (v & k & i & a & _ & _ & Ha & He & _). by exists k, i, a. }
  pose proof Hp as (a & Ha & _). apply (placed_has _ _ Hw _ _ _ _ _ Hp Ha) in Hh. pose proof (placed_shape _ _ _ _ _ Hs Hp) as Hp'.
  pose proof (shape_lookup w w' k Hs) as H. rewrite Ha in H. inversion H as [? b (_ & _ & Hb & _) H1 H2|]; subst. symmetry in H2.
  apply (placed_has _ _ Hw' _ _ _ _ _ Hp' H2). by rewrite -Hb.
Qed.
Lemma wants_shape w w' ps e : WOk w' → WOk w → shape w w' → wants w' ps e ↔ wants w ps e.
Proof.
  intros Ho' Ho Hs. rewrite /wants (stored_shape _ _ Hs e). apply and_iff_compat_l. split; intros H p t Hp Ht; destruct (H p t Hp Ht) as (c & Hc & Hh); exists c.
  - split; [by apply (types_shape _ _ Hs)|]. eapply has_shape; [exact Ho'|done|by apply shape_sym|done].
  - split; [by apply (types_shape _ _ Hs)|]. eapply has_shape; [exact Ho|done..].
Qed.

(** ** The entities of the rows *)
Definition spos (w : world) (it : siter) : list (nat * nat) := future (si_arch it) ≫= arows w.
Definition course (w : world) (q : squery) (it : siter) (es : list ecsid) : Prop :=
  sq_iter q w = Done it w [] ∧ Forall2 (λ e p, placed w e p.1 p.2) es (spos w it).
Lemma spos_shape w w' it : shape w w' → spos w' it = spos w it.
Proof.
  intros Hs. rewrite /spos. induction (future (si_arch it)) as [|k ks IH]; [done|]. rewrite !bind_cons IH. f_equal.
  rewrite /arows. destruct (shape_lookup w w' k Hs) as [a b (_ & Ha & _)|]; [|done]. by rewrite Ha.
Qed.
Lemma course_shape w w' q it es : shape w w' → course w q it es → course w' q it es.
Proof.
  intros Hs [H1 H2]. destruct (alike_eq_done _ _ _ _ _ _ (alike_sq_iter q) Hs H1) as (_ & <- & H1'). split; [done|].
  rewrite (spos_shape _ _ _ Hs). eapply Forall2_impl; [exact H2|]. intros e p. by apply placed_shape.
Qed.
Lemma course_fun w q it it' es es' : course w q it es → course w q it' es' → it' = it ∧ es' = es.
Proof.
  intros [H1 H2] [H3 H4]. rewrite H1 in H3. injection H3 as <-. split; [done|]. revert es' H4. induction H2 as [|e p es ps (a & Ha & He) _ IH]; intros es' H4.
  - by apply Forall2_nil_inv_r in H4.
  - apply Forall2_cons_inv_r in H4 as (e' & es2 & (a' & Ha' & He') & H4 & ->). rewrite Ha in Ha'. injection Ha' as <-. rewrite He in He'. injection He' as <-. f_equal. by apply IH.
Qed.
Lemma static_exact s i q : reachable s → ss_open s !! i = Some (Some (QStat q)) → sq_params q ≠ [] → types_in_use (ss_world s) (sq_params q) →
  let w := ss_world s in
  ∃ fs it es, sq_fetches q = Some fs ∧ typed w (sq_params q) fs ∧ all_in_use w fs ∧ course w q it es ∧ enumerates (wants w (sq_params q)) es ∧
    Forall (good_row w fs) (spos w it) ∧ Forall2 (yields_row w (sq_params q)) es (pos_items w (sq_params q) fs <$> spos w it) ∧
    ∀ n, iter_static q n w = Done (calls n (pos_items w (sq_params q) fs <$> spos w it)) w [].
Proof.
  intros Hs%reachable_inv Hi Hne Hu w. destruct (types_in_use_some _ _ _ Hs Hi Hu) as (fs & Hfs & Hty & Hau).
  destruct (sv_world _ Hs) as [[R Hw] Hroom]. destruct (sv_open _ Hs _ _ Hi) as (_ & Htame & _). fold w in Hty, Hau, Hw, Hroom, Hu.
  assert (fs ≠ []) as Hne'. { intros ->. apply Hne. by eapply Forall2_nil_inv_r. }
  assert (ready w fs) as Hr by by apply (ready_in_use _ _ _ Hw).
  destruct (ready_archs _ _ Hw Hroom _ Hr Hne') as (b & Hb & Hinv & Hnd & Hsome & Hun & Hin).
  destruct (sq_iter_at _ _ Hw Hroom q fs b Hfs Hb Hinv Hsome) as (it & Hit & Hat & Hitb).
  destruct (wanted_rows _ _ Hw _ _ Hnd Hin) as (es & Hes & _ & Hpl).
  assert (spos w it = future b ≫= arows w) as Hsp by by rewrite /spos Hitb.
  exists fs, it, es. rewrite /course Hsp. split_and!; try done.
  - destruct Hes as [H1 H2]. split; [done|]. intros e. by rewrite H2 (wants_wanted _ _ Hw Hroom _ _ _ Hty).
  - apply Forall_forall. intros [k j] Hp. apply (elem_of_allrows _ _ Hw) in Hp as [Hk [e He]]. apply Hin in Hk as (a & Ha & Hm). by exists a, e.
  - apply Forall2_fmap_r, Forall2_same_length_lookup_2; [by eapply Forall2_length|].
    intros j e [k m] He Hp. pose proof (Forall2_lookup_lr _ _ _ _ _ _ Hpl He Hp) as Hpl1. simpl in Hpl1.
    destruct (proj1 (elem_of_allrows _ _ Hw (future b) k m) (elem_of_list_lookup_2 _ _ _ Hp)) as [(a & Ha & Hm)%Hin _].
    by eapply (cast_ptrs_run _ _ Hw e k a m).
  - intros n. destruct (si_run_run _ _ Hw Hroom _ _ n _ _ Hty Htame Hat) as [(it' & H & _)|(_ & Hx)]; [|by rewrite Hitb in Hx].
    by rewrite /iter_static (bind_done_nil _ _ _ _ _ Hit) (bind_done_nil _ _ _ _ _ H).
Qed.

Lemma freachable_done f o r f' ev : freachable f → fop_legal o f → fop_tame o f → fstep o f = Done r f' ev → freachable f'.
Proof. intros [l Hl] H1 H2 H3. eexists. by eapply fsteps_done. Qed.

(** The calls of [History] that a loop amounts to. *)
Definition only_stores (s s' : sess) : Prop :=
  ∃ l, steps s l s' ∧ Forall (λ x : sop * res * list event, ∃ i n j v, x = (SStore i n j v, ROk SNothing, [])) l.
Lemma only_stores_refl s : only_stores s s.
Proof. exists []. split; [constructor|done]. Qed.
Lemma only_stores_trans s s' s'' : only_stores s s' → only_stores s' s'' → only_stores s s''.
Proof. intros (l & H1 & H2) (l' & H1' & H2'). exists (l ++ l'). split; [by eapply steps_trans|]. by apply Forall_app. Qed.

Section loop.
  Context (f0 : fsess) (i : nat) (q : squery) (g : list item → list (option value)).
  Notation w0 := (ss_world (fs_sess f0)).
  Notation ps := (sq_params q).
  Context (it : siter) (es : list ecsid).
  Context (Hre0 : freachable f0) (Hi : ss_open (fs_sess f0) !! i = Some (Some (QStat q))) (Hne : ps ≠ []) (Hu0 : types_in_use w0 ps)
    (Hc0 : course w0 q it es) (Hes : enumerates (wants w0 ps) es) (Hfits : writes_fit ps g).
  Local Set Default Proof Using "All".

  (** The loop has taken [n] items. *)
  Definition amid (f : fsess) (n : nat) : Prop :=
    freachable f ∧ ss_open (fs_sess f) = ss_open (fs_sess f0) ∧ shape w0 (ss_world (fs_sess f)) ∧ only_stores (fs_sess f0) (fs_sess f) ∧
    ∃ itc seen, length seen = n ∧ fs_iters f = <[i := FlRefs itc seen]> (fs_iters f0).

  Lemma amid_exact f n : amid f n → let w := ss_world (fs_sess f) in
    ∃ fs, sq_fetches q = Some fs ∧ typed w ps fs ∧ all_in_use w fs ∧ Forall (good_row w fs) (spos w it) ∧ course w q it es ∧
      Forall2 (yields_row w ps) es (pos_items w ps fs <$> spos w it) ∧
      ∀ n, iter_static q n w = Done (calls n (pos_items w ps fs <$> spos w it)) w [].
  Proof.
    intros (Hre & Ho & Hs & _) w. destruct (static_exact (fs_sess f) i q) as (fs & it' & es' & H1 & H2 & H3 & H4 & _ & H5 & H6 & H7).
    - by apply freachable_reachable.
    - by rewrite Ho.
    - done.
    - by eapply types_in_use_shape.
    - destruct (course_fun _ _ _ _ _ _ (course_shape _ _ _ _ _ Hs Hc0) H4) as [-> ->]. exists fs. split_and!; done.
  Qed.
  Lemma pos_ptrs_len w fs p : good_row w fs p → length (pos_ptrs w fs p) = length fs.
  Proof. intros (a & e & Ha & _). by rewrite /pos_ptrs Ha fmap_length. Qed.

  Lemma amid_next f n : amid f n →
    ∃ f', amid f' (S n) ∧ fs_sess f' = fs_sess f ∧
      match es !! n with
      | Some e => ∃ xs, fstep (FNext i) f = Done (FRef (Some xs)) f' [] ∧ yields_row (ss_world (fs_sess f)) ps e xs
      | None => fstep (FNext i) f = Done (FRef None) f' []
      end.
  Proof.
    intros Ha. pose proof (amid_exact _ _ Ha) as (fs & Hfs & Hty & Hau & Hg & Hcs & Hy & Hit). destruct Ha as (Hre & Ho & Hs & Hos & itc & seen & Hlen & Hfl).
    pose proof (freachable_ok _ Hre) as [Hre' Hfv].
    destruct (next_refs f Hre' Hfv i itc seen) as (q' & rs0 & Hq' & Hrs0 & Hseen & Hn); [by rewrite Hfl lookup_insert|].
    rewrite Ho Hi in Hq'. injection Hq' as <-. rewrite Hit in Hn. destruct Hn as (_ & _ & o & it' & Hrs & Hon & Hstep).
    apply calls_S_last in Hrs as [-> _].
    2:{ rewrite Hseen fmap_length. done. }
    rewrite Hlen in Hstep.
    exists (answered f i (FlRefs it' (seen ++ [row_ptrs ((pos_items (ss_world (fs_sess f)) ps fs <$> spos (ss_world (fs_sess f)) it) !! n)]))).
    split; [|split; [done|]].
    - split; [by apply (freachable_done f (FNext i) _ _ _ Hre I I Hstep)|]. split; [done|]. split; [done|]. split; [done|]. eexists _, _. split; [|cbn; by rewrite Hfl insert_insert].
      rewrite app_length /= Hlen. lia.
    - destruct (es !! n) as [e|] eqn:He.
      + destruct (Forall2_lookup_l _ _ _ _ _ Hy He) as (xs & Hxs & Hyx). rewrite Hxs in Hstep |- *. by exists xs.
      + apply lookup_ge_None in He. rewrite (Forall2_length _ _ _ Hy) in He. apply lookup_ge_None in He. rewrite He in Hstep |- *. done.
  Qed.

  Lemma amid_store f n e j t v : amid f (S n) → es !! n = Some e → ps !! j = Some (PMut t) → length v = ty_size t →
    ∃ f' c, fstep (FStore i n j 0 v) f = Done FNothing f' [] ∧ amid f' (S n) ∧ type_id w0 t c ∧ sets (ss_world (fs_sess f)) (ss_world (fs_sess f')) e c v.
  Proof.
    intros Ha He Hj Hv. pose proof (amid_exact _ _ Ha) as (fs & Hfs & Hty & Hau & Hg & [_ Hcs] & Hy & Hit). destruct Ha as (Hre & Ho & Hs & Hos & itc & seen & Hlen & Hfl).
    set (w := ss_world (fs_sess f)) in *.
    pose proof (freachable_ok _ Hre) as [Hre' Hfv]. destruct (sv_world _ (reachable_inv _ Hre')) as [[R Hw] Hroom].
    assert (fs_iters f !! i = Some (FlRefs itc seen)) as Hfi by by rewrite Hfl lookup_insert.
    destruct (Hfv _ _ Hfi) as (q' & Hq' & Hon). rewrite Ho Hi in Hq'. injection Hq' as <-.
    destruct (on_course_iter _ _ _ Hon) as (rs & Hrs & Hrun & _). fold w in Hrun. rewrite Hit in Hrun. injection Hrun as <-.
    destruct (Forall2_lookup_l _ _ _ _ _ Hcs He) as (p & Hp & Hpl).
    assert (good_row w fs p) as Hgp by (eapply Forall_forall; [exact Hg|by eapply elem_of_list_lookup_2]).
    destruct (Forall2_lookup_l _ _ _ _ _ Hty Hj) as (fj & Hfj & Hpf). cbn in Hpf. destruct (w_types w !! t) as [c|] eqn:Ht; [|done]. cbn in Hpf. injection Hpf as <-.
    assert (seen !! n = Some (Some (pos_ptrs w fs p))) as Hn.
    { rewrite -Hrs list_lookup_fmap calls_lookup; [|lia]. rewrite list_lookup_fmap Hp. cbn. f_equal. f_equal. apply pos_items_fst; [by eapply Forall2_length|].
      destruct Hgp as (a & ? & Hpa & _). eauto. }
    destruct (lookup_lt_is_Some_2 (pos_ptrs w fs p) j) as [p0 Hp0]; [rewrite pos_ptrs_len //; by eapply lookup_lt_Some|].
    assert (value_fits w c v) as Hvf.
    { pose proof (Forall2_lookup_l _ _ _ _ _ Hy He) as (xs & _ & Hyx). destruct (Forall2_lookup_l _ _ _ _ _ Hyx Hj) as (x & _ & Hyj). cbn in Hyj.
      destruct Hyj as (c' & v0 & Hc' & Hh & _ & Hl & _). rewrite /type_id Ht in Hc'. injection Hc' as <-.
      destruct (holds_size _ _ Hw _ _ _ Hh) as (Hac & cm & Hcm & Hl'). intros s m. rewrite (get_entity_meta_alive _ _ Hac). intros [= Hm _].
      rewrite /comp_of Hm in Hcm. cbn in Hcm. injection Hcm as <-. congruence. }
    destruct (ptr_store_run w R fs p j c v p0 Hw Hgp Hfj Hvf Hp0) as (e' & w' & Hpl' & Hst & Hwd).
    assert (e' = e) as ->.
    { destruct Hpl as (a & Ha1 & Ha2), Hpl' as (a' & Hb1 & Hb2). congruence. }
    pose proof (write_done_view _ _ _ _ _ _ Hw Hwd) as (_ & _ & _ & Hsets & _).
    assert (fstep (FStore i n j 0 v) f = Done FNothing (FSess (Sess w' (ss_open (fs_sess f))) (fs_iters f)) []) as Hstep.
    { assert (handed (FlRefs itc seen) n j 0 (length v) = Some p0) as Hh by (rewrite /handed Hn /= Hp0 //).
      cbn [fstep]. rewrite (bind_done_nil _ _ f f f eq_refl) Hfi. cbn [mbind option_bind]. rewrite Hh /bind in_fworld_run. fold w. by rewrite Hst. }
    assert (fop_legal (FStore i n j 0 v) f) as Hleg.
    { cbn. intros q' Hq'. rewrite Ho Hi in Hq'. injection Hq' as <-. exists fs, c. done. }
    eexists _, c. split; [exact Hstep|]. split; [split; [|split; [|split; [|split]]]|split].
    - by eapply freachable_done.
    - done.
    - cbn. eapply shape_trans; [exact Hs|]. pose proof (shape_store p0 v w) as H. by rewrite Hst in H.
    - eapply only_stores_trans; [exact Hos|]. pose proof (fstep_plain _ _ Hre Hleg I) as Hpl0. rewrite Hstep in Hpl0. destruct Hpl0 as (l & Hl & Hst').
      exists l. split; [done|]. inversion Hl; subst; [|done]. apply Forall_singleton. eauto.
    - by eexists _, _.
    - by apply (types_shape _ _ Hs).
    - done.
  Qed.

  Lemma mut_unique j j' t t' c : ps !! j = Some (PMut t) → ps !! j' = Some (PMut t') → type_id w0 t c → type_id w0 t' c → j = j'.
  Proof.
    intros Hj Hj' Ht Ht'. destruct (decide (j = j')) as [|Hn]; [done|]. exfalso. pose proof (freachable_reachable _ Hre0) as Hre.
    destruct (types_in_use_some _ _ _ (reachable_inv _ Hre) Hi Hu0) as (fs & Hfs & Hty & Hau).
    destruct (sv_world _ (reachable_inv _ Hre)) as [[R Hw] Hroom].
    assert (fs !! j = Some (FMut c)) as H1. { destruct (Forall2_lookup_l _ _ _ _ _ Hty Hj) as (x & Hx & Hp). cbn in Hp. rewrite Ht in Hp. cbn in Hp. congruence. }
    assert (fs !! j' = Some (FMut c)) as H2. { destruct (Forall2_lookup_l _ _ _ _ _ Hty Hj') as (x & Hx & Hp). cbn in Hp. rewrite Ht' in Hp. cbn in Hp. congruence. }
    eapply (open_exclusive_at (fs_sess f0) i (QStat q) fs j c i (QStat q) fs j' (FMut c)); try done; [congruence|].
    eapply in_use_known; [exact Hw|]. eapply Hau; [by eapply elem_of_list_lookup_2|done].
  Qed.

  (** What the first [j] writes of a row give to component [c]. *)
  Definition wr (us : list (option value)) (j : nat) (c : ecsid) (v : value) : Prop :=
    ∃ j' t, j' < j ∧ ps !! j' = Some (PMut t) ∧ type_id w0 t c ∧ us !! j' = Some (Some v).
  Lemma wr_none us j : us !! j = Some None → ∀ c v, wr us (S j) c v ↔ wr us j c v.
  Proof.
    intros Hj c v. split; intros (j' & t & Hlt & H1 & H2 & H3); exists j', t; split_and!; try done; [|lia].
    destruct (decide (j' = j)) as [->|]; [congruence|lia].
  Qed.
  Lemma wr_some us j t c v : us !! j = Some (Some v) → ps !! j = Some (PMut t) → type_id w0 t c →
    (∀ v0, ¬ wr us j c v0) ∧ ∀ c0 v0, wr us (S j) c0 v0 ↔ (c0 = c ∧ v0 = v) ∨ wr us j c0 v0.
  Proof.
    intros Hj Hp Ht. split.
    - intros v0 (j' & t' & Hlt & H1 & H2 & H3). pose proof (mut_unique _ _ _ _ _ Hp H1 Ht H2). lia.
    - intros c0 v0. split.
      + intros (j' & t' & Hlt & H1 & H2 & H3). destruct (decide (j' = j)) as [->|Hn].
        * left. rewrite /type_id in Ht, H2. split; congruence.
        * right. exists j', t'. split_and!; try done. lia.
      + intros [[-> ->]|(j' & t' & Hlt & H1 & H2 & H3)]; [by exists j, t; split_and!; try done; lia|]. exists j', t'. split_and!; try done. lia.
  Qed.
  Lemma row_loop n e us0 us j f w1 : es !! n = Some e → us = drop j us0 → amid f (S n) →
    (∀ j v, us0 !! j = Some (Some v) → ∃ t, ps !! j = Some (PMut t) ∧ length v = ty_size t) →
    (∀ e0 c v, holds (ss_world (fs_sess f)) e0 c v ↔ (e0 = e ∧ wr us0 j c v) ∨ (holds w1 e0 c v ∧ ¬ (e0 = e ∧ ∃ v', wr us0 j c v'))) →
    ∃ f', update_row i n j us f = Done () f' [] ∧ amid f' (S n) ∧
      ∀ e0 c v, holds (ss_world (fs_sess f')) e0 c v ↔ (e0 = e ∧ wr us0 (length us0) c v) ∨ (holds w1 e0 c v ∧ ¬ (e0 = e ∧ ∃ v', wr us0 (length us0) c v')).
  Proof.
    intros He. revert j f. induction us as [|u us IH]; intros j f Hus Ha Hf Hh; cbn [update_row].
    - exists f. split; [done|]. split; [done|]. assert (length us0 ≤ j) as Hle.
      { apply (f_equal length) in Hus. rewrite drop_length in Hus. cbn in Hus. lia. }
      assert (∀ c v, wr us0 j c v ↔ wr us0 (length us0) c v) as Hwr.
      { intros c v. split; intros (j' & t & Hlt & H1 & H2 & H3); exists j', t; split_and!; try done; [by eapply lookup_lt_Some|lia]. }
      intros e0 c v. rewrite Hh. setoid_rewrite Hwr. done.
    - assert (us0 !! j = Some u ∧ us = drop (S j) us0) as [Hj Hus'].
      { destruct (us0 !! j) as [u'|] eqn:Hj.
        - rewrite (drop_S _ _ _ Hj) in Hus. by injection Hus as <- <-.
        - apply lookup_ge_None in Hj. rewrite drop_ge in Hus; [done|lia]. }
      destruct u as [v|].
      + destruct (Hf _ _ Hj) as (t & Hp & Hv). destruct (amid_store f n e j t v Ha He Hp Hv) as (f' & c & Hst & Ha' & Ht & Hsets).
        rewrite (bind_done_nil _ _ f () f'). 2:{ by rewrite (bind_done_nil _ _ _ _ _ Hst). }
        apply IH; [done..|]. destruct (wr_some us0 j t c v Hj Hp Ht) as [Hno Hwr]. intros e0 c0 v0. rewrite Hsets Hh. setoid_rewrite Hwr.
        destruct (decide (e0 = e)) as [->|Hd]; [|naive_solver]. destruct (decide (c0 = c)) as [->|Hd]; [|naive_solver]. naive_solver.
      + rewrite (bind_done_nil _ _ f () f eq_refl). apply IH; [done..|]. intros e0 c0 v0. rewrite Hh. setoid_rewrite (wr_none us0 j Hj). done.
  Qed.

  (** What holds after [n] items. *)
  Definition done_upto (w : world) (n : nat) : Prop := ∀ e c v,
    holds w e c v ↔ (e ∈ take n es ∧ new_value w0 ps g e c v) ∨ (holds w0 e c v ∧ ¬ (e ∈ take n es ∧ ∃ v', new_value w0 ps g e c v')).
  Lemma sees_fun e p x y : sees w0 e p x → sees w0 e p y → x = y.
  Proof.
    rewrite /sees. destruct (param_ty p) as [t|]; [|by intros -> ->]. intros (c & v & H1 & H2 & ->) (c' & v' & H1' & H2' & ->).
    destruct (sv_world _ (reachable_inv _ (freachable_reachable _ Hre0))) as [[R Hw] _]. rewrite /type_id in H1, H1'. rewrite H1 in H1'. injection H1' as <-.
    by rewrite (holds_fun _ _ _ _ _ _ Hw H2 H2').
  Qed.
  Lemma fresh_row n e : es !! n = Some e → e ∉ take n es.
  Proof.
    intros He (k & Hk)%elem_of_list_lookup. destruct Hes as [Hnd _]. pose proof (lookup_lt_Some _ _ _ Hk) as Hl. rewrite take_length in Hl.
    rewrite lookup_take in Hk; [|lia]. pose proof (NoDup_lookup _ _ _ _ Hnd He Hk). lia.
  Qed.
  Lemma loop_ok fuel n f : amid f n → done_upto (ss_world (fs_sess f)) n → n ≤ length es → length es - n < fuel →
    ∃ f', each_next g i n fuel f = Done (length es) f' [] ∧ amid f' (S (length es)) ∧ done_upto (ss_world (fs_sess f')) (length es).
  Proof.
    revert n f. induction fuel as [|fuel IH]; intros n f Ha Hd Hle Hfuel; [lia|]. cbn [each_next].
    destruct (amid_next f n Ha) as (f1 & Ha1 & Hf1 & Hn). destruct (es !! n) as [e|] eqn:He.
    2:{ rewrite (bind_done_nil _ _ _ _ _ Hn). apply lookup_ge_None in He. assert (n = length es) as -> by lia. exists f1. split; [done|]. split; [done|]. by rewrite Hf1. }
    destruct Hn as (xs & Hstep & Hy). rewrite (bind_done_nil _ _ _ _ _ Hstep). pose proof (fresh_row n e He) as Hfresh.
    pose proof Ha as (_ & _ & Hs & _).
    assert (Forall2 (sees w0 e) ps xs.*2) as Hsees.
    { apply Forall2_fmap_r. eapply Forall2_impl; [exact Hy|]. intros p x Hx. rewrite /yields in Hx. rewrite /sees. destruct (param_ty p) as [t|]; [|tauto].
      destruct Hx as (c & v & H1 & H2 & H3 & _). exists c, v. split; [by apply (types_shape _ _ Hs)|]. split; [|done].
      apply Hd in H2 as [[? _]|[? _]]; done. }
    assert (∀ c v, new_value w0 ps g e c v ↔ wr (g xs.*2) (length (g xs.*2)) c v) as Hnv.
    { intros c v. split.
      - intros (_ & xs' & j & t & H1 & H2 & H3 & H4). assert (xs' = xs.*2) as ->.
        { clear -H1 Hsees Hre0 Hi Hne Hu0 Hc0 Hes Hfits. revert H1 Hsees. generalize (xs.*2). generalize ps. intros l ys H. revert ys. induction H; intros ys H'; inversion H'; subst; [done|]. f_equal; [by eapply sees_fun|by apply IHForall2]. }
        exists j, t. split_and!; try done. by eapply lookup_lt_Some.
      - intros (j & t & _ & H1 & H2 & H3). split; [apply Hes; by eapply elem_of_list_lookup_2|]. by exists xs.*2, j, t. }
    destruct (row_loop n e (g xs.*2) (g xs.*2) 0 f1 (ss_world (fs_sess f))) as (f2 & Hrow & Ha2 & Hh2); [done|done|done|intros; by eapply Hfits|..].
    { intros e0 c v. rewrite Hf1. split; [|intros [(_ & j & t & Hlt & _)|[? _]]; [lia|done]]. intros Hh. right. split; [done|]. intros (_ & v' & j & t & Hlt & _). lia. }
    rewrite (bind_done_nil _ _ _ _ _ Hrow). apply lookup_lt_Some in He as Hlt. apply IH; [done| |lia|lia].
    intros e0 c v. rewrite Hh2 (Hd e0 c v) (take_S_r _ _ _ He). setoid_rewrite elem_of_app. setoid_rewrite elem_of_list_singleton.
    destruct (decide (e0 = e)) as [->|Hd0].
    - setoid_rewrite <- Hnv. naive_solver.
    - naive_solver.
  Qed.
  Lemma for_each_ok fuel : length es < fuel →
    ∃ f', for_each g i fuel f0 = Done (length es) f' [] ∧ ss_open (fs_sess f') = ss_open (fs_sess f0) ∧ fs_iters f' = delete i (fs_iters f0) ∧
      freachable f' ∧ only_stores (fs_sess f0) (fs_sess f') ∧ shape w0 (ss_world (fs_sess f')) ∧ all_updated w0 (ss_world (fs_sess f')) ps g.
  Proof.
    intros Hfuel. assert (fstep (FIter i) f0 = Done FNothing (answered f0 i (FlRefs it [])) []) as Hst.
    { cbn [fstep]. rewrite (bind_done_nil _ _ f0 () (ended f0 i) eq_refl) (bind_done_nil _ _ (ended f0 i) (ended f0 i) (ended f0 i) eq_refl).
      cbn [ended fs_sess]. rewrite Hi. destruct Hc0 as [Hit _]. rewrite /bind in_fworld_run. cbn [fs_sess fs_iters]. rewrite Hit. cbn. by rewrite sess_eta fly_delete. }
    rewrite /for_each (bind_done_nil _ _ _ _ _ Hst).
    destruct (loop_ok fuel 0 (answered f0 i (FlRefs it []))) as (f1 & Hl & Ha1 & Hd1); [..|lia|lia|].
    { split; [by apply (freachable_done f0 (FIter i) _ _ _ Hre0 I I Hst)|]. split; [done|]. split; [apply shape_refl|]. split; [apply only_stores_refl|]. by exists it, []. }
    { intros e c v. rewrite take_0. split; [|intros [[?%elem_of_nil _]|[? _]]; done]. intros Hh. right. split; [done|]. by intros [?%elem_of_nil _]. }
    rewrite (bind_done_nil _ _ _ _ _ Hl). destruct Ha1 as (Hre & Ho & Hs & Hos & itc & seen & _ & Hfl).
    rewrite (bind_done_nil _ _ f1 FNothing (ended f1 i) eq_refl). exists (ended f1 i). split; [done|]. split; [done|]. split; [by rewrite /= Hfl delete_insert_delete|].
    split; [by apply (freachable_done f1 (FEnd i) FNothing _ [] Hre I I eq_refl)|]. split; [done|]. split; [done|]. split; [by apply lives_shape|]. split; [by apply stored_shape|]. split; [by apply types_shape|].
    intros e c v. cbn [ended fs_sess]. rewrite (Hd1 e c v) take_ge //. assert (∀ v, new_value w0 ps g e c v → e ∈ es) as Hin by (intros ? [? _]; by apply Hes). naive_solver.
  Qed.
End loop.
Local Set Default Proof Using "Type".

Lemma loop_updates' f i q g : freachable f → ss_open (fs_sess f) !! i = Some (Some (QStat q)) → sq_params q ≠ [] →
  types_in_use (ss_world (fs_sess f)) (sq_params q) → writes_fit (sq_params q) g →
  ∃ es, enumerates (wants (ss_world (fs_sess f)) (sq_params q)) es ∧
    ∀ fuel, length es < fuel → ∃ f', for_each g i fuel f = Done (length es) f' [] ∧
      ss_open (fs_sess f') = ss_open (fs_sess f) ∧ fs_iters f' = delete i (fs_iters f) ∧ freachable f' ∧
      only_stores (fs_sess f) (fs_sess f') ∧ shape (ss_world (fs_sess f)) (ss_world (fs_sess f')) ∧
      all_updated (ss_world (fs_sess f)) (ss_world (fs_sess f')) (sq_params q) g.
Proof.
  intros Hre Hi Hne Hu Hf. destruct (static_exact (fs_sess f) i q) as (fs & it & es & _ & _ & _ & Hc & Hes & _); [by apply freachable_reachable|done..|].
  exists es. split; [done|]. intros fuel Hfuel. by eapply for_each_ok.
Qed.
Lemma loop_updates f i q g : freachable f → ss_open (fs_sess f) !! i = Some (Some (QStat q)) → sq_params q ≠ [] →
  types_in_use (ss_world (fs_sess f)) (sq_params q) → writes_fit (sq_params q) g →
  ∃ es, enumerates (wants (ss_world (fs_sess f)) (sq_params q)) es ∧
    ∀ fuel, length es < fuel → ∃ f', for_each g i fuel f = Done (length es) f' [] ∧
      ss_open (fs_sess f') = ss_open (fs_sess f) ∧ fs_iters f' = delete i (fs_iters f) ∧ freachable f' ∧
      all_updated (ss_world (fs_sess f)) (ss_world (fs_sess f')) (sq_params q) g.
Proof.
  intros Hre Hi Hne Hu Hf. destruct (loop_updates' f i q g Hre Hi Hne Hu Hf) as (es & Hes & H). exists es. split; [done|]. intros fuel Hfuel.
  destruct (H fuel Hfuel) as (f' & H1 & H2 & H3 & H4 & _ & _ & H5). by exists f'.
Qed.
Lemma loop_nothing f i q g fuel : freachable f → ss_open (fs_sess f) !! i = Some (Some (QStat q)) → unregistered (ss_world (fs_sess f)) (sq_params q) →
  0 < fuel → for_each g i fuel f = Done 0 (ended f i) [].
Proof.
  intros Hre Hi Hun Hfuel. pose proof (freachable_reachable _ Hre) as Hs. pose proof (reachable_inv _ Hs) as Hsi.
  assert (sq_fetches q = None) as Hfs.
  { destruct (sv_open _ Hsi _ _ Hi) as (Hres & _). rewrite /resolved in Hres. destruct (sq_fetches q) as [fs|]; [|done]. exfalso.
    destruct Hun as (p & t & (j & Hp)%elem_of_list_lookup & Ht & Hn). destruct (Forall2_lookup_l _ _ _ _ _ Hres Hp) as (x & _ & Hx).
    destruct p as [t'|t'|]; cbn in Hx, Ht; [..|done]; injection Ht as ->; destruct (w_types (ss_world (fs_sess f)) !! t) as [c|] eqn:Hc; try done; by apply (Hn c). }
  pose proof (flight_start f i _ Hre Hi) as Hst. destruct (fstep (FIter i) f) as [r f1 ev|r f1 ev| |] eqn:E; [| |done..].
  2:{ destruct Hst as (_ & _ & fs & H & _). cbn in H. congruence. }
  destruct Hst as (-> & -> & [it seen|it seen|it seen] & -> & Hseen); try done. subst seen.
  destruct fuel as [|fuel]; [lia|].
  pose proof (freachable_done f (FIter i) _ _ _ Hre I I E) as Hre1. pose proof (freachable_ok _ Hre1) as [Hre1' Hfv].
  destruct (next_refs _ Hre1' Hfv i it []) as (q' & rs0 & Hq' & Hrs0 & Hseen & Hn); [by rewrite /= lookup_insert|].
  cbn [answered fs_sess] in Hq', Hn. rewrite Hi in Hq'. injection Hq' as <-. destruct (sv_world _ Hsi) as [[R Hw] Hroom].
  pose proof (static_rows_at _ _ Hw Hroom q (sv_open _ Hsi _ _ Hi)) as Hx. rewrite Hfs in Hx. rewrite (Hx 1) in Hn.
  destruct Hn as (_ & _ & o & it' & Ho & _ & Hn). destruct rs0 as [|r0 rs0]; [|done]. injection Ho as <-.
  assert (each_next g i 0 (S fuel) (answered f i (FlRefs it [])) = Done 0 (answered (answered f i (FlRefs it [])) i (FlRefs it' ([] ++ [row_ptrs None]))) []) as Hl.
  { cbn [each_next]. by rewrite (bind_done_nil _ _ _ _ _ Hn). }
  rewrite /for_each (bind_done_nil _ _ _ _ _ E) (bind_done_nil _ _ _ _ _ Hl). rewrite /ended /answered /bind /=. by rewrite !delete_insert_delete.
Qed.

(** ** Whole runs *)
Lemma drop_run s i q b : ss_open s !! i = Some (Some q) →
  ∃ ls, sstep (SDrop i b) s = Done SNothing (Sess (set_locks ls (ss_world s)) (<[i := None]> (ss_open s))) [].
Proof.
  intros Hi. cbn [sstep]. rewrite (bind_done_nil _ _ s s s eq_refl) Hi.
  destruct (release_all_locks b (oq_guards q) (ss_world s)) as (ls & Hls & _). exists ls.
  rewrite /bind in_sworld_run /modify /close_query /modify. cbn [ss_world ss_open]. by rewrite Hls.
Qed.
Lemma all_updated_locks w w' ps g ls ls' : all_updated w w' ps g → all_updated (set_locks ls w) (set_locks ls' w') ps g.
Proof.
  intros (H1 & H2 & H3 & H4). split; [|split; [exact H2|split; [exact H3|exact H4]]].
  intros e He. pose proof (lives_shape _ _ (shape_locks w ls) e He) as Ha. pose proof (lives_shape _ _ (shape_locks w' ls') e He) as Hb. by rewrite Hb Ha H1.
Qed.
Lemma only_stores_history l s s' : steps sess_new l s → no_forget l → no_unwinding l → only_stores s s' →
  ∃ l', steps sess_new l' s' ∧ no_forget l' ∧ no_unwinding l'.
Proof.
  intros Hst Hf [Hu1 Hu2] (l2 & Hst2 & Hall). exists (l ++ l2). split; [by eapply steps_trans|].
  assert (∀ o, o ∈ calls_of (l ++ l2) → o ∈ calls_of l ∨ ∃ i n j v, o = SStore i n j v) as Hc.
  { intros o. rewrite /calls_of !fmap_app elem_of_app. intros [H|H]; [by left|right]. apply elem_of_list_fmap in H as (x & -> & H). apply elem_of_list_fmap in H as (y & -> & H).
    eapply Forall_forall in Hall as (i & n & j & v & ->); [|exact H]. by eexists _, _, _, _. }
  split; [|split].
  - intros i [H|(? & ? & ? & ? & ?)]%Hc; [by apply (Hf i)|done].
  - intros i [H|(? & ? & ? & ? & ?)]%Hc; [by apply (Hu1 i)|done].
  - intros o r ev. rewrite elem_of_app. intros [H|H]; [by eapply Hu2|]. by eapply Forall_forall in Hall as (i & n & j & v & [=]); [|exact H].
Qed.
Section run.
  Context (ps : list param) (g : list item → list (option value)).
  Context (Hwf : Forall param_wf ps) (Htame : Forall param_tame ps) (Hne : ps ≠ []) (Hun : unshared ps) (Hfits : writes_fit ps g).
  Local Set Default Proof Using "All".

  Lemma run_ok l s : closed_by l s → types_in_use (ss_world s) ps →
    ∃ es, enumerates (wants (ss_world s) ps) es ∧ ∀ fuel, length es < fuel →
      ∃ l' s', run_query ps g fuel (FSess s ∅) = Done (length es) (FSess s' ∅) [] ∧ closed_by l' s' ∧ shape (ss_world s) (ss_world s') ∧
        all_updated (ss_world s) (ss_world s') ps g.
  Proof.
    intros (Hst & Hf & Hu & Hop) Huse. assert (reachable s) as Hs by (by exists l). destruct (sv_world _ (reachable_inv _ Hs)) as [[R Hw] Hroom].
    assert (open_fetches s = []) as Hof. { rewrite /open_fetches. clear -Hop. induction Hop as [|q ? -> _ IH]; [done|]. cbn. done. }
    destruct (creates_static l s ps Hst Hf Hu Hwf Htame) as (s1 & q & E & Hop1 & Hq & _).
    { intros fs Hfs. rewrite Hof /=. intros j j' c f Hjj Hj Hj' Hfc. exfalso. apply Hjj.
      destruct (Forall2_lookup_r _ _ _ _ _ Hfs Hj) as (p & Hp & Ha). destruct (Forall2_lookup_r _ _ _ _ _ Hfs Hj') as (p' & Hp' & Ha').
      destruct p as [t|t|]; cbn in Ha; [|by destruct Ha as (? & _ & ?)|done]. destruct Ha as (c0 & Ht & [= <-]).
      assert (param_ty p' = Some t) as Hpt.
      { destruct p' as [t'|t'|]; cbn in Ha'; [..|by subst f]; destruct Ha' as (c' & Ht' & ->); injection Hfc as ->; cbn; f_equal; by eapply (wi_types_inj _ _ Hw). }
      by eapply Hun. }
    { intros (p & t & c & Hp & Ht & Hc & Hiu). destruct (Huse p t Hp Ht) as (c' & Hc' & Hiu'). rewrite /type_id in Hc, Hc'. rewrite Hc in Hc'. by injection Hc' as <-. }
    set (i := length (ss_open s)) in *.
    assert (steps sess_new (l ++ [(SOpenStat ps, ROk (SHandle i), [])]) s1) as Hst1 by by eapply steps_done.
    assert (ss_open s1 !! i = Some (Some (QStat q))) as Hi1 by by rewrite Hop1 lookup_app_r // Nat.sub_diag.
    destruct (opens_released s (SOpenStat ps) _ s1 [] Hs I E) as (i' & [= <-] & E2). fold i in E2.
    destruct (drop_run s1 i _ false Hi1) as (ls & E2'). rewrite E2 in E2'. injection E2' as Hw1 Hop2.
    assert (shape (ss_world s1) (ss_world s)) as Hsh by (rewrite Hw1; apply shape_locks).
    assert (reachable s1) as Hs1 by by eexists.
    destruct (loop_updates' (FSess s1 ∅) i q g) as (es & Hes & Hloop).
    { by apply reachable_freachable. } { done. } { by rewrite Hq. } { rewrite Hq. cbn. eapply types_in_use_shape; [by apply shape_sym|done]. } { by rewrite Hq. }
    rewrite Hq in Hes, Hloop. cbn [fs_sess fs_iters] in Hes, Hloop.
    exists es. split; [rewrite Hw1; exact Hes|]. intros fuel Hfuel. destruct (Hloop fuel Hfuel) as ([s2 its] & HR & Ho2 & Hits & Hre2 & Hos & Hsh2 & Hall).
    cbn [fs_sess fs_iters] in Ho2, Hits, Hos, Hsh2, Hall. rewrite delete_empty in Hits. subst its.
    assert (ss_open s2 !! i = Some (Some (QStat q))) as Hi2 by by rewrite Ho2. destruct (drop_run s2 i _ false Hi2) as (ls2 & E3).
    set (s3 := Sess (set_locks ls2 (ss_world s2)) (<[i := None]> (ss_open s2))) in *.
    destruct (only_stores_history _ _ s2 Hst1) as (l2 & Hst2 & Hf2 & Hu2); [by apply no_forget_snoc|by eapply no_unwinding_snoc|done|].
    exists (l2 ++ [(SDrop i false, ROk SNothing, [])]), s3. split; [|split; [|split]].
    - assert (fstep (FCall (SOpenStat ps)) (FSess s ∅) = Done (FRet (SHandle i)) (FSess s1 ∅) []) as F1 by (rewrite fcall_run; cbn [fs_sess]; by rewrite E).
      assert (fstep (FCall (SDrop i false)) (FSess s2 ∅) = Done (FRet SNothing) (FSess s3 ∅) []) as F2 by (rewrite fcall_run; cbn [fs_sess]; by rewrite E3 /= delete_empty).
      rewrite /run_query (bind_done_nil _ _ _ _ _ F1) (bind_done_nil _ _ _ _ _ HR) (bind_done_nil _ _ _ _ _ F2). done.
    - split; [by eapply steps_done|]. split; [by apply no_forget_snoc|]. split; [by eapply no_unwinding_snoc|].
      cbn. rewrite Ho2 Hop1 insert_app_r_alt // Nat.sub_diag /=. apply Forall_app. split; [done|by constructor].
    - cbn. eapply shape_trans; [by apply shape_sym|]. eapply shape_trans; [done|]. apply shape_locks.
    - cbn. rewrite Hw1. by apply all_updated_locks.
  Qed.
  Lemma runs_ok m : ∀ l s es, closed_by l s → types_in_use (ss_world s) ps → enumerates (wants (ss_world s) ps) es → ∀ fuel, length es < fuel →
    ∃ l' s', run_queries ps g fuel m (FSess s ∅) = Done () (FSess s' ∅) [] ∧ closed_by l' s' ∧
      nsteps (λ w w', all_updated w w' ps g) m (ss_world s) (ss_world s').
  Proof.
    induction m as [|m IH]; intros l s es Hcl Hu Hes fuel Hfuel; [exists l, s; split; [done|]; split; [done|constructor]|].
    destruct (run_ok l s Hcl Hu) as (es' & Hes' & Hrun). assert (length es' = length es) as Hlen.
    { apply Permutation_length, NoDup_Permutation; [apply Hes'|apply Hes|]. intros e. destruct Hes as [_ H1], Hes' as [_ H2]. by rewrite H1 H2. }
    destruct (Hrun fuel) as (l1 & s1 & E & Hcl1 & Hsh & Hall); [lia|].
    assert (∀ e, wants (ss_world s1) ps e ↔ wants (ss_world s) ps e) as Hwants.
    { destruct Hcl as (Hst & _), Hcl1 as (Hst1 & _). intros e. apply wants_shape; [apply (sv_world _ (reachable_inv s1 (ex_intro _ _ Hst1)))|apply (sv_world _ (reachable_inv s (ex_intro _ _ Hst)))|done]. }
    destruct (IH l1 s1 es Hcl1 (types_in_use_shape _ _ _ Hsh Hu)) with (fuel := fuel) as (l2 & s2 & E2 & Hcl2 & Hn2); [|done|].
    { destruct Hes as [H1 H2]. split; [done|]. intros e. by rewrite H2 Hwants. }
    exists l2, s2. split; [|split; [done|by econstructor]]. cbn [run_queries]. by rewrite (bind_done_nil _ _ _ _ _ E).
  Qed.
End run.
Local Set Default Proof Using "Type".
Lemma run_updates ps g l s : Forall param_wf ps → Forall param_tame ps → ps ≠ [] → unshared ps → writes_fit ps g →
  closed_by l s → types_in_use (ss_world s) ps →
  ∃ es, enumerates (wants (ss_world s) ps) es ∧ ∀ fuel, length es < fuel →
    ∃ l' s', run_query ps g fuel (FSess s ∅) = Done (length es) (FSess s' ∅) [] ∧ closed_by l' s' ∧ all_updated (ss_world s) (ss_world s') ps g.
Proof.
  intros H1 H2 H3 H4 H5 H6 H7. destruct (run_ok ps g H1 H2 H3 H4 H5 l s H6 H7) as (es & Hes & H). exists es. split; [done|]. intros fuel Hf.
  destruct (H fuel Hf) as (l' & s' & Ha & Hb & _ & Hc). by exists l', s'.
Qed.
Lemma runs_update ps g l s m : Forall param_wf ps → Forall param_tame ps → ps ≠ [] → unshared ps → writes_fit ps g →
  closed_by l s → types_in_use (ss_world s) ps →
  ∃ N, ∀ fuel, N < fuel → ∃ l' s', run_queries ps g fuel m (FSess s ∅) = Done () (FSess s' ∅) [] ∧ closed_by l' s' ∧
    nsteps (λ w w', all_updated w w' ps g) m (ss_world s) (ss_world s').
Proof.
  intros H1 H2 H3 H4 H5 H6 H7. destruct (run_ok ps g H1 H2 H3 H4 H5 l s H6 H7) as (es & Hes & _). exists (length es). intros fuel Hf. by eapply runs_ok.
Qed.
