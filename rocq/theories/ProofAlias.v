(** * Pointers of different items, and writing through them *)
From Verif Require Import ProofBase SpecSmall World History ProofEntities ProofBitset ProofArrayVec ProofUVec.
From Verif Require Export ProofRows.

(** *** Positions in a flattened list *)
Definition offset {A B} (F : A → list B) (l : list A) (i : nat) : nat := length (take i l ≫= F).
Lemma offset_S {A B} (F : A → list B) z l i : offset F (z :: l) (S i) = length (F z) + offset F l i.
Proof. by rewrite /offset firstn_cons bind_cons app_length. Qed.
Lemma offset_lookup {A B} (F : A → list B) l i x j y : l !! i = Some x → F x !! j = Some y → (l ≫= F) !! (offset F l i + j) = Some y.
Proof.
  revert i. induction l as [|z l IH]; intros i Hi Hj; [done|]. rewrite bind_cons. destruct i as [|i]; cbn in Hi.
  - injection Hi as ->. by apply lookup_app_l_Some.
  - rewrite offset_S lookup_app_r; [|lia]. rewrite (_ : _ + _ - _ = offset F l i + j); [|lia]. by apply IH.
Qed.
Lemma offset_lt {A B} (F : A → list B) l i i' x : l !! i = Some x → i < i' → offset F l i + length (F x) ≤ offset F l i'.
Proof.
  revert i i'. induction l as [|z l IH]; intros i i' Hi Hlt; [done|]. destruct i' as [|i']; [lia|]. rewrite offset_S. destruct i as [|i]; cbn in Hi.
  - injection Hi as ->. rewrite {1}/offset /=. lia.
  - specialize (IH i i' Hi ltac:(lia)). rewrite offset_S. lia.
Qed.
Lemma offset_inj {A B} (F : A → list B) l i x j y i' x' j' y' :
  l !! i = Some x → F x !! j = Some y → l !! i' = Some x' → F x' !! j' = Some y' → (i, j) ≠ (i', j') →
  offset F l i + j ≠ offset F l i' + j'.
Proof.
  intros Hi Hj Hi' Hj' Hne. apply lookup_lt_Some in Hj, Hj'. destruct (decide (i = i')) as [->|Hn].
  - simplify_eq. intros ?. apply Hne. f_equal. lia.
  - destruct (decide (i < i')) as [H|H].
    + pose proof (offset_lt F l i i' x Hi H). lia.
    + pose proof (offset_lt F l i' i x' Hi' ltac:(lia)). lia.
Qed.

Lemma open_fetches_at s i q fs j f : ss_open s !! i = Some (Some q) → oq_fetches (ss_world s) q = Some fs → fs !! j = Some f →
  let F := λ o, match o with
                | Some (QDyn q) => dq_fetches q
                | Some (QStat q) => default [] (sq_fetches q)
                | None => []
                end in F (Some q) !! j = Some f.
Proof. intros _ Hfs Hj. destruct q as [q|q]; cbn in *; [by injection Hfs as ->|by rewrite Hfs]. Qed.
Lemma open_exclusive_at s i q fs j c i' q' fs' j' f : reachable s →
  ss_open s !! i = Some (Some q) → oq_fetches (ss_world s) q = Some fs → fs !! j = Some (FMut c) →
  ss_open s !! i' = Some (Some q') → oq_fetches (ss_world s) q' = Some fs' → fs' !! j' = Some f → fetch_id f = Some c →
  (i, j) ≠ (i', j') → ¬ known (ss_world s) c.
Proof.
  intros Hs Hi Hfs Hj Hi' Hfs' Hj' Hf Hne. pose proof (open_exclusive _ Hs) as Hex.
  pose proof (open_fetches_at s i q fs j _ Hi Hfs Hj) as H1. pose proof (open_fetches_at s i' q' fs' j' _ Hi' Hfs' Hj') as H2. cbn zeta in H1, H2.
  eapply (Hex _ _ c f); [|eapply offset_lookup; [exact Hi|exact H1]|eapply offset_lookup; [exact Hi'|exact H2]|done].
  by eapply offset_inj.
Qed.

(** *** Different pointers do not overlap *)
Lemma open_apart s i fs n ps j c p i' fs' n' ps' j' f p' : reachable s →
  open_row s i fs n ps → fs !! j = Some (FMut c) → ps !! j = Some p →
  open_row s i' fs' n' ps' → fs' !! j' = Some f → ps' !! j' = Some p' →
  (i, n, j) ≠ (i', n', j') → apart p (fetch_size (ss_world s) (FMut c)) p' (fetch_size (ss_world s) f).
Proof.
  intros Hre (q & Hi & Hfs & Hrow) Hj Hp (q' & Hi' & Hfs' & Hrow') Hj' Hp' Hne.
  pose proof (reachable_inv _ Hre) as Hs. destruct (sv_world _ Hs) as [[R Hw] Hroom]. set (w := ss_world s) in *.
  destruct (query_positions _ _ _ _ Hw Hroom (sv_open _ Hs _ _ Hi) Hfs) as (S0 & Hnd & Hpos).
  assert (∃ S0', (i = i' → S0' = S0) ∧ ∀ n ps w' ev, query_item q' n w = Done (Some ps) w' ev →
    ∃ p, S0' !! n = Some p ∧ good_row w fs' p ∧ ps = pos_ptrs w fs' p) as (S0' & Hsame & Hpos').
  { destruct (decide (i = i')) as [<-|Hd]; [simplify_eq; eauto|].
    destruct (query_positions _ _ _ _ Hw Hroom (sv_open _ Hs _ _ Hi') Hfs') as (S0' & _ & Hpos'). by exists S0'. }
  destruct (Hpos _ _ _ _ Hrow) as ([k m] & Hn & (a & e & Ha & Hm & Hpl) & ->). destruct (Hpos' _ _ _ _ Hrow') as ([k' m'] & Hn' & (a' & e' & Ha' & Hm' & Hpl') & ->).
  cbn [fst snd] in *. rewrite /pos_ptrs /= Ha list_lookup_fmap Hj in Hp. injection Hp as <-. rewrite /pos_ptrs /= Ha' list_lookup_fmap Hj' in Hp'. injection Hp' as <-.
  assert (c ∈ a_comp_ids a) as Hc by (eapply Hm; [by eapply elem_of_list_lookup_2|done]).
  rewrite -(fetch_size_fptr _ _ Hw Hroom k a m (FMut c) Ha); [|by intros ? [= <-]].
  rewrite -(fetch_size_fptr _ _ Hw Hroom k' a' m' f Ha'); [|intros c' Hc'; eapply Hm'; [by eapply elem_of_list_lookup_2|done]].
  destruct (fptr_comp _ _ Hw k a m (FMut c) c Ha eq_refl Hc) as (js & u & Hjs & ->). cbn [fst snd].
  destruct (fetch_id f) as [c'|] eqn:Ef; [|by rewrite /fptr Ef].
  assert (c' ∈ a_comp_ids a') as Hc' by (eapply Hm'; [by eapply elem_of_list_lookup_2|done]).
  destruct (fptr_comp _ _ Hw k' a' m' f c' Ha' Ef Hc') as (js' & u' & Hjs' & ->). cbn [fst snd apart].
  destruct (decide ((k, js) = (k', js'))) as [[= <- <-]|Hd]; [right|by left]. simplify_eq.
  assert (m ≠ m') as Hmm.
  2:{ destruct (decide (m < m')); [left|right]; nia. }
  intros <-. destruct (decide ((i, j) = (i', j'))) as [[= <- <-]|Hij].
  - rewrite (Hsame eq_refl) in Hn'. apply Hne. do 2 f_equal. by eapply NoDup_lookup.
  - destruct (open_exclusive_at s i q fs j c i' q' fs' j' f Hre Hi Hfs Hj Hi' Hfs' Hj' Ef Hij).
    eapply (in_use_known _ _ _ Hw), (in_use_ids _ _ Hw). exists k, (a_comp_ids a). split; [apply arch_ids_lookup; eauto|done].
Qed.

(** *** What the pointers designate *)
Lemma open_row_at s i fs n ps : sinv s → open_row s i fs n ps →
  ∃ k m a e, w_archs (ss_world s) !! k = Some a ∧ matching fs a ∧ placed (ss_world s) e k m ∧ ps = (λ f, (fptr k a m f).1) <$> fs.
Proof.
  intros Hs (q & Hi & Hfs & Hrow). destruct (sv_world _ Hs) as [[R Hw] Hroom].
  destruct (query_positions _ _ _ _ Hw Hroom (sv_open _ Hs _ _ Hi) Hfs) as (S0 & Hnd & Hpos).
  destruct (Hpos _ _ _ _ Hrow) as ([k m] & Hn & (a & e & Ha & Hm & Hpl) & ->). exists k, m, a, e. rewrite /pos_ptrs /=. cbn in Ha. by rewrite Ha.
Qed.
Lemma open_row_shows s i fs n ps : reachable s → open_row s i fs n ps →
  ∃ e, wanted (ss_world s) fs e ∧ shows_row (ss_world s) fs e ps.
Proof.
  intros Hs%reachable_inv Hr. destruct (sv_world _ Hs) as [[R Hw] Hroom]. destruct (open_row_at _ _ _ _ _ Hs Hr) as (k & m & a & e & Ha & Hm & Hp & ->).
  exists e. split; [by eapply (wanted_matching _ _ Hw)|]. apply Forall2_fmap_r, Forall_Forall2_diag, Forall_forall. intros f Hf.
  eapply (fptr_shows _ _ Hw); [done..|]. intros c Hc. by eapply Hm.
Qed.
Lemma open_row_bounds s i fs n ps j f p : reachable s → open_row s i fs n ps → fs !! j = Some f → ps !! j = Some p →
  in_bounds (ss_world s) p (fetch_size (ss_world s) f).
Proof.
  intros Hs%reachable_inv Hr Hj Hp. destruct (sv_world _ Hs) as [[R Hw] Hroom]. destruct (open_row_at _ _ _ _ _ Hs Hr) as (k & m & a & e & Ha & Hm & Hpl & ->).
  rewrite list_lookup_fmap Hj in Hp. injection Hp as <-. assert (∀ c, fetch_id f = Some c → c ∈ a_comp_ids a) as Hf.
  { intros c Hc. eapply Hm; [by eapply elem_of_list_lookup_2|done]. }
  rewrite -(fetch_size_fptr _ _ Hw Hroom k a m f Ha Hf).
  destruct (placed_get _ _ Hw _ _ _ Hpl) as (a' & rs & mm & Ha' & He & Hrs & Hrow). simplify_eq.
  rewrite /in_bounds. destruct (fetch_id f) as [c|] eqn:Ef.
  - destruct (fptr_comp _ _ Hw k a m f c Ha Ef (Hf c eq_refl)) as (js & u & Hjs & ->). cbn. rewrite Ha /= Hjs /=.
    eexists. split; [done|]. destruct (decide (uv_size u = 0)) as [Hz|Hnz].
    + rewrite Hz. lia.
    + destruct (column_extent _ _ Hw _ _ _ _ _ _ _ _ _ Hrs Hrow Ha Hjs Hnz) as (mem & -> & Hle & _). lia.
  - rewrite /fptr Ef. cbn [fst snd ptr_extent ptr_off]. rewrite Ha /=. eexists. split; [done|]. apply lookup_lt_Some in He.
    rewrite /ecsid_size. lia.
Qed.
Lemma open_row_aligned s i fs n ps j f c cm p : reachable s → open_row s i fs n ps → fs !! j = Some f → fetch_id f = Some c → ps !! j = Some p →
  recorded (ss_world s) c cm → cm_size cm ≠ 0 → cm_size cm mod l_align (cm_layout cm) = 0 → col_aligned (ss_world s) p (l_align (cm_layout cm)) = true.
Proof.
  intros Hs%reachable_inv Hr Hj Ef Hp Hrec Hsz Hmod. destruct (sv_world _ Hs) as [[R Hw] Hroom]. destruct (open_row_at _ _ _ _ _ Hs Hr) as (k & m & a & e & Ha & Hm & Hpl & ->).
  rewrite list_lookup_fmap Hj in Hp. injection Hp as <-. assert (c ∈ a_comp_ids a) as Hc.
  { eapply Hm; [by eapply elem_of_list_lookup_2|done]. }
  destruct (placed_get _ _ Hw _ _ _ Hpl) as (a' & rs & mm & Ha' & He & Hrs & Hrow). simplify_eq.
  destruct (fptr_comp _ _ Hw k a m f c Ha Ef Hc) as (js & u & Hjs & ->). cbn [fst].
  destruct (column_value _ _ Hw _ _ _ _ _ _ _ _ _ Hrs Hrow Ha Hjs) as (v & cm' & _ & Hcm & Hti & _).
  assert (alive (w_ents (ss_world s)) c) as Hal by (eapply (wi_comps _ _ Hw k (a_comp_ids a)); [apply arch_ids_lookup; eauto|done]).
  apply (recorded_comp _ _ _ Hal) in Hrec. rewrite Hcm in Hrec. injection Hrec as ->.
  assert (uv_size u = cm_size cm) as Hus by by rewrite /uv_size Hti. assert (uv_align u = l_align (cm_layout cm)) as Hua by by rewrite /uv_align Hti.
  destruct (column_extent _ _ Hw _ _ _ _ _ _ _ _ _ Hrs Hrow Ha Hjs ltac:(congruence)) as (mem & Hd & _).
  rewrite /col_aligned Ha Hjs /= Hd Hua /ptr_aligned Hus.
  assert (l_align (cm_layout cm) ≠ 0) as Hnz. { intros E. rewrite E in Hmod. cbn in Hmod. done. }
  apply andb_true_iff. split; apply bool_decide_eq_true.
  - split; [done|]. by apply Nat.mod_same.
  - apply Nat.mod_divides in Hmod as [x ->]; [|done]. rewrite (Nat.mul_comm (l_align (cm_layout cm))) Nat.mul_assoc. by apply Nat.mod_mul.
Qed.

(** *** Writing through an item *)
Lemma open_store s i n j v : reachable s → sop_legal (SStore i n j v) s →
  match sstep (SStore i n j v) s with
  | Done r s' ev => r = SNothing ∧ ev = [] ∧ ss_open s' = ss_open s ∧
      ((s' = s ∧ ∀ fs ps, open_row s i fs n ps → ps !! j = None) ∨
       ∃ fs ps c e, open_row s i fs n ps ∧ fs !! j = Some (FMut c) ∧ shows_row (ss_world s) fs e ps ∧
         same_lives (ss_world s) (ss_world s') ∧ same_stored (ss_world s) (ss_world s') ∧ same_types (ss_world s) (ss_world s') ∧
         sets (ss_world s) (ss_world s') e c v)
  | Panicked r s' ev => s' = s ∧ ev = [] ∧ ∃ q fs, ss_open s !! i = Some (Some q) ∧ oq_fetches (ss_world s) q = Some fs ∧ left_over (ss_world s) fs
  | _ => False
  end.
Proof.
  intros Hre Hleg. pose proof (reachable_inv _ Hre) as Hs. cbn [sstep]. rewrite (bind_done_nil _ _ s s s eq_refl).
  destruct (ss_open s !! i) as [[q|]|] eqn:Hi.
  2,3: cbn; split_and!; [done..|]; left; (split; [done|]); intros fs ps (q & Hi' & _); congruence.
  destruct (Hleg _ Hi) as (fs & c & Hfs & Hj & Hv). destruct (sv_world _ Hs) as [[R Hw] Hroom].
  assert (match query_item q n (ss_world s) with
          | Done _ w' ev => w' = ss_world s ∧ ev = []
          | Panicked r w' ev => w' = ss_world s ∧ ev = [] ∧ left_over (ss_world s) fs
          | _ => False end) as Hrun.
  { destruct q as [q|q]; cbn in Hfs.
    - injection Hfs as <-. rewrite query_item_dyn. pose proof (open_dyn_fused s i q (S n) Hre Hi) as H.
      destruct (iter_dyn q (S n) (ss_world s)); naive_solver.
    - rewrite query_item_static. pose proof (open_static_fused s i q (S n) Hre Hi) as H.
      destruct (iter_static q (S n) (ss_world s)); naive_solver. }
  rewrite {1}/bind in_sworld_run. destruct (query_item q n (ss_world s)) as [o w' ev|r w' ev| |] eqn:Hit; [| |done..].
  2:{ destruct Hrun as (-> & -> & Hl). rewrite sess_eta. split_and!; [done..|]. exists q, fs. done. }
  destruct Hrun as (-> & ->). rewrite sess_eta. destruct (o ≫= (.!! j)) as [p|] eqn:Hp.
  2:{ cbn. split_and!; [done..|]. left. split; [done|]. intros fs' ps (q' & Hi' & _ & Hr). 
    simplify_eq. rewrite Hit in Hr. injection Hr as ->. exact Hp.
  }
  destruct o as [ps|]; [|done]. cbn in Hp. assert (open_row s i fs n ps) as Hrow by by exists q.
  destruct (query_positions _ _ _ _ Hw Hroom (sv_open _ Hs _ _ Hi) Hfs) as (S0 & _ & Hpos). destruct (Hpos _ _ _ _ Hit) as (pos & _ & Hg & Hps).
  rewrite Hps in Hp. destruct (ptr_store_run _ _ _ _ _ _ _ _ Hw Hg Hj Hv Hp) as (e & w' & He & Hst & Hd).
  rewrite /bind in_sworld_run Hst. cbn. split_and!; [done..|]. right. exists fs, ps, c, e. split; [exact Hrow|]. split; [exact Hj|].
  destruct (write_done_view _ _ _ _ _ _ Hw Hd) as (H1 & H2 & H3 & H4 & _). split; [|by split_and!].
  destruct Hg as (a & e' & Ha & Hm & _). rewrite Hps /pos_ptrs Ha. apply Forall2_fmap_r, Forall_Forall2_diag, Forall_forall. intros f Hf.
  eapply (fptr_shows _ _ Hw); [done..|]. intros c' Hc. by eapply Hm.
Qed.
