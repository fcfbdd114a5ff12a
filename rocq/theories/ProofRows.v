(** * The rows shown by the open queries of a session *)
From Verif Require Import ProofBase SpecSmall World History ProofEntities ProofBitset ProofArrayVec ProofUVec.
From Verif Require Export ProofAccess.

Lemma calls_nil {A} n : @calls A n [] = replicate n None.
Proof. rewrite /calls /=. apply take_ge. by rewrite replicate_length. Qed.
Lemma calls_length {A} n (l : list A) : length (calls n l) = n.
Proof. rewrite /calls take_length app_length replicate_length. lia. Qed.
Lemma calls_lookup {A} n (l : list A) i : i < n → calls n l !! i = Some (l !! i).
Proof.
  intros Hi. rewrite /calls lookup_take //. destruct (l !! i) as [x|] eqn:E.
  - apply lookup_app_l_Some. by rewrite list_lookup_fmap E.
  - apply lookup_ge_None in E. rewrite lookup_app_r; rewrite fmap_length //. apply lookup_replicate. split; [done|lia].
Qed.
Lemma calls_fused {A} n (l : list A) : fused (calls n l).
Proof.
  intros i j Hij. rewrite calls_length. intros Hj. rewrite !calls_lookup; [|lia..]. intros [= Hi]. f_equal.
  apply lookup_ge_None in Hi. apply lookup_ge_None. lia.
Qed.
Lemma ready_in_use w R fs : winv w R → ready w fs ↔ all_in_use w fs.
Proof.
  intros Hw. rewrite /ready /all_in_use. split; intros H f c Hf Hc.
  - destruct (H f c Hf Hc) as (k & a & Ha & Hin). apply (in_use_ids _ _ Hw). exists k, (a_comp_ids a). split; [|done]. apply arch_ids_lookup. eauto.
  - destruct (proj1 (in_use_ids _ _ Hw c) (H f c Hf Hc)) as (k & L & (a & Ha & <-)%arch_ids_lookup & Hin). eauto.
Qed.
Lemma in_use_locked w R fs : winv w R → all_in_use w fs → ¬ Exists (unlocked w) fs.
Proof.
  intros Hw Hu (f & Hf & (c & Hc & Hn)%(unlocked_unused _ _ _ Hw))%Exists_exists. apply Hn. eauto.
Qed.
Lemma locked_known w fs f c : ¬ Exists (unlocked w) fs → f ∈ fs → fetch_id f = Some c → known w c.
Proof.
  intros H Hf Hc. rewrite /known. destruct (w_lock_lookup w !! c) as [i|] eqn:E; [eauto|]. exfalso. apply H, Exists_exists. exists f. split; [done|]. by exists c.
Qed.
Lemma good_row_ready w fs p : good_row w fs p → ready w fs.
Proof. intros (a & e & Ha & Hm & _) f c Hf Hc. eauto. Qed.
Section open.
  Context (w : world) (R : list (list row)) (Hw : winv w R) (Hroom : room 0 w).
  Local Set Default Proof Using "Hw Hroom".

  Lemma dyn_rows_at q : open_ok w (QDyn q) →
    ∃ S0, NoDup S0 ∧ ∀ n,
      (iter_dyn q n w = Done (calls n (pos_ptrs w (dq_fetches q) <$> S0)) w [] ∧
       ∀ m p, m < n → S0 !! m = Some p → good_row w (dq_fetches q) p) ∨
      (∃ r, iter_dyn q n w = Panicked r w [] ∧ (r = RUnwrap ∨ r = RIndex) ∧ left_over w (dq_fetches q)).
  Proof.
    intros [_ Hinc]. destruct (dq_arch_iter_run _ _ Hw Hroom q) as [(b & Hb & Hv)|(Hb & Hi & f & c & Hf & Hc & Hx)].
    - assert (bi_inv b ∧ NoDup (future b) ∧ ∀ k, k ∈ future b → is_Some (w_archs w !! k)) as (H1 & H2 & H3).
      { destruct (dq_incomplete q).
        - destruct Hv as [? Hf]. split; [done|]. rewrite Hf. split; [constructor|]. by intros k ?%elem_of_nil.
        - destruct Hv as (? & Hs & ?). split; [done|]. split; [by apply lt_sorted_nodup|]. intros k. by eapply (visits_archs _ _ Hw Hroom). }
      destruct (dq_iter_at _ _ Hw Hroom q b Hb H1 H3) as (it & Hit & Hat & Hib).
      eexists. split; [exact (allrows_nodup _ _ Hw _ H2)|]. intros n. rewrite /iter_dyn (bind_done_nil _ _ _ _ _ Hit).
      destruct (di_run_run _ _ Hw _ n _ _ Hat) as [(it' & Hr & _ & Hg)|(Hr & Hu)].
      + left. rewrite (bind_done_nil _ _ _ _ _ Hr). split; [done|]. exact Hg.
      + right. exists RIndex. split; [by rewrite /bind Hr|]. split; [by right|]. rewrite Hib in Hu.
        destruct (dq_incomplete q) eqn:Hi.
        { destruct Hv as [_ Hf]. destruct Hu as (k & a & Hk & _). rewrite Hf in Hk. by apply elem_of_nil in Hk. }
        split.
        { intros f c Hf Hc. eapply locked_known; [|done..]. intros Hx%Hinc. done. }
        intros Hr'%(ready_in_use _ _ _ Hw). destruct Hu as (k & a & Hk & Ha & Hnm). apply Hnm. by eapply (ready_matching _ _ Hw Hroom).
    - exists []. split; [constructor|]. intros n. right. exists RUnwrap. split; [by rewrite /iter_dyn /dq_iter /bind Hb|]. split; [by left|].
      split.
      { intros f' c' Hf' Hc'. eapply locked_known; [|done..]. intros ?%Hinc. congruence. }
      intros Hr%(ready_in_use _ _ _ Hw). destruct (ready_bits _ _ Hw Hroom _ f c Hr Hf Hc). congruence.
  Qed.
  Lemma static_rows_at q : open_ok w (QStat q) →
    match sq_fetches q with
    | Some fs =>
        ∃ S0, NoDup S0 ∧ ∀ n,
          (iter_static q n w = Done (calls n (pos_items w (sq_params q) fs <$> S0)) w [] ∧
           ∀ m p, m < n → S0 !! m = Some p → good_row w fs p) ∨
          (iter_static q n w = Panicked RUnwrap w [] ∧ left_over w fs)
    | None => ∀ n, iter_static q n w = Done (replicate n None) w []
    end.
  Proof.
    intros (Hres & Htame & Hq). rewrite /resolved in Hres. destruct (sq_fetches q) as [fs|] eqn:Hfs.
    - destruct Hq as [_ Hnl]. assert (∀ f c, f ∈ fs → fetch_id f = Some c → known w c) as Hk by (intros; by eapply locked_known).
      destruct (arch_search_run _ _ Hw Hroom fs) as [(b & Hb & Hv)|(Hb & f & c & Hf & Hc & Hx)].
      + pose proof Hv as (H1 & H2 & _). assert (∀ k, k ∈ future b → is_Some (w_archs w !! k)) as H3 by (intros; by eapply (visits_archs _ _ Hw Hroom)).
        destruct (sq_iter_at _ _ Hw Hroom q fs b Hfs Hb H1 H3) as (it & Hit & Hat & Hib).
        eexists. split; [apply (allrows_nodup _ _ Hw); by apply lt_sorted_nodup|]. intros n. rewrite /iter_static (bind_done_nil _ _ _ _ _ Hit).
        destruct (si_run_run _ _ Hw Hroom _ _ n _ _ Hres Htame Hat) as [(it' & Hr & _ & Hg)|(Hr & Hu)].
        * left. rewrite (bind_done_nil _ _ _ _ _ Hr). split; [done|]. exact Hg.
        * right. split; [by rewrite /bind Hr|]. split; [done|]. rewrite Hib in Hu. intros Hr'%(ready_in_use _ _ _ Hw).
          destruct Hu as (k & a & Hk' & Ha & Hnm). apply Hnm. by eapply (ready_matching _ _ Hw Hroom).
      + exists []. split; [constructor|]. intros n. right. split.
        { rewrite /iter_static /sq_iter /sq_arch_iter Hfs /bind. unfold arch_search, bind in Hb. by rewrite Hb. }
        split; [done|]. intros Hr%(ready_in_use _ _ _ Hw). destruct (ready_bits _ _ Hw Hroom _ f c Hr Hf Hc). congruence.
    - intros n. destruct (sq_none_rows _ _ Hw Hroom q Hfs) as (it & Hit & Hr). destruct (Hr n) as (it' & Hrun).
      by rewrite /iter_static (bind_done_nil _ _ _ _ _ Hit) (bind_done_nil _ _ _ _ _ Hrun) calls_nil.
  Qed.
End open.
Local Set Default Proof Using "Type".

(** *** Rows of dynamic queries *)
Lemma open_dyn_rows s i q : reachable s → ss_open s !! i = Some (Some (QDyn q)) → dq_fetches q ≠ [] → all_in_use (ss_world s) (dq_fetches q) →
  ∃ es items, enumerates (wanted (ss_world s) (dq_fetches q)) es ∧ Forall2 (shows_row (ss_world s) (dq_fetches q)) es items ∧
    ∀ n, iter_dyn q n (ss_world s) = Done (calls n items) (ss_world s) [].
Proof.
  intros Hs%reachable_inv Hi Hne Hu. destruct (sv_world _ Hs) as [[R Hw] Hroom]. destruct (sv_open _ Hs _ _ Hi) as [_ Hinc].
  assert (dq_incomplete q = false) as Hf.
  { apply not_true_iff_false. intros Hx%Hinc. by eapply in_use_locked. }
  destruct (dq_ready_rows _ _ Hw Hroom q Hf) as (it & es & items & Hit & Hes & Hsh & Hn); [by apply (ready_in_use _ _ _ Hw)|done|].
  exists es, items. split_and!; [done..|]. intros n. destruct (Hn n) as (it' & Hr). by rewrite /iter_dyn (bind_done_nil _ _ _ _ _ Hit) (bind_done_nil _ _ _ _ _ Hr).
Qed.
Lemma open_dyn_empty s i q n : reachable s → ss_open s !! i = Some (Some (QDyn q)) → dq_fetches q = [] →
  iter_dyn q n (ss_world s) = Done (replicate n None) (ss_world s) [].
Proof.
  intros Hs%reachable_inv Hi Hne. destruct (sv_world _ Hs) as [[R Hw] Hroom]. destruct (sv_open _ Hs _ _ Hi) as [_ Hinc].
  assert (∃ b, dq_arch_iter q (ss_world s) = Done b (ss_world s) [] ∧ bi_inv b ∧ future b = []) as (b & Hb & Hinv & Hf).
  { destruct (dq_arch_iter_run _ _ Hw Hroom q) as [(b & Hb & Hv)|(_ & _ & f & c & Hf & _)]; [|rewrite Hne in Hf; by apply elem_of_nil in Hf].
    exists b. split; [done|]. destruct (dq_incomplete q); [done|]. destruct Hv as (? & _ & Hk). split; [done|].
    destruct (future b) as [|k l]; [done|]. destruct (proj1 (Hk k)) as [? _]; [left|]. done. }
  destruct (dq_iter_at _ _ Hw Hroom q b Hb Hinv) as (it & Hit & Hat & Hib); [rewrite Hf; by intros k ?%elem_of_nil|].
  rewrite Hf in Hat. destruct (di_run_run _ _ Hw _ n _ _ Hat) as [(it' & Hr & _)|(_ & k & a & Hk & _)].
  - rewrite /iter_dyn (bind_done_nil _ _ _ _ _ Hit) (bind_done_nil _ _ _ _ _ Hr). rewrite /= /ret. f_equal. apply calls_nil.
  - rewrite Hib Hf in Hk. by apply elem_of_nil in Hk.
Qed.
Lemma calls_none {A B} (f : A → B) n (S0 : list A) (P : A → Prop) : (∀ p, ¬ P p) → (∀ m p, m < n → S0 !! m = Some p → P p) → calls n (f <$> S0) = replicate n None.
Proof.
  intros HP H. destruct n as [|n]; [done|]. destruct S0 as [|p S0]; [apply calls_nil|]. exfalso. eapply (HP p), (H 0); [lia|done].
Qed.
Lemma open_dyn_none s i q n : reachable s → ss_open s !! i = Some (Some (QDyn q)) → ¬ all_in_use (ss_world s) (dq_fetches q) →
  match iter_dyn q n (ss_world s) with
  | Done rs w' ev => w' = ss_world s ∧ ev = [] ∧ rs = replicate n None
  | Panicked r w' ev => w' = ss_world s ∧ ev = [] ∧ (r = RUnwrap ∨ r = RIndex) ∧ left_over (ss_world s) (dq_fetches q)
  | _ => False
  end.
Proof.
  intros Hs%reachable_inv Hi Hne. destruct (sv_world _ Hs) as [[R Hw] Hroom].
  destruct (dyn_rows_at _ _ Hw Hroom q (sv_open _ Hs _ _ Hi)) as (S0 & _ & H). destruct (H n) as [(-> & Hg)|(r & -> & Hr & Hl)]; [|done].
  split_and!; [done..|]. eapply calls_none; [|exact Hg]. intros p ?%good_row_ready%(ready_in_use _ _ _ Hw). done.
Qed.
Lemma open_dyn_fused s i q n : reachable s → ss_open s !! i = Some (Some (QDyn q)) →
  match iter_dyn q n (ss_world s) with
  | Done rs w' ev => w' = ss_world s ∧ ev = [] ∧ length rs = n ∧ fused rs
  | Panicked r w' ev => w' = ss_world s ∧ ev = [] ∧ left_over (ss_world s) (dq_fetches q)
  | _ => False
  end.
Proof.
  intros Hs%reachable_inv Hi. destruct (sv_world _ Hs) as [[R Hw] Hroom].
  destruct (dyn_rows_at _ _ Hw Hroom q (sv_open _ Hs _ _ Hi)) as (S0 & _ & H). destruct (H n) as [(-> & Hg)|(r & -> & Hr & Hl)]; [|done].
  split_and!; [done..|apply calls_length|apply calls_fused].
Qed.
(** *** Rows of static queries *)
Lemma open_static_rows s i q fs : reachable s → ss_open s !! i = Some (Some (QStat q)) → sq_fetches q = Some fs → fs ≠ [] → all_in_use (ss_world s) fs →
  ∃ es items, enumerates (wants (ss_world s) (sq_params q)) es ∧ Forall2 (yields_row (ss_world s) (sq_params q)) es items ∧
    ∀ n, iter_static q n (ss_world s) = Done (calls n items) (ss_world s) [].
Proof.
  intros Hs%reachable_inv Hi Hfs Hne Hu. destruct (sv_world _ Hs) as [[R Hw] Hroom]. destruct (sv_open _ Hs _ _ Hi) as (Hres & Htame & _).
  rewrite /resolved Hfs in Hres.
  destruct (sq_ready_rows _ _ Hw Hroom q fs Hfs Hres Htame) as (it & es & items & Hit & Hes & Hsh & Hn); [by apply (ready_in_use _ _ _ Hw)|done|].
  exists es, items. split_and!; [done..|]. intros n. destruct (Hn n) as (it' & Hr). by rewrite /iter_static (bind_done_nil _ _ _ _ _ Hit) (bind_done_nil _ _ _ _ _ Hr).
Qed.
Lemma open_static_fused s i q n : reachable s → ss_open s !! i = Some (Some (QStat q)) →
  match iter_static q n (ss_world s) with
  | Done rs w' ev => w' = ss_world s ∧ ev = [] ∧ length rs = n ∧ fused rs
  | Panicked r w' ev => w' = ss_world s ∧ ev = [] ∧ ∃ fs, sq_fetches q = Some fs ∧ left_over (ss_world s) fs
  | _ => False
  end.
Proof.
  intros Hs%reachable_inv Hi. destruct (sv_world _ Hs) as [[R Hw] Hroom].
  pose proof (static_rows_at _ _ Hw Hroom q (sv_open _ Hs _ _ Hi)) as H. destruct (sq_fetches q) as [fs|] eqn:Hfs.
  - destruct H as (S0 & _ & H). destruct (H n) as [(-> & Hg)|(-> & Hl)]; [|eauto].
    split_and!; [done..|apply calls_length|apply calls_fused].
  - rewrite H. split_and!; [done..|apply replicate_length|]. rewrite -(@calls_nil (list (qptr * item))). apply calls_fused.
Qed.
Lemma open_static_empty s i q n : reachable s → ss_open s !! i = Some (Some (QStat q)) → sq_params q = [] →
  iter_static q n (ss_world s) = Done (replicate n None) (ss_world s) [].
Proof.
  intros Hs%reachable_inv Hi Hps. destruct (sv_world _ Hs) as [[R Hw] Hroom].
  pose proof (sv_open _ Hs _ _ Hi) as (Hres & Htame & Hq). rewrite /resolved in Hres. destruct (sq_fetches q) as [fs|] eqn:Hfs.
  2:{ destruct Hq as [(p & Hp & _) _]. rewrite Hps in Hp. by apply elem_of_nil in Hp. }
  pose proof Hres as Hty. rewrite Hps in Hty. apply Forall2_nil_inv_l in Hty as ->.
  destruct (arch_search_run _ _ Hw Hroom []) as [(b & Hb & Hv)|(_ & f & c & Hf & _)]; [|by apply elem_of_nil in Hf].
  destruct Hv as (Hinv & _ & Hk). assert (future b = []) as Hf.
  { destruct (future b) as [|k l]; [done|]. destruct (proj1 (Hk k)) as [? _]; [left|]. done. }
  destruct (sq_iter_at _ _ Hw Hroom q [] b Hfs Hb Hinv) as (it & Hit & Hat & Hib); [rewrite Hf; by intros k ?%elem_of_nil|].
  rewrite Hf in Hat. destruct (si_run_run _ _ Hw Hroom _ _ n _ _ Hres Htame Hat) as [(it' & Hr & _)|(_ & k & a & Hk' & _)].
  - rewrite /iter_static (bind_done_nil _ _ _ _ _ Hit) (bind_done_nil _ _ _ _ _ Hr). rewrite /= /ret. f_equal. apply calls_nil.
  - rewrite Hib Hf in Hk'. by apply elem_of_nil in Hk'.
Qed.
Lemma unregistered_wants w ps e : unregistered w ps → ¬ wants w ps e.
Proof. intros (p & t & Hp & Ht & Hn) [_ H]. destruct (H p t Hp Ht) as (c & Hc & _). by eapply Hn. Qed.
Lemma types_in_use_fetches w R ps fs : winv w R → typed w ps fs → types_in_use w ps ↔ all_in_use w fs.
Proof.
  intros Hw Hty. split.
  - intros H f c (i & Hf)%elem_of_list_lookup Hc. destruct (Forall2_lookup_r _ _ _ _ _ Hty Hf) as (p & Hp & Hpf).
    destruct (proj1 (param_fetch_id _ _ Hw _ _ c Hpf) Hc) as (t & Hpt & Ht).
    destruct (H p t) as (c' & Ht' & Hc'); [by eapply elem_of_list_lookup_2|done|]. rewrite /type_id in Ht, Ht'. by simplify_eq.
  - intros H p t (i & Hp)%elem_of_list_lookup Hpt. destruct (Forall2_lookup_l _ _ _ _ _ Hty Hp) as (f & Hf & Hpf).
    destruct (fetch_id f) as [c|] eqn:Ef; [|apply (param_fetch_none _ _ Hw _ _ Hpf) in Ef; congruence].
    destruct (proj1 (param_fetch_id _ _ Hw _ _ c Hpf) Ef) as (t' & Hpt' & Ht). assert (t' = t) as -> by congruence.
    exists c. split; [done|]. eapply H; [by eapply elem_of_list_lookup_2|done].
Qed.
Lemma types_in_use_some s i q : sinv s → ss_open s !! i = Some (Some (QStat q)) → types_in_use (ss_world s) (sq_params q) →
  ∃ fs, sq_fetches q = Some fs ∧ typed (ss_world s) (sq_params q) fs ∧ all_in_use (ss_world s) fs.
Proof.
  intros Hs Hi Hu. destruct (sv_world _ Hs) as [[R Hw] _]. destruct (sv_open _ Hs _ _ Hi) as (Hres & _ & Hq). rewrite /resolved in Hres.
  destruct (sq_fetches q) as [fs|].
  - exists fs. split_and!; [done..|]. by eapply types_in_use_fetches.
  - destruct Hq as [(p & t & Hp & Ht & Hn)%none_unregistered _]. destruct (Hu p t Hp Ht) as (c & Hc & _). by destruct (Hn c).
Qed.
Lemma open_types_rows s i q : reachable s → ss_open s !! i = Some (Some (QStat q)) → sq_params q ≠ [] → types_in_use (ss_world s) (sq_params q) →
  ∃ es items, enumerates (wants (ss_world s) (sq_params q)) es ∧ Forall2 (yields_row (ss_world s) (sq_params q)) es items ∧
    ∀ n, iter_static q n (ss_world s) = Done (calls n items) (ss_world s) [].
Proof.
  intros Hs Hi Hne Hu. destruct (types_in_use_some s i q (reachable_inv _ Hs) Hi Hu) as (fs & Hfs & Hty & Hall).
  eapply open_static_rows; [done..| |done]. intros ->. apply Forall2_nil_inv_r in Hty. done.
Qed.
Lemma open_static_none s i q n : reachable s → ss_open s !! i = Some (Some (QStat q)) → ¬ types_in_use (ss_world s) (sq_params q) →
  match iter_static q n (ss_world s) with
  | Done rs w' ev => w' = ss_world s ∧ ev = [] ∧ rs = replicate n None
  | Panicked r w' ev => w' = ss_world s ∧ ev = [] ∧ r = RUnwrap ∧ ∃ fs, sq_fetches q = Some fs ∧ left_over (ss_world s) fs
  | _ => False
  end.
Proof.
  intros Hs%reachable_inv Hi Hne. destruct (sv_world _ Hs) as [[R Hw] Hroom]. pose proof (sv_open _ Hs _ _ Hi) as Hq.
  pose proof (static_rows_at _ _ Hw Hroom q Hq) as H. destruct Hq as (Hres & _). rewrite /resolved in Hres. destruct (sq_fetches q) as [fs|] eqn:Hfs.
  - destruct H as (S0 & _ & H). destruct (H n) as [(-> & Hg)|(-> & Hl)]; [|eauto 10].
    split_and!; [done..|]. eapply calls_none; [|exact Hg]. intros p ?%good_row_ready%(ready_in_use _ _ _ Hw)%(types_in_use_fetches _ _ _ _ Hw Hres). done.
  - rewrite H. done.
Qed.
(** *** [StaticQuery::get] *)
Lemma open_get s i q e : reachable s → ss_open s !! i = Some (Some (QStat q)) →
  match sq_get q e (ss_world s) with
  | Done o w' ev => w' = ss_world s ∧ ev = [] ∧ ¬ unissued (ss_world s) e ∧
      match o with
      | Some xs => wants (ss_world s) (sq_params q) e ∧ yields_row (ss_world s) (sq_params q) e xs
      | None => ¬ wants (ss_world s) (sq_params q) e
      end
  | Panicked r w' ev => w' = ss_world s ∧ ev = [] ∧ r = RNoGeneration ∧ unissued (ss_world s) e
  | _ => False
  end.
Proof.
  intros Hs%reachable_inv Hi. destruct (sv_world _ Hs) as [[R Hw] Hroom]. destruct (sv_open _ Hs _ _ Hi) as (Hres & Htame & Hq).
  destruct (sq_get_run _ _ Hw Hroom q e Hres Htame) as [(o & -> & Hal & Ho)|(-> & Hal)].
  - split_and!; [done..| |].
    { intros Hx%unissued_oob. destruct Hal. congruence. }
    destruct o as [xs|]; [by destruct Ho as (_ & ?)|]. destruct Ho as [Hn|?]; [|done]. rewrite Hn in Hq.
    apply unregistered_wants, none_unregistered, Hq.
  - split_and!; [done..|]. by apply unissued_oob.
Qed.
Lemma open_get_has s i q e t : reachable s → ss_open s !! i = Some (Some (QStat q)) → param_ty <$> sq_params q = [Some t] →
  match sq_get q e (ss_world s) with
  | Done o w' ev => step (OHas e t) (ss_world s) = Done (RBool (bool_decide (is_Some o))) (ss_world s) []
  | Panicked r w' ev => step (OHas e t) (ss_world s) = Panicked r (ss_world s) [] ∨
      ((∀ c, ¬ type_id (ss_world s) t c) ∧ step (OHas e t) (ss_world s) = Done (RBool false) (ss_world s) [])
  | _ => False
  end.
Proof.
  intros Hs Hi Hps. pose proof (open_get s i q e Hs Hi) as H. pose proof (has_view (ss_world s) e t (sv_world _ (reachable_inv _ Hs))) as Hh.
  destruct (sq_params q) as [|p [|]] eqn:Hp; try done. simpl in Hps. injection Hps as Hpt.
  assert (wants (ss_world s) [p] e ↔ ∃ c, type_id (ss_world s) t c ∧ has (ss_world s) e c) as Hwt.
  { rewrite /wants. split.
    - intros [_ Hx]. apply (Hx p t); [left|done].
    - intros (c & Hc & Hh'). split.
      + destruct Hh' as (v & k & j & a & i' & vv & Ha & Hx & _). exists k, j, a. done.
      + intros p' t' ->%elem_of_list_singleton Ht'. assert (t' = t) as -> by congruence. eauto. }
  destruct (sq_get q e (ss_world s)) as [o w' ev|r w' ev| |]; [| |done..].
  - destruct H as (_ & _ & Hn & Ho). destruct (step (OHas e t) (ss_world s)) as [r w1 ev1|r w1 ev1| |]; [|naive_solver|done..].
    destruct Hh as (-> & -> & b & -> & Hb). do 2 f_equal. destruct o as [xs|].
    + destruct Ho as [Ho _]. rewrite bool_decide_true; [|eauto]. by apply Hb, Hwt.
    + rewrite bool_decide_false; [|by intros [? ?]]. apply not_true_iff_false. by rewrite Hb -Hwt.
  - destruct H as (_ & _ & -> & Hn). destruct (step (OHas e t) (ss_world s)) as [r w1 ev1|r w1 ev1| |] eqn:E; [| |done..].
    + right. destruct Hh as (-> & -> & b & -> & Hb). apply unissued_oob in Hn. rewrite /type_id. cbn [step] in E. rewrite /has_component in E.
      destruct (w_types (ss_world s) !! t) as [c|] eqn:Et.
      * exfalso. revert E. rewrite /bind /=. pose proof (get_entity_meta_cases (ss_world s) e) as Hg.
        rewrite Et. destruct (get_entity_meta e (ss_world s)) as [om w1 ev1|r w1 ev1| |]; [|done..]. destruct Hg as (_ & _ & Hg). destruct om; naive_solver.
      * split; [done|]. do 2 f_equal. apply not_true_iff_false. rewrite Hb. rewrite /type_id. intros (c & ? & _). congruence.
    + left. by destruct Hh as (-> & -> & -> & _).
Qed.
(** *** Columns *)
Lemma all_in_use_dec w R fs : winv w R → all_in_use w fs ∨ ¬ all_in_use w fs.
Proof.
  intros Hw. induction fs as [|f fs IH]; [left; by intros f c ?%elem_of_nil|].
  assert (all_in_use w (f :: fs) ↔ (∀ c, fetch_id f = Some c → in_use w c) ∧ all_in_use w fs) as ->.
  { rewrite /all_in_use. setoid_rewrite elem_of_cons. naive_solver. }
  destruct IH as [IH|IH]; [|tauto]. destruct (fetch_id f) as [c|]; [|left; naive_solver].
  assert (in_use w c ↔ Exists (λ L, c ∈ L) (arch_ids w)) as Hd.
  { rewrite (in_use_ids _ _ Hw) Exists_exists. setoid_rewrite elem_of_list_lookup at 2. naive_solver. }
  destruct (decide (Exists (λ L, c ∈ L) (arch_ids w))) as [H|H]; rewrite -Hd in H; [left|right]; naive_solver.
Qed.
Lemma not_left_over_known w R fs : winv w R → ¬ left_over w fs → ¬ Exists (unlocked w) fs → all_in_use w fs.
Proof.
  intros Hw Hl Hk. destruct (all_in_use_dec w R fs Hw) as [|Hn]; [done|]. exfalso. apply Hl. split; [|done]. intros f c. by apply locked_known.
Qed.
Lemma not_in_use_wanted w R fs e : winv w R → ¬ all_in_use w fs → ¬ wanted w fs e.
Proof.
  intros Hw Hn [(k & i & Hp) Hh]. apply Hn. intros f c Hf Hc. destruct (Hh f c Hf Hc) as (v & k' & i' & a & j & u & Ha & _ & Hj & _). by exists k', a, j, u.
Qed.
Lemma iter_dyn_run q n w it rs it' : dq_iter q w = Done it w [] → di_run n it w = Done (rs, it') w [] → iter_dyn q n w = Done rs w [].
Proof. intros H1 H2. by rewrite /iter_dyn (bind_done_nil _ _ _ _ _ H1) (bind_done_nil _ _ _ _ _ H2). Qed.
Lemma open_dyn_all s i q : reachable s → ss_open s !! i = Some (Some (QDyn q)) → dq_fetches q ≠ [] → ¬ left_over (ss_world s) (dq_fetches q) →
  ∃ es items, enumerates (wanted (ss_world s) (dq_fetches q)) es ∧ Forall2 (shows_row (ss_world s) (dq_fetches q)) es items ∧
    ∀ n, iter_dyn q n (ss_world s) = Done (calls n items) (ss_world s) [].
Proof.
  intros Hs Hi Hne Hl. pose proof (reachable_inv _ Hs) as Hs'. destruct (sv_world _ Hs') as [[R Hw] Hroom].
  destruct (all_in_use_dec _ _ (dq_fetches q) Hw) as [Hu|Hu]; [by eapply open_dyn_rows|].
  exists [], []. split_and!; [split; [constructor|]; intros e|constructor|intros n].
  - rewrite elem_of_nil. split; [done|]. by apply (not_in_use_wanted _ _ _ _ Hw).
  - pose proof (open_dyn_none s i q n Hs Hi Hu) as H. destruct (iter_dyn q n (ss_world s)); [|naive_solver|done..].
    destruct H as (-> & -> & ->). by rewrite calls_nil.
Qed.
Lemma open_columns s i q : reachable s → ss_open s !! i = Some (Some (QDyn q)) → dq_fetches q ≠ [] → ¬ left_over (ss_world s) (dq_fetches q) →
  ∃ cols, Forall even_column cols ∧
    (∀ n, iter_cols q n (ss_world s) = Done (calls n cols) (ss_world s) []) ∧
    ∀ n, iter_dyn q n (ss_world s) = Done (calls n (cols ≫= column_rows (ss_world s) (dq_fetches q))) (ss_world s) [].
Proof.
  intros Hs%reachable_inv Hi Hne Hl. destruct (sv_world _ Hs) as [[R Hw] Hroom]. destruct (sv_open _ Hs _ _ Hi) as [_ Hinc].
  destruct (dq_columns _ _ Hw Hroom q Hne) as (it & ct & cols & H1 & H2 & H3 & H4 & H5).
  { intros Hf. apply (ready_in_use _ _ _ Hw). eapply not_left_over_known; [done..|]. rewrite -Hinc. congruence. }
  exists cols. split_and!; [done|..]; intros n.
  - destruct (H5 n) as (ct' & Hr). by rewrite /iter_cols (bind_done_nil _ _ _ _ _ H2) (bind_done_nil _ _ _ _ _ Hr).
  - destruct (H4 n) as (it' & Hr). by eapply iter_dyn_run.
Qed.
Lemma open_cols_fused s i q n : reachable s → ss_open s !! i = Some (Some (QDyn q)) →
  match iter_cols q n (ss_world s) with
  | Done rs w' ev => w' = ss_world s ∧ ev = [] ∧ length rs = n ∧ fused rs
  | Panicked r w' ev => w' = ss_world s ∧ ev = [] ∧ left_over (ss_world s) (dq_fetches q)
  | _ => False
  end.
Proof.
  intros Hs%reachable_inv Hi. destruct (sv_world _ Hs) as [[R Hw] Hroom]. destruct (sv_open _ Hs _ _ Hi) as [_ Hinc].
  assert (dq_incomplete q = false → ∀ f c, f ∈ dq_fetches q → fetch_id f = Some c → known (ss_world s) c) as Hkn.
  { intros Hf f c. apply locked_known. rewrite -Hinc. congruence. }
  destruct (dq_arch_iter_run _ _ Hw Hroom q) as [(b & Hb & Hv)|(Hb & Hi' & f & c & Hf & Hc & Hx)].
  - assert (dq_column_iter q (ss_world s) = Done (CIter (dq_fetches q) b) (ss_world s) []) as Hct by by rewrite /dq_column_iter (bind_done_nil _ _ _ _ _ Hb).
    rewrite /iter_cols (bind_done_nil _ _ _ _ _ Hct).
    destruct (ci_run_run _ _ Hw Hroom (dq_fetches q) n (CIter (dq_fetches q) b)) as [(it' & Hr)|(Hr & Hu)]; [done| | |..].
    + cbn [ci_arch]. destruct (dq_incomplete q); apply Hv.
    + cbn [ci_arch]. intros k Hk. destruct (dq_incomplete q); [|by eapply (visits_archs _ _ Hw Hroom)]. destruct Hv as [_ Hf]. rewrite Hf in Hk. by apply elem_of_nil in Hk.
    + rewrite (bind_done_nil _ _ _ _ _ Hr). cbn. split_and!; [done..|apply calls_length|apply calls_fused].
    + rewrite /bind Hr. cbn [ci_arch] in Hu. split_and!; [done..|]. destruct (dq_incomplete q) eqn:Hi'.
      { destruct Hv as [_ Hf]. destruct Hu as (k & a & Hk & _). rewrite Hf in Hk. by apply elem_of_nil in Hk. }
      split; [by apply Hkn|]. intros Hr'%(ready_in_use _ _ _ Hw). destruct Hu as (k & a & Hk & Ha & Hnm). apply Hnm. by eapply (ready_matching _ _ Hw Hroom).
  - rewrite /iter_cols /dq_column_iter /bind Hb. split_and!; [done..|]. split; [by apply Hkn|].
    intros Hr%(ready_in_use _ _ _ Hw). destruct (ready_bits _ _ Hw Hroom _ f c Hr Hf Hc). congruence.
Qed.

(** *** Single rows *)
Lemma query_item_dyn q n w :
  query_item (QDyn q) n w = match iter_dyn q (S n) w with
                            | Done rs w' ev => Done (mjoin (last rs)) w' ev
                            | Panicked r w' ev => Panicked r w' ev | Deadlock => Deadlock | UB => UB end.
Proof.
  cbn [query_item]. rewrite /iter_dyn /bind. destruct (dq_iter q w) as [it w1 ev1|r w1 ev1| |]; [|done..].
  destruct (di_run (S n) it w1) as [[rs it'] w2 ev2|r w2 ev2| |]; done.
Qed.
Lemma query_item_static q n w :
  query_item (QStat q) n w = match iter_static q (S n) w with
                            | Done rs w' ev => Done ((λ l, l.*1) <$> mjoin (last rs)) w' ev
                            | Panicked r w' ev => Panicked r w' ev | Deadlock => Deadlock | UB => UB end.
Proof.
  cbn [query_item]. rewrite /iter_static /bind. destruct (sq_iter q w) as [it w1 ev1|r w1 ev1| |]; [|done..].
  destruct (si_run (S n) it w1) as [[rs it'] w2 ev2|r w2 ev2| |]; done.
Qed.
Lemma query_positions w R q fs : winv w R → room 0 w → open_ok w q → oq_fetches w q = Some fs →
  ∃ S0, NoDup S0 ∧ ∀ n ps w' ev, query_item q n w = Done (Some ps) w' ev →
    ∃ p, S0 !! n = Some p ∧ good_row w fs p ∧ ps = pos_ptrs w fs p.
Proof.
  intros Hw Hroom Hq Hfs. destruct q as [q|q]; cbn in Hfs.
  - injection Hfs as <-. destruct (dyn_rows_at _ _ Hw Hroom q Hq) as (S0 & Hnd & H). exists S0. split; [done|]. intros n ps w' ev.
    rewrite query_item_dyn. destruct (H (S n)) as [(-> & Hg)|(r & -> & _)]; [|done]. rewrite calls_nth list_lookup_fmap.
    destruct (S0 !! n) as [p|] eqn:Hp; [|done]. intros [= <- <- <-]. exists p. split_and!; [done| |done]. eapply Hg; [|done]. lia.
  - pose proof (static_rows_at _ _ Hw Hroom q Hq) as H. rewrite Hfs in H. destruct H as (S0 & Hnd & H). exists S0. split; [done|]. intros n ps w' ev.
    rewrite query_item_static. destruct (H (S n)) as [(-> & Hg)|(-> & _)]; [|done]. rewrite calls_nth list_lookup_fmap.
    destruct (S0 !! n) as [p|] eqn:Hp; [|done]. intros [= <- <- <-]. exists p.
    assert (good_row w fs p) as Hgp by (eapply Hg; [|done]; lia). split_and!; [done..|].
    destruct Hq as (Hres & _). rewrite /resolved Hfs in Hres.
    apply pos_items_fst; [by eapply Forall2_length|]. destruct Hgp as (a & e & Ha & _). eauto.
Qed.
