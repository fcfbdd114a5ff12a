(** * The get benches (C72) *)
From Verif Require Import ProofBase SpecSmall World History ProofEntities ProofBitset ProofArrayVec ProofUVec.
From Verif Require Export SpecGetBench ProofIterBench.

(** ** Looking up entities *)
Lemma yields_sees w e p x : yields w e p x → sees w e p x.2.
Proof. rewrite /yields /sees. destruct (param_ty p) as [t|]; [|tauto]. intros (c & v & H1 & H2 & H3 & _). by exists c, v. Qed.
Lemma get_each_run s i q es : reachable s → ss_open s !! i = Some (Some (QStat q)) → Forall (λ e, lives (ss_world s) e ∧ wants (ss_world s) (sq_params q) e) es →
  ∃ xs, get_each q es s = Done xs s [] ∧ Forall2 (λ e x, Forall2 (sees (ss_world s) e) (sq_params q) x) es xs.
Proof.
  intros Hs Hi. induction 1 as [|e es (Hl & Hw) _ (xs & IH & Hxs)]; [by exists []|]. cbn [get_each].
  pose proof (open_get s i q e Hs Hi) as Hg. assert (in_sworld (sq_get q e) s = match sq_get q e (ss_world s) with Done a w ev => Done a (Sess w (ss_open s)) ev
    | Panicked r w ev => Panicked r (Sess w (ss_open s)) ev | Deadlock => Deadlock | UB => UB end) as Er by apply in_sworld_run.
  destruct (sq_get q e (ss_world s)) as [a w' ev|r w' ev| |]; [| |done..].
  - destruct Hg as (-> & -> & _ & Hg). rewrite sess_eta in Er. destruct a as [x|]; [|done]. destruct Hg as [_ Hy]. exists (x.*2 :: xs). split.
    + rewrite (bind_done_nil _ _ _ _ _ Er) (bind_done_nil (unwrap (Some x) RUnwrap) _ s x s eq_refl) (bind_done_nil _ _ _ _ _ IH). done.
    + constructor; [|done]. apply Forall2_fmap_r. eapply Forall2_impl; [exact Hy|]. intros p y. apply yields_sees.
  - destruct Hg as (_ & _ & _ & Hu). rewrite /lives /unissued in Hl, Hu. rewrite Hl in Hu. done.
Qed.
Lemma get_each_exact s i q es : reachable s → ss_open s !! i = Some (Some (QStat q)) →
  match get_each q es s with
  | Done xs s' ev => s' = s ∧ ev = [] ∧ Forall2 (λ e x, wants (ss_world s) (sq_params q) e ∧ Forall2 (sees (ss_world s) e) (sq_params q) x) es xs
  | Panicked r s' ev => s' = s ∧ ev = [] ∧ ∃ es1 e es2, es = es1 ++ e :: es2 ∧ Forall (wants (ss_world s) (sq_params q)) es1 ∧
      ((r = RUnwrap ∧ ¬ unissued (ss_world s) e ∧ ¬ wants (ss_world s) (sq_params q) e) ∨ (r = RNoGeneration ∧ unissued (ss_world s) e))
  | _ => False
  end.
Proof.
  intros Hs Hi. induction es as [|e es IH]; [by split; [|split; [|constructor]]|]. cbn [get_each].
  pose proof (open_get s i q e Hs Hi) as Hg. assert (in_sworld (sq_get q e) s = match sq_get q e (ss_world s) with Done a w ev => Done a (Sess w (ss_open s)) ev
    | Panicked r w ev => Panicked r (Sess w (ss_open s)) ev | Deadlock => Deadlock | UB => UB end) as Er by apply in_sworld_run.
  destruct (sq_get q e (ss_world s)) as [a w' ev|r w' ev| |]; [| |done..].
  - destruct Hg as (-> & -> & Hu & Hg). rewrite sess_eta in Er. rewrite (bind_done_nil _ _ _ _ _ Er). destruct a as [xs|].
    + rewrite (bind_done_nil (unwrap (Some xs) RUnwrap) _ s xs s eq_refl). rewrite {1}/bind. destruct (get_each q es s) as [ys s' ev|r s' ev| |]; [| |done..].
      * destruct IH as (-> & -> & IH). cbn. split; [done|]. split; [done|]. constructor; [|done]. destruct Hg as [Hg Hy]. split; [done|].
        apply Forall2_fmap_r. eapply Forall2_impl; [exact Hy|]. intros p x. apply yields_sees.
      * destruct IH as (-> & -> & es1 & e1 & es2 & -> & H1 & H2). cbn. split; [done|]. split; [done|]. exists (e :: es1), e1, es2.
        split; [done|]. split; [|done]. apply Forall_cons. by destruct Hg.
    + cbn. split; [done|]. split; [done|]. exists [], e, es. split; [done|]. split; [constructor|]. by left.
  - destruct Hg as (-> & -> & -> & Hu). rewrite sess_eta in Er. rewrite /bind Er. split; [done|]. split; [done|]. exists [], e, es. split; [done|]. split; [constructor|]. by right.
Qed.
Lemma sees_view w w' e p x : same_view w w' → sees w' e p x → sees w e p x.
Proof.
  intros (V1 & V2 & V3 & V4). rewrite /sees. destruct (param_ty p) as [t|]; [|done]. intros (c & v & H1 & H2 & ->). exists c, v. split; [by apply V4|]. split; [by apply V3|done].
Qed.
Lemma get_run_ok ps l s es : Forall param_wf ps → Forall param_tame ps → unshared ps → closed_by l s → ¬ not_in_use (ss_world s) ps →
  Forall (λ e, id_wf e ∧ lives (ss_world s) e ∧ wants (ss_world s) ps e) es →
  ∃ xs l' s', get_run ps es s = Done xs s' [] ∧ closed_by l' s' ∧ ss_world s' = ss_world s ∧ Forall2 (λ e x, Forall2 (sees (ss_world s) e) ps x) es xs.
Proof.
  intros Hwf Htame Hun (Hst & Hf & Hu & Hop) Huse Hes. assert (reachable s) as Hs by (by exists l). destruct (sv_world _ (reachable_inv _ Hs)) as [[R Hw] Hroom].
  assert (open_fetches s = []) as Hof. { rewrite /open_fetches. clear -Hop. induction Hop as [|q ? -> _ IH]; [done|]. cbn. done. }
  destruct (creates_static l s ps Hst Hf Hu Hwf Htame) as (s1 & q & E & Hop1 & Hq & Hsv).
  { intros fs Hfs. rewrite Hof /=. intros j j' c f Hjj Hj Hj' Hfc. exfalso. apply Hjj.
    destruct (Forall2_lookup_r _ _ _ _ _ Hfs Hj) as (p & Hp & Ha). destruct (Forall2_lookup_r _ _ _ _ _ Hfs Hj') as (p' & Hp' & Ha').
    destruct p as [t|t|]; cbn in Ha; [|by destruct Ha as (? & _ & ?)|done]. destruct Ha as (c0 & Ht & [= <-]).
    assert (param_ty p' = Some t) as Hpt.
    { destruct p' as [t'|t'|]; cbn in Ha'; [..|by subst f]; destruct Ha' as (c' & Ht' & ->); injection Hfc as ->; cbn; f_equal; by eapply (wi_types_inj _ _ Hw). }
    by eapply Hun. }
  { done. }
  set (i := length (ss_open s)) in *.
  assert (steps sess_new (l ++ [(SOpenStat ps, ROk (SHandle i), [])]) s1) as Hst1 by by eapply steps_done.
  assert (ss_open s1 !! i = Some (Some (QStat q))) as Hi1 by by rewrite Hop1 lookup_app_r // Nat.sub_diag.
  destruct (opens_released s (SOpenStat ps) _ s1 [] Hs I E) as (i' & [= <-] & E2). fold i in E2.
  set (s2 := Sess (ss_world s) (ss_open s ++ [None])) in *.
  destruct (get_each_run s1 i q es) as (xs & E1 & Hxs); [by eexists|done| |].
  { rewrite Hq. destruct Hsv as (V1 & V2 & V3 & V4). eapply Forall_impl; [exact Hes|]. intros e (H1 & H2 & H3 & H4). split; [by apply V1|]. split; [by apply V2|].
    intros p t Hp Ht. destruct (H4 p t Hp Ht) as (c & Hc & x & Hx). exists c. split; [by apply V4|]. exists x. by apply V3. }
  exists xs, ((l ++ [(SOpenStat ps, ROk (SHandle i), [])]) ++ [(SDrop i false, ROk SNothing, [])]), s2. split; [|split; [|split; [done|]]].
  - rewrite /get_run (bind_done_nil _ _ _ _ _ E) (bind_done_nil (gets id) _ s1 s1 s1 eq_refl) Hi1. by rewrite (bind_done_nil _ _ _ _ _ E1) (bind_done_nil _ _ _ _ _ E2).
  - split; [by eapply steps_done; [exact Hst1|done|done|]|]. split; [by apply no_forget_snoc; [apply no_forget_snoc|]|].
    split; [by eapply no_unwinding_snoc; [eapply no_unwinding_snoc|..]|]. cbn. apply Forall_app. split; [done|by constructor].
  - eapply Forall2_impl; [exact Hxs|]. intros e x. rewrite Hq. intros H. eapply Forall2_impl; [exact H|]. intros p y. by apply sees_view.
Qed.
(** ** The rounds of the playground program *)
Lemma wants_view w w' ps e : same_view w w' → wants w' ps e ↔ wants w ps e.
Proof.
  intros (V1 & V2 & V3 & V4). rewrite /wants (V2 e). split; intros [H1 H2]; (split; [done|]); intros p t Hp Ht; destruct (H2 p t Hp Ht) as (c & Hc & x & Hx); exists c; (split; [by apply V4|]); exists x; by apply V3.
Qed.
Lemma pg_round_exact t l s es : ty_wf t → param_tame (PMut t) → closed_by l s → ¬ not_in_use (ss_world s) [PMut t] → Forall (λ e, id_wf e ∧ lives (ss_world s) e) es →
  match pg_round t es s with
  | Done _ s' ev => ss_world s' = ss_world s ∧ ev = [] ∧ Forall (wants (ss_world s) [PMut t]) es ∧ ∃ l', closed_by l' s'
  | Panicked r s' ev => r = RUnwrap ∧ same_view (ss_world s) (ss_world s') ∧ ev = [] ∧ ¬ Forall (wants (ss_world s) [PMut t]) es
  | _ => False
  end.
Proof.
  intros Hwf Htame (Hst & Hf & Hu & Hop) Huse Hes. assert (reachable s) as Hs by (by exists l).
  assert (open_fetches s = []) as Hof. { rewrite /open_fetches. clear -Hop. induction Hop as [|q ? -> _ IH]; [done|]. cbn. done. }
  destruct (creates_static l s [PMut t] Hst Hf Hu) as (s1 & q & E & Hop1 & Hq & Hsv).
  { by apply Forall_singleton. }
  { by apply Forall_singleton. }
  { intros fs Hfs. rewrite Hof. inversion Hfs as [|? f ? fs' Ha Hr]; subst. inversion Hr; subst. intros i j c f' Hij Hi Hj.
    apply lookup_lt_Some in Hi. apply lookup_lt_Some in Hj. cbn in Hi, Hj. lia. }
  { done. }
  set (i := length (ss_open s)) in *.
  assert (steps sess_new (l ++ [(SOpenStat [PMut t], ROk (SHandle i), [])]) s1) as Hst1.
  { eapply steps_done; [done| | |done]; cbn; by apply Forall_singleton. }
  assert (ss_open s1 !! i = Some (Some (QStat q))) as Hi1 by by rewrite Hop1 lookup_app_r // Nat.sub_diag.
  destruct (opens_released s (SOpenStat [PMut t]) _ s1 [] Hs I E) as (i' & [= <-] & E2). fold i in E2.
  set (s2 := Sess (ss_world s) (ss_open s ++ [None])) in *.
  pose proof (pg_gets_exact s1 i q es ltac:(by eexists) Hi1) as Hg. rewrite Hq in Hg.
  assert (Forall (wants (ss_world s1) [PMut t]) es ↔ Forall (wants (ss_world s) [PMut t]) es) as Hww.
  { apply Forall_iff. intros e. by apply wants_view. }
  rewrite /pg_round (bind_done_nil _ _ _ _ _ E) (bind_done_nil (gets id) _ s1 s1 s1 eq_refl) Hi1. rewrite {1}/bind.
  destruct (pg_gets q es s1) as [[] s' ev|r s' ev| |]; [| |done..].
  - destruct Hg as (-> & -> & Hg). rewrite (bind_done_nil _ _ _ _ _ E2). cbn. split; [done|]. split; [done|]. split; [by apply Hww|].
    exists ((l ++ [(SOpenStat [PMut t], ROk (SHandle i), [])]) ++ [(SDrop i false, ROk SNothing, [])]).
    split; [by eapply steps_done; [exact Hst1|done|done|]|]. split; [by apply no_forget_snoc; [apply no_forget_snoc|]|].
    split; [by eapply no_unwinding_snoc; [eapply no_unwinding_snoc|..]|]. cbn. apply Forall_app. split; [done|by constructor].
  - destruct Hg as (-> & -> & es1 & e & es2 & -> & _ & Hr). apply Forall_app in Hes as [_ [[Hwe Hl] _]%Forall_cons].
    assert (¬ unissued (ss_world s1) e) as Hni. { intros Hx. assert (lives (ss_world s1) e) as Hy by by apply Hsv. rewrite /unissued /lives in Hx, Hy. congruence. }
    destruct Hr as [(-> & _ & Hn)|(_ & ?)]; [|done]. split; [done|]. split; [done|]. split; [done|].
    intros [_ [H _]%Forall_cons]%Forall_app. apply Hn. by apply (wants_view _ _ _ _ Hsv).
Qed.
Lemma pg_rounds_exact t m : ∀ l s es, ty_wf t → param_tame (PMut t) → closed_by l s → ¬ not_in_use (ss_world s) [PMut t] →
  Forall (λ e, id_wf e ∧ lives (ss_world s) e) es →
  match pg_rounds t (S m) es s with
  | Done _ s' ev => ss_world s' = ss_world s ∧ ev = [] ∧ Forall (wants (ss_world s) [PMut t]) es
  | Panicked r s' ev => r = RUnwrap ∧ same_view (ss_world s) (ss_world s') ∧ ev = [] ∧ ¬ Forall (wants (ss_world s) [PMut t]) es
  | _ => False
  end.
Proof.
  induction m as [|m IH]; intros l s es Hwf Htame Hcl Huse Hes.
  - pose proof (pg_round_exact t l s es Hwf Htame Hcl Huse Hes) as H. cbn [pg_rounds]. rewrite /bind. destruct (pg_round t es s) as [[] s' ev|r s' ev| |]; [|done..].
    destruct H as (H1 & -> & H2 & _). cbn. done.
  - pose proof (pg_round_exact t l s es Hwf Htame Hcl Huse Hes) as H. change (pg_rounds t (S (S m)) es) with (bind (pg_round t es) (λ _, pg_rounds t (S m) es)). rewrite /bind.
    destruct (pg_round t es s) as [[] s' ev|r s' ev| |]; [|done..]. destruct H as (H1 & -> & H2 & l' & Hcl').
    rewrite -H1 in Huse, Hes |- *. specialize (IH l' s' es Hwf Htame Hcl' Huse Hes). by destruct (pg_rounds t (S m) es s') as [[] s2 ev|r s2 ev| |].
Qed.
(** ** Over and over *)
Lemma rows_fun w ps es xs ys : (∃ R, winv w R) → Forall2 (λ e x, Forall2 (sees w e) ps x) es xs → Forall2 (λ e x, Forall2 (sees w e) ps x) es ys → xs = ys.
Proof.
  intros [R Hw] H. revert ys. induction H as [|e x es xs Hx H IH]; intros ys H'; inversion H'; subst; [done|]. f_equal; [|by apply IH].
  match goal with H : Forall2 (sees w e) ps ?z |- _ = ?z => revert H end. clear -Hw Hx. generalize y at 1 2. intros z. revert z. induction Hx as [|p a ps x Ha Hx IH]; intros z Hz; inversion Hz; subst; [done|].
  f_equal; [|by apply IH]. match goal with H : sees w e p ?b |- _ = ?b => rename H into Hb end. revert Ha Hb. rewrite /sees. destruct (param_ty p) as [t|]; [|by intros -> ->].
  intros (c & v & H1 & H2 & ->) (c' & v' & H1' & H2' & ->). rewrite /type_id in H1, H1'. rewrite H1 in H1'. injection H1' as <-. f_equal. by eapply holds_fun.
Qed.
Lemma get_runs_ok ps es m : Forall param_wf ps → Forall param_tame ps → unshared ps → ∀ l s, closed_by l s → ¬ not_in_use (ss_world s) ps →
  Forall (λ e, id_wf e ∧ lives (ss_world s) e ∧ wants (ss_world s) ps e) es →
  ∃ xs l' s', get_runs ps m es s = Done (replicate m xs) s' [] ∧ closed_by l' s' ∧ ss_world s' = ss_world s ∧ Forall2 (λ e x, Forall2 (sees (ss_world s) e) ps x) es xs.
Proof.
  intros Hwf Htame Hun. induction m as [|m IH]; intros l s Hcl Huse Hes.
  - destruct (get_run_ok ps l s es Hwf Htame Hun Hcl Huse Hes) as (xs & _ & _ & _ & _ & _ & Hxs). by exists xs, l, s.
  - destruct (get_run_ok ps l s es Hwf Htame Hun Hcl Huse Hes) as (xs & l1 & s1 & E1 & Hcl1 & Hw1 & Hxs).
    destruct (IH l1 s1) as (ys & l2 & s2 & E2 & Hcl2 & Hw2 & Hys); [done|by rewrite Hw1|by rewrite Hw1|]. rewrite Hw1 in Hw2, Hys.
    assert (ys = xs) as ->. { eapply rows_fun; [|exact Hys|exact Hxs]. destruct Hcl as (Hst & _). apply (sv_world _ (reachable_inv s (ex_intro _ _ Hst))). }
    exists xs, l2, s2. split; [|done]. cbn [get_runs replicate]. rewrite (bind_done_nil _ _ _ _ _ E1) (bind_done_nil _ _ _ _ _ E2). done.
Qed.
(** ** Spawning, then adding *)
Lemma adds_to w w1 w2 e l t v c : WOk w → WOk w1 → WOk w2 → spawned_with w w1 e l → t ∉ l.*1 → grown w1 w2 → other_types w1 w2 t → type_id w2 t c → lives w2 c → ¬ has w1 e c → sets w1 w2 e c v →
  spawned_with w w2 e (l ++ [(t, v)]).
Proof.
  intros Hok Hok1 Hok2 (S1 & S2 & S3 & S4 & S5 & S6 & S7 & S8 & S9 & S10) Hnt (G1 & G2 & G3 & G4) Ho Hc Hlc Hnh Hset.
  assert (∀ c, new_type w1 w2 c ↔ type_id w2 t c ∧ ∀ c', ¬ type_id w1 t c') as Hnew.
  { intros c0. split; [|intros [H1 H2]; by exists t]. intros (t0 & H1 & H2). destruct (decide (t0 = t)) as [->|Hn]; [done|]. apply (Ho t0 c0 Hn) in H1. by destruct (H2 c0). }
  split; [done|]. split; [done|]. split; [apply G1; [done|by left]|]. split; [apply G3; by left|]. split.
  { intros t0 v0 [Hin|[= -> ->]%elem_of_list_singleton]%elem_of_app.
    - destruct (S5 t0 v0 Hin) as (c0 & H1 & H2 & H3). exists c0. split; [by apply G4|]. split; [apply G1; [by eapply (typed_wf w1)|by left]|]. apply Hset. right. split; [|done].
      intros [_ ->]. apply Hnh. by exists v0.
    - exists c. split; [done|]. split; [done|]. apply Hset. by left. }
  split.
  { intros c0 v0 [(_ & -> & ->)|[_ H]]%Hset; [exists t; split; [apply elem_of_app; right; by left|done]|]. destruct (S6 c0 v0 H) as (t0 & H1 & H2). exists t0. split; [apply elem_of_app; by left|by apply G4]. }
  split. { intros e0 c0 v0 Hne. rewrite (Hset e0 c0 v0) -(S7 e0 c0 v0 Hne). split; [by intros [(-> & _)|[_ ?]]|]. intros H. right. split; [|done]. by intros [-> _]. }
  split.
  { intros e0 Hw0 Hne. rewrite (G1 e0 Hw0) (S8 e0 Hw0 Hne). split.
    - intros [[H|(t0 & H1 & H2 & H3)]|(H1 & H2)%Hnew]; [by left|right; exists t0; split; [rewrite fmap_app elem_of_app; by left|split; [by apply G4|done]]|].
      right. exists t. split; [rewrite fmap_app elem_of_app; right; by left|]. split; [done|]. intros c' Hc'. by eapply H2, S10.
    - intros [H|(t0 & H1 & H2 & H3)]; [by left; left|]. rewrite fmap_app elem_of_app in H1. destruct H1 as [H1|H1].
      + left; right. exists t0. split; [done|]. split; [|done]. apply (Ho t0 e0); [|done]. by intros ->.
      + apply elem_of_list_singleton in H1. cbn in H1. subst t0. right. apply Hnew. split; [done|]. intros c' Hc'. by apply (H3 c'), (S9 t Hnt). }
  split; [|intros t0 c0 H; by apply G4, S10].
  intros t0 Hn c0. rewrite fmap_app not_elem_of_app in Hn. destruct Hn as [Hn1 Hn2]. rewrite -(S9 t0 Hn1 c0). apply Ho. intros ->. apply Hn2. by left.
Qed.
Lemma add_next h s w e l t v : steps sess_new h s → Forall (λ q, q = None) (ss_open s) → WOk w → spawned_with w (ss_world s) e l → ty_wf t → length v = ty_size t → t ∉ l.*1 →
  (∀ c, type_id (ss_world s) t c → lives (ss_world s) c) →
  (N.of_nat (sum_list_with call_ids (calls_of h) + 1) <= 2 ^ 32)%N → (N.of_nat (sum_list_with passed_bytes (calls_of h) + length v) <= byte_limit)%N →
  (N.of_nat (length (w_archs (ss_world s)) + 1) <= u32_max)%N →
  ∃ w', sstep (SWorld (OAdd e t v)) s = Done (SRet RUnit) (Sess w' (ss_open s)) [] ∧ spawned_with w w' e (l ++ [(t, v)]) ∧
    steps sess_new (h ++ [(SWorld (OAdd e t v), ROk (SRet RUnit), [])]) (Sess w' (ss_open s)) ∧
    length (w_archs w') ≤ S (Nat.max 1 (length (w_archs (ss_world s)))) ∧ (∀ e0, stored (ss_world s) e0 → stored w' e0) ∧ (∀ t c, type_id w' t c → id_wf c).
Proof.
  intros Hst Hop Hok0 Hsp Ht Hv Hnt Hlive Hids Hbytes Harch. assert (reachable s) as Hs by (by exists h). pose proof (sv_world _ (reachable_inv _ Hs)) as Hok.
  pose proof Hsp as (S1 & S2 & S3 & S4 & S5 & S6 & S7 & S8 & S9 & S10).
  set (o := SWorld (OAdd e t v)). assert (sop_legal o s) as Hleg by (split; [done|by right]). assert (sop_tame o s) as Htame by done.
  assert (∀ c, type_id (ss_world s) t c → ¬ has (ss_world s) e c) as Hnh.
  { intros c Hc [x Hx]. destruct (S6 c x Hx) as (t0 & Hin & Hc0). assert (t0 = t) as ->. { destruct Hok as [[R HR] _]. by eapply (wi_types_inj _ _ HR). } apply Hnt. apply elem_of_list_fmap. by exists (t, x). }
  pose proof (history_ids h s o Hst Hleg Htame) as Hid. pose proof (history_quiet h s o Hst Hleg Htame) as Hq.
  specialize (Hid ltac:(exact Hids)). specialize (Hq ltac:(exact Hbytes)).
  pose proof (add_typed_view (ss_world s) e t v Hok (proj1 Hleg) Htame) as Hview. rewrite /o sworld_run in Hid, Hq. rewrite /o sworld_run.
  destruct (step (OAdd e t v) (ss_world s)) as [r w' ev|r w' ev| |] eqn:E; [| |done..].
  - destruct Hview as (-> & -> & _ & Hg & Ho & c & Hc & Hcase). destruct Hcase as [(Hlc & _ & Hnc & Hset)|(Hnl & Hc' & Ew)]; [|exfalso; apply Hnl; rewrite Ew; by apply Hlive].
    assert (sstep o s = Done (SRet RUnit) (Sess w' (ss_open s)) []) as Eo by by rewrite /o sworld_run E.
    assert (steps sess_new (h ++ [(o, ROk (SRet RUnit), [])]) (Sess w' (ss_open s))) as Hst' by by eapply steps_done.
    assert (WOk w') as Hok' by (apply (sv_world _ (reachable_inv (Sess w' (ss_open s)) (ex_intro _ _ Hst')))).
    exists w'. split; [done|]. split; [by apply (adds_to w (ss_world s) w' e l t v c)|]. split; [done|]. split; [apply (goes_archs o s (ROk (SRet RUnit)) (Sess w' (ss_open s)) [] (reachable_inv _ Hs)); done|].
    split; [intros e0 H; apply Hg; by left|]. intros t0 c0. by apply (typed_wf w').
  - exfalso. destruct Hview as [->|(Hg & Hh & _ & [(_ & [(-> & Hu)|[(-> & Hn)|(-> & _ & Hn)]] & _)|(_ & _ & c & Hc & Hrej)])].
    + by eapply Hq.
    + rewrite /unissued in Hu. rewrite /lives in S3. rewrite S3 in Hu. done.
    + done.
    + by eapply Hid.
    + assert (r ≠ RCapacity ∧ r ≠ RColumnLength) as [Hr1 Hr2] by (destruct Hrej as [(-> & _)|[(-> & _)|(-> & _)]]; done).
      assert (reachable (Sess w' (ss_open s))) as Hs'.
      { eapply reachable_steps; [exact Hs|]. eapply (steps_panic _ [] s (SWorld (OAdd e t v)) r (Sess w' (ss_open s)) ev); [apply steps_nil|done|done|by rewrite sworld_run E|done]. }
      assert (WOk w') as Hok' by by apply (sv_world _ (reachable_inv _ Hs')).
      assert (lives w' e) as Hl'. { apply Hg; [done|by left]. }
      assert (stored w' e) as Hst'. { apply Hg. by left. }
      assert (lives w' c ∧ ¬ has (ss_world s) e c) as [Hlc Hnc].
      { destruct Hok' as [[R' Hw'] _]. destruct (wi_types _ _ Hw' _ _ Hc) as (_ & Hwc & _). destruct (w_types (ss_world s) !! t) as [c'|] eqn:E'.
        - assert (c' = c) as ->. { destruct Hg as (_ & _ & _ & G4). apply G4 in E'. rewrite /type_id in E', Hc. by simplify_eq. }
          split; [|by apply Hnh]. apply Hg; [done|]. left. by apply Hlive.
        - assert (new_type (ss_world s) w' c) as Hnew. { exists t. split; [done|]. intros c'. by rewrite /type_id E'. }
          split; [apply Hg; [done|by right]|]. intros [x Hx]. destruct Hok as [[R Hw] _]. destruct (holds_size _ _ Hw _ _ _ Hx) as [Hal _].
          apply (proj1 (proj2 Hg) c Hnew). by apply lives_alive. }
      destruct Hrej as [(_ & [Hu|Hu])|[(_ & _ & _ & [Hu|Hu])|(_ & Hx)]].
      * rewrite /unissued in Hu. rewrite /lives in Hl'. rewrite Hl' in Hu. done.
      * rewrite /unissued in Hu. rewrite /lives in Hlc. rewrite Hlc in Hu. done.
      * done.
      * apply Hu. by eapply typed_stored.
      * apply Hnc. by rewrite -(has_after _ _ _ _ Hh).
Qed.
Lemma macro_sums q : macro_ids (with_added q) = S (macro_ids q.1) ∧ macro_bytes (with_added q) = macro_bytes q.1 + length q.2.2.
Proof.
  rewrite /macro_ids /macro_bytes /with_added. split; [rewrite app_length /=; lia|]. rewrite sum_list_with_app. cbn [sum_list_with]. by rewrite Nat.add_0_r.
Qed.
Lemma types_live_step w w1 e l l0 : spawned_with w w1 e l → (∀ t c, type_id w1 t c → id_wf c) → types_live w l0 → types_live w1 l0.
Proof.
  intros (S1 & S2 & S3 & S4 & S5 & S6 & S7 & S8 & S9 & S10) Hwf H3 t c Ht Hc.
  destruct (decide (t ∈ l.*1)) as [([t' x] & -> & Hin)%elem_of_list_fmap|Hn].
  - destruct (S5 t' x Hin) as (c' & Hc' & Hl & _). rewrite /type_id in Hc, Hc'. rewrite Hc' in Hc. by injection Hc as <-.
  - apply S9 in Hc; [|done]. pose proof (H3 _ _ Ht Hc) as Hl. destruct (decide (c = e)) as [->|]; [done|]. apply S8; [|done|by left]. eapply Hwf. by apply S10.
Qed.
Definition adding_calls (qs : list (list (ty * value) * (ty * value))) (es : list ecsid) : list sop :=
  concat (zip_with (λ q e, [SWorld (spawn_macro q.1); SWorld (OAdd e q.2.1 q.2.2)]) qs es).
Lemma spawn_adding_run qs : ∀ h s, steps sess_new h s → Forall (λ q, q = None) (ss_open s) →
  Forall (λ q, args_ok (with_added q) ∧ NoDup (with_added q).*1 ∧ types_live (ss_world s) (with_added q)) qs → roomy_adding h (ss_world s) qs →
  ∃ es h' w', spawn_adding qs s = Done es (Sess w' (ss_open s)) [] ∧ populated (ss_world s) w' (with_added <$> qs) es ∧ steps sess_new (h ++ h') (Sess w' (ss_open s)) ∧
    calls_of h' = adding_calls qs es ∧ (∀ e0, stored (ss_world s) e0 → stored w' e0).
Proof.
  induction qs as [|q qs IH]; intros h s Hst Hop Hls Hroom.
  - exists [], [], (ss_world s). rewrite app_nil_r sess_eta. split; [done|]. split; [apply populated_nil|]. done.
  - apply Forall_cons in Hls as [(Hargs & Hnd & Hlive) Hls]. destruct Hroom as (R1 & R2 & R3). destruct (macro_sums q) as [Hm1 Hm2].
    cbn [fmap list_fmap] in R1, R2. cbn [sum_list_with length] in R1, R2, R3. rewrite Hm1 in R1. rewrite Hm2 in R2. change (list_fmap _ _ with_added qs) with (with_added <$> qs) in R1, R2.
    apply Forall_app in Hargs as [Hargs Hargs2]. apply Forall_inv in Hargs2. rewrite /with_added fmap_app in Hnd. apply NoDup_app in Hnd as (Hnd & Hnt & _).
    assert (types_live (ss_world s) q.1) as Hlive1. { intros t c Ht. apply Hlive. rewrite /with_added fmap_app elem_of_app. by left. }
    destruct (spawn_one h s q.1 Hst Hop Hargs Hnd Hlive1) as (e & w1 & E1 & Hsp & Hst1 & Hlen & Hsto & Hno & Hwf).
    { split; [|split]; cbn [sum_list_with length]; lia. }
    set (s1 := Sess w1 (ss_open s)) in *.
    assert (reachable s) as Hs by (by exists h). pose proof (sv_world _ (reachable_inv _ Hs)) as Hok.
    destruct (macro_sum_bytes q.1) as [_ Hb2].
    destruct (add_next _ s1 (ss_world s) e q.1 q.2.1 q.2.2 Hst1 Hop Hok Hsp) as (w2 & E2 & Hsp2 & Hst2 & Hlen2 & Hsto2 & Hwf2).
    { apply Hargs2. }
    { apply Hargs2. }
    { intros Ht. apply (Hnt _ Ht). by left. }
    { intros c. apply (types_live_step _ _ _ _ _ Hsp Hwf Hlive). rewrite /with_added fmap_app elem_of_app. right. by left. }
    { rewrite /calls_of !fmap_app sum_list_with_app. cbn [fmap list_fmap fst sum_list_with]. rewrite macro_sum_ids. rewrite /calls_of in R1. lia. }
    { rewrite /calls_of !fmap_app sum_list_with_app. cbn [fmap list_fmap fst sum_list_with]. rewrite Hb2. rewrite /calls_of in R2. lia. }
    { cbn [ss_world s1]. lia. }
    cbn [ss_world ss_open s1] in *. assert (q.1 ++ [(q.2.1, q.2.2)] = with_added q) as Eq by (rewrite /with_added; by destruct q as [? []]). rewrite Eq in Hsp2.
    destruct (IH _ _ Hst2 Hop) as (es & h2 & w3 & E3 & Hp & Hst3 & Hc3 & Hsto3); cbn [ss_world ss_open] in *.
    { eapply Forall_impl; [exact Hls|]. intros l0 (H1 & H2 & H3). split; [done|]. split; [done|]. by eapply types_live_step. }
    { split; [|split].
      - rewrite /calls_of !fmap_app !sum_list_with_app. cbn [fmap list_fmap fst sum_list_with]. rewrite macro_sum_ids. rewrite /calls_of in R1. cbn [call_ids]. lia.
      - rewrite /calls_of !fmap_app !sum_list_with_app. cbn [fmap list_fmap fst sum_list_with]. rewrite Hb2. rewrite /calls_of in R2. cbn [passed_bytes]. lia.
      - lia. }
    exists (e :: es), ((SWorld (spawn_macro q.1), ROk (SRet (RId e)), []) :: (SWorld (OAdd e q.2.1 q.2.2), ROk (SRet RUnit), []) :: h2), w3. split.
    { cbn [spawn_adding]. rewrite (bind_done_nil _ _ _ _ _ E1) (bind_done_nil _ _ _ _ _ E2) (bind_done_nil _ _ _ _ _ E3). done. }
    split; [rewrite fmap_cons; apply (populated_cons (ss_world s) w2 w3 (with_added q) (with_added <$> qs) e es); [exact Hsp2|exact Hno|exact Hwf2|exact Hsto3|exact Hp]|]. split; [by rewrite -!app_assoc in Hst3|]. split; [change (SWorld (spawn_macro q.1) :: SWorld (OAdd e q.2.1 q.2.2) :: calls_of h2 = SWorld (spawn_macro q.1) :: SWorld (OAdd e q.2.1 q.2.2) :: adding_calls qs es); by rewrite Hc3|].
    by intros e0 ?%Hsto%Hsto2%Hsto3.
Qed.
(** ** The whole programs *)
Lemma sees_item w es ls i e l p x : one_to_one w → NoDup es → NoDup l.*1 → tabulates w es ls → es !! i = Some e → ls !! i = Some l → sees w e p x → item_seen e l p = Some x.
Proof.
  intros Hinj Hnd Hndl Htab Hi Hl. rewrite /sees /item_seen. destruct (param_ty p) as [t|]; [|by intros ->].
  intros (c & y & H1 & (i' & l' & t1 & H2 & H3 & H4 & H5)%Htab & ->). pose proof (NoDup_lookup _ _ _ _ Hnd H2 Hi) as ->. rewrite Hl in H3. injection H3 as <-. pose proof (Hinj _ _ _ H1 H5) as <-.
  apply (elem_of_list_to_map (M:=gmap ty)) in H4; [|done]. apply fmap_Some. exists y. split; [exact H4|done].
Qed.
Lemma gets_populated h s ls ps es m : closed_by h s → populated world_new (ss_world s) ls es → Forall (λ l, NoDup l.*1) ls → Forall param_wf ps → Forall param_tame ps → unshared ps → Forall (has_all ps) ls → ls ≠ [] →
  ∃ xs s', get_runs ps m es s = Done (replicate m xs) s' [] ∧ ss_world s' = ss_world s ∧ zip_with (λ e l, mapM (item_seen e l) ps) es ls = Some <$> xs ∧ tabulates (ss_world s') es ls ∧
    ∃ ev, world_drop (ss_world s') = Some ev ∧ ev ≡ₚ ls ≫= drops_of.
Proof.
  intros Hcl Hp Hnd Hwf Htame Hun Hall Hne. destruct Hp as (P1 & P2 & P3 & P4 & P5 & P6 & P7 & P8). set (w := ss_world s) in *.
  assert (tabulates w es ls) as Htab.
  { intros e c x. rewrite P4. split; [|by right]. intros [(k & i & a & j & u & Ha & _)|H]; [by rewrite lookup_nil in Ha|done]. }
  pose proof Hcl as (Hst & _ & _ & Hop). assert (reachable_world w) as Hrw. { exists s. split; [by exists h|done]. }
  pose proof (reachable_world_ok _ Hrw) as Hok.
  assert (Forall (λ e, id_wf e ∧ lives w e ∧ wants w ps e) es) as Hes.
  { apply Forall_forall. intros e He. destruct (P3 e He) as (H1 & _ & H2 & H3). split; [done|]. split; [done|]. split; [done|]. intros p t Hp Ht. apply elem_of_list_lookup_1 in He as [i Hi].
    destruct (lookup_lt_is_Some_2 ls i) as [l Hl]; [rewrite -P1; by eapply lookup_lt_Some|]. pose proof (proj1 (Forall_forall _ _) Hall l (elem_of_list_lookup_2 _ _ _ Hl) p t Hp Ht) as Hin.
    destruct (P7 l t (elem_of_list_lookup_2 _ _ _ Hl) Hin) as (c & Hc & _). apply elem_of_list_fmap in Hin as ([t' x] & -> & Hin). exists c. split; [done|]. exists x. apply Htab. by exists i, l, t'. }
  assert (¬ not_in_use w ps) as Huse.
  { intros (p & t & c' & Hp & Ht & Hc' & Hn). destruct ls as [|l ls]; [done|]. destruct es as [|e es]; [done|]. apply Forall_cons in Hes as [(_ & _ & _ & Hw) _]. destruct (Hw p t Hp Ht) as (c & Hc & x & (k & i' & a & j & u & H1 & _ & H2 & _)).
    rewrite /type_id in Hc, Hc'. rewrite Hc in Hc'. injection Hc' as <-. apply Hn. by exists k, a, j, u. }
  destruct (get_runs_ok ps es m Hwf Htame Hun h s Hcl Huse Hes) as (xs & l' & s' & E & Hcl' & Hw & Hxs). exists xs, s'. split; [done|]. split; [done|].
  assert (one_to_one w) as Hinj. { intros t t' c H1 H2. destruct Hok as [[R HR] _]. by eapply (wi_types_inj _ _ HR). }
  split; [|split; [by rewrite Hw|]].
  - apply list_eq. intros i. rewrite list_lookup_fmap. destruct (es !! i) as [e|] eqn:Hi.
    + destruct (lookup_lt_is_Some_2 ls i) as [l Hl]; [rewrite -P1; by eapply lookup_lt_Some|]. destruct (Forall2_lookup_l _ _ _ _ _ Hxs Hi) as (x & Hx & Hsx). rewrite Hx lookup_zip_with Hi. cbn. rewrite Hl. cbn. f_equal.
      apply mapM_Some. eapply Forall2_impl; [exact Hsx|]. intros p y. eapply (sees_item w es ls i); try done. apply (proj1 (Forall_forall _ _) Hnd l). by eapply elem_of_list_lookup_2.
    + rewrite lookup_zip_with Hi. cbn. apply lookup_ge_None in Hi. apply Forall2_length in Hxs. rewrite (proj2 (lookup_ge_None xs i)); [done|lia].
  - rewrite Hw. apply (drop_table _ es); [done|done|done|done| |done]. intros l t H1 H2. by eapply P7.
Qed.
Lemma get_bench_run ls ps m : ls ≠ [] → Forall (λ l, args_ok l ∧ NoDup l.*1 ∧ has_all ps l) ls → Forall param_wf ps → Forall param_tame ps → unshared ps → roomy [] world_new ls →
  ∃ es xs s, get_bench ls ps m sess_new = Done (es, replicate m xs) s [] ∧ length es = length ls ∧ NoDup es ∧
    zip_with (λ e l, mapM (item_seen e l) ps) es ls = Some <$> xs ∧ tabulates (ss_world s) es ls ∧ ∃ ev, world_drop (ss_world s) = Some ev ∧ ev ≡ₚ ls ≫= drops_of.
Proof.
  intros Hne Hls Hwf Htame Hun Hroom.
  destruct (spawn_all_run ls [] sess_new) as (es & h & w & E & Hp & Hst & Hcalls & _ & Hlen); [constructor|constructor| |done|].
  { eapply Forall_impl; [exact Hls|]. intros l (H1 & H2 & _). split; [done|]. split; [done|]. intros t c _ Hc. done. }
  cbn [app] in Hst. set (s1 := Sess w (ss_open sess_new)) in *.
  assert (closed_by h s1) as Hcl.
  { split; [done|]. split; [|split; [split|constructor]].
    - intros i Hi. rewrite Hcalls in Hi. by apply elem_of_list_fmap in Hi as (? & ? & _).
    - intros i Hi. rewrite Hcalls in Hi. by apply elem_of_list_fmap in Hi as (? & ? & _).
    - intros o r ev Hi. assert (o ∈ calls_of h) as Ho by (exact (elem_of_list_fmap_1 fst _ _ (elem_of_list_fmap_1 fst _ _ Hi))).
      rewrite Hcalls in Ho. apply elem_of_list_fmap in Ho as (? & -> & _). by intros []. }
  destruct (gets_populated h s1 ls ps es m) as (xs & s' & E2 & _ & Hxs & Htab & Hdrop); [done..| |done|done|done| |done|].
  { eapply Forall_impl; [exact Hls|]. by intros l (_ & ? & _). }
  { eapply Forall_impl; [exact Hls|]. by intros l (_ & _ & ?). }
  exists es, xs, s'. split; [rewrite /get_bench (bind_done_nil _ _ _ _ _ E) (bind_done_nil _ _ _ _ _ E2); done|]. split; [apply Hp|]. split; [apply Hp|done].
Qed.
Lemma padded_get_bench_run qs ps m : qs ≠ [] → Forall (λ q, args_ok (with_added q) ∧ NoDup (with_added q).*1 ∧ has_all ps (with_added q)) qs → Forall param_wf ps → Forall param_tame ps → unshared ps → roomy_adding [] world_new qs →
  ∃ es xs s, padded_get_bench qs ps m sess_new = Done (es, replicate m xs) s [] ∧ length es = length qs ∧ NoDup es ∧
    zip_with (λ e l, mapM (item_seen e l) ps) es (with_added <$> qs) = Some <$> xs ∧ tabulates (ss_world s) es (with_added <$> qs) ∧
    ∃ ev, world_drop (ss_world s) = Some ev ∧ ev ≡ₚ (with_added <$> qs) ≫= drops_of.
Proof.
  intros Hne Hls Hwf Htame Hun Hroom.
  destruct (spawn_adding_run qs [] sess_new) as (es & h & w & E & Hp & Hst & Hcalls & _); [constructor|constructor| |done|].
  { eapply Forall_impl; [exact Hls|]. intros l (H1 & H2 & _). split; [done|]. split; [done|]. intros t c _ Hc. done. }
  cbn [app] in Hst. set (s1 := Sess w (ss_open sess_new)) in *.
  assert (∀ o, o ∈ calls_of h → ∃ o', o = SWorld o') as Hsw.
  { intros o Ho. rewrite Hcalls /adding_calls in Ho. apply elem_of_list_In, in_concat in Ho as (k & Hk%elem_of_list_In & Ho%elem_of_list_In).
    apply elem_of_lookup_zip_with in Hk as (_ & q & e & -> & _ & _). apply elem_of_cons in Ho as [->|Ho%elem_of_list_singleton]; [|subst]; by eexists. }
  assert (closed_by h s1) as Hcl.
  { split; [done|]. split; [|split; [split|constructor]].
    - by intros i (? & ?)%Hsw.
    - by intros i (? & ?)%Hsw.
    - intros o r ev Hi. assert (o ∈ calls_of h) as Ho by (exact (elem_of_list_fmap_1 fst _ _ (elem_of_list_fmap_1 fst _ _ Hi))).
      apply Hsw in Ho as (? & ->). by intros []. }
  destruct (gets_populated h s1 (with_added <$> qs) ps es m) as (xs & s' & E2 & _ & Hxs & Htab & Hdrop); [done..| |done|done|done| |by destruct qs|].
  { apply Forall_fmap. eapply Forall_impl; [exact Hls|]. by intros l (_ & ? & _). }
  { apply Forall_fmap. eapply Forall_impl; [exact Hls|]. by intros l (_ & _ & ?). }
  exists es, xs, s'. split; [rewrite /padded_get_bench (bind_done_nil _ _ _ _ _ E) (bind_done_nil _ _ _ _ _ E2); done|]. split; [|split; [apply Hp|done]].
  rewrite -(fmap_length with_added qs). apply Hp.
Qed.
(** 10000 entities alike, as in the code. *)
Lemma zip_alike {A} (l : list (ty * value)) (f : ecsid → list (ty * value) → A) es n : length es = n → zip_with f es (replicate n l) = (λ e, f e l) <$> es.
Proof. intros <-. induction es as [|e es IH]; [done|]. cbn. by rewrite IH. Qed.
Lemma alike_sum {A} (f : A → nat) l k : sum_list_with f (replicate k l) = k * f l.
Proof. induction k as [|k IH]; [done|]. cbn [replicate sum_list_with]. rewrite IH. lia. Qed.
Lemma alike_ne {A} (l : A) : replicate (N.to_nat 10000) l ≠ [].
Proof. intros H. pose proof (replicate_length (N.to_nat 10000) l) as H'. rewrite H in H'. cbn [length] in H'. lia. Qed.
Lemma padded_get_10000 l t v m : args_ok (l ++ [(t, v)]) → NoDup (l ++ [(t, v)]).*1 → length l ≤ 26 → macro_bytes (l ++ [(t, v)]) ≤ 2000 → param_tame (PMut t) →
  ∃ es s, padded_get_bench (replicate (N.to_nat 10000) (l, (t, v))) [PMut t] m sess_new = Done (es, replicate m (replicate (N.to_nat 10000) [IVal v])) s [] ∧
    length es = N.to_nat 10000 ∧ NoDup es ∧ ∀ e c x, holds (ss_world s) e c x ↔ e ∈ es ∧ ∃ t0, (t0, x) ∈ l ++ [(t, v)] ∧ type_id (ss_world s) t0 c.
Proof.
  intros H1 H2 H3 H4 H5. assert (ty_wf t) as Ht. { apply Forall_app in H1 as [_ H1]. by apply Forall_inv in H1 as [? _]. }
  destruct (padded_get_bench_run (replicate (N.to_nat 10000) (l, (t, v))) [PMut t] m) as (es & xs & s & E & Hlen & Hnd & Hxs & Htab & _).
  - apply alike_ne.
  - apply Forall_replicate. split; [done|]. split; [done|]. intros p t0 ->%elem_of_list_singleton [= <-]. rewrite /with_added fmap_app elem_of_app. right. by left.
  - apply Forall_singleton. exact Ht.
  - by apply Forall_singleton.
  - intros [|j] [|j'] t0 p; cbn; rewrite ?lookup_nil; done.
  - assert (macro_ids (with_added (l, (t, v))) ≤ 28) as Hi. { rewrite /macro_ids /with_added app_length /=. lia. }
    change (l ++ [(t, v)]) with (with_added (l, (t, v))) in H4.
    rewrite /roomy_adding fmap_replicate !alike_sum replicate_length. change (calls_of []) with (@nil sop). cbn [sum_list_with]. rewrite !Nat.add_0_l. split; [|split].
    + rewrite Nat2N.inj_mul N2Nat.id. change (2 ^ 32)%N with 4294967296%N. lia.
    + rewrite Nat2N.inj_mul N2Nat.id. rewrite /byte_limit. change (2 ^ 60)%N with 1152921504606846976%N. lia.
    + change (length (w_archs world_new)) with 0. rewrite Nat2N.inj_add Nat2N.inj_mul N2Nat.id. by vm_compute.
  - rewrite replicate_length in Hlen. rewrite fmap_replicate in Hxs, Htab. change (with_added (l, (t, v))) with (l ++ [(t, v)]) in Hxs, Htab. exists es, s.
    assert (xs = replicate (N.to_nat 10000) [IVal v]) as ->.
    { rewrite (zip_alike _ _ _ _ Hlen) in Hxs. clear -Hxs Hlen H2. rewrite -Hlen. clear Hlen. revert xs Hxs. induction es as [|e es IH]; intros [|x xs]; cbn [fmap list_fmap]; intros Hxs; [done..|].
      injection Hxs as Hx Hxs. cbn [length replicate]. f_equal; [|by apply IH].
      assert ((list_to_map (l ++ [(t, v)]) : gmap ty value) !! t = Some v) as Hm. { apply (elem_of_list_to_map (M:=gmap ty)); [done|]. apply elem_of_app. right. by left. }
      rewrite /item_seen /= Hm /= in Hx. by injection Hx as <-. }
    split; [done|]. split; [done|]. split; [done|]. intros e c x. rewrite (Htab e c x). split.
    + intros (i & l' & t0 & Hi & Hl & Hin & Hc). split; [by eapply elem_of_list_lookup_2|]. apply lookup_replicate in Hl as [-> _]. by exists t0.
    + intros ([i Hi]%elem_of_list_lookup_1 & t0 & Hin & Hc). exists i, (l ++ [(t, v)]), t0. split; [done|]. split; [|done]. apply lookup_replicate. split; [done|]. apply lookup_lt_Some in Hi. by rewrite -Hlen.
Qed.
Lemma spawn_adding_done qs h s : steps sess_new h s → Forall (λ q, q = None) (ss_open s) →
  Forall (λ q, args_ok (with_added q) ∧ NoDup (with_added q).*1 ∧ types_live (ss_world s) (with_added q)) qs → roomy_adding h (ss_world s) qs →
  ∃ es s', spawn_adding qs s = Done es s' [] ∧ ss_open s' = ss_open s ∧ populated (ss_world s) (ss_world s') (with_added <$> qs) es.
Proof. intros H1 H2 H3 H4. destruct (spawn_adding_run qs h s H1 H2 H3 H4) as (es & h' & w' & E & Hp & _). by exists es, (Sess w' (ss_open s)). Qed.
