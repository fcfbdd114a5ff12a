(** * The playground (C65) *)
From Verif Require Import ProofBase SpecSmall World History ProofEntities ProofBitset ProofArrayVec ProofUVec.
From Verif Require Export Playground SpecQuery ProofMacro ProofLimit ProofLocks ProofLedger ProofLife.

Section pg.
  Context (t : ty) (v : value) (Ht : ty_wf t) (Hta : ty_size t ≠ 0 ∨ ty_align t = 1) (Hv : length v = ty_size t).
  Definition pg_world (w : world) (es : list ecsid) : Prop :=
    NoDup es ∧ Forall (λ e, id_wf e ∧ lives w e) es ∧ (∀ e c x, holds w e c x ↔ e ∈ es ∧ type_id w t c ∧ x = v) ∧
    (∀ c, type_id w t c → lives w c ∧ es ≠ []) ∧ (es ≠ [] → ∃ c, type_id w t c).
  Let o : sop := SWorld (spawn_macro [(t, v)]).

  Lemma pg_args : args_ok [(t, v)].
  Proof using Ht Hv. apply Forall_singleton. done. Qed.
  Lemma pg_next w w' e es : WOk w → pg_world w es → spawned_with w w' e [(t, v)] → pg_world w' (es ++ [e]).
  Proof.
    intros Hw (Hnd & Hes & Hh & Hty & Hty2) (S1 & S2 & S3 & S4 & S5 & S6 & S7 & S8 & S9 & S10).
    assert (e ∉ es) as Hne. { intros He. apply S2. eapply Forall_forall in Hes; [|done]. apply Hes. }
    destruct (S5 t v) as (c & Hc & Hlc & Hhc); [by left|].
    split. { apply NoDup_app. split; [done|]. split; [|apply NoDup_singleton]. intros x Hx ->%elem_of_list_singleton. done. }
    split.
    { apply Forall_app. split; [|by constructor]. eapply Forall_impl; [exact Hes|]. intros e0 [H1 H2]. split; [done|].
      apply S8; [done| |by left]. intros ->. done. }
    split.
    { intros e0 c0 x. rewrite elem_of_app elem_of_list_singleton. destruct (decide (e0 = e)) as [->|Hn].
      - split.
        + intros (t' & Hin%elem_of_list_singleton & Hc0)%S6. simplify_eq. split; [by right|done].
        + intros (_ & Hc0 & ->). rewrite /type_id in Hc, Hc0. rewrite Hc in Hc0. by injection Hc0 as <-.
      - rewrite S7 // Hh. split.
        + intros (H1 & H2 & ->). split; [by left|]. split; [by apply S10|done].
        + intros ([H1|H1] & H2 & ->); [|done]. split; [done|]. split; [|done]. destruct Hty2 as [c' Hc']; [by intros ->; apply elem_of_nil in H1|].
          pose proof (S10 _ _ Hc') as H3. rewrite /type_id in H2, H3, Hc' |- *. congruence. }
    split.
    - intros c0 Hc0. rewrite /type_id in Hc, Hc0. rewrite Hc in Hc0. injection Hc0 as <-. split; [done|]. by destruct es.
    - intros _. by exists c.
  Qed.
  Definition pg_inv (l : list (sop * res * list event)) (s : sess) (es : list ecsid) : Prop :=
    steps sess_new l s ∧ ss_open s = [] ∧ calls_of l = replicate (length es) o ∧ length l = length es ∧ pg_world (ss_world s) es.
  Lemma pg_one l s es : pg_inv l s es → (N.of_nat (2 * S (length es)) <= 2 ^ 32)%N → (N.of_nat (S (length es) * ty_size t) <= byte_limit)%N →
    ∃ e s', sstep o s = Done (SRet (RId e)) s' [] ∧ pg_inv (l ++ [(o, ROk (SRet (RId e)), [])]) s' (es ++ [e]).
  Proof using All.
    intros (Hst & Hop & Hcalls & Hlen & Hpg) Hids Hbytes. assert (reachable s) as Hs by (by exists l).
    assert (reachable_world (ss_world s)) as Hrw. { exists s. split; [done|]. split; [done|]. rewrite Hop. by constructor. }
    pose proof (steps_archs _ _ Hst) as Harch. assert (N.of_nat (length (w_archs (ss_world s)) + 1) <= u32_max)%N as Hroom.
    { change u32_max with (2 ^ 32 - 1)%N. destruct (length es) as [|k]; lia. }
    assert (sop_legal o s) as Hleg. { split; [by apply macro_legal, pg_args|]. right. rewrite Hop. by constructor. }
    assert (sop_tame o s) as Htame by by apply macro_tame.
    pose proof (history_ids l s o Hst Hleg Htame) as Hid. pose proof (history_quiet l s o Hst Hleg Htame) as Hq.
    assert (∀ k, sum_list_with call_ids (replicate k o) = 2 * k) as HI. { induction k as [|k IH]; [done|]. cbn [replicate sum_list_with]. rewrite IH. cbn. lia. }
    assert (∀ k, sum_list_with passed_bytes (replicate k o) = k * ty_size t) as HB. { induction k as [|k IH]; [done|]. cbn [replicate sum_list_with]. rewrite IH. cbn. lia. }
    rewrite Hcalls HI in Hid. rewrite Hcalls HB in Hq.
    specialize (Hid ltac:(change (call_ids o) with 2; lia)). specialize (Hq ltac:(change (call_bytes o) with (0 + (length v + (0 + 0))); lia)).
    pose proof (macro_view _ [(t, v)] Hrw pg_args Hroom) as Hm. rewrite sworld_run in Hid, Hq. rewrite sworld_run.
    destruct (step (spawn_macro [(t, v)]) (ss_world s)) as [r w' ev|r w' ev| |] eqn:E; [| |done..].
    - destruct Hm as (-> & _ & e & -> & Hsp). exists e, (Sess w' (ss_open s)). split; [done|]. split; [|split; [done|split; [|split]]].
      + eapply steps_done; [done..|]. by rewrite sworld_run E.
      + rewrite /calls_of !fmap_app. change (l.*1.*1) with (calls_of l). rewrite Hcalls app_length replicate_add. done.
      + rewrite !app_length. cbn. lia.
      + eapply pg_next; [by apply reachable_world_ok|done..].
    - exfalso. destruct Hm as [->|(_ & [(-> & _)|[(_ & Hn)|(_ & t0 & c & Hin & Hc & Hl)]])]; [by eapply Hq|by eapply Hid| |].
      + apply Hn. apply NoDup_singleton.
      + apply elem_of_list_singleton in Hin as ->. destruct Hpg as (_ & _ & _ & Hty & _). by destruct (Hty _ Hc).
  Qed.
  Lemma pg_spawns n : ∀ l s es, pg_inv l s es → (N.of_nat (2 * (length es + n)) <= 2 ^ 32)%N → (N.of_nat ((length es + n) * ty_size t) <= byte_limit)%N →
    ∃ l' s' es', pg_spawn t v n s = Done es' s' [] ∧ length es' = n ∧ pg_inv l' s' (es ++ es').
  Proof using All.
    induction n as [|n IH]; intros l s es Hi Hids Hbytes.
    - exists l, s, []. rewrite app_nil_r. done.
    - destruct (pg_one _ _ _ Hi) as (e & s1 & E & Hi1); [lia|nia|].
      destruct (IH _ _ _ Hi1) as (l2 & s2 & es2 & E2 & Hl2 & Hi2); [rewrite app_length /=; lia|rewrite app_length /=; etrans; [|exact Hbytes]; apply N.eq_le_incl; f_equal; lia|].
      exists l2, s2, (e :: es2). split; [|split; [by cbn; lia|by rewrite -app_assoc in Hi2]].
      cbn [pg_spawn]. fold o. rewrite (bind_done_nil _ _ _ _ _ E) (bind_done_nil _ _ _ _ _ E2). done.
  Qed.
  Lemma pg_gets_run s i q es : reachable s → ss_open s !! i = Some (Some (QStat q)) → sq_params q = [PMut t] →
    Forall (λ e, lives (ss_world s) e ∧ ∃ c x, type_id (ss_world s) t c ∧ holds (ss_world s) e c x) es → pg_gets q es s = Done () s [].
  Proof.
    intros Hs Hi Hq. induction 1 as [|e es (Hl & c & x & Hc & Hh) _ IH]; [done|]. cbn [pg_gets].
    pose proof (open_get s i q e Hs Hi) as Hg. assert (in_sworld (sq_get q e) s = match sq_get q e (ss_world s) with Done a w ev => Done a (Sess w (ss_open s)) ev
      | Panicked r w ev => Panicked r (Sess w (ss_open s)) ev | Deadlock => Deadlock | UB => UB end) as Er by apply in_sworld_run.
    destruct (sq_get q e (ss_world s)) as [a w' ev|r w' ev| |]; [| |done..].
    - destruct Hg as (-> & -> & _ & Hg). rewrite sess_eta in Er. rewrite (bind_done_nil _ _ _ _ _ Er). destruct a as [xs|].
      + rewrite (bind_done_nil (unwrap (Some xs) RUnwrap) _ s xs s eq_refl). done.
      + destruct Hg. rewrite Hq. split; [destruct Hh as (k & j & a & _ & _ & Ha & He & _); by exists k, j, a|].
        intros p t' ->%elem_of_list_singleton [= <-]. exists c. split; [done|]. by exists x.
    - destruct Hg as (_ & _ & _ & Hu). rewrite /lives /unissued in Hl, Hu. rewrite Hl in Hu. done.
  Qed.
  Lemma pg_gets_exact s i q es : reachable s → ss_open s !! i = Some (Some (QStat q)) →
    match pg_gets q es s with
    | Done _ s' ev => s' = s ∧ ev = [] ∧ Forall (wants (ss_world s) (sq_params q)) es
    | Panicked r s' ev => s' = s ∧ ev = [] ∧ ∃ es1 e es2, es = es1 ++ e :: es2 ∧ Forall (wants (ss_world s) (sq_params q)) es1 ∧
        ((r = RUnwrap ∧ ¬ unissued (ss_world s) e ∧ ¬ wants (ss_world s) (sq_params q) e) ∨ (r = RNoGeneration ∧ unissued (ss_world s) e))
    | _ => False
    end.
  Proof.
    intros Hs Hi. induction es as [|e es IH]; [done|]. cbn [pg_gets].
    pose proof (open_get s i q e Hs Hi) as Hg. assert (in_sworld (sq_get q e) s = match sq_get q e (ss_world s) with Done a w ev => Done a (Sess w (ss_open s)) ev
      | Panicked r w ev => Panicked r (Sess w (ss_open s)) ev | Deadlock => Deadlock | UB => UB end) as Er by apply in_sworld_run.
    destruct (sq_get q e (ss_world s)) as [a w' ev|r w' ev| |]; [| |done..].
    - destruct Hg as (-> & -> & Hu & Hg). rewrite sess_eta in Er. rewrite (bind_done_nil _ _ _ _ _ Er). destruct a as [xs|].
      + rewrite (bind_done_nil (unwrap (Some xs) RUnwrap) _ s xs s eq_refl). destruct (pg_gets q es s) as [[] s' ev|r s' ev| |]; [| |done..].
        * destruct IH as (-> & -> & IH). split; [done|]. split; [done|]. apply Forall_cons. by destruct Hg.
        * destruct IH as (-> & -> & es1 & e1 & es2 & -> & H1 & H2). split; [done|]. split; [done|]. exists (e :: es1), e1, es2.
          split; [done|]. split; [|done]. apply Forall_cons. by destruct Hg.
      + cbn. split; [done|]. split; [done|]. exists [], e, es. split; [done|]. split; [constructor|]. by left.
    - destruct Hg as (-> & -> & -> & Hu). rewrite sess_eta in Er. rewrite /bind Er. split; [done|]. split; [done|]. exists [], e, es. split; [done|]. split; [constructor|]. by right.
  Qed.
  Definition pg_rinv (l : list (sop * res * list event)) (s : sess) (w : world) : Prop :=
    steps sess_new l s ∧ no_forget l ∧ no_unwinding l ∧ ss_world s = w ∧ Forall (λ q, q = None) (ss_open s).
  Lemma no_forget_snoc l x : no_forget l → (∀ i, x.1.1 ≠ SForget i) → no_forget (l ++ [x]).
  Proof. intros H Hx i. rewrite /calls_of !fmap_app elem_of_app. intros [H1|H1%elem_of_list_singleton]; [by apply (H i)|by destruct (Hx i)]. Qed.
  Lemma no_unwinding_snoc l x a : no_unwinding l → x.1.2 = ROk a → (∀ i, x.1.1 ≠ SDrop i true) → no_unwinding (l ++ [x]).
  Proof.
    intros [H1 H2] Hr Hx. split.
    - intros i. rewrite /calls_of !fmap_app elem_of_app. intros [H|H%elem_of_list_singleton]; [by apply (H1 i)|by destruct (Hx i)].
    - intros o' r ev. rewrite elem_of_app elem_of_list_singleton. intros [H| <-]; [by eapply H2|done].
  Qed.
  Lemma pg_round_run l s w es : pg_world w es → pg_rinv l s w → ∃ l' s', pg_round t es s = Done () s' [] ∧ pg_rinv l' s' w ∧ ss_open s' = ss_open s ++ [None].
  Proof using All.
    intros (Hnd & Hes & Hh & Hty & Hty2) (Hst & Hf & Hu & <- & Hop). assert (reachable s) as Hs by (by exists l).
    assert (open_fetches s = []) as Hof. { rewrite /open_fetches. clear -Hop. induction Hop as [|q ? -> _ IH]; [done|]. cbn. done. }
    destruct (creates_static l s [PMut t] Hst Hf Hu) as (s1 & q & E & Hop1 & Hq & Hsv).
    { by apply Forall_singleton. }
    { apply Forall_singleton. intros t' [= <-]. done. }
    { intros fs Hfs. rewrite Hof. inversion Hfs as [|? f ? fs' Ha Hr]; subst. inversion Hr; subst. intros i j c f' Hij Hi Hj.
      apply lookup_lt_Some in Hi. apply lookup_lt_Some in Hj. cbn in Hi, Hj. lia. }
    { intros (p & t' & c & ->%elem_of_list_singleton & [= <-] & Hc & Hiu). apply Hiu. destruct (Hty c Hc) as [_ Hne]. destruct es as [|e es]; [done|].
      destruct (proj2 (Hh e c v)) as (k & i & a & j & u & Ha & _ & Hj & _); [split; [by left|done]|]. by exists k, a, j, u. }
    assert (steps sess_new (l ++ [(SOpenStat [PMut t], ROk (SHandle (length (ss_open s))), [])]) s1) as Hst1.
    { eapply steps_done; [done| | |done]; cbn; [by apply Forall_singleton|]. apply Forall_singleton. intros t' [= <-]. done. }
    destruct (opens_released s (SOpenStat [PMut t]) _ s1 [] Hs I E) as (i & [= <-] & E2).
    set (i := length (ss_open s)) in *. set (s2 := Sess (ss_world s) (ss_open s ++ [None])) in *.
    exists ((l ++ [(SOpenStat [PMut t], ROk (SHandle i), [])]) ++ [(SDrop i false, ROk SNothing, [])]), s2. split.
    - rewrite /pg_round (bind_done_nil _ _ _ _ _ E) (bind_done_nil (gets id) _ s1 s1 s1 eq_refl) Hop1 lookup_app_r // Nat.sub_diag /=.
      rewrite (bind_done_nil (pg_gets q es) _ s1 () s1); [by rewrite (bind_done_nil _ _ _ _ _ E2)|].
      eapply (pg_gets_run s1 i q es); [by eexists|by rewrite Hop1 lookup_app_r // Nat.sub_diag|done|]. destruct Hsv as (V1 & V2 & V3 & V4).
      apply Forall_forall. intros e He. pose proof He as [H1 H2]%(proj1 (Forall_forall _ _) Hes). split; [by apply V1|].
      destruct Hty2 as [c Hc]; [by intros ->; apply elem_of_nil in He|]. exists c, v. split; [by apply V4|]. apply V3, Hh. done.
    - split; [|done]. split; [by eapply steps_done; [exact Hst1|done|done|]|]. split; [by apply no_forget_snoc; [apply no_forget_snoc|]|].
      split; [by eapply no_unwinding_snoc; [eapply no_unwinding_snoc|..]|]. split; [done|]. cbn. apply Forall_app. split; [done|by constructor].
  Qed.
  Lemma pg_rounds_run m : ∀ l s w es, pg_world w es → pg_rinv l s w → ∃ l' s', pg_rounds t m es s = Done () s' [] ∧ pg_rinv l' s' w ∧
    ss_open s' = ss_open s ++ replicate m None.
  Proof using All.
    induction m as [|m IH]; intros l s w es Hw Hi; [exists l, s; by rewrite app_nil_r|].
    destruct (pg_round_run _ _ _ _ Hw Hi) as (l1 & s1 & E1 & Hi1 & Ho1). destruct (IH _ _ _ _ Hw Hi1) as (l2 & s2 & E2 & Hi2 & Ho2).
    exists l2, s2. split; [cbn [pg_rounds]; by rewrite (bind_done_nil _ _ _ _ _ E1)|]. split; [done|]. by rewrite Ho2 Ho1 -(assoc_L (++)).
  Qed.
  Lemma pg_dropped w es : WOk w → reachable_world w → pg_world w es →
    ∃ ev, world_drop w = Some ev ∧ ev ≡ₚ if decide (ty_size t = 0) then [] else replicate (length es) (EvDrop (DropOf t) v).
  Proof using All.
    intros Hok Hw (Hnd & Hes & Hh & Hty & Hty2). destruct (dropped_world w Hw) as (ev & E & Hev). exists ev. split; [done|]. rewrite Hev.
    destruct (decide (es = [])) as [->|Hne].
    { assert (held w = []) as Hnil. { destruct (held w) as [|[[e c] x] ?] eqn:Hd; [done|]. assert ((e, c, x) ∈ held w) as Hin by (rewrite Hd; left).
        apply held_holds, Hh in Hin as (Hin & _). by apply elem_of_nil in Hin. }
      rewrite /cells Hnil. by case_decide. }
    destruct (Hty2 Hne) as [c Hc]. destruct (Hty c Hc) as [Hl _].
    assert (held w ≡ₚ (λ e, (e, c, v)) <$> es) as Hp.
    { destruct Hok as [[R HR] _]. apply NoDup_Permutation; [by eapply held_nodup|apply NoDup_fmap; [by intros ?? [= ->]|done]|].
      intros [[e0 c0] x]. rewrite held_holds Hh elem_of_list_fmap. split.
      - intros (H1 & H2 & ->). exists e0. split; [|done]. rewrite /type_id in Hc, H2. rewrite Hc in H2. by injection H2 as <-.
      - intros (e1 & [= -> -> ->] & H). done. }
    assert (dtor w c = Some (DropOf t)) as Hd. { destruct (typed_stored w t c Hok Hc Hl) as [_ Hr]. rewrite /recorded in Hr. rewrite /dtor. destruct (get_entity_meta c w) as [[m|]| | |]; [|done..]. by rewrite Hr. }
    assert (cells w ≡ₚ replicate (length es) (c, v)) as Hcs.
    { rewrite /cells Hp -list_fmap_compose. clear. induction es as [|e es IH]; [done|]. cbn. by f_equiv. }
    rewrite /dropping_sized /dropping_all Hcs. clear -Hd Hv. induction (length es) as [|k IH]; cbn [replicate]; [by case_decide|].
    rewrite filter_cons. cbn [snd]. destruct (decide (ty_size t = 0)) as [H2|H2]; case_decide as H1.
    - destruct H1. apply nil_length_inv. by rewrite Hv.
    - exact IH.
    - rewrite bind_cons IH /dropping /= Hd. done.
    - destruct H2. rewrite -Hv. by rewrite H1.
  Qed.
  Lemma playground_run n m : (N.of_nat (2 * n) <= 2 ^ 32)%N → (N.of_nat (n * ty_size t) <= byte_limit)%N →
    ∃ es s, playground t v n m sess_new = Done es s [] ∧ length es = n ∧ NoDup es ∧
      Forall (λ e, id_wf e ∧ lives (ss_world s) e) es ∧ ss_open s = replicate m None ∧
      (∀ e c x, holds (ss_world s) e c x ↔ e ∈ es ∧ type_id (ss_world s) t c ∧ x = v) ∧
      ∃ ev, world_drop (ss_world s) = Some ev ∧ ev ≡ₚ if decide (ty_size t = 0) then [] else replicate n (EvDrop (DropOf t) v).
  Proof using All.
    intros Hids Hbytes. destruct (pg_spawns n [] sess_new []) as (l & s & es & E & Hlen & Hst & Hop & Hcalls & Hll & Hpg); [|cbn; done|cbn; done|].
    { split; [constructor|]. split; [done|]. split; [done|]. split; [done|]. split; [constructor|]. split; [constructor|]. split.
      - intros e c x. split; [|by intros (H%elem_of_nil & _)]. intros (k & i & a & j & u & Ha & _). by rewrite lookup_nil in Ha.
      - split; [|done]. intros c Hc. by vm_compute in Hc. }
    cbn [app] in *. destruct (pg_rounds_run m l s (ss_world s) es Hpg) as (l2 & s2 & E2 & (_ & _ & _ & Hw & _) & Hop2).
    { split; [done|]. split. { intros i. rewrite Hcalls. intros [? _]%elem_of_replicate. done. }
      split; [|split; [done|rewrite Hop; by constructor]]. split. { intros i. rewrite Hcalls. intros [? _]%elem_of_replicate. done. }
      intros o' r ev Hin Ho. assert (o' ∈ calls_of l) as Hc. { rewrite /calls_of -list_fmap_compose. apply elem_of_list_fmap. by eexists (_, _, _). } rewrite Hcalls in Hc. apply elem_of_replicate in Hc as [-> _]. done. }
    exists es, s2. split. { rewrite /playground (bind_done_nil _ _ _ _ _ E) (bind_done_nil _ _ _ _ _ E2). done. }
    assert (reachable_world (ss_world s)) as Hrw. { exists s. split; [by exists l|]. split; [done|]. rewrite Hop. by constructor. }
    pose proof (pg_dropped _ _ (reachable_world_ok _ Hrw) Hrw Hpg) as Hdr. rewrite Hlen in Hdr.
    rewrite Hop in Hop2. rewrite Hw. destruct Hpg as (Hnd & Hes & Hh & _). done.
  Qed.
End pg.
Lemma main_run i v : length v = 4 →
  ∃ es s, playground (Ty i 4 4) v (N.to_nat 10000) (N.to_nat 1000000) sess_new = Done es s [] ∧ length es = N.to_nat 10000 ∧
    ss_open s = replicate (N.to_nat 1000000) None ∧
    ∀ e c x, holds (ss_world s) e c x ↔ e ∈ es ∧ type_id (ss_world s) (Ty i 4 4) c ∧ x = v.
Proof.
  intros Hv. destruct (playground_run (Ty i 4 4) v) with (n := N.to_nat 10000) (m := N.to_nat 1000000) as (es & s & E & H1 & _ & _ & Ho & H2 & _);
    [split; by vm_compute|by left|done| | |exists es, s; split; [exact E|]; split; [exact H1|]; split; [exact Ho|exact H2]].
  - rewrite Nat2N.inj_mul N2Nat.id. done.
  - rewrite Nat2N.inj_mul N2Nat.id. by vm_compute.
Qed.
