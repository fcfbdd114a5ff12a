(** * Short histories are tame (C64) *)
From Verif Require Import ProofBase SpecSmall World History ProofEntities ProofBitset ProofArrayVec ProofUVec.
From Verif Require Export SpecShort ProofFull ProofFlight.

(** *** Types are registered under living ids *)
Lemma typed_wf w t c : WOk w → type_id w t c → id_wf c ∧ ¬ unissued w c.
Proof.
  intros [[R Hw] _] Ht. destruct (wi_types _ _ Hw _ _ Ht) as (H1 & H2 & b & g & Hg & _). split; [done|]. rewrite unissued_oob /ents_is_alive Hg. by destruct b.
Qed.
Definition fresh_types (w w' : world) : Prop := ∀ t c, type_id w' t c → type_id w t c ∨ lives w' c.
Lemma new_types_lives w w' : WOk w' → (∀ e, id_wf e → new_type w w' e → lives w' e) → (∀ t c, type_id w t c → type_id w' t c) → fresh_types w w'.
Proof.
  intros Hw' Hn Hm t c Ht. destruct (w_types w !! t) as [c2|] eqn:E2.
  - left. pose proof (Hm _ _ E2) as H2. rewrite /type_id in Ht, H2 |- *. congruence.
  - right. apply Hn; [by eapply typed_wf|]. exists t. split; [done|]. intros c'. by rewrite /type_id E2.
Qed.
Lemma grown_fresh w w' : WOk w' → grown w w' → fresh_types w w'.
Proof. intros Hw' (G1 & _ & _ & G4). apply new_types_lives; [done| |done]. intros e He H. apply G1; [done|by right]. Qed.
Lemma spawned_fresh w w' e : WOk w' → spawned w w' e → fresh_types w w'.
Proof. intros Hw' (_ & _ & _ & S4 & _ & S6). apply new_types_lives; [done| |done]. intros e0 He H. apply S4; [done|by right; right]. Qed.
Lemma same_fresh w w' : same_types w w' → fresh_types w w'.
Proof. intros H t c Ht. left. by apply H. Qed.
Lemma refl_fresh w : fresh_types w w.
Proof. intros t c Ht. by left. Qed.
Lemma view_fresh w w' : same_view w w' → fresh_types w w'.
Proof. intros (_ & _ & _ & H). by apply same_fresh. Qed.
Lemma wgoes_fresh o w r w' ev : WOk w → WOk w' → wgoes o w r w' ev → fresh_types w w'.
Proof.
  intros Hw Hw' (Hl & Ht & E). destruct r as [a|x].
  - destruct o as [cap meta bs fin|e|e t v|e t|e c|e c v|e c|t|e c v|e t|e].
    + pose proof (spawn_view w cap meta bs fin Hw Hl Ht) as H. rewrite E in H. destruct H as (_ & e & D & _ & Hsp & _). by eapply spawned_fresh.
    + pose proof (despawn_view w e Hw Hl Ht) as H. rewrite E in H. destruct H as [(_ & _ & _ & _ & _ & _ & _ & _ & H & _)|(_ & _ & -> & _)]; [by apply same_fresh|apply refl_fresh].
    + pose proof (add_typed_view w e t v Hw Hl Ht) as H. rewrite E in H. destruct H as (_ & _ & _ & H & _). by apply grown_fresh.
    + pose proof (remove_typed_view w e t Hw Hl Ht) as H. rewrite E in H. destruct H as (_ & _ & H & _). by apply grown_fresh.
    + pose proof (add_plain_view w e c Hw Hl Ht) as H. rewrite E in H. destruct H as (_ & _ & _ & _ & _ & _ & _ & _ & _ & H & _). by apply same_fresh.
    + pose proof (add_dyn_view w e c v Hw Hl Ht) as H. rewrite E in H. destruct H as (_ & _ & [(-> & _)|(_ & _ & _ & _ & _ & _ & _ & H & _)]); [apply refl_fresh|by apply same_fresh].
    + pose proof (remove_dyn_view w e c Hw Hl Ht) as H. rewrite E in H. destruct H as (_ & [(-> & _)|(_ & _ & _ & _ & _ & H & _)]); [apply refl_fresh|by apply same_fresh].
    + pose proof (register_view w t Hw Hl) as H. rewrite E in H. destruct H as (_ & H & _). by apply grown_fresh.
    + pose proof (write_view w e c v Hw Hl) as H. rewrite E in H. destruct H as (_ & [(_ & -> & _)|(_ & _ & _ & H & _)]); [apply refl_fresh|by apply same_fresh].
    + pose proof (has_view w e t Hw) as H. rewrite E in H. destruct H as (-> & _). apply refl_fresh.
    + cbn [step] in E. rewrite /bind in E. pose proof (is_alive_cases w e) as H. destruct (is_alive e w) as [b w1 ev1|r1 w1 ev1| |]; [|done..].
      destruct H as (-> & _). cbn in E. injection E as _ <- _. apply refl_fresh.
  - destruct E as (E & Hr1 & Hr2). destruct o as [cap meta bs fin|e|e t v|e t|e c|e c v|e c|t|e c v|e t|e].
    + pose proof (spawn_view w cap meta bs fin Hw Hl Ht) as H. rewrite E in H.
      destruct H as [?|[(? & _)|[(_ & _ & H1 & _)|(e & Hs & _)]]]; [done..|by apply grown_fresh|by eapply spawned_fresh].
    + pose proof (despawn_view w e Hw Hl Ht) as H. rewrite E in H. destruct H as (-> & _). apply refl_fresh.
    + pose proof (add_typed_view w e t v Hw Hl Ht) as H. rewrite E in H. destruct H as [?|(H1 & H2 & _)]; [done|]. by apply grown_fresh.
    + pose proof (remove_typed_view w e t Hw Hl Ht) as H. rewrite E in H. destruct H as [?|(_ & H1 & H2 & _)]; [done|]. by apply grown_fresh.
    + pose proof (add_plain_view w e c Hw Hl Ht) as H. rewrite E in H. destruct H as [?|(_ & H1 & _)]; [done|]. by apply view_fresh.
    + pose proof (add_dyn_view w e c v Hw Hl Ht) as H. rewrite E in H. destruct H as [?|(_ & H1 & _)]; [done|]. by apply view_fresh.
    + pose proof (remove_dyn_view w e c Hw Hl Ht) as H. rewrite E in H. destruct H as [?|(_ & -> & _)]; [done|]. apply refl_fresh.
    + pose proof (register_view w t Hw Hl) as H. rewrite E in H. destruct H as [?|(_ & _ & H1 & H2 & _)]; [done|]. by apply grown_fresh.
    + pose proof (write_view w e c v Hw Hl) as H. rewrite E in H. destruct H as (_ & -> & _). apply refl_fresh.
    + pose proof (has_view w e t Hw) as H. rewrite E in H. destruct H as (-> & _). apply refl_fresh.
    + cbn [step] in E. rewrite /bind in E. pose proof (is_alive_cases w e) as H. destruct (is_alive e w) as [b w1 ev1|r1 w1 ev1| |]; [by destruct H as (-> & _)| |done..].
      destruct H as (-> & _). injection E as _ <- _. apply refl_fresh.
Qed.
Lemma goes_fresh o s r s' ev : sinv s → goes o s r s' ev → fresh_types (ss_world s) (ss_world s').
Proof.
  intros Hs Hg. pose proof (goes_inv _ _ _ _ _ Hs Hg) as Hs'. destruct (goes_world _ _ _ _ _ Hs Hg) as [(o' & r' & _ & H & _)|(_ & [H|H])].
  - eapply wgoes_fresh; [apply Hs|apply Hs'|done].
  - destruct (only_locks_view _ _ H) as (_ & _ & _ & H4). by apply same_fresh.
  - destruct H as (i & n & j & v & q & fs & e1 & c1 & _ & _ & _ & _ & Hk & _ & _ & H3 & _). by apply same_fresh.
Qed.
Lemma step_goes s x s' : steps s [x] s' → goes x.1.1 s x.1.2 s' x.2.
Proof.
  intros H. remember [x] as lx eqn:Hlx. destruct H as [s|s l s1 o r s2 ev H1 Hl Ht E|s l s1 o r s2 ev H1 Hl Ht E Hr]; [done|..].
  - destruct l as [|y l]; [|by destruct l]. injection Hlx as <-. remember [] as l0 eqn:Hl0. destruct H1 as [s| |]; [by split_and!|by destruct l..].
  - destruct l as [|y l]; [|by destruct l]. injection Hlx as <-. remember [] as l0 eqn:Hl0. destruct H1 as [s| |]; [by split_and!|by destruct l..].
Qed.

(** *** The generation of a registered id is below the number of births of its index *)
Lemma births_types k l s n : (k < u32_modulus)%N → births k sess_new l s n →
  ∀ t c, type_id (ss_world s) t c → id_idx c = k → (id_gen c < n)%N.
Proof.
  intros Hk H. assert (reachable sess_new) as Hr by (exists []; constructor). induction H as [|l s1 n x s2 H IH Hx Hb|l s1 n x s2 H IH Hx Hb].
  - intros t c Ht. by vm_compute in Ht.
  - intros t c Ht Hi. assert (reachable s1) as R1 by (eapply reachable_steps; [done|by eapply births_steps]).
    assert (reachable s2) as R2 by by eapply reachable_steps. pose proof (births_same _ _ _ _ _ _ _ H Hx Hb) as H2.
    destruct (goes_fresh _ _ _ _ _ (reachable_inv _ R1) (step_goes _ _ _ Hx) t c Ht) as [Ht'|Hl]; [by apply (IH t)|].
    destruct (typed_wf _ _ _ (sv_world _ (reachable_inv _ R2)) Ht) as [Hc _]. subst k. destruct (first_generations _ _ _ _ Hc H2 Hl) as [-> ?].
    eapply N.le_lt_trans; [by apply N.mod_le|lia].
  - intros t c Ht Hi. assert (reachable s1) as R1 by (eapply reachable_steps; [done|by eapply births_steps]).
    assert (reachable s2) as R2 by by eapply reachable_steps. pose proof (births_born _ _ _ _ _ _ _ H Hx Hb) as H2.
    destruct (goes_fresh _ _ _ _ _ (reachable_inv _ R1) (step_goes _ _ _ Hx) t c Ht) as [Ht'|Hl]; [pose proof (IH t c Ht' Hi); lia|].
    destruct (typed_wf _ _ _ (sv_world _ (reachable_inv _ R2)) Ht) as [Hc _]. subst k. destruct (first_generations _ _ _ _ Hc H2 Hl) as [-> ?].
    eapply N.le_lt_trans; [by apply N.mod_le|lia].
Qed.
Lemma births_length k s0 l s n : births k s0 l s n → (n <= N.of_nat (length l))%N.
Proof. induction 1; rewrite ?app_length; cbn; lia. Qed.

(** *** The number of archetypes *)
Lemma goes_archs o s r s' ev : sinv s → goes o s r s' ev → length (w_archs (ss_world s')) ≤ S (Nat.max 1 (length (w_archs (ss_world s)))).
Proof.
  intros Hs Hg. destruct (goes_world _ _ _ _ _ Hs Hg) as [(o' & r' & _ & (Hl & Ht & E) & _)|(_ & [H|H])].
  - pose proof (step_inv1 o' _ (proj1 (sv_world _ Hs)) Hl Ht) as H. rewrite /wp in H. destruct r' as [a|x].
    + rewrite E in H. apply H.
    + destruct E as (E & Hr1 & Hr2). rewrite E in H. destruct H as [?|H]; [done|]. by apply H.
  - destruct H as (ls & -> & _). cbn. lia.
  - destruct H as (i & n & j & v & q & fs & e1 & c1 & -> & _). destruct Hg as (_ & _ & E). pose proof (sstore_shape s i n j v) as H.
    assert (shape (ss_world s) (ss_world s')) as [Hsh _]. { destruct r as [a|x]; [by rewrite E in H; destruct H|]. destruct E as [E _]. by rewrite E in H; destruct H. }
    apply Forall2_length in Hsh. lia.
Qed.
Lemma steps_archs l s : steps sess_new l s → length (w_archs (ss_world s)) ≤ S (length l).
Proof.
  intros H. enough (Nat.max 1 (length (w_archs (ss_world s))) ≤ S (length l)) by lia.
  remember sess_new as s0 eqn:Es. revert Es. revert s0 l s H. apply (steps_goes (λ s0 l s, s0 = sess_new → Nat.max 1 (length (w_archs (ss_world s))) ≤ S (length l))).
  - intros s ->. cbn. lia.
  - intros s0 l s1 o r s2 ev Hst IH Hg ->. specialize (IH eq_refl). assert (reachable s1) as R1 by (by exists l).
    pose proof (goes_archs _ _ _ _ _ (reachable_inv _ R1) Hg). rewrite app_length. cbn. lia.
Qed.

(** *** Short histories are tame *)
Lemma short_tame l s o : steps sess_new l s → simple_call o → (N.of_nat (length l) + 3 <= 2 ^ 32)%N → sop_tame o s.
Proof.
  intros Hst Hp Hlen. assert (reachable s) as Hr by (by exists l). destruct o as [o|fs|ps|i u|i|i n j v]; cbn [sop_tame]; [|done..].
  split. { pose proof (steps_archs _ _ Hst). change u32_max with (2 ^ 32 - 1)%N. lia. }
  destruct o as [cap meta bs fin|e|e t v|e t|e c|e c v|e c|t|e c v|e t|e]; [done| |done..].
  intros Hal t c Htc Hi. destruct (typed_wf _ _ _ (sv_world _ (reachable_inv _ Hr)) Htc) as [[Hc1 Hc2] _].
  assert (id_idx c = id_idx e) as Hi' by (rewrite /uindex in Hi; lia).
  assert (reachable sess_new) as R0 by (exists []; constructor).
  destruct (steps_births (id_idx c) _ _ _ R0 Hc2 Hst) as [n Hn]. pose proof (births_types _ _ _ _ Hc2 Hn t c Htc eq_refl) as Hlt.
  pose proof (births_length _ _ _ _ _ Hn) as Hle. destruct (births_new _ _ _ _ Hc2 Hn) as [[-> _]|(Hn0 & b & Hsl)]; [lia|].
  assert (slot s (id_idx e) = Some (true, id_gen e)) as Hse by by apply lives_slot, lives_alive.
  rewrite -Hi' Hsl in Hse. injection Hse as -> <-. change u32_modulus with (2 ^ 32)%N in *.
  rewrite !wrap32_small; change u32_modulus with (2 ^ 32)%N; lia.
Qed.
Lemma short_runs l s : runs l s → (N.of_nat (length l) + 2 <= 2 ^ 32)%N → steps sess_new l s.
Proof.
  induction 1 as [|l s o r s' ev H IH Hl Hp E|l s o r s' ev H IH Hl Hp E Hr1 Hr2]; [constructor|..]; rewrite app_length; cbn [length]; intros Hlen.
  - eapply steps_done; [apply IH; lia|done| |done]. eapply short_tame; [apply IH; lia|done|lia].
  - eapply steps_panic; [apply IH; lia|done| |done|done]. eapply short_tame; [apply IH; lia|done|lia].
Qed.
