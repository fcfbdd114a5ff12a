(** * Dead and unknown ids (C61) *)
From Verif Require Import ProofBase World Query History SpecOrder.

Lemma calls_order o w l1 d l2 : checked_ids w o = l1 ++ d :: l2 → Forall (lives w) l1 →
  (despawned w d → step o w = dead_answer o w) ∧ (unissued w d → step o w = unknown_answer o w).
Proof.
  rewrite /lives /despawned /unissued. intros Hc Hl.
  assert (∀ (P : Prop) e c, checked_ids w o = [e; c] →
    (is_alive e w = Done false w [] → step o w = dead_answer o w) →
    (is_alive e w = Panicked RNoGeneration w [] → step o w = unknown_answer o w) →
    (is_alive e w = Done true w [] → is_alive c w = Done false w [] → step o w = dead_answer o w) →
    (is_alive e w = Done true w [] → is_alive c w = Panicked RNoGeneration w [] → step o w = unknown_answer o w) →
    (is_alive d w = Done false w [] → step o w = dead_answer o w) ∧
    (is_alive d w = Panicked RNoGeneration w [] → step o w = unknown_answer o w)) as Htwo.
  { intros _ e c He H1 H2 H3 H4. rewrite He in Hc. destruct l1 as [|e1 [|e2 l1]].
    - injection Hc as -> _. done.
    - injection Hc as -> -> _. apply Forall_inv in Hl. split; auto.
    - apply (f_equal length) in Hc. rewrite /= app_length /= in Hc. lia. }
  assert (∀ (P : Prop) e, checked_ids w o = [e] →
    (is_alive e w = Done false w [] → step o w = dead_answer o w) →
    (is_alive e w = Panicked RNoGeneration w [] → step o w = unknown_answer o w) →
    (is_alive d w = Done false w [] → step o w = dead_answer o w) ∧
    (is_alive d w = Panicked RNoGeneration w [] → step o w = unknown_answer o w)) as Hone.
  { intros _ e He H1 H2. rewrite He in Hc. destruct l1 as [|e1 l1]; [by injection Hc as -> _|].
    apply (f_equal length) in Hc. rewrite /= app_length /= in Hc. lia. }
  destruct o as [cap meta bs fin|e|e t v|e t|e c|e c v|e c|t|e c v|e t|e].
  - by destruct l1.
  - apply (Hone True e); [done|..]; intros E; cbn [step]; by rewrite /despawn /bind E.
  - apply (Hone True e); [done|..]; intros E; cbn [step]; by rewrite /add_component /on_unwind /bind E.
  - apply (Hone True e); [done|..]; intros E; cbn [step]; by rewrite /remove_component /bind E.
  - apply (Htwo True e c); [done|..]; intros E; [..|intros E2|intros E2]; cbn [step]; rewrite /add_component_dynamic /bind E //= E2 //.
  - apply (Htwo True e c); [done|..]; intros E; [..|intros E2|intros E2]; cbn [step]; rewrite /add_component_with_data /bind E //= E2 //.
  - apply (Htwo True e c); [done|..]; intros E; [..|intros E2|intros E2]; cbn [step]; rewrite /remove_component_dynamic /bind E //= E2 //.
  - by destruct l1.
  - apply (Htwo True e c); [done|..]; intros E; [..|intros E2|intros E2]; cbn [step]; rewrite /get_component_mut /bind E //= E2 //.
  - cbn [checked_ids] in Hone, Hc. destruct (w_types w !! t) as [c|] eqn:Et; [|by destruct l1].
    apply (Hone True e); [done|..]; intros E; cbn [step]; by rewrite /has_component /get_entity_meta /bind /gets Et /= E.
  - apply (Hone True e); [done|..]; intros E; cbn [step]; by rewrite /bind E.
Qed.
Lemma has_unregistered w e t : (∀ c, ¬ type_id w t c) → step (OHas e t) w = Done (RBool false) w [].
Proof.
  intros H. cbn [step]. rewrite /has_component /bind /gets. destruct (w_types w !! t) as [c|] eqn:E; [|done]. by destruct (H c).
Qed.
Lemma get_order w q e :
  (despawned w e → sq_get q e w = Done None w []) ∧ (unissued w e → sq_get q e w = Panicked RNoGeneration w []).
Proof. rewrite /despawned /unissued /sq_get /bind. split; by intros ->. Qed.
Lemma builder_order b w c :
  (despawned w c → run_bop (BWithDyn c) (b, w) = Panicked RUnwrap (b, w) [] ∧
     ∀ v, ∃ b', run_bop (BWithDynData c v) (b, w) = Panicked RDeadComponent (b', w) []) ∧
  (unissued w c → run_bop (BWithDyn c) (b, w) = Panicked RNoGeneration (b, w) [] ∧
     ∀ v, ∃ b', run_bop (BWithDynData c v) (b, w) = Panicked RNoGeneration (b', w) []).
Proof.
  rewrite /despawned /unissued. cbn [run_bop].
  assert (∀ b', (is_alive c w = Done false w [] → in_world (get_entity_meta c) (b', w) = Done None (b', w) []) ∧
    (is_alive c w = Panicked RNoGeneration w [] → in_world (get_entity_meta c) (b', w) = Panicked RNoGeneration (b', w) [])) as H.
  { intros b'. rewrite /in_world /on_snd /zoom /get_entity_meta /bind /=. split; intros E; by rewrite E. }
  split; intros E; (split; [|intros v; eexists]); rewrite /builder_with_dynamic /builder_with_data /bind /=;
    first [rewrite (proj1 (H _) E)|rewrite (proj2 (H _) E)]; done.
Qed.
Lemma id_cases w e : lives w e ∨ despawned w e ∨ unissued w e.
Proof.
  rewrite /lives /despawned /unissued /is_alive /bind /gets. destruct (ents_is_alive (w_ents w) e) as [[]|]; cbn; auto.
Qed.
