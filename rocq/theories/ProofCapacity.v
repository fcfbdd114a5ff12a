(** * C47: two executions differing in capacities and buffers go the same way *)
From Verif Require Import ProofBase SpecSmall World Query History ProofEntities ProofBitset ProofArrayVec ProofUVec.
From Verif Require Export SpecReuse ProofReuse.

Definition alike (w w' : world) : Prop :=
  reuse_ok (w_reuse w) ∧ ∃ r, reuse_ok r ∧ w' = set_reuse r w.

Definition exceeding {S A} (x : outcome S A) : Prop := ∃ s ev, x = Panicked RCapacity s ev.
Inductive agree {S A} (R : S → S → Prop) : outcome S A → outcome S A → Prop :=
| ag_left x y : exceeding x → agree R x y
| ag_right x y : exceeding y → agree R x y
| ag_done a s s' ev : R s s' → agree R (Done a s ev) (Done a s' ev)
| ag_panic r s s' ev : R s s' → agree R (Panicked r s ev) (Panicked r s' ev)
| ag_deadlock : agree R Deadlock Deadlock
| ag_ub : agree R UB UB.
Lemma agree_outcome {S A} (R : S → S → Prop) (x y : outcome S A) : agree R x y → same_outcome R x y.
Proof.
  intros [? z H|z ? H|? ? ? ? ?|r ? ? ? ?| |]; cbn; try done.
  - destruct H as (? & ? & ->). by destruct z.
  - destruct H as (? & ? & ->). destruct z as [|r ? ?| |]; [exact I|destruct r; exact I|exact I|exact I].
  - by destruct r.
Qed.
Lemma outcome_agree {S A} (R : S → S → Prop) (x y : outcome S A) : same_outcome R x y → agree R x y.
Proof.
  intros H. assert (exceeding x ∨ ¬ exceeding x) as [?|Hx]. { destruct x as [| []| |]; try (right; intros (?&?&?); done). left. by eexists _, _. }
  { by apply ag_left. }
  assert (exceeding y ∨ ¬ exceeding y) as [?|Hy]. { destruct y as [| []| |]; try (right; intros (?&?&?); done). left. by eexists _, _. }
  { by apply ag_right. }
  destruct x as [a s ev|r s ev| |], y as [a' s' ev'|r' s' ev'| |]; cbn in H.
  - destruct H as (-> & -> & H). by apply ag_done.
  - destruct r'; try done. destruct Hy. by eexists _, _.
  - done.
  - done.
  - destruct r; try done. destruct Hx. by eexists _, _.
  - assert (r' = r ∧ ev' = ev ∧ R s s') as (-> & -> & HR).
    { destruct r, r'; try (destruct H; done); try done; first [destruct Hx; by eexists _, _|destruct Hy; by eexists _, _]. }
    by apply ag_panic.
  - destruct r; try done. destruct Hx. by eexists _, _.
  - destruct r; try done. destruct Hx. by eexists _, _.
  - done.
  - destruct r'; try done. destruct Hy. by eexists _, _.
  - apply ag_deadlock.
  - done.
  - done.
  - destruct r'; try done. destruct Hy. by eexists _, _.
  - done.
  - apply ag_ub.
Qed.
Lemma agree_mono {S A} (R R' : S → S → Prop) (x y : outcome S A) :
  (∀ s s', R s s' → R' s s') → agree R x y → agree R' x y.
Proof. intros HR []; [by apply ag_left|by apply ag_right|by apply ag_done, HR|by apply ag_panic, HR|apply ag_deadlock|apply ag_ub]. Qed.
Lemma exceeding_bind {S A B} (m : M S A) (k : A → M S B) s : exceeding (m s) → exceeding (bind m k s).
Proof. intros (s' & ev & H). exists s', ev. by rewrite /bind H. Qed.
Lemma agree_events {S A} (R : S → S → Prop) (x y : outcome S A) ev : agree R x y → agree R (add_events ev x) (add_events ev y).
Proof.
  intros []; cbn.
  - destruct H as (? & ? & ->). apply ag_left. by eexists _, _.
  - destruct H as (? & ? & ->). apply ag_right. by eexists _, _.
  - by apply ag_done.
  - by apply ag_panic.
  - apply ag_deadlock.
  - apply ag_ub.
Qed.
Lemma agree_bind {S A B} (R R' : S → S → Prop) (m m' : M S A) (k k' : A → M S B) s s' :
  agree R (m s) (m' s') →
  (∀ a s1 s1' ev, m s = Done a s1 ev → m' s' = Done a s1' ev → R s1 s1' → agree R' (k a s1) (k' a s1')) →
  (∀ s1 s1', R s1 s1' → R' s1 s1') →
  agree R' (bind m k s) (bind m' k' s').
Proof.
  intros H Hk HR. inversion H as [x y Hx E1 E2|x y Hx E1 E2|a s1 s1' ev Hs E1 E2|r s1 s1' ev Hs E1 E2|E1 E2|E1 E2].
  - by apply ag_left, exceeding_bind.
  - by apply ag_right, exceeding_bind.
  - unfold bind. rewrite -E1 -E2. apply agree_events. by eapply Hk.
  - unfold bind. rewrite -E1 -E2. by apply ag_panic, HR.
  - unfold bind. rewrite -E1 -E2. apply ag_deadlock.
  - unfold bind. rewrite -E1 -E2. apply ag_ub.
Qed.
Lemma agree_on_unwind {S A} (R : S → S → Prop) (m m' : M S A) c s s' : agree R (m s) (m' s') → agree R (on_unwind m (Some c) s) (on_unwind m' (Some c) s').
Proof.
  intros H. rewrite /on_unwind. inversion H as [x y Hx E1 E2|x y Hx E1 E2|a s1 s1' ev Hs E1 E2|r s1 s1' ev Hs E1 E2|E1 E2|E1 E2].
  - destruct Hx as (s1 & ev & ->). apply ag_left. by eexists _, _.
  - destruct Hx as (s1 & ev & ->). apply ag_right. by eexists _, _.
  - by apply ag_done.
  - by apply ag_panic.
  - apply ag_deadlock.
  - apply ag_ub.
Qed.
Lemma agree_ret {S A} (R : S → S → Prop) (a : A) s s' : R s s' → agree R (ret a s) (ret a s').
Proof. apply ag_done. Qed.
Lemma blind_keeps {A} (m : M world A) w : blind m → restate (set_reuse (w_reuse w)) (m w) = m w.
Proof. intros H. rewrite -H. by destruct w. Qed.
Lemma set_reuse_eq_inv w r : set_reuse r w = w → w_reuse w = r.
Proof. intros H. rewrite -H. done. Qed.
Lemma blind_alike {A} (m : M world A) w w' : blind m → alike w w' → agree alike (m w) (m w').
Proof.
  intros Hm (Hr & r & Hr' & ->). rewrite Hm. pose proof (blind_keeps m w Hm) as Hk.
  destruct (m w) as [a s ev|x s ev| |]; cbn [restate] in *; [| |apply ag_deadlock|apply ag_ub].
  - injection Hk as Hk. apply ag_done. split; [by rewrite (set_reuse_eq_inv _ _ Hk)|]. by exists r.
  - injection Hk as Hk. apply ag_panic. split; [by rewrite (set_reuse_eq_inv _ _ Hk)|]. by exists r.
Qed.

(** ** Builders *)
(** Both buffers can be freed. *)
Definition balike (s s' : bw) : Prop := alike s.2 s'.2 ∧ bbuf s.1 ∧ bbuf s'.1.
Lemma alike_ok w w' : alike w w' → reuse_ok (w_reuse w').
Proof. intros (_ & r & Hr & ->). done. Qed.
Lemma alike_reuse w w' r r' : alike w w' → reuse_ok r → reuse_ok r' → alike (set_reuse r w) (set_reuse r' w').
Proof. intros (_ & x & _ & ->) H1 H2. split; [done|]. by exists r'. Qed.
Lemma with_builder_exceeding {A} b (m : M bw A) w : bbuf b → bsafe m → exceeding (m (b, w)) → exceeding (with_builder b m w).
Proof.
  intros Hb Hm ([b1 w1] & ev & E). specialize (Hm b w Hb). rewrite E in Hm. rewrite /with_builder E.
  destruct (builder_drop_run b1 w1 Hm) as (r & -> & _). by eexists _, _.
Qed.
Lemma with_builder_alike {A} b b' (m : M bw A) w w' :
  bbuf b → bbuf b' → bsafe m → agree balike (m (b, w)) (m (b', w')) →
  agree alike (with_builder b m w) (with_builder b' m w').
Proof.
  intros Hb Hb' Hm H.
  inversion H as [x y Hx E1 E2|x y Hx E1 E2|a [b1 w1] [b1' w1'] ev Hs E1 E2|r [b1 w1] [b1' w1'] ev Hs E1 E2|E1 E2|E1 E2].
  - by apply ag_left, with_builder_exceeding.
  - by apply ag_right, with_builder_exceeding.
  - rewrite /with_builder -E1 -E2. destruct Hs as (Ha & H1 & H2). cbn [fst snd] in *.
    destruct (builder_drop_run b1 w1 H1) as (r & -> & Hr). destruct (builder_drop_run b1' w1' H2) as (r' & -> & Hr').
    apply ag_done. apply alike_reuse; [done|apply Hr, Ha|]. by apply Hr', (alike_ok w1).
  - rewrite /with_builder -E1 -E2. destruct Hs as (Ha & H1 & H2). cbn [fst snd] in *.
    destruct (builder_drop_run b1 w1 H1) as (r1 & -> & Hr). destruct (builder_drop_run b1' w1' H2) as (r' & -> & Hr').
    apply ag_panic. apply alike_reuse; [done|apply Hr, Ha|]. by apply Hr', (alike_ok w1).
  - rewrite /with_builder -E1 -E2. apply ag_deadlock.
  - rewrite /with_builder -E1 -E2. apply ag_ub.
Qed.
Lemma agree_restate {S S' A} (f : S → S') (R : S' → S' → Prop) (R2 : S → S → Prop) (x y : outcome S A) :
  agree R (restate f x) (restate f y) → (∀ s s', R (f s) (f s') → (∃ a ev, x = Done a s ev) ∨ (∃ r ev, x = Panicked r s ev) →
    (∃ a ev, y = Done a s' ev) ∨ (∃ r ev, y = Panicked r s' ev) → R2 s s') → agree R2 x y.
Proof.
  intros H HR.
  inversion H as [x' y' Hx E1 E2|x' y' Hx E1 E2|a s1 s2 ev Hs E1 E2|r s1 s2 ev Hs E1 E2|E1 E2|E1 E2].
  - apply ag_left. destruct Hx as (s & ev & Hx). destruct x; try done. injection Hx as -> <- <-. by eexists _, _.
  - apply ag_right. destruct Hx as (s & ev & Hx). destruct y; try done. injection Hx as -> <- <-. by eexists _, _.
  - destruct x; try done. destruct y; try done. cbn in E1, E2. simplify_eq. apply ag_done. apply HR; [done|left; by eexists _, _..].
  - destruct x; try done. destruct y; try done. cbn in E1, E2. simplify_eq. apply ag_panic. apply HR; [done|right; by eexists _, _..].
  - destruct x; try done. destruct y; try done. apply ag_deadlock.
  - destruct x; try done. destruct y; try done. apply ag_ub.
Qed.
Lemma pending_reuse w b D r : pending w b D → pending (set_reuse r w) b D.
Proof. by intros []. Qed.
Lemma build_alike b b' w w' D : alike w w' → bbuf b → bbuf b' → pending w b D → pending w b' D →
  (∀ k, fits w k D) → eb_entity b' = eb_entity b → eb_meta b' = eb_meta b →
  agree balike (build (b, w)) (build (b', w')).
Proof.
  intros Ha Hb Hb' Hp Hp' Hf He Hm.
  assert (pending w' b' D ∧ ∀ k, fits w' k D) as [Hp1 Hf1]. { destruct Ha as (_ & r & _ & ->). split; [by apply pending_reuse|exact Hf]. }
  eapply agree_restate with (f := snd) (R := alike).
  - rewrite (build_given_eq b w D Hp Hf) (build_given_eq b' w' D Hp1 Hf1) He Hm. apply blind_alike; [apply blind_build_given|done].
  - intros [b1 w1] [b2 w2] Hr H1 H2. split; [done|]. pose proof (bsafe_build b w Hb) as S1. pose proof (bsafe_build b' w' Hb') as S2.
    split.
    + destruct H1 as [(? & ? & E)|(? & ? & E)]; by rewrite E in S1.
    + destruct H2 as [(? & ? & E)|(? & ? & E)]; by rewrite E in S2.
Qed.
Lemma builder_new_run w e cm : reuse_ok (w_reuse w) →
  ∃ b r, builder_new e cm w = Done b (set_reuse r w) [] ∧ fresh_builder e cm b ∧ reuse_ok r.
Proof.
  intros Hr. rewrite /builder_new (bind_done_nil _ _ w (w_reuse w) w eq_refl).
  destruct (w_reuse w) as [[[ids p] cap]|] eqn:E.
  - destruct Hr as (-> & Hc & Hb). rewrite (bind_done_nil _ _ w () (set_reuse None w) eq_refl).
    eexists _, None. split_and!; [done| |done]. by apply fresh_builder_intro.
  - eexists _, None. split_and!; [rewrite -E; by destruct w| |done]. apply fresh_builder_intro. by left.
Qed.
Lemma builder_with_capacity_run w e cm n : reuse_ok (w_reuse w) →
  (∃ b r, builder_with_capacity e cm n w = Done b (set_reuse r w) [] ∧ fresh_builder e cm b ∧ reuse_ok r) ∨
  exceeding (builder_with_capacity e cm n w).
Proof.
  intros Hr. rewrite /builder_with_capacity (bind_done_nil _ _ w (w_reuse w) w eq_refl).
  destruct (w_reuse w) as [u|] eqn:E; [left; apply builder_new_run; by rewrite E|].
  case_decide as Hn; [left; apply builder_new_run; by rewrite E|].
  destruct (layout_from_size_align n 1) as [l|] eqn:Hl; [|right; by eexists _, _].
  pose proof (layout_ok_eq _ _ Hl) as ->. cbn [unwrap]. rewrite (bind_done_nil _ _ w (Layout n 1) w eq_refl).
  rewrite /heap_alloc /= decide_False //. left.
  eexists _, None. split_and!; [rewrite -E; by destruct w| |done]. apply fresh_builder_intro.
  right. split_and!; [done|done|]. eexists. split; [done|]. by rewrite replicate_length.
Qed.
Lemma spawn_builder_alike cap cap' meta w w' : alike w w' →
  exceeding (spawn_builder cap meta w) ∨ exceeding (spawn_builder cap' meta w') ∨
  (∃ r s s' ev, spawn_builder cap meta w = Panicked r s ev ∧ spawn_builder cap' meta w' = Panicked r s' ev ∧ alike s s') ∨
  (∃ e b b' s s', spawn_builder cap meta w = Done b s [] ∧ spawn_builder cap' meta w' = Done b' s' [] ∧ alike s s' ∧
     fresh_builder e meta b ∧ fresh_builder e meta b').
Proof.
  intros Ha. rewrite /spawn_builder.
  assert (∀ cap e w, reuse_ok (w_reuse w) →
    let m := match cap with Some n => builder_with_capacity e meta n | None => builder_new e meta end in
    exceeding (m w) ∨ ∃ b r, m w = Done b (set_reuse r w) [] ∧ fresh_builder e meta b ∧ reuse_ok r) as Hnew.
  { intros [n|] e w0 Hr; [|right; by apply builder_new_run]. destruct (builder_with_capacity_run w0 e meta n Hr) as [?|?]; [by right|by left]. }
  pose proof (blind_alike _ _ _ (blind_in_ents ents_spawn) Ha) as Hs.
  inversion Hs as [x y Hx E1 E2|x y Hx E1 E2|e s s' ev Hr E1 E2|r s s' ev Hr E1 E2|E1 E2|E1 E2].
  - left. by apply exceeding_bind.
  - right. left. by apply exceeding_bind.
  - assert (ev = []) as ->. { rewrite /in_ents /zoom in E1. destruct (ents_spawn (w_ents w)) as [? ? ev'| | |] eqn:Es; try done.
      injection E1 as -> -> ->. rewrite /ents_spawn in Es. repeat (case_match; try done); by injection Es. }
    destruct (Hnew cap e s) as [Hc|(b & rr & Hb & Hfb & Hrr)]; [apply Hr|..].
    { left. unfold bind. rewrite -E1 add_events_nil. done. }
    destruct (Hnew cap' e s') as [Hc|(b' & rr' & Hb' & Hfb' & Hrr')]; [by eapply alike_ok|..].
    { right; left. unfold bind. rewrite -E2 add_events_nil. done. }
    right; right; right. exists e, b, b', (set_reuse rr s), (set_reuse rr' s').
    split_and!; [by rewrite /bind -E1 add_events_nil|by rewrite /bind -E2 add_events_nil|by apply alike_reuse|done|done].
  - right; right; left. exists r, s, s', ev. split_and!; [by rewrite /bind -E1|by rewrite /bind -E2|done].
  - rewrite /in_ents /zoom in E1. destruct (ents_spawn (w_ents w)) eqn:Es; try done. rewrite /ents_spawn in Es. repeat (case_match; try done).
  - rewrite /in_ents /zoom in E1. destruct (ents_spawn (w_ents w)) eqn:Es; try done. rewrite /ents_spawn in Es. repeat (case_match; try done).
Qed.
Lemma fits_nil w k : fits w k [].
Proof. intros c Hc. by apply elem_of_nil in Hc. Qed.
Lemma spawn_empty_alike w w' : alike w w' → agree alike (spawn_empty w) (spawn_empty w').
Proof.
  intros Ha. assert (∀ w, spawn_empty w = bind (spawn_builder None cm_unit) (λ b, with_builder b build) w) as Heq.
  { intros w0. rewrite /spawn_empty /spawn_builder /bind. destruct (in_ents ents_spawn w0) as [e s ev| | |]; try done.
    destruct (builder_new e cm_unit s) as [b s1 ev1| | |]; try done. cbn [add_events]. by destruct (with_builder b build s1) as [? ? ?|? ? ?| |]; cbn; rewrite ?app_assoc. }
  rewrite !Heq. destruct (spawn_builder_alike None None cm_unit w w' Ha) as [H|[H|[(r & s & s' & ev & E1 & E2 & Hr)|(e & b & b' & s & s' & E1 & E2 & Hr & (F1 & F2 & F3 & F4) & (G1 & G2 & G3 & G4))]]].
  - by apply ag_left, exceeding_bind.
  - by apply ag_right, exceeding_bind.
  - rewrite /bind E1 E2. by apply ag_panic.
  - rewrite (bind_done_nil _ _ _ _ _ E1) (bind_done_nil _ _ _ _ _ E2).
    apply with_builder_alike; [done|done|apply bsafe_build|]. apply (build_alike _ _ _ _ []); try done.
    + intros k. apply fits_nil.
    + by rewrite F2 G2.
    + by rewrite F3 G3.
Qed.
Lemma get_or_create_alike t w w' : alike w w' → agree alike (get_or_create_type t w) (get_or_create_type t w').
Proof.
  intros Ha. rewrite /get_or_create_type. apply (agree_bind alike alike); [|intros o w1 w1' ev _ _ Ha1|done].
  { apply blind_alike; [by apply blind_gets|done]. }
  destruct o as [c|]; [by apply agree_ret|].
  apply (agree_bind alike alike); [by apply spawn_empty_alike|intros e w2 w2' ev2 _ _ Ha2|done].
  apply blind_alike; [|done]. blinds.
Qed.

(** ** One call on a builder *)
Lemma agree_in_world {A} (m : M world A) b b' w w' : bbuf b → bbuf b' → agree alike (m w) (m w') →
  agree (λ s s', balike s s' ∧ s.1 = b ∧ s'.1 = b') (in_world m (b, w)) (in_world m (b', w')).
Proof.
  intros Hb Hb' H. rewrite /in_world /on_snd /zoom. cbn [fst snd].
  inversion H as [x y Hx E1 E2|x y Hx E1 E2|a s1 s2 ev Hs E1 E2|r s1 s2 ev Hs E1 E2|E1 E2|E1 E2].
  - destruct Hx as (s & ev & ->). apply ag_left. by eexists _, _.
  - destruct Hx as (s & ev & ->). apply ag_right. by eexists _, _.
  - by apply ag_done.
  - by apply ag_panic.
  - apply ag_deadlock.
  - apply ag_ub.
Qed.
Lemma with_data_sized b w c src u s ev cm : builder_with_data c src (b, w) = Done u s ev →
  comp_of w c = Some cm → cm_size cm ≤ length src.
Proof.
  intros H Hcm. rewrite /builder_with_data in H.
  set (b1 := set_ids (eb_ids b ++ [c]) b) in H.
  rewrite (bind_done_nil _ _ (b, w) () (b1, w) eq_refl) in H.
  apply bind_done_inv in H as (ocm & [b0 w1] & ev1 & ev2 & H1 & H & _).
  apply in_world_inv in H1 as (-> & H1).
  pose proof (get_entity_meta_cases w c) as Hm. rewrite H1 in Hm. destruct Hm as (-> & -> & lv & El & Ho).
  apply bind_done_inv in H as (em & s2 & ev3 & ev4 & H2 & H & _). apply unwrap_inv in H2 as (-> & ->).
  assert (comp_of w c = Some (em_comp em)) as Hc2. { destruct lv; [|done]. by rewrite /comp_of -Ho. }
  rewrite Hc2 in Hcm. injection Hcm as <-.
  apply bind_done_inv in H as (b2 & s3 & ev5 & ev6 & H2 & H & _).
  apply bind_done_inv in H as (? & s4 & ev7 & ev8 & H3 & H & _).
  apply bind_done_inv in H as (? & s5 & ev9 & ev10 & H4 & H & _).
  case_decide as Hd; [done|]. lia.
Qed.
Lemma comp_of_reuse w w' c : alike w w' → comp_of w' c = comp_of w c.
Proof. by intros (_ & r & _ & ->). Qed.
Lemma alike_ents w w' : alike w w' → w_ents w' = w_ents w.
Proof. by intros (_ & r & _ & ->). Qed.
Lemma with_data_alike b b' w w' c src : alike w w' → bbuf b → bbuf b' →
  agree balike (builder_with_data c src (b, w)) (builder_with_data c src (b', w')).
Proof.
  intros Ha Hb Hb'. pose proof (with_data_run b w c src Hb) as H1. pose proof (with_data_run b' w' c src Hb') as H2.
  pose proof (alike_ents _ _ Ha) as He. pose proof (comp_of_reuse _ _ c Ha) as Hc. rewrite He Hc in H2.
  destruct (builder_with_data c src (b, w)) as [[] [b1 w1] ev|r [b1 w1] ev| |] eqn:E1;
    destruct (builder_with_data c src (b', w')) as [[] [b2 w2] ev'|r' [b2 w2] ev'| |] eqn:E2; try done.
  - destruct H1 as (-> & -> & Hb1 & _). destruct H2 as (-> & -> & Hb2 & _). apply ag_done. split_and!; done.
  - destruct H1 as (-> & -> & Hb1 & _ & Hal & cm & Hcm & _). destruct H2 as (-> & -> & Hb2 & [->|[[_ Hx]|[_ [Hx|[_ Hx]]]]]).
    + apply ag_right. by eexists _, _.
    + rewrite /alive in Hal. congruence.
    + rewrite /alive in Hal. congruence.
    + congruence.
  - exfalso. destruct H1 as (_ & _ & _ & _ & _ & cm & Hcm & _). destruct H2 as (cm' & _ & Hcm' & Hlt). simplify_eq.
    pose proof (with_data_sized _ _ _ _ _ _ _ _ E1 Hcm). lia.
  - destruct H2 as (-> & -> & Hb1 & _ & Hal & cm & Hcm & _). destruct H1 as (-> & -> & Hb2 & [->|[[_ Hx]|[_ [Hx|[_ Hx]]]]]).
    + apply ag_left. by eexists _, _.
    + rewrite /alive in Hal. congruence.
    + rewrite /alive in Hal. congruence.
    + congruence.
  - destruct H1 as (-> & -> & Hb1 & H1). destruct H2 as (-> & -> & Hb2 & H2).
    destruct H1 as [->|H1]; [apply ag_left; by eexists _, _|]. destruct H2 as [->|H2]; [apply ag_right; by eexists _, _|].
    assert (r' = r) as ->.
    { rewrite /alive in H1, H2. destruct H1 as [[-> H1]|[-> H1]], H2 as [[-> H2]|[-> H2]]; try done; naive_solver congruence. }
    apply ag_panic. split_and!; done.
  - destruct H1 as (-> & -> & Hb2 & [->|[[_ Hx]|[_ [Hx|[_ Hx]]]]]); [apply ag_left; by eexists _, _|..];
      destruct H2 as (cm & Hal & Hcm & _); rewrite /alive in Hal; congruence.
  - exfalso. destruct H2 as (_ & _ & _ & _ & _ & cm & Hcm & _). destruct H1 as (cm' & _ & Hcm' & Hlt).
    assert (cm' = cm) as -> by congruence. rewrite -Hc in Hcm. pose proof (with_data_sized _ _ _ _ _ _ _ _ E2 Hcm). lia.
  - destruct H2 as (-> & -> & Hb2 & [->|[[_ Hx]|[_ [Hx|[_ Hx]]]]]); [apply ag_right; by eexists _, _|..];
      destruct H1 as (cm & Hal & Hcm & _); rewrite /alive in Hal; congruence.
  - apply ag_ub.
Qed.
Lemma with_dynamic_alike b b' w w' c : alike w w' → bbuf b → bbuf b' →
  agree balike (builder_with_dynamic c (b, w)) (builder_with_dynamic c (b', w')).
Proof.
  intros Ha Hb Hb'. rewrite /builder_with_dynamic.
  eapply agree_bind; [apply agree_in_world; [done|done|]; by apply blind_alike; [apply blind_get_entity_meta|]| |].
  2:{ by intros s1 s1' [? _]. }
  intros o [b1 w1] [b1' w1'] ev _ _ [(Ha1 & _ & _) [E1 E2]]. cbn [fst snd] in *. subst b1 b1'.
  assert (balike (b, w1) (b', w1')) as Hx by (split_and!; done).
  destruct o as [cm|]; cbn [unwrap]; [|by apply ag_panic].
  rewrite (bind_done_nil _ _ (b, w1) cm (b, w1) eq_refl) (bind_done_nil _ _ (b', w1') cm (b', w1') eq_refl).
  case_bool_decide as Hsz; cbn [massert]; [|by apply ag_panic].
  rewrite (bind_done_nil _ _ (b, w1) () (b, w1) eq_refl) (bind_done_nil _ _ (b', w1') () (b', w1') eq_refl).
  rewrite /on_fst /zoom /modify /=. apply ag_done. split_and!; done.
Qed.
Lemma bop_alike o b b' w w' : alike w w' → bbuf b → bbuf b' → o ≠ BBuild →
  agree balike (run_bop o (b, w)) (run_bop o (b', w')).
Proof.
  intros Ha Hb Hb' Hn. destruct o as [t v|c|c v|]; cbn [run_bop]; [|by apply with_dynamic_alike|by apply with_data_alike|done].
  rewrite /builder_with. eapply agree_bind; [apply agree_in_world; [done|done|]; by apply get_or_create_alike| |].
  2:{ by intros s1 s1' [? _]. }
  intros c [b1 w1] [b1' w1'] ev _ _ [(Ha1 & _ & _) [E1 E2]]. cbn [fst snd] in *. subst b1 b1'. by apply with_data_alike.
Qed.
Lemma fits_winv w R k D : winv w R → fits w k D.
Proof.
  intros Hw c _ a si s cm Ha Hl Hs Hcm. pose proof (wi_shape _ _ Hw _ _ Ha) as Hsh.
  apply (as_lookup _ Hsh) in Hl. rewrite -(as_storages _ Hsh) list_lookup_fmap Hs in Hl. injection Hl as Hl.
  assert (is_Some (R !! k)) as [rs Hrs]. { apply lookup_lt_is_Some. rewrite (wi_len _ _ Hw). by eapply lookup_lt_Some. }
  destruct s as [c' u]. cbn in Hl |- *. subst c'.
  destruct (ar_cols _ _ _ (wi_rows _ _ Hw _ _ _ Ha Hrs) c u) as (cm' & Hcm' & Hti & _). { by eapply elem_of_list_lookup_2. }
  rewrite /uv_size Hti. by simplify_eq.
Qed.
Lemma value_fits_reuse w r c v : value_fits w c v → value_fits (set_reuse r w) c v.
Proof.
  intros H s m Hm. rewrite blind_get_entity_meta in Hm. destruct (get_entity_meta c w) as [o s' ev| | |] eqn:E; try done.
  cbn in Hm. injection Hm as -> <- ->. by eapply H.
Qed.
Lemma bop_legal_alike o b b' w w' : alike w w' → bop_legal o (b, w) → bop_legal o (b', w').
Proof. intros (_ & r & _ & ->). destruct o; cbn; try done. intros [? ?]. split; [done|]. by apply value_fits_reuse. Qed.
Lemma winv_alike w w' R : alike w w' → winv w R → winv w' R.
Proof. intros (_ & r & Hr & ->) Hw. by apply winv_reuse. Qed.
Lemma room_alike n w w' : alike w w' → room n w → room n w'.
Proof. by intros (_ & r & _ & ->). Qed.
Lemma bop_entry_alike w w' o : alike w w' → bop_entry w' o = bop_entry w o.
Proof. by intros (_ & r & _ & ->). Qed.
Lemma pending_alike w w' b D : alike w w' → pending w b D → pending w' b D.
Proof. intros (_ & r & _ & ->). apply pending_reuse. Qed.
Lemma pending_alike_inv w w' b D : alike w w' → pending w' b D → pending w b D.
Proof. intros (_ & r & _ & ->) H. by destruct H. Qed.

(** ** After [build] *)
Lemma bops_after_alike bs : bops_builds bs = 0 → ∀ b b' w w', alike w w' → bbuf b → bbuf b' →
  agree balike (run_bops bs (b, w)) (run_bops bs (b', w')).
Proof.
  induction bs as [|o bs IH]; intros Hn b b' w w' Ha Hb Hb'; cbn [run_bops]. { by apply ag_done. }
  assert (o ≠ BBuild ∧ bops_builds bs = 0) as [Ho Hn']. { destruct o; cbn in Hn; done. }
  apply (agree_bind balike balike); [by apply bop_alike| |done].
  intros [] [b1 w1] [b1' w1'] ev _ _ (Ha1 & Hb1 & Hb1'). by apply IH.
Qed.
Lemma bops_alike bs : bops_builds bs ≤ 1 → ∀ b b' w w' R D, alike w w' → winv w R → room 1 w → bbuf b → bbuf b' →
  pending w b D → pending w b' D → eb_entity b' = eb_entity b → eb_meta b' = eb_meta b → bops_legal bs (b, w) →
  agree balike (run_bops bs (b, w)) (run_bops bs (b', w')).
Proof.
  induction bs as [|o bs IH]; intros Hn b b' w w' R D Ha Hw Hroom Hb Hb' Hp Hp' He Hm Hleg; cbn [run_bops]. { by apply ag_done. }
  assert (o = BBuild ∨ o ≠ BBuild) as [->|Ho] by (destruct o; auto).
  - apply (agree_bind balike balike); [| |done].
    + cbn [run_bop]. apply (agree_bind balike balike); [|intros ? ? ? ? _ _ ?; by apply agree_ret|done].
      apply (build_alike _ _ _ _ D); try done. intros k. by eapply fits_winv.
    + intros [] [b1 w1] [b1' w1'] ev _ _ (Ha1 & Hb1 & Hb1'). apply bops_after_alike; [cbn in Hn; lia|done..].
  - destruct Hleg as [Hl Hleg]. assert (bops_builds bs ≤ 1) as Hn' by by destruct o.
    assert (room 0 w) as Hroom0 by (rewrite /room in Hroom |- *; lia).
    apply (agree_bind balike balike); [by apply bop_alike| |done].
    intros [] [b1 w1] [b1' w1'] ev E1 E2 (Ha1 & Hb1 & Hb1'). cbn [fst snd] in *. rewrite E1 in Hleg.
    pose proof (bop_spec w R b o Hw Hroom0 Hb Hl Ho) as S1.
    pose proof (bop_spec w' R b' o (winv_alike _ _ _ Ha Hw) (room_alike _ _ _ Ha Hroom0) Hb' (bop_legal_alike _ _ _ _ _ Ha Hl) Ho) as S2.
    rewrite /wp E1 in S1. rewrite /wp E2 in S2. cbn [fst snd] in S1, S2.
    destruct S1 as (_ & _ & [T1 T2] & Hg & (R1 & Hw1 & _) & d & Hd & Hpd).
    destruct S2 as (_ & _ & [T1' T2'] & _ & _ & d' & Hd' & Hpd').
    rewrite (bop_entry_alike _ _ _ Ha1) Hd in Hd'. injection Hd' as <-.
    apply (IH Hn' b1 b1' w1 w1' R1 (D ++ [d])); try done.
    + by eapply grow_room.
    + by apply Hpd.
    + eapply pending_alike_inv; [done|]. apply Hpd'. by eapply pending_alike.
    + congruence.
    + congruence.
Qed.
Lemma forget_builder_alike {A} b b' (m : M bw A) w w' :
  bbuf b → bbuf b' → bsafe m → agree balike (m (b, w)) (m (b', w')) →
  agree alike (forget_builder b m w) (forget_builder b' m w').
Proof.
  intros Hb Hb' Hm H. pose proof (with_builder_alike b b' m w w' Hb Hb' Hm H) as Hwb.
  rewrite /forget_builder.
  inversion H as [x y Hx E1 E2|x y Hx E1 E2|a [b1 w1] [b1' w1'] ev Hs E1 E2|r [b1 w1] [b1' w1'] ev Hs E1 E2|E1 E2|E1 E2]; [| |by apply ag_done, Hs|done..].
  - apply ag_left. pose proof (with_builder_exceeding b m w Hb Hm Hx) as Hy. destruct Hx as (s & ev & Hx). by rewrite Hx.
  - apply ag_right. pose proof (with_builder_exceeding b' m w' Hb' Hm Hx) as Hy. destruct Hx as (s & ev & Hx). by rewrite Hx.
Qed.
Lemma spawn_program_alike cap cap' meta bs fin w w' R : alike w w' → winv w R → room 1 w → 
  (match spawn_builder cap meta w with Done b w' _ => bops_legal bs (b, w') | _ => True end) →
  bops_builds bs ≤ 1 →
  agree alike (spawn_program cap meta bs fin w) (spawn_program cap' meta bs fin w').
Proof.
  intros Ha Hw Hroom Hleg Hn. rewrite /spawn_program.
  destruct (spawn_builder_alike cap cap' meta w w' Ha) as [H|[H|[(r & s & s' & ev & E1 & E2 & Hr)|(e & b & b' & s & s' & E1 & E2 & Hr & (F1 & F2 & F3 & F4) & (G1 & G2 & G3 & G4))]]].
  - by apply ag_left, exceeding_bind.
  - by apply ag_right, exceeding_bind.
  - rewrite /bind E1 E2. by apply ag_panic.
  - rewrite (bind_done_nil _ _ _ _ _ E1) (bind_done_nil _ _ _ _ _ E2) F2 G2. rewrite E1 in Hleg.
    pose proof (spawn_builder_spec w R cap meta Hw) as S1. rewrite /wp E1 in S1. destruct S1 as (_ & Hw1 & _ & _ & Ea & _).
    apply (agree_bind alike alike); [|intros [] s1 s1' ev _ _ ?; by apply agree_ret|done].
    assert (agree balike (run_bops bs (b, s)) (run_bops bs (b', s'))) as Hb.
    { apply (bops_alike bs Hn _ _ _ _ R []); try done.
      - by rewrite /room Ea.
      - by rewrite F2.
      - by rewrite F3. }
    destruct fin; [apply with_builder_alike|apply forget_builder_alike]; try done; apply bsafe_bops.
Qed.

(** ** Calls on the world *)
Definition same_op (o o' : op) : Prop :=
  match o, o' with
  | OSpawn _ meta bs fin, OSpawn _ meta' bs' fin' => meta' = meta ∧ bs' = bs ∧ fin' = fin
  | _, _ => o' = o
  end.
Ltac blindops := repeat first [
    match goal with
    | |- blind (despawn _) => apply blind_despawn
    | |- blind (is_alive _) => apply blind_is_alive
    | |- blind (add_component_with_data _ _ _) => apply blind_add_with_data
    | |- blind (add_component_dynamic _ _) => apply blind_add_dynamic
    | |- blind (remove_component_dynamic _ _) => apply blind_remove_dynamic
    | |- blind (get_component_mut _ _) => apply blind_get_component_mut
    | |- blind (write_loc _ _) => apply blind_write_loc
    | |- blind (has_component _ _) => apply blind_has_component
    end | blind1 ].
Lemma step_alike o o' w w' R : same_op o o' → alike w w' → winv w R → op_legal o w → op_tame o w →
  agree alike (step o w) (step o' w').
Proof.
  intros Hs Ha Hw Hleg [Hroom Htame].
  destruct o as [cap meta bs fin| | | | | | | | | | ]; cbn [same_op] in Hs.
  { destruct o'; try done. destruct Hs as (-> & -> & ->). cbn [step]. destruct Hleg as [_ Hleg].
    apply (agree_bind alike alike); [|intros e s1 s1' ev _ _ ?; by apply agree_ret|done]. by apply (spawn_program_alike _ _ _ _ _ _ _ R). }
  all: subst o'; cbn [step].
  - apply blind_alike; [|done]. blindops.
  - apply (agree_bind alike alike); [|intros [] s1 s1' ev _ _ ?; by apply agree_ret|done]. rewrite /add_component.
    apply (agree_bind alike alike); [apply agree_on_unwind|intros c s3 s3' ev3 _ _ Ha3; apply blind_alike; [blindops|done]|done].
    apply (agree_bind alike alike); [apply blind_alike; [blindops|done]|intros al s1 s1' ev _ _ Ha1|done].
    apply (agree_bind alike alike); [apply blind_alike; [blindops|done]|intros [] s2 s2' ev2 _ _ Ha2|done].
    by apply get_or_create_alike.
  - apply (agree_bind alike alike); [|intros [] s1 s1' ev _ _ ?; by apply agree_ret|done]. rewrite /remove_component.
    apply (agree_bind alike alike); [apply blind_alike; [blindops|done]|intros al s1 s1' ev _ _ Ha1|done].
    apply (agree_bind alike alike); [apply blind_alike; [blindops|done]|intros [] s2 s2' ev2 _ _ Ha2|done].
    apply (agree_bind alike alike); [by apply get_or_create_alike|intros c s3 s3' ev3 _ _ Ha3|done].
    apply blind_alike; [blindops|done].
  - apply blind_alike; [|done]. blindops.
  - apply blind_alike; [|done]. blindops.
  - apply blind_alike; [|done]. blindops.
  - apply (agree_bind alike alike); [by apply get_or_create_alike|intros c s1 s1' ev _ _ ?; by apply agree_ret|done].
  - apply blind_alike; [|done]. blindops.
  - apply blind_alike; [|done]. blindops.
  - apply blind_alike; [|done]. blindops.
Qed.
