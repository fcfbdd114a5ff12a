(** * Calls that panic (C34), that are refused (C35), and the consequences for the other
    properties of single calls (C33, C36, C37, C39). *)
From Verif Require Import ProofBase SpecSmall World History ProofEntities ProofBitset ProofArrayVec ProofUVec.
From Verif Require Export ProofTorn.

Lemma unharmed_refl w : unharmed w w.
Proof. intros e _ He. done. Qed.
Lemma view_unharmed w w' : same_view w w' → unharmed w w'.
Proof. intros (H1 & H2 & H3 & H4) e Hwf He. split_and!; [by apply H1|apply H2|intros; apply H3]. Qed.
Lemma grown_unharmed w w' : grown w w' → same_holds w w' → unharmed w w'.
Proof.
  intros (H1 & H2 & H3 & H4) H5 e Hwf He. split_and!; [apply H1; auto| |intros; apply H5]. rewrite H3. split; [|by left].
  intros [?|?]; [done|]. by destruct (H2 e).
Qed.
Lemma not_built_unharmed w w' e : spawned w w' e → not_built w w' e → unharmed w w'.
Proof.
  intros (S1 & S2 & S3 & S4 & S5 & S6) (B1 & B2 & B3) e0 Hwf He. split_and!; [apply S4; auto| |intros; apply B3]. rewrite B2. split; [|by left].
  intros [?|?]; [done|]. by destruct (S5 e0).
Qed.
Lemma built_unharmed w w' e D : spawned w w' e → built_with w w' e D → unharmed w w'.
Proof.
  intros (S1 & S2 & S3 & S4 & S5 & S6) (B2 & B3) e0 Hwf He. assert (e0 ≠ e) as Hne by by intros ->. split_and!; [apply S4; auto| |].
  - rewrite B2. split; [|by auto]. intros [?|[?|?]]; [done..|]. by destruct (S5 e0).
  - intros c v. rewrite B3. naive_solver.
Qed.
Lemma panic_view o w r w' ev : WOk w → op_legal o w → op_tame o w → step o w = Panicked r w' ev → resumable r →
  WOk w' ∧ unharmed w w'.
Proof.
  intros Hw Hl Ht E [Hr1 Hr2]. pose proof (step_inv o w (proj1 Hw) Hl Ht) as H. rewrite /wp E in H. destruct H as [?|H]; [done|].
  split; [by apply H|]. clear H. destruct o as [cap meta bs fin|e|e t v|e t|e c|e c v|e c|t|e c v|e t|e].
  - pose proof (spawn_view w cap meta bs fin Hw Hl Ht) as H. rewrite E in H.
    destruct H as [?|[(? & _)|[(_ & _ & H1 & H2 & _)|(e & Hs & H)]]]; [done..|by apply grown_unharmed|].
    destruct H as [(_ & _ & H)|[(_ & H & _)|(_ & _ & _ & D & _ & _ & H & _)]]; [by eapply not_built_unharmed..|by eapply built_unharmed].
  - pose proof (despawn_view w e Hw Hl Ht) as H. rewrite E in H. destruct H as (-> & _). apply unharmed_refl.
  - pose proof (add_typed_view w e t v Hw Hl Ht) as H. rewrite E in H. destruct H as [?|(H1 & H2 & _)]; [done|]. by apply grown_unharmed.
  - pose proof (remove_typed_view w e t Hw Hl Ht) as H. rewrite E in H. destruct H as [?|(_ & H1 & H2 & _)]; [done|]. by apply grown_unharmed.
  - pose proof (add_plain_view w e c Hw Hl Ht) as H. rewrite E in H. destruct H as [?|(_ & H1 & _)]; [done|]. by apply view_unharmed.
  - pose proof (add_dyn_view w e c v Hw Hl Ht) as H. rewrite E in H. destruct H as [?|(_ & H1 & _)]; [done|]. by apply view_unharmed.
  - pose proof (remove_dyn_view w e c Hw Hl Ht) as H. rewrite E in H. destruct H as [?|(_ & -> & _)]; [done|]. apply unharmed_refl.
  - pose proof (register_view w t Hw Hl) as H. rewrite E in H. destruct H as [?|(_ & _ & H1 & H2 & _)]; [done|]. by apply grown_unharmed.
  - pose proof (write_view w e c v Hw Hl) as H. rewrite E in H. destruct H as (_ & -> & _). apply unharmed_refl.
  - pose proof (has_view w e t Hw) as H. rewrite E in H. destruct H as (-> & _). apply unharmed_refl.
  - cbn [step] in E. rewrite /bind in E. pose proof (is_alive_cases w e) as H. destruct (is_alive e w) as [b w1 ev1|r1 w1 ev1| |]; [by destruct H as (-> & _)| |done..].
    destruct H as (-> & _). injection E as <- <- <-. apply unharmed_refl.
Qed.

Lemma half_built_unharmed w w' e D : spawned w w' e → half_built w w' e D → unharmed w w'.
Proof.
  intros (S1 & S2 & S3 & S4 & S5 & S6) (B2 & B3 & _) e0 Hwf He. assert (e0 ≠ e) as Hne by by intros ->. split_and!; [apply S4; auto| |].
  - rewrite B2. split; [|by auto]. intros [?|[?|?]]; [done..|]. by destruct (S5 e0).
  - intros c v. by apply B3.
Qed.
Lemma half_built_inconsistent w w' e D : half_built w w' e D → ¬ consistent w'.
Proof.
  intros (B1 & _ & B2 & _) H. destruct (proj2 (B1 e)) as (k & i & Hp); [by left|].
  apply (co_located _ H) in Hp. by rewrite /located B2 in Hp.
Qed.
Lemma torn_view' o w w' ev : WOk w → op_legal o w → op_tame o w → step o w = Panicked RColumnLength w' ev →
  ev = [] ∧ unharmed w w' ∧ distinct_sets w' ∧ ¬ consistent w' ∧
  ∃ cap meta bs fin e D, o = OSpawn cap meta bs fin ∧ spawned w w' e ∧ given w' (bops_before bs) D ∧ half_built w w' e D.
Proof.
  intros Hw Hl Ht E. destruct o as [cap meta bs fin|e|e t v|e t|e c|e c v|e c|t|e c v|e t|e].
  - destruct (spawn_torn _ _ _ _ _ _ _ Hw Hl Ht E) as (-> & Hd & e & D & H1 & H2 & H3).
    split_and!; [done|by eapply half_built_unharmed|done|by eapply half_built_inconsistent|]. by exists cap, meta, bs, fin, e, D.
  - pose proof (despawn_view w e Hw Hl Ht) as H. rewrite E in H. destruct H as (_ & _ & [[? _]|[[? _]|[? _]]]); done.
  - pose proof (add_typed_view w e t v Hw Hl Ht) as H. rewrite E in H. destruct H as [?|(_ & _ & _ & [(_ & [[? _]|[[? _]|[? _]]] & _)|(_ & _ & c & _ & [[? _]|[[? _]|[? _]]])])]; done.
  - pose proof (remove_typed_view w e t Hw Hl Ht) as H. rewrite E in H. destruct H as [?|(_ & _ & _ & _ & H)]; [done|].
    rewrite /type_rejected /remove_rejected in H. naive_solver.
  - pose proof (add_plain_view w e c Hw Hl Ht) as H. rewrite E in H. rewrite /add_rejected in H. naive_solver.
  - pose proof (add_dyn_view w e c v Hw Hl Ht) as H. rewrite E in H. rewrite /add_rejected in H. naive_solver.
  - pose proof (remove_dyn_view w e c Hw Hl Ht) as H. rewrite E in H. rewrite /remove_rejected in H. naive_solver.
  - pose proof (register_view w t Hw Hl) as H. rewrite E in H. naive_solver.
  - pose proof (write_view w e c v Hw Hl) as H. rewrite E in H. naive_solver.
  - pose proof (has_view w e t Hw) as H. rewrite E in H. naive_solver.
  - cbn [step] in E. rewrite /bind in E. pose proof (is_alive_cases w e) as H. destruct (is_alive e w) as [b w1 ev1|r1 w1 ev1| |]; [by destruct H as (-> & _)| |done..].
    injection E as -> -> <-. naive_solver.
Qed.

(** ** Refused calls (C35) *)
Lemma nothing_refl o w : nothing_but_type o w w.
Proof. split_and!; [apply grown_refl|done|done]. Qed.
Lemma nothing_view o w w' : same_view w w' → nothing_but_type o w w'.
Proof.
  intros (H1 & H2 & H3 & H4). split_and!; [|done|intros; apply H4]. eapply grown_after; [apply grown_refl|done..].
Qed.
Lemma nothing_grown o t w w' : op_type o = Some t → grown w w' → same_holds w w' → other_types w w' t → nothing_but_type o w w'.
Proof. intros Ho H1 H2 H3. split_and!; [done..|]. intros t' c Hne. apply H3. naive_solver. Qed.
Lemma refused_view o w : WOk w → op_legal o w → op_tame o w → refused o w →
  match step o w with
  | Done r w' ev => ev = [] ∧ nothing_but_type o w w' ∧
      match o with ODespawn _ | OWrite _ _ _ => r = RBool false | _ => True end
  | Panicked r w' ev => r = RCapacity ∨ nothing_but_type o w w' ∧
      match o with
      | OAdd e t v => (¬ lives w e → ev = [EvDrop (DropOf t) v]) ∧ (lives w e → ev = [])
      | _ => ev = []
      end
  | _ => False
  end.
Proof.
  intros Hw Hl Ht Hr. destruct o as [cap meta bs fin|e|e t v|e t|e c|e c v|e c|t|e c v|e t|e]; cbn [refused] in Hr; [done|..].
  - pose proof (despawn_view w e Hw Hl Ht) as H. destruct (step (ODespawn e) w) as [r w' ev|r w' ev| |]; [| |done..].
    + destruct H as [(-> & H1 & _ & H2 & _)|(-> & _ & -> & ->)]; [by destruct Hr|]. split_and!; [done|apply nothing_refl|done].
    + destruct H as (-> & -> & _). right. split; [apply nothing_refl|done].
  - pose proof (add_typed_view w e t v Hw Hl Ht) as H. destruct (step (OAdd e t v) w) as [r w' ev|r w' ev| |]; [| |done..].
    + destruct H as (-> & -> & Hle & Hg & Ho & c & Htc & H). split; [done|]. split; [|done].
      destruct Hr as [?|(c' & Htc' & Hr)]; [done|].
      assert (c' = c) as ->. { apply Hg in Htc'. rewrite /type_id in Htc Htc'. congruence. }
      destruct H as [(Hlc & _ & Hn & _)|(_ & _ & ->)]; [|apply nothing_refl]. destruct Hr as [Hr|?]; [|done].
      destruct Hr. by apply (known_type _ _ _ _ Hg Ho Htc'); [destruct (proj1 Hw) as [R Hw']; by destruct (wi_types _ _ Hw' _ _ Htc') as (_ & ? & _)|].
    + destruct H as [?|(H1 & H2 & H3 & H)]; [by left|]. right. split; [by eapply nothing_grown|].
      destruct H as [(-> & H & _)|(-> & Hle & _)]; [|by split]. split; [done|]. intros Hle. exfalso. destruct H as [(_ & H)|[(_ & H)|(_ & _ & H)]].
      * by apply (unissued_lives w e).
      * done.
      * destruct Hr as [?|(c & Hc & _)]; [done|]. by destruct (H c).
  - pose proof (remove_typed_view w e t Hw Hl Ht) as H. destruct (step (ORemove e t) w) as [r w' ev|r w' ev| |]; [| |done..].
    + destruct H as (-> & Hle & Hg & Ho & c & Htc & Htc' & H). destruct H as [(_ & _ & _ & v & Hv & _)|(_ & -> & ->)].
      * destruct Hr as [?|Hr]; [done|]. destruct (Hr c Htc'). by exists v.
      * split_and!; [done|apply nothing_refl|done].
    + destruct H as [?|(-> & H1 & H2 & H3 & _)]; [by left|]. right. split; [|done]. by eapply nothing_grown.
  - pose proof (add_plain_view w e c Hw Hl Ht) as H. destruct (step (OAddDyn e c) w) as [r w' ev|r w' ev| |] eqn:E; [| |done..].
    + exfalso. destruct H as (-> & -> & H1 & H2 & H3 & H4 & H5 & _ & _ & _ & H6). destruct Hr as [?|[?|[?|Hr]]]; [done..|].
      destruct Hr as (cm & Hcm & Hsz). destruct Hw as [[R Hw] _].
      cbn [step] in E. rewrite /bind in E. apply Hsz. apply recorded_comp in Hcm; [|by apply lives_alive].
      pose proof (add_dynamic w R e c Hw (proj1 Ht)) as Hx. rewrite /wp in Hx.
      destruct (add_component_dynamic e c w) as [[] w1 ev1| | |]; [|done..]. destruct Hx as (_ & _ & _ & _ & m & R' & cm' & _ & _ & Hcm' & Hsz' & _).
      rewrite Hcm in Hcm'. injection Hcm' as <-. done.
    + destruct H as [?|(-> & H1 & _)]; [by left|]. right. split; [|done]. by apply nothing_view.
  - pose proof (add_dyn_view w e c v Hw Hl Ht) as H. destruct (step (OAddDynData e c v) w) as [r w' ev|r w' ev| |]; [| |done..].
    + destruct H as (-> & -> & [(-> & _)|H]); [split_and!; [done|apply nothing_refl|done]|]. naive_solver.
    + destruct H as [?|(-> & H1 & _)]; [by left|]. right. split; [|done]. by apply nothing_view.
  - pose proof (remove_dyn_view w e c Hw Hl Ht) as H. destruct (step (ORemoveDyn e c) w) as [r w' ev|r w' ev| |]; [| |done..].
    + destruct H as (-> & [(-> & -> & _)|(H1 & _ & H2 & _ & _ & _ & _ & v & Hv & _)]); [split_and!; [done|apply nothing_refl|done]|].
      destruct Hr as [?|[?|Hr]]; [done..|]. destruct Hr. by exists v.
    + destruct H as [?|(-> & -> & _)]; [by left|]. right. split; [apply nothing_refl|done].
  - done.
  - pose proof (write_view w e c v Hw Hl) as H. destruct (step (OWrite e c v) w) as [r w' ev|r w' ev| |]; [| |done..].
    + destruct H as (-> & [(-> & -> & _)|(-> & _ & _ & _ & _ & v0 & Hv0 & _)]); [split_and!; [done|apply nothing_refl|done]|].
      destruct (proj1 Hw) as [R HwR]. exfalso. destruct Hr as [Hr|[Hr|Hr]]; destruct Hr.
      * apply (stored_lives _ _ HwR). destruct Hv0 as (k & i & a & j & u & H1 & H2 & _). exists k, i, a. done.
      * destruct (holds_size _ _ HwR _ _ _ Hv0) as (Hal & _). by apply lives_alive.
      * by exists v0.
    + destruct H as (-> & -> & _). right. split; [apply nothing_refl|done].
  - pose proof (has_view w e t Hw) as H. destruct (step (OHas e t) w) as [r w' ev|r w' ev| |]; [| |done..].
    + destruct H as (-> & -> & _). split_and!; [done|apply nothing_refl|done].
    + destruct H as (-> & -> & _). right. split; [apply nothing_refl|done].
  - cbn [step]. rewrite /bind. pose proof (is_alive_cases w e) as H. destruct (is_alive e w) as [b w1 ev1|r1 w1 ev1| |]; [| |done..].
    + destruct H as (-> & -> & _). cbn. split_and!; [done|apply nothing_refl|done].
    + destruct H as (-> & -> & _). right. split; [apply nothing_refl|done].
Qed.

(** ** Types (C36) *)
Lemma types_inj w t t' c : WOk w → type_id w t c → type_id w t' c → t = t'.
Proof. intros [[R Hw] _]. apply (wi_types_inj _ _ Hw). Qed.
Lemma step_types o w r w' ev t c : WOk w → op_legal o w → op_tame o w →
  (step o w = Done r w' ev ∨ ∃ x, step o w = Panicked x w' ev ∧ resumable x) → type_id w t c → type_id w' t c.
Proof.
  intros Hw Hl Ht E. pose proof (step_frame o w (proj1 Hw) Hl Ht) as H. rewrite /wp in H.
  destruct E as [E|(x & E & Hx1 & Hx2)]; rewrite E in H; [apply H|]. destruct H as [?|H]; [done|]. by apply H.
Qed.

(** ** [add_component::<T>], then [has_component::<T>] (C37) *)
Lemma add_has w e t c v r w' ev : WOk w → op_legal (OAdd e t v) w → op_tame (OAdd e t v) w →
  step (OAdd e t v) w = Done r w' ev → type_id w' t c → lives w' c →
  step (OHas e t) w' = Done (RBool true) w' [].
Proof.
  intros Hw Hl Ht E Htc Hlc. destruct (step_done_ok _ _ _ _ _ Hw Hl Ht E) as [Hw1 Hi].
  pose proof (add_typed_view w e t v Hw Hl Ht) as H. rewrite E in H. destruct H as (-> & -> & Hle & Hg & Ho & c' & Htc' & H).
  assert (c' = c) as -> by (rewrite /type_id in Htc Htc'; congruence). destruct H as [(_ & Hse & Hn & H4)|(? & _)]; [|done].
  pose proof (has_view w' e t Hw1) as H. destruct (step (OHas e t) w') as [r w2 ev2|r w2 ev2| |]; [| |done..].
  - destruct H as (-> & -> & b & -> & Hb). destruct b; [done|]. assert (false = true) as [=]. apply Hb. exists c. split; [done|]. exists v. apply H4. by left.
  - destruct H as (_ & _ & _ & H%unissued_lives). destruct H. destruct Hl as (Hwe & _). apply Hg; [done|]. by left.
Qed.
