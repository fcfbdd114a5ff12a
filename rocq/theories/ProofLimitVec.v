(** * C52 for [UntypedVec] alone; valid layouts; what is recorded about types *)
From Verif Require Import ProofBase SpecSmall World Query History ProofEntities ProofBitset ProofArrayVec ProofUVec ProofUVecMore.
From Verif Require Export SpecUVec ProofQuiet.

(** ** Valid layouts *)
Lemma pow2_is_pow2 k : is_pow2 (2 ^ k) = true.
Proof.
  rewrite /is_pow2 andb_true_iff !bool_decide_eq_true. split; [apply Nat.pow_nonzero; lia|].
  rewrite Nat.sub_1_r -Nat.ones_equiv Nat.land_ones. apply Nat.mod_same, Nat.pow_nonzero. lia.
Qed.
Lemma layout_wf_valid l : layout_wf l ↔
  (∃ k, l_align l = 2 ^ k) ∧ (N.of_nat (l_size l) + N.of_nat (l_align l) <= 2 ^ 63)%N.
Proof.
  rewrite /layout_wf /layout_from_size_align /isize_max. change (2 ^ 63 - 1)%N with 9223372036854775807%N. change (2 ^ 63)%N with 9223372036854775808%N.
  destruct l as [n a]. cbn [l_size l_align]. split.
  - destruct (is_pow2 a) eqn:E; [|done]. rewrite andb_true_l. destruct (_ <=? _)%N eqn:E2; [|done]. intros _. apply N.leb_le in E2.
    pose proof (pow2_log2 a E) as Ea. split; [by exists (Nat.log2 a)|].
    pose proof (Nat.pow_nonzero 2 (Nat.log2 a)). lia.
  - intros [[k ->] H]. rewrite pow2_is_pow2 andb_true_l. assert (_ <=? _ = true)%N as ->; [|done]. apply N.leb_le.
    pose proof (Nat.pow_nonzero 2 k). lia.
Qed.

(** ** Vectors *)
Lemma rep_ubytes v l : uv_rep v l → ubytes v = length l * uv_size v.
Proof.
  intros [_ H]. rewrite /ubytes. destruct (decide (uv_size v = 0)) as [->|]; [lia|]. by destruct H as [-> _].
Qed.
Lemma swap_remove_length i l x l' : list_swap_remove i l = Some (x, l') → S (length l') = length l.
Proof.
  rewrite /list_swap_remove. destruct (l !! i) as [y|] eqn:Hi; [|done]. apply lookup_lt_Some in Hi.
  destruct (last l) as [z|]; [|done]. intros [= <- <-]. destruct (decide (S i = length l)).
  - rewrite take_length. lia.
  - rewrite insert_length take_length. lia.
Qed.
Lemma lv_step_length n d o p r p' ev : lv_step n d o p = Some (r, p', ev) →
  length p'.1 + length p'.2 ≤ S (length p.1 + length p.2).
Proof.
  destruct p as [l1 l2]. destruct o as [b x junk|b|b i|b i]; cbn [lv_step].
  - destruct (decide _); [|done]. intros [= <- <- <-]. destruct b; cbn; rewrite app_length /=; lia.
  - destruct (last _) as [x|].
    + intros [= <- <- <-]. destruct b; cbn; rewrite take_length; lia.
    + destruct (decide _); [done|]. intros [= <- <- <-]. cbn. lia.
  - destruct (list_swap_remove _ _) as [[x l]|] eqn:E; [|done]. intros [= <- <- <-]. apply swap_remove_length in E.
    destruct b; cbn in *; lia.
  - destruct (list_swap_remove _ _) as [[x l]|] eqn:E; [|done]. intros [= <- <- <-]. apply swap_remove_length in E.
    destruct b; cbn in *; rewrite app_length /=; lia.
Qed.
Lemma uv_step_quiet ti1 ti2 o s p : ti_layout ti1 = ti_layout ti2 → layout_wf (ti_layout ti1) → rep2 ti1 ti2 s p →
  small ((length p.1 + length p.2) * ti_size ti1 + ti_size ti1) →
  match uv_step o s with Panicked r _ _ => r ≠ RCapacity | _ => True end.
Proof.
  intros Hti Hwf (H1 & H2 & Hr1 & Hr2) Hs. destruct s as [v1 v2], p as [l1 l2]. cbn [fst snd] in *.
  assert (uv_size v1 = ti_size ti1) as Hs1 by by rewrite /uv_size H1.
  assert (uv_size v2 = ti_size ti1) as Hs2 by by rewrite /uv_size H2 /ti_size Hti.
  pose proof (rep_ubytes _ _ Hr1) as B1. pose proof (rep_ubytes _ _ Hr2) as B2. rewrite Hs1 in B1. rewrite Hs2 in B2.
  assert (layout_wf (ti_layout (uv_ti v1))) as W1 by by rewrite H1.
  assert (layout_wf (ti_layout (uv_ti v2))) as W2 by by rewrite H2 -Hti.
  rewrite /small in Hs. destruct o as [b x junk|b|b i|b i]; cbn [uv_step].
  - destruct b; rewrite /bind /on_side /on_fst /on_snd /zoom; cbn [fst snd].
    + pose proof (uv_push_quiet v1 (x ++ junk) W1) as H. destruct (uv_push_raw _ v1); try done. apply H. rewrite /small. lia.
    + pose proof (uv_push_quiet v2 (x ++ junk) W2) as H. destruct (uv_push_raw _ v2); try done. apply H. rewrite /small. lia.
  - destruct b; rewrite /on_side /on_fst /on_snd /zoom; cbn [fst snd].
    + pose proof (calm_pop v1) as H. by destruct (uv_pop v1).
    + pose proof (calm_pop v2) as H. by destruct (uv_pop v2).
  - destruct b; rewrite /bind /on_side /on_fst /on_snd /zoom; cbn [fst snd].
    + pose proof (calm_swap_remove i v1) as H. by destruct (uv_swap_remove i v1).
    + pose proof (calm_swap_remove i v2) as H. by destruct (uv_swap_remove i v2).
  - destruct b; rewrite /bind.
    + pose proof (uv_swap_move_quiet v1 v2 i W2) as H. destruct (uv_swap_move i (v1, v2)); try done. apply H. rewrite /small. lia.
    + rewrite /zoom. cbn [fst snd]. pose proof (uv_swap_move_quiet v2 v1 i W1) as H.
      destruct (uv_swap_move i (v2, v1)); try done. apply H. rewrite /small. lia.
Qed.
Lemma uv_run_quiet ti1 ti2 h s p rs p' ev : ti_layout ti1 = ti_layout ti2 → layout_wf (ti_layout ti1) → rep2 ti1 ti2 s p →
  small ((length p.1 + length p.2 + length h) * ti_size ti1) →
  lv_run (ti_size ti1) (λ b, ti_drop (if b then ti1 else ti2)) h p = Some (rs, p', ev) →
  ∃ s', uv_run h s = Done rs s' ev ∧ rep2 ti1 ti2 s' p'.
Proof.
  intros Hti Hwf. revert s p rs p' ev. induction h as [|o h IH]; intros s p rs p' ev Hrep Hs; cbn [lv_run uv_run length].
  { intros [= <- <- <-]. by exists s. }
  destruct (lv_step _ _ _ _) as [[[r p1] e1]|] eqn:Hst; [|done].
  destruct (lv_run _ _ _ _) as [[[rs1 p2] e2]|] eqn:Hrun; [|done]. intros [= <- <- <-].
  pose proof (uv_step_spec _ _ _ _ _ _ _ _ Hti Hrep Hst) as H. rewrite /wp in H. rewrite /small in Hs. cbn [length] in Hs.
  pose proof (lv_step_length _ _ _ _ _ _ _ Hst) as Hlen.
  assert (small ((length p.1 + length p.2) * ti_size ti1 + ti_size ti1)) as Hs1. { rewrite /small. nia. }
  pose proof (uv_step_quiet _ _ o _ _ Hti Hwf Hrep Hs1) as Hq. unfold bind at 1.
  destruct (uv_step o s) as [r' s1 ev1|r' s1 ev1| |]; [|by destruct H|done..].
  destruct H as (-> & -> & Hrep1). destruct (IH s1 p1 rs1 p2 e2 Hrep1) as (s2 & E & Hrep2); [rewrite /small; nia|done|].
  rewrite /bind E. cbn. exists s2. by rewrite app_nil_r.
Qed.
Lemma uv_history_quiet ti1 ti2 h rs l1 l2 ev : ti_layout ti1 = ti_layout ti2 → layout_wf (ti_layout ti1) →
  lv_run (ti_size ti1) (λ b, ti_drop (if b then ti1 else ti2)) h ([], []) = Some (rs, (l1, l2), ev) →
  (N.of_nat (length h * ti_size ti1) <= byte_limit)%N →
  ∃ s, uv_run h (uv_new ti1, uv_new ti2) = Done rs s ev ∧ observes s.1 l1 ∧ observes s.2 l2.
Proof.
  intros Hti Hwf Hrun Hs. destruct (uv_run_quiet _ _ _ _ _ _ _ _ Hti Hwf (rep2_new ti1 ti2) Hs Hrun) as (s & E & _ & _ & H1 & H2).
  exists s. split; [done|]. split; by apply uv_rep_observes.
Qed.
