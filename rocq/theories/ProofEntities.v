(** * Entity allocator (C01-C03, C19) *)
From Verif Require Import ProofBase SpecSmall.

Definition ents_wf (s : entities) : Prop :=
  NoDup (despawned s) ∧
  (∀ i, i ∈ despawned s → (N.of_nat i < u32_modulus)%N ∧ ∃ g, generations s !! i = Some (false, g)) ∧
  (∀ i a g, generations s !! i = Some (a, g) → (g < u32_modulus)%N).

Lemma u32_modulus_pos : (u32_modulus ≠ 0)%N.
Proof. done. Qed.
Lemma wrap32_lt n : (wrap32 n < u32_modulus)%N.
Proof. apply N.mod_lt. done. Qed.
Lemma wrap32_small n : (n < u32_modulus)%N → wrap32 n = n.
Proof. apply N.mod_small. Qed.
Lemma uindex_id_new i g : (N.of_nat i < u32_modulus)%N → uindex (id_new i g) = i.
Proof. intros H. rewrite /uindex /id_new /= wrap32_small //. lia. Qed.

Lemma ents_wf_new : ents_wf entities_new.
Proof. split; [constructor|]. split; [intros i; set_solver|done]. Qed.

(** What a successful spawn does: slot [i] was free (or is new) and becomes live. *)
Lemma ents_spawn_spec s e s' ev :
  ents_wf s → ents_spawn s = Done e s' ev →
  ents_wf s' ∧ id_wf e ∧ ev = [] ∧
  generations s' !! uindex e = Some (true, id_gen e) ∧
  (∀ j, j ≠ uindex e → generations s' !! j = generations s !! j) ∧
  match generations s !! uindex e with
  | None => id_gen e = 0%N ∧ uindex e = length (generations s) ∧ despawned s' = despawned s
  | Some (a, g) => a = false ∧ id_gen e = wrap32 (g + 1) ∧ despawned s = uindex e :: despawned s'
  end.
Proof.
  intros (Hnd & Hdes & Hg). rewrite /ents_spawn.
  destruct (despawned s) as [|i rest] eqn:Hd.
  - simpl. case_match eqn:Hlt; [done|]. apply N.ltb_ge in Hlt.
    rewrite lookup_app_r // Nat.sub_diag /=. intros [= <- <- <-].
    assert (N.of_nat (length (generations s)) < u32_modulus)%N as Hi.
    { rewrite /u32_max in Hlt. cbv [u32_modulus] in *. lia. }
    rewrite uindex_id_new //. split_and!.
    + split; [constructor|]. split; [set_solver|]. simpl. intros j a g Hj.
      apply lookup_app_Some in Hj as [Hj|[? Hj]]; [eauto|].
      apply list_lookup_singleton_Some in Hj as [_ [= <- <-]]. done.
    + split; [done|apply wrap32_lt].
    + done.
    + simpl. by rewrite lookup_app_r // Nat.sub_diag.
    + intros j Hj. simpl. destruct (decide (j < length (generations s))).
      * by rewrite lookup_app_l.
      * rewrite lookup_app_r; [|lia]. rewrite (lookup_ge_None_2 (generations s)); [|lia].
        destruct (j - length (generations s)) eqn:?; [lia|done].
    + by rewrite lookup_ge_None_2.
  - destruct (Hdes i) as [Hi [g Hgi]]; [set_solver|]. rewrite Hgi. simpl.
    case_match eqn:Hlt; [done|].
    rewrite list_lookup_insert; [|by eapply lookup_lt_Some]. intros [= <- <- <-].
    rewrite uindex_id_new //. split_and!.
    + apply NoDup_cons in Hnd as [Hni Hnd]. split; [done|]. split.
      * simpl. intros j Hj. destruct (Hdes j) as [? [g' ?]]; [set_solver|]. split; [done|].
        rewrite list_lookup_insert_ne; [|set_solver]. eauto.
      * simpl. intros j a g' Hj. apply list_lookup_insert_Some in Hj as [(_ & [= <- <-] & _)|[_ Hj]]; [apply wrap32_lt|eauto].
    + split; apply wrap32_lt.
    + done.
    + simpl. rewrite list_lookup_insert //. by eapply lookup_lt_Some.
    + intros j Hj. simpl. by rewrite list_lookup_insert_ne.
    + rewrite Hgi. done.
Qed.
(** A failing spawn: it can only run out of ids. *)
Lemma ents_spawn_panic s r s' ev :
  ents_wf s → ents_spawn s = Panicked r s' ev →
  r = ROutOfIds ∧ ev = [] ∧ despawned s' = despawned s ∧ (u32_modulus ≤ N.of_nat (length (generations s)))%N ∧
  generations s' = generations s ++ [(true, 0%N)].
Proof.
  intros (Hnd & Hdes & Hg). rewrite /ents_spawn.
  destruct (despawned s) as [|i rest] eqn:Hd.
  - simpl. case_match eqn:Hlt.
    + intros [= <- <- <-]. apply N.ltb_lt in Hlt. split_and!; try done.
      rewrite /u32_max in Hlt. cbv [u32_modulus] in *. lia.
    + by rewrite lookup_app_r // Nat.sub_diag.
  - destruct (Hdes i) as [Hi [g Hgi]]; [set_solver|]. rewrite Hgi. simpl.
    case_match eqn:Hlt.
    + apply N.ltb_lt in Hlt. rewrite /u32_max in Hlt. cbv [u32_modulus] in *. lia.
    + rewrite list_lookup_insert //. by eapply lookup_lt_Some.
Qed.
Lemma ents_spawn_total s : ents_wf s →
  (∃ e s', ents_spawn s = Done e s' []) ∨ (∃ s', ents_spawn s = Panicked ROutOfIds s' []).
Proof.
  intros Hwf. destruct (ents_spawn s) as [e s' ev|r s' ev| |] eqn:E.
  - left. destruct (ents_spawn_spec _ _ _ _ Hwf E) as (_&_&->&_). eauto.
  - right. destruct (ents_spawn_panic _ _ _ _ Hwf E) as (->&->&_). eauto.
  - revert E. rewrite /ents_spawn. repeat case_match; done.
  - revert E. rewrite /ents_spawn. repeat case_match; done.
Qed.
Lemma ents_despawn_spec s e b s' ev :
  ents_wf s → id_wf e → ents_despawn e s = Done b s' ev →
  ents_wf s' ∧ ev = [] ∧ ents_is_alive s e = Some b ∧
  if b then generations s !! uindex e = Some (true, id_gen e) ∧
            generations s' = <[uindex e := (false, id_gen e)]> (generations s) ∧
            despawned s' = uindex e :: despawned s
  else s' = s.
Proof.
  intros (Hnd & Hdes & Hg) [_ He]. rewrite /ents_despawn /ents_is_alive.
  destruct (generations s !! uindex e) as [[a g]|] eqn:Hgi; [|done].
  destruct a, (id_gen e =? g)%N eqn:Hge; simpl; intros [= <- <- <-]; try done.
  apply N.eqb_eq in Hge as <-. split; [|done]. rewrite /ents_wf /=. split_and!.
  - simpl. apply NoDup_cons. split; [|done]. intros Hin. destruct (Hdes _ Hin) as (_&?&?). congruence.
  - simpl. intros i [->|Hi]%elem_of_cons.
    + split; [rewrite /uindex; lia|]. rewrite list_lookup_insert; [eauto|]. by eapply lookup_lt_Some.
    + destruct (Hdes _ Hi) as (?&g&?). split; [done|].
      rewrite list_lookup_insert_ne; [eauto|]. congruence.
  - simpl. intros i a g Hi. apply list_lookup_insert_Some in Hi as [(_ & [= <- <-] & _)|[_ Hj]]; eauto.
Qed.
Lemma ents_despawn_panic s e r s' ev :
  ents_despawn e s = Panicked r s' ev → s' = s ∧ ents_is_alive s e = None.
Proof.
  rewrite /ents_despawn /ents_is_alive.
  destruct (generations s !! uindex e) as [[a g]|] eqn:Hgi; [|naive_solver].
  by destruct a, (id_gen e =? g)%N.
Qed.

Lemma alive_iff s e : alive s e ↔ generations s !! uindex e = Some (true, id_gen e).
Proof.
  rewrite /alive /ents_is_alive. destruct (generations s !! uindex e) as [[a g]|]; [|naive_solver].
  split.
  - intros [= H]. apply andb_prop in H as [-> ?%N.eqb_eq]. congruence.
  - intros [= -> ->]. by rewrite N.eqb_refl.
Qed.

(** ids with the same index, at most one of them alive *)
Lemma id_ext e e' : id_gen e = id_gen e' → uindex e = uindex e' → e = e'.
Proof. destruct e, e'. rewrite /uindex /=. intros -> ?. f_equal. lia. Qed.
Lemma alive_inj s e e' : alive s e → alive s e' → uindex e = uindex e' → e = e'.
Proof. rewrite !alive_iff. intros H1 H2 Hi. rewrite Hi in H1. apply id_ext; congruence. Qed.

Lemma estep_wf o s : ents_wf s → eop_wf o → ents_wf (estep o s).2.
Proof.
  intros Hwf Ho. destruct o as [|e]; simpl.
  - destruct (ents_spawn s) as [e s' ev|r s' ev| |] eqn:E; try done.
    + by apply (ents_spawn_spec _ _ _ _ Hwf E).
    + destruct (ents_spawn_panic _ _ _ _ Hwf E) as (_&_&Hd&Hlen&Hg). destruct Hwf as (?&Hdes&Hg').
      rewrite /ents_wf /= Hd Hg. split; [done|]. split.
      * intros i Hi. destruct (Hdes _ Hi) as (?&g&?). split; [done|]. exists g. by apply lookup_app_l_Some.
      * intros i a g Hi. apply lookup_app_Some in Hi as [Hi|[_ Hi]]; [eauto|].
        apply list_lookup_singleton_Some in Hi as [_ [= <- <-]]. done.
  - destruct (ents_despawn e s) as [b s' ev|r s' ev| |] eqn:E; try done.
    + by apply (ents_despawn_spec _ _ _ _ _ Hwf Ho E).
    + by destruct (ents_despawn_panic _ _ _ _ _ E) as [-> _].
Qed.
Lemma erun_wf h s : ents_wf s → Forall eop_wf h → ents_wf (erun h s).2.
Proof.
  revert s. induction h as [|o h IH]; intros s Hwf Hh; simpl; [done|].
  apply Forall_cons in Hh as [Ho Hh]. pose proof (estep_wf o s Hwf Ho) as H1.
  destruct (estep o s) as [r s1]. specialize (IH s1 H1 Hh). by destruct (erun h s1).
Qed.

(** *** C19 *)
Lemma as_u64_arith e : id_wf e → as_u64 e = (id_gen e * 2 ^ 32 + id_idx e)%N.
Proof.
  intros [Hg Hi]. rewrite /as_u64 -N.shiftl_mul_pow2.
  symmetry. rewrite -N.lxor_lor.
  - apply N.add_nocarry_lxor. apply N.bits_inj_0. intros n. rewrite N.land_spec.
    destruct (decide (n < 32)%N).
    + by rewrite N.shiftl_spec_low.
    + rewrite andb_comm. rewrite (N.bits_above_log2 (id_idx e)) //.
      destruct (decide (id_idx e = 0%N)) as [->|]; [simpl; lia|].
      apply N.log2_lt_pow2; [lia|]. eapply N.lt_le_trans; [exact Hi|].
      apply N.pow_le_mono_r; lia.
  - apply N.bits_inj_0. intros n. rewrite N.land_spec.
    destruct (decide (n < 32)%N).
    + by rewrite N.shiftl_spec_low.
    + rewrite andb_comm. rewrite (N.bits_above_log2 (id_idx e)) //.
      destruct (decide (id_idx e = 0%N)) as [->|]; [simpl; lia|].
      apply N.log2_lt_pow2; [lia|]. eapply N.lt_le_trans; [exact Hi|].
      apply N.pow_le_mono_r; lia.
Qed.
Lemma as_u64_inj a b : id_wf a → id_wf b → as_u64 a = as_u64 b → a = b.
Proof.
  intros Ha Hb. rewrite !as_u64_arith //. destruct Ha as [? Ha], Hb as [? Hb].
  change u32_modulus with (2^32)%N in *. intros E.
  assert (id_gen a = id_gen b ∧ id_idx a = id_idx b) as [? ?].
  { apply (f_equal (λ n, (n / 2^32)%N)) in E as E1. apply (f_equal (λ n, (n mod 2^32)%N)) in E.
    rewrite !N.div_add_l // !N.div_small // in E1.
    rewrite !(N.add_comm (_ * _)) !N.mod_add // !N.mod_small // in E. lia. }
  destruct a, b; simpl in *; congruence.
Qed.
Lemma ecsid_eqb_spec a b : id_wf a → id_wf b → ecsid_eqb a b = true ↔ a = b.
Proof.
  intros Ha Hb. rewrite /ecsid_eqb N.eqb_eq. split; [by apply as_u64_inj|by intros ->].
Qed.
Lemma ecsid_leb_as_u64 a b : id_wf a → id_wf b → ecsid_leb a b = true ↔ (as_u64 a <= as_u64 b)%N.
Proof.
  intros Ha Hb. rewrite !as_u64_arith //. destruct Ha as [? Ha], Hb as [? Hb].
  change u32_modulus with (2^32)%N in *.
  rewrite /ecsid_leb orb_true_iff andb_true_iff N.ltb_lt N.eqb_eq N.leb_le. nia.
Qed.

(** *** C01 *)
Lemma spawn_fresh s e s' ev :
  ents_wf s → ents_spawn s = Done e s' ev →
  id_wf e ∧ alive s' e ∧ ¬ alive s e ∧
  (∀ e', alive s e' → e' ≠ e) ∧
  (∀ e', e' ≠ e → alive s' e' ↔ alive s e').
Proof.
  intros Hwf Hs. destruct (ents_spawn_spec _ _ _ _ Hwf Hs) as (Hwf'&He&_&Hg&Hfr&Hold).
  assert (¬ alive s e) as Hna.
  { rewrite alive_iff. intros Ha. rewrite Ha in Hold. by destruct Hold. }
  split_and!; try done.
  - by apply alive_iff.
  - intros e' Ha ->. done.
  - intros e' Hne. rewrite !alive_iff. destruct (decide (uindex e' = uindex e)) as [Hi|Hi].
    + rewrite Hi Hg. split.
      * intros [= ?]. exfalso. by apply Hne, id_ext.
      * intros Ha. rewrite Ha in Hold. by destruct Hold.
    + by rewrite Hfr.
Qed.

(** *** C02 *)
Lemma handed_out_app e l1 l2 : handed_out e (l1 ++ l2) = (handed_out e l1 + handed_out e l2)%N.
Proof. induction l1 as [|[e'|] l1 IH]; simpl; lia. Qed.

(** The slot of [e], after [k] further handouts: its generation is [g + k] modulo 2^32. *)
Lemma erun_slot e g h : ∀ s, ents_wf s → Forall eop_wf h → id_wf e →
  ∀ a k, generations s !! uindex e = Some (a, wrap32 (g + k)) →
  ∃ a', generations (erun h s).2 !! uindex e = Some (a', wrap32 (g + (k + handed_out e (erun h s).1))) ∧
        (handed_out e (erun h s).1 = 0%N → a' = true → a = true).
Proof.
  induction h as [|o h IH]; intros s Hwf Hh Hid a k Hs; simpl.
  { exists a. rewrite N.add_0_r. done. }
  apply Forall_cons in Hh as [Ho Hh]. pose proof (estep_wf o s Hwf Ho) as Hwf1.
  destruct (estep o s) as [r s1] eqn:Hstep. simpl in Hwf1.
  assert (∃ a1, generations s1 !! uindex e = Some (a1, wrap32 (g + (k + handed_out e [r])))
            ∧ (handed_out e [r] = 0%N → a1 = true → a = true)) as (a1 & Hs1 & Ha1).
  { destruct o as [|e0]; simpl in Hstep.
    - destruct (ents_spawn s) as [e0 s' ev|r' s' ev| |] eqn:E; simplify_eq.
      + destruct (ents_spawn_spec _ _ _ _ Hwf E) as (_&He0&_&Hg&Hfr&Hold). simpl.
        case_bool_decide as Hi.
        * assert (uindex e0 = uindex e) as Hui by (rewrite /uindex; congruence).
          rewrite Hui Hs in Hold. rewrite -Hui Hg. exists true. split; [|lia].
          destruct Hold as (_ & -> & _). do 2 f_equal. rewrite /wrap32.
          rewrite N.add_mod_idemp_l //. f_equal. lia.
        * assert (uindex e ≠ uindex e0) as Hui by (rewrite /uindex; lia).
          rewrite Hfr // Hs. exists a. split; [by rewrite !N.add_0_r|done].
      + destruct (ents_spawn_panic _ _ _ _ Hwf E) as (_&_&_&_&Hg). rewrite Hg /=.
        exists a. split; [|done]. rewrite N.add_0_r. by apply lookup_app_l_Some.
      + simpl. exists a. rewrite N.add_0_r. done.
      + simpl. exists a. rewrite N.add_0_r. done.
    - destruct (ents_despawn e0 s) as [b s' ev|r' s' ev| |] eqn:E; simplify_eq; simpl; rewrite N.add_0_r.
      + destruct (ents_despawn_spec _ _ _ _ _ Hwf Ho E) as (_&_&_&Hb). destruct b.
        * destruct Hb as (Hg&->&_). destruct (decide (uindex e0 = uindex e)) as [Hi|Hi].
          -- rewrite -Hi list_lookup_insert; [|by eapply lookup_lt_Some].
             rewrite -Hi Hg in Hs. injection Hs as <- ->. eauto.
          -- rewrite list_lookup_insert_ne //. eauto.
        * subst. eauto.
      + destruct (ents_despawn_panic _ _ _ _ _ E) as [-> _]. eauto.
      + eauto.
      + eauto. }
  destruct (IH s1 Hwf1 Hh Hid _ _ Hs1) as (a' & Hs2 & Ha').
  destruct (erun h s1) as [rs s2]. simpl in *. exists a'. split.
  - rewrite Hs2. do 3 f_equal. destruct r; lia.
  - intros H0 ->. apply Ha1; [|apply Ha'; [|done]]; destruct r; lia.
Qed.
Lemma wrap_add_ne g k : (g < u32_modulus)%N → (0 < k < u32_modulus)%N → wrap32 (g + k) ≠ g.
Proof.
  intros Hg Hk. rewrite /wrap32. destruct (decide (g + k < u32_modulus)%N).
  - rewrite N.mod_small //. lia.
  - replace (g + k)%N with (g + k - u32_modulus + 1 * u32_modulus)%N by lia.
    rewrite N.mod_add // N.mod_small //; lia.
Qed.
Lemma dead_stays_dead h1 e s2 ev h2 :
  let s1 := (erun h1 entities_new).2 in
  Forall eop_wf h1 → Forall eop_wf h2 → id_wf e →
  ents_despawn e s1 = Done true s2 ev →
  let '(outs, s3) := erun h2 s2 in
  (handed_out e outs < u32_modulus)%N → ents_is_alive s3 e = Some false.
Proof.
  intros s1 Hh1 Hh2 He Hd.
  assert (ents_wf s1) as Hwf1 by (apply erun_wf; [apply ents_wf_new|done]).
  destruct (ents_despawn_spec _ _ _ _ _ Hwf1 He Hd) as (Hwf2&_&_&Hg&Hg2&_).
  assert (generations s2 !! uindex e = Some (false, wrap32 (id_gen e + 0))) as Hs2.
  { rewrite Hg2 list_lookup_insert; [|by eapply lookup_lt_Some].
    rewrite N.add_0_r wrap32_small //. apply He. }
  destruct (erun_slot e (id_gen e) h2 s2 Hwf2 Hh2 He _ _ Hs2) as (a' & Ha' & Hz).
  destruct (erun h2 s2) as [outs s3]. simpl in *. intros Hlt.
  rewrite /ents_is_alive Ha'. f_equal.
  destruct (decide (handed_out e outs = 0%N)) as [H0|H0].
  - destruct a'; [|done]. by specialize (Hz H0 eq_refl).
  - rewrite (_ : (id_gen e =? _)%N = false); [by rewrite andb_false_r|].
    apply N.eqb_neq. intros Heq. eapply (wrap_add_ne (id_gen e) (handed_out e outs)); [apply He|lia|].
    rewrite {2}Heq. done.
Qed.
(** An id handed out twice: its slot was handed out at least 2^32 times in between. *)
Lemma erun_app h1 h2 s :
  erun (h1 ++ h2) s =
  ((erun h1 s).1 ++ (erun h2 (erun h1 s).2).1, (erun h2 (erun h1 s).2).2).
Proof.
  revert s. induction h1 as [|o h1 IH]; intros s; simpl; [by destruct (erun h2 s)|].
  destruct (estep o s) as [r s1]. rewrite IH.
  destruct (erun h1 s1) as [rs s2]. simpl. done.
Qed.
Lemma erun_length h s : length (erun h s).1 = length h.
Proof.
  revert s. induction h as [|o h IH]; intros s; simpl; [done|].
  destruct (estep o s) as [r s1]. specialize (IH s1). destruct (erun h s1). simpl in *. lia.
Qed.
Lemma no_early_reuse h e i j :
  Forall eop_wf h → i < j →
  let outs := (erun h entities_new).1 in
  outs !! i = Some (Some e) → outs !! j = Some (Some e) →
  (u32_modulus ≤ handed_out e (take (j - i) (drop (S i) outs)))%N.
Proof.
  intros Hh Hij outs Hi Hj.
  assert (i < length h ∧ j < length h) as [Hil Hjl].
  { split; rewrite -(erun_length h entities_new); by eapply lookup_lt_Some. }
  destruct (lookup_lt_is_Some_2 h i Hil) as [o Ho].
  set (h1 := take i h). set (h2 := take (j - i) (drop (S i) h)). set (h3 := drop (S j) h).
  assert (h = h1 ++ [o] ++ h2 ++ h3) as Hsplit.
  { rewrite -{1}(take_drop_middle h i o Ho). f_equal. simpl. f_equal.
    rewrite /h2 /h3. replace (S j) with (S i + (j - i)) by lia. by rewrite -drop_drop take_drop. }
  assert (length h1 = i) as Hl1 by (rewrite /h1 take_length; lia).
  assert (length h2 = j - i) as Hl2 by (rewrite /h2 take_length drop_length; lia).
  set (s0 := (erun h1 entities_new).2). set (s1 := (erun [o] s0).2). set (s2 := (erun h2 s1).2).
  assert (outs = (erun h1 entities_new).1 ++ (erun [o] s0).1 ++ (erun h2 s1).1 ++ (erun h3 s2).1) as Houts.
  { rewrite /outs Hsplit !erun_app /=. done. }
  rewrite Hsplit in Hh. rewrite !Forall_app in Hh. destruct Hh as (Hh1 & Hho & Hh2 & _).
  assert (ents_wf s0) as Hwf0 by (apply erun_wf; [apply ents_wf_new|done]).
  assert (ents_wf s1) as Hwf1 by (by apply erun_wf).
  assert (length (erun [o] s0).1 = 1) as Hlo by apply erun_length.
  (* the first handout *)
  assert ((erun [o] s0).1 = [Some e] ∧ id_wf e ∧ generations s1 !! uindex e = Some (true, id_gen e)) as (Ho1 & Hid & Hg1).
  { rewrite Houts in Hi. rewrite lookup_app_r erun_length in Hi; [|lia].
    rewrite Hl1 Nat.sub_diag in Hi.
    revert Hi. rewrite /s1 /=. destruct o as [|e0]; simpl.
    - destruct (ents_spawn s0) as [e0 s' ev|r' s' ev| |] eqn:E; try done. simpl. intros [= ->].
      destruct (ents_spawn_spec _ _ _ _ Hwf0 E) as (_&?&_&?&_). done.
    - by destruct (ents_despawn e0 s0). }
  assert (take (j - i) (drop (S i) outs) = (erun h2 s1).1) as Hmid.
  { rewrite Houts app_assoc. rewrite drop_app_alt; [|rewrite app_length !erun_length /=; lia].
    rewrite take_app_alt //. by rewrite erun_length. }
  rewrite Hmid.
  assert (generations s1 !! uindex e = Some (true, wrap32 (id_gen e + 0))) as Hg1'.
  { rewrite N.add_0_r wrap32_small //. apply Hid. }
  (* split h2 at its last op *)
  destruct h2 as [|o2 h2'] using rev_ind; [simpl in Hl2; lia|]. clear IHh2'.
  rewrite app_length /= in Hl2.
  apply Forall_app in Hh2 as [Hh2 Ho2]. apply Forall_singleton in Ho2.
  rewrite erun_app in Hmid |- *. simpl in Hmid |- *.
  set (sx := (erun h2' s1).2) in *.
  assert (ents_wf sx) as Hwfx by by apply erun_wf.
  destruct (erun_slot e (id_gen e) h2' s1 Hwf1 Hh2 Hid _ _ Hg1') as (a' & Hgx & _).
  fold sx in Hgx.
  assert (outs !! j = Some (estep o2 sx).1) as Hj'.
  { assert (drop (S i) outs !! (j - S i) = outs !! j) as <- by (rewrite lookup_drop; f_equal; lia).
    rewrite -(lookup_take _ (j - i)); [|lia]. rewrite Hmid.
    rewrite lookup_app_r erun_length; [|lia]. replace (j - S i - length h2') with 0 by lia.
    by destruct (estep o2 sx). }
  rewrite Hj in Hj'. injection Hj' as Hj'.
  rewrite handed_out_app. destruct (estep o2 sx) as [r' s'] eqn:Hst. simpl in Hj' |- *. subst r'.
  destruct o2 as [|e0]; simpl in Hst; [|by destruct (ents_despawn e0 sx)].
  destruct (ents_spawn sx) as [e0 s'' ev|r' s'' ev| |] eqn:E; simplify_eq.
  destruct (ents_spawn_spec _ _ _ _ Hwfx E) as (_&_&_&_&_&Hold). rewrite Hgx in Hold.
  destruct Hold as (_ & Hgen & _). simpl. rewrite bool_decide_true //.
  destruct (decide (handed_out e (erun h2' s1).1 + 1 < u32_modulus)%N) as [Hlt|]; [|lia].
  exfalso. eapply (wrap_add_ne (id_gen e) (handed_out e (erun h2' s1).1 + 1)); [apply Hid|lia|].
  rewrite {2}Hgen /wrap32 N.add_mod_idemp_l //. f_equal. lia.
Qed.

(** *** C03 *)
Lemma cycle_once s e : ents_wf s → id_wf e → alive s e →
  ∃ s1 s2, estep (EDespawn e) s = (None, s1) ∧
    estep ESpawn s1 = (Some (EcsId (wrap32 (id_gen e + 1)) (id_idx e)), s2) ∧
    ents_is_alive s1 e = Some false ∧
    generations s2 = <[uindex e := (true, wrap32 (id_gen e + 1))]> (generations s) ∧
    despawned s2 = despawned s.
Proof.
  intros Hwf Hid Ha. pose proof Ha as Hg. apply alive_iff in Hg.
  simpl. rewrite /ents_despawn Ha Hg. eexists _, _. split; [done|].
  rewrite /ents_spawn /=. rewrite list_lookup_insert; [|by eapply lookup_lt_Some].
  simpl. destruct Hid as [Hgen Hidx].
  rewrite (_ : (u32_max <? N.of_nat (uindex e))%N = false).
  2:{ apply N.ltb_ge. rewrite /uindex /u32_max. cbv [u32_modulus] in *. lia. }
  rewrite list_lookup_insert; [|rewrite insert_length; by eapply lookup_lt_Some].
  split; [|split; [|split]].
  - do 2 f_equal. rewrite /id_new. f_equal. rewrite /uindex N2Nat.id. by apply wrap32_small.
  - rewrite /ents_is_alive /= list_lookup_insert //. by eapply lookup_lt_Some.
  - simpl. by rewrite list_insert_insert.
  - done.
Qed.
Lemma cycle_run n : ∀ s e, ents_wf s → id_wf e → alive s e →
  Forall eop_wf (cycle_ops s e n) ∧ length (cycle_ops s e n) = 2 * n ∧
  generations (erun (cycle_ops s e n) s).2 =
    <[uindex e := (true, wrap32 (id_gen e + N.of_nat n))]> (generations s) ∧
  handed_out e (erun (cycle_ops s e n) s).1 = N.of_nat n.
Proof.
  induction n as [|n IH]; intros s e Hwf Hid Ha.
  { simpl. split_and!; try done. rewrite N.add_0_r wrap32_small; [|apply Hid].
    rewrite list_insert_id //. by apply alive_iff. }
  destruct (cycle_once s e Hwf Hid Ha) as (s1 & s2 & H1 & H2 & _ & Hg & Hd).
  set (e' := EcsId (wrap32 (id_gen e + 1)) (id_idx e)) in *.
  assert (id_wf e') as Hid' by (split; [apply wrap32_lt|apply Hid]).
  assert (ents_wf s2) as Hwf2.
  { pose proof (estep_wf (EDespawn e) s Hwf Hid) as W1. rewrite H1 /= in W1.
    pose proof (estep_wf ESpawn s1 W1 I) as W2. by rewrite H2 /= in W2. }
  assert (alive s2 e') as Ha'.
  { apply alive_iff. rewrite Hg /= list_lookup_insert //.
    apply (lookup_lt_Some _ (uindex e) (true, id_gen e)). by apply alive_iff. }
  destruct (IH s2 e' Hwf2 Hid' Ha') as (IH1 & IH2 & IH3 & IH4).
  cbn [cycle_ops]. rewrite H1. cbn [snd]. rewrite H2. split_and!.
  - apply Forall_cons. split; [exact Hid|]. apply Forall_cons. by split.
  - simpl. lia.
  - cbn [erun]. rewrite H1 H2. destruct (erun (cycle_ops s2 e' n) s2) as [rs s3]. simpl in *.
    rewrite IH3 Hg list_insert_insert. do 2 f_equal.
    rewrite /wrap32 N.add_mod_idemp_l //. f_equal. lia.
  - cbn [erun]. rewrite H1 H2. destruct (erun (cycle_ops s2 e' n) s2) as [rs s3]. simpl in *.
    rewrite bool_decide_true //. assert (handed_out e rs = handed_out e' rs) as ->.
    { clear. induction rs as [|[x|] rs IH]; simpl; [done| |done]. by rewrite IH. }
    rewrite IH4. lia.
Qed.
Lemma wraparound_resurrects h e :
  let s := (erun h entities_new).2 in
  Forall eop_wf h → id_wf e → alive s e →
  let ops := cycle_ops s e (N.to_nat u32_modulus) in
  Forall eop_wf ops ∧ N.of_nat (length ops) = (2 * u32_modulus)%N ∧
  (∃ ops', ops = EDespawn e :: ops') ∧
  ents_is_alive (estep (EDespawn e) s).2 e = Some false ∧
  ents_is_alive (erun ops s).2 e = Some true.
Proof.
  intros s Hh Hid Ha ops. assert (ents_wf s) as Hwf by (apply erun_wf; [apply ents_wf_new|done]).
  destruct (cycle_run (N.to_nat u32_modulus) s e Hwf Hid Ha) as (H1 & H2 & H3 & _).
  split_and!; [done| | | |].
  - rewrite /ops H2. lia.
  - rewrite /ops. destruct (N.to_nat u32_modulus) as [|m] eqn:Em.
    { exfalso. apply (f_equal N.of_nat) in Em. rewrite N2Nat.id in Em. done. }
    cbn [cycle_ops]. destruct (cycle_once s e Hwf Hid Ha) as (s1 & s2 & E1 & E2 & _).
    rewrite E1. cbn [snd]. rewrite E2. eauto.
  - destruct (cycle_once s e Hwf Hid Ha) as (s1 & s2 & E1 & _ & E3 & _). by rewrite E1.
  - rewrite /ops. change (alive (erun (cycle_ops s e (N.to_nat u32_modulus)) s).2 e).
    apply alive_iff. rewrite H3 list_lookup_insert; [|apply (lookup_lt_Some _ (uindex e) (true, id_gen e)); by apply alive_iff].
    do 2 f_equal. rewrite N2Nat.id /wrap32.
    replace (id_gen e + u32_modulus)%N with (id_gen e + 1 * u32_modulus)%N by lia.
    rewrite N.mod_add; [|done]. apply N.mod_small. apply Hid.
Qed.

(** ** The statements in the form used by PropsEntities.v *)
Lemma spawn_fresh_reachable h e s' ev :
  Forall eop_wf h →
  ents_spawn (erun h entities_new).2 = Done e s' ev →
  alive s' e ∧
  ¬ alive (erun h entities_new).2 e ∧
  (∀ e', id_wf e' → alive (erun h entities_new).2 e' → ecsid_eqb e' e = false) ∧
  (∀ e', e' ≠ e → alive s' e' ↔ alive (erun h entities_new).2 e').
Proof.
  intros Hh Hs. assert (ents_wf (erun h entities_new).2) as Hwf by (apply erun_wf; [apply ents_wf_new|done]).
  destruct (spawn_fresh _ _ _ _ Hwf Hs) as (He & H1 & H2 & H3 & H4). split_and!; try done.
  intros e' He' Ha. destruct (ecsid_eqb e' e) eqn:E; [|done].
  apply ecsid_eqb_spec in E; [|done..]. by destruct (H3 _ Ha).
Qed.
Lemma estep_slots o s : length (generations (estep o s).2) ≤ S (length (generations s)).
Proof.
  destruct o as [|e]; simpl.
  - rewrite /ents_spawn. repeat case_match; simplify_eq/=; rewrite ?insert_length ?app_length /=; lia.
  - rewrite /ents_despawn. repeat case_match; simplify_eq/=; rewrite ?insert_length; lia.
Qed.
Lemma erun_slots h s : length (generations (erun h s).2) ≤ length h + length (generations s).
Proof.
  revert s. induction h as [|o h IH]; intros s; simpl; [lia|].
  pose proof (estep_slots o s) as H1. destruct (estep o s) as [r s1]. specialize (IH s1).
  destruct (erun h s1). simpl in *. lia.
Qed.
Lemma spawn_succeeds h : Forall eop_wf h → (N.of_nat (length h) < u32_modulus)%N →
  ∃ e s', ents_spawn (erun h entities_new).2 = Done e s' [].
Proof.
  intros Hh Hlen. assert (ents_wf (erun h entities_new).2) as Hwf by (apply erun_wf; [apply ents_wf_new|done]).
  destruct (ents_spawn_total _ Hwf) as [?|[s' Hp]]; [done|].
  destruct (ents_spawn_panic _ _ _ _ Hwf Hp) as (_ & _ & _ & Hge & _).
  pose proof (erun_slots h entities_new) as Hsl. simpl in Hsl. lia.
Qed.
Lemma dead_stays_dead' h1 e s2 ev h2 :
  Forall eop_wf h1 → Forall eop_wf h2 → id_wf e →
  ents_despawn e (erun h1 entities_new).2 = Done true s2 ev →
  (handed_out e (erun h2 s2).1 < u32_modulus)%N →
  ents_is_alive (erun h2 s2).2 e = Some false.
Proof.
  intros H1 H2 He Hd Hlt. pose proof (dead_stays_dead h1 e s2 ev h2 H1 H2 He Hd) as H.
  destruct (erun h2 s2). by apply H.
Qed.
Lemma wraparound_resurrects' h e :
  Forall eop_wf h → id_wf e → alive (erun h entities_new).2 e →
  let s := (erun h entities_new).2 in
  let ops := cycle_ops s e (N.to_nat u32_modulus) in
  Forall eop_wf ops ∧ N.of_nat (length ops) = (2 * u32_modulus)%N ∧
  (∃ ops', ops = EDespawn e :: ops') ∧
  ents_is_alive (estep (EDespawn e) s).2 e = Some false ∧
  ents_is_alive (erun ops s).2 e = Some true.
Proof. intros. by apply wraparound_resurrects. Qed.
Lemma ecsid_order_eq a b : id_wf a → id_wf b →
  (ecsid_eqb a b = true ↔ id_gen a = id_gen b ∧ id_idx a = id_idx b) ∧
  (as_u64 a = as_u64 b → id_gen a = id_gen b ∧ id_idx a = id_idx b) ∧
  (as_u64 a < 2 ^ 64)%N ∧
  (ecsid_leb a b = true ↔ (as_u64 a ≤ as_u64 b)%N) ∧
  (ecsid_leb a b = true → ecsid_leb b a = true → ecsid_eqb a b = true).
Proof.
  intros Ha Hb. split_and!.
  - rewrite ecsid_eqb_spec //. destruct a, b; simpl. naive_solver.
  - intros E%as_u64_inj; [|done..]. by subst.
  - rewrite as_u64_arith //. destruct Ha as [Hg Hi]. change u32_modulus with (2^32)%N in *.
    change (2^64)%N with (2^32 * 2^32)%N. nia.
  - by apply ecsid_leb_as_u64.
  - rewrite !ecsid_leb_as_u64 //. intros. rewrite /ecsid_eqb. apply N.eqb_eq. lia.
Qed.
