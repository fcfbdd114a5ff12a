(** * C52: no call runs out of address space while the world is small *)
From Verif Require Import ProofBase SpecSmall World Query History ProofEntities ProofBitset ProofArrayVec ProofUVec.
From Verif Require Export SpecLimit ProofCapacity ProofCalm.

(** ** Computations that do not panic with [RCapacity] *)
Definition quiet {S A} (P : S → Prop) (m : M S A) (Q : A → S → Prop) : Prop :=
  ∀ s, P s → match m s with Done a s' _ => Q a s' | Panicked r _ _ => r ≠ RCapacity | _ => True end.
Section quiet.
  Context {S : Type}.
  Implicit Types P : S → Prop.
  Lemma quiet_bind {A B} P (m : M S A) (k : A → M S B) Q Q' : quiet P m Q → (∀ a, quiet (Q a) (k a) Q') → quiet P (bind m k) Q'.
  Proof.
    intros Hm Hk s Hs. rewrite /bind. specialize (Hm s Hs). destruct (m s) as [a s' ev|r s' ev| |]; [|done..].
    specialize (Hk a s' Hm). by destruct (k a s').
  Qed.
  Lemma quiet_mono {A} P P' (m : M S A) (Q Q' : A → S → Prop) : quiet P' m Q' → (∀ s, P s → P' s) → (∀ a s, Q' a s → Q a s) → quiet P m Q.
  Proof. intros H HP HQ s Hs. specialize (H s (HP s Hs)). destruct (m s); try done. by apply HQ. Qed.
  Lemma quiet_ret {A} P (a : A) (Q : A → S → Prop) : (∀ s, P s → Q a s) → quiet P (ret a) Q.
  Proof. intros H s Hs. by apply H. Qed.
  Lemma quiet_calm {A} P (m : M S A) : calm m → quiet P m (λ _ _, True).
  Proof. intros H s _. specialize (H s). by destruct (m s). Qed.
  Lemma quiet_read {A} P (m : M S A) : calm m → (∀ s a s' ev, m s = Done a s' ev → s' = s) → quiet P m (λ _, P).
  Proof. intros H Hr s Hs. specialize (H s). destruct (m s) eqn:E; try done. by apply Hr in E as ->. Qed.
  Lemma quiet_unwrap {A} P (o : option A) r : r ≠ RCapacity → quiet P (unwrap o r) (λ a s, P s ∧ o = Some a).
  Proof. intros Hr s Hs. by destruct o. Qed.
  Lemma quiet_massert P b r : r ≠ RCapacity → quiet P (massert b r) (λ _ s, P s ∧ b = true).
  Proof. intros Hr s Hs. by destruct b. Qed.
  Lemma quiet_gets {A} P (f : S → A) : quiet P (gets f) (λ a s, P s ∧ a = f s).
  Proof. by intros s Hs. Qed.
  Lemma quiet_modify P f (Q : () → S → Prop) : (∀ s, P s → Q () (f s)) → quiet P (modify f) Q.
  Proof. intros H s Hs. by apply H. Qed.
  Lemma quiet_pure {A} (φ : Prop) P (m : M S A) Q : (φ → quiet P m Q) → quiet (λ s, P s ∧ φ) m Q.
  Proof. intros H s [Hs Hf]. by apply H. Qed.
  Lemma quiet_panic {A} P r (Q : A → S → Prop) : r ≠ RCapacity → quiet P (panic r) Q.
  Proof. by intros H s _. Qed.
  Lemma quiet_ub {A} P (Q : A → S → Prop) : quiet P ub Q.
  Proof. by intros s _. Qed.
End quiet.

(** ** Layouts *)
Lemma pow2_log2 n : is_pow2 n = true → n = 2 ^ Nat.log2 n.
Proof.
  rewrite /is_pow2 andb_true_iff !bool_decide_eq_true. intros [H0 Hl].
  destruct (Nat.log2_spec n) as [H1 H2]; [lia|]. destruct (decide (n = 2 ^ Nat.log2 n)) as [|Hne]; [done|exfalso].
  assert (Nat.log2 (n - 1) = Nat.log2 n) as El. { apply Nat.log2_unique; lia. }
  assert (0 < 2 ^ Nat.log2 n) as Hp. { pose proof (Nat.pow_nonzero 2 (Nat.log2 n)). lia. }
  assert (Nat.testbit (Nat.land n (n - 1)) (Nat.log2 n) = true) as Hb.
  { rewrite Nat.land_spec andb_true_iff. split; [by apply Nat.bit_log2|]. rewrite -El. apply Nat.bit_log2. lia. }
  rewrite Hl Nat.bits_0 in Hb. done.
Qed.
Lemma pow2_bound n : is_pow2 n = true → (N.of_nat n <= isize_max)%N → (N.of_nat n <= 2 ^ 62)%N.
Proof.
  intros Hp Hn. rewrite (pow2_log2 n Hp) in Hn |- *. rewrite Nat2N.inj_pow in Hn |- *. change (N.of_nat 2) with 2%N in *.
  apply N.pow_le_mono_r; [done|]. destruct (N.lt_ge_cases 62 (N.of_nat (Nat.log2 n))) as [Hlt|]; [exfalso|done].
  assert (2 ^ 63 <= 2 ^ N.of_nat (Nat.log2 n))%N as Hx. { apply N.pow_le_mono_r; [done|lia]. }
  rewrite /isize_max in Hn. change (2 ^ 63 - 1)%N with 9223372036854775807%N in Hn. change (2 ^ 63)%N with 9223372036854775808%N in Hx. lia.
Qed.
Lemma layout_small n a : is_pow2 a = true → (N.of_nat a <= isize_max)%N → (N.of_nat n <= 4 * byte_limit)%N →
  is_Some (layout_from_size_align n a).
Proof.
  intros Hp Ha Hn. rewrite /layout_from_size_align Hp andb_true_l. pose proof (pow2_bound a Hp Ha) as Hb.
  assert (N.of_nat n + (N.of_nat a - 1) <=? isize_max = true)%N as ->; [|done]. apply N.leb_le.
  rewrite /isize_max. rewrite /byte_limit in Hn. change (4 * 2 ^ 60)%N with 4611686018427387904%N in Hn.
  change (2 ^ 62)%N with 4611686018427387904%N in Hb. change (2 ^ 63 - 1)%N with 9223372036854775807%N.
  assert (a ≠ 0). { rewrite /is_pow2 in Hp. intros ->. done. } lia.
Qed.
Lemma layout_wf_align l : layout_wf l → l_size l ≠ 0 → is_pow2 (l_align l) = true ∧ (N.of_nat (l_align l) <= isize_max)%N.
Proof.
  rewrite /layout_wf /layout_from_size_align. intros H Hs. destruct (is_pow2 (l_align l)) eqn:E; [|done].
  rewrite andb_true_l in H. destruct (_ <=? _)%N eqn:E2; [|done]. apply N.leb_le in E2. split; [done|lia].
Qed.

(** ** Vectors *)
(** The bytes of the elements. *)
Definition ubytes (u : uvec) : nat := if decide (uv_size u = 0) then 0 else uv_len u.
Definition small (n : nat) : Prop := (N.of_nat n <= byte_limit)%N.
Lemma uv_realloc_quiet u : layout_wf (ti_layout (uv_ti u)) → uv_cap u < uv_len u + uv_size u → small (uv_len u + uv_size u) →
  match uv_realloc u with
  | Done _ u' _ => uv_ti u' = uv_ti u ∧ uv_len u' = uv_len u
  | Panicked r _ _ => r ≠ RCapacity | _ => True end.
Proof.
  intros Hwf Hc Hs. rewrite /small in Hs. rewrite /uv_realloc (bind_done_nil _ _ u u u eq_refl).
  case_decide as Hz; [done|]. destruct (layout_wf_align _ Hwf Hz) as [Hp Ha].
  case_decide as Hc0.
  - destruct (layout_small (uv_size u * 4) (uv_align u) Hp Ha) as [l Hl]; [lia|]. rewrite Hl. cbn [unwrap].
    rewrite (bind_done_nil _ _ u l u eq_refl). destruct (heap_alloc l) as [p|]; [|done]. done.
  - assert (N.of_nat (uv_cap u * 2) <? isize_max = true)%N as ->.
    { apply N.ltb_lt. rewrite /isize_max. rewrite /byte_limit in Hs. change (2 ^ 60)%N with 1152921504606846976%N in Hs.
      change (2 ^ 63 - 1)%N with 9223372036854775807%N. lia. }
    cbn [massert]. rewrite (bind_done_nil _ _ u () u eq_refl).
    destruct (layout_small (uv_cap u) (uv_align u) Hp Ha) as [l Hl]; [lia|]. rewrite Hl. cbn [unwrap].
    rewrite (bind_done_nil _ _ u l u eq_refl).
    destruct (layout_small (uv_cap u * 2) (uv_align u) Hp Ha) as [l2 Hl2]; [lia|]. rewrite Hl2. cbn [unwrap].
    rewrite (bind_done_nil _ _ u l2 u eq_refl). destruct (heap_realloc _ _ _) as [p|]; [|done]. done.
Qed.
Lemma uv_push_quiet u src : layout_wf (ti_layout (uv_ti u)) → small (ubytes u + uv_size u) →
  match uv_push_raw src u with
  | Done _ u' _ => uv_ti u' = uv_ti u ∧ ubytes u' = ubytes u + uv_size u
  | Panicked r _ _ => r ≠ RCapacity | _ => True end.
Proof.
  intros Hwf Hs. rewrite /uv_push_raw (bind_done_nil _ _ u u u eq_refl). case_decide as Hz.
  { cbn. split; [done|]. rewrite /ubytes /uv_size /= -/(uv_size u) !decide_True //. }
  rewrite {1}/ubytes decide_False // in Hs.
  assert (∀ u1, uv_ti u1 = uv_ti u → uv_len u1 = uv_len u →
    match (let* v1 := gets id in if decide (length src < uv_size v1) then ub
      else let* p := or_ub (mem_write (uv_data v1) (uv_len v1) (take (uv_size v1) src)) in
        modify (λ v2, uv_set_len (uv_len v1 + uv_size v1) (uv_set_data p (uv_cap v1) v2))) u1 with
    | Done _ u' _ => uv_ti u' = uv_ti u ∧ ubytes u' = ubytes u + uv_size u
    | Panicked r _ _ => r ≠ RCapacity | _ => True end) as Hrest.
  { intros u1 Ht Hl. rewrite (bind_done_nil _ _ u1 u1 u1 eq_refl). case_decide; [done|].
    destruct (mem_write _ _ _) as [p|]; [|done]. cbn. split; [done|].
    rewrite /ubytes /uv_size /= Ht -/(uv_size u) !decide_False // Hl. done. }
  unfold bind at 1. case_decide as Hc.
  - pose proof (uv_realloc_quiet u Hwf Hc Hs) as H. destruct (uv_realloc u) as [[] u1 ev|r u1 ev| |]; [|done..].
    destruct H as [Ht Hl]. specialize (Hrest u1 Ht Hl). destruct (bind _ _ u1); done.
  - cbn [ret]. specialize (Hrest u eq_refl eq_refl). destruct (bind _ _ u); done.
Qed.
Lemma ubytes_ti u u' : uv_ti u' = uv_ti u → uv_len u' = uv_len u → ubytes u' = ubytes u.
Proof. rewrite /ubytes /uv_size. by intros -> ->. Qed.
Lemma uv_swap_move_quiet v o i : layout_wf (ti_layout (uv_ti o)) → small (ubytes v + ubytes o) →
  match uv_swap_move i (v, o) with
  | Done _ (v', o') _ => uv_ti v' = uv_ti v ∧ uv_ti o' = uv_ti o ∧ ubytes v' + ubytes o' = ubytes v + ubytes o
  | Panicked r _ _ => r ≠ RCapacity | _ => True end.
Proof.
  intros Hwf Hs. rewrite /uv_swap_move (bind_done_nil _ _ (v, o) (v, o) (v, o) eq_refl). cbv beta iota.
  destruct (ti_eqb _ _) eqn:Hti; [|done]. cbn [massert]. rewrite (bind_done_nil _ _ (v, o) () (v, o) eq_refl).
  case_bool_decide as Hlen; [|done]. cbn [massert]. rewrite (bind_done_nil _ _ (v, o) () (v, o) eq_refl).
  destruct (_ || _) eqn:Hb; [|done]. cbn [massert]. rewrite (bind_done_nil _ _ (v, o) () (v, o) eq_refl).
  assert (uv_size o = uv_size v) as Hsz. { rewrite /ti_eqb bool_decide_eq_true in Hti. by rewrite /uv_size /ti_size Hti. }
  destruct (decide (uv_size v = 0)) as [Hz|Hz].
  { cbn. split_and!; [done..|]. rewrite /ubytes /uv_size /= -/(uv_size v) -/(uv_size o) Hsz !decide_True //. }
  assert (i < uv_len v / uv_size v) as Hi.
  { apply orb_true_iff in Hb as [Hb|Hb]; apply bool_decide_eq_true in Hb; done. }
  assert (uv_size v ≤ uv_len v) as Hle. { destruct (decide (uv_size v ≤ uv_len v)); [done|]. rewrite Nat.div_small in Hi; lia. }
  assert (ubytes v = uv_len v) as Hbv by (rewrite /ubytes decide_False //).
  assert (small (ubytes o + uv_size o)) as Hso. { rewrite /small in Hs |- *. lia. }
  assert (∀ v1 bytes, uv_ti v1 = uv_ti v → 
    match (do* on_snd (uv_push_raw bytes) in on_fst (modify (uv_set_len (uv_len v - uv_size v)))) (v1, o) with
    | Done _ (v', o') _ => uv_ti v' = uv_ti v ∧ uv_ti o' = uv_ti o ∧ ubytes v' + ubytes o' = ubytes v + ubytes o
    | Panicked r _ _ => r ≠ RCapacity | _ => True end) as Hrest.
  { intros v1 bytes Ht. pose proof (uv_push_quiet o bytes Hwf Hso) as H. rewrite /bind /on_snd /zoom. cbn [fst snd].
    destruct (uv_push_raw bytes o) as [[] o' ev|r o' ev| |]; [|done..]. destruct H as [Ho Hbo]. cbn. split_and!; [done..|].
    rewrite Hbo Hbv Hsz. rewrite /ubytes /uv_size /= Ht -/(uv_size v) decide_False //. lia. }
  destruct (decide (i = uv_len v / uv_size v - 1)) as [Hlast|Hlast].
  - destruct (mem_read _ _ _) as [bytes|]; [|done]. cbn [or_ub]. rewrite (bind_done_nil _ _ (v, o) bytes (v, o) eq_refl). by apply Hrest.
  - destruct (mem_swap _ _ _ _) as [p|]; [|done]. cbn [or_ub]. rewrite (bind_done_nil _ _ (v, o) p (v, o) eq_refl).
    rewrite (bind_done_nil _ _ (v, o) () (uv_set_data p (uv_cap v) v, o) eq_refl).
    destruct (mem_read _ _ _) as [bytes|]; [|done]. cbn [or_ub].
    rewrite (bind_done_nil _ _ (uv_set_data p (uv_cap v) v, o) bytes (uv_set_data p (uv_cap v) v, o) eq_refl). by apply Hrest.
Qed.
