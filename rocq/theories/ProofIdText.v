(** * Hashing and printing of ids (C59, C60) *)
From Verif Require Import ProofBase SpecIdText ProofEntities.

Lemma to_le_length k n : length (to_le_bytes k n) = k.
Proof. revert n. induction k as [|k IH]; intros n; [done|]. by rewrite /= IH. Qed.
Lemma to_ne_length le n : length (to_ne_bytes le n) = 8.
Proof. rewrite /to_ne_bytes. destruct le; rewrite ?reverse_length; apply to_le_length. Qed.
Lemma from_to_le k n : (n < 256 ^ N.of_nat k)%N → from_le_bytes (to_le_bytes k n) = n.
Proof.
  revert n. induction k as [|k IH]; intros n Hn; [cbn in Hn |- *; lia|].
  cbn [to_le_bytes from_le_bytes]. rewrite IH.
  - pose proof (N.div_mod n 256). lia.
  - apply N.div_lt_upper_bound; [done|]. rewrite Nat2N.inj_succ N.pow_succ_r' in Hn. lia.
Qed.
Lemma from_to_ne le n : (n < 2 ^ 64)%N → from_ne_bytes le (to_ne_bytes le n) = n.
Proof.
  intros Hn. rewrite /from_ne_bytes /to_ne_bytes.
  destruct le; rewrite ?reverse_involutive; by apply from_to_le.
Qed.

Lemma as_u64_lt e : id_wf e → (as_u64 e < 2 ^ 64)%N.
Proof.
  intros He. rewrite as_u64_arith //. destruct He as [Hg Hi].
  rewrite /u32_modulus in Hg Hi. lia.
Qed.
Lemma u64_hash_run le h n : (n < 2 ^ 64)%N → u64_hash le n h = Done tt n [].
Proof.
  intros Hn. rewrite /u64_hash /hasher_write. cbv beta.
  by rewrite decide_True ?to_ne_length // from_to_ne.
Qed.
Lemma hash_value le h e : id_wf e →
  ecsid_hash le e h = Done tt (id_gen e * 2 ^ 32 + id_idx e)%N [].
Proof.
  intros He. rewrite /ecsid_hash u64_hash_run; [by rewrite as_u64_arith|by apply as_u64_lt].
Qed.
Lemma hash_agrees le h1 h2 a b : id_wf a → id_wf b →
  ∃ x y, hash_of h1 (ecsid_hash le a) = Some x ∧ hash_of h2 (ecsid_hash le b) = Some y ∧
    (x = y ↔ ecsid_eqb a b = true) ∧ (x < 2 ^ 64)%N.
Proof.
  intros Ha Hb. rewrite /hash_of !hash_value //. eexists _, _. split; [done|]. split; [done|].
  rewrite /hasher_finish -!as_u64_arith // /ecsid_eqb N.eqb_eq. split; [done|by apply as_u64_lt].
Qed.
Lemma hash_key le h n : (n < 2 ^ 64)%N → hash_of h (u64_hash le n) = Some n.
Proof. intros Hn. by rewrite /hash_of u64_hash_run. Qed.
Lemma hash_last le h es e : Forall id_wf es → id_wf e →
  hash_of h (ecsids_hash le (es ++ [e])) = hash_of hasher_default (ecsid_hash le e).
Proof.
  intros Hes He. revert h. induction Hes as [|a es Ha Hes IH]; intros h.
  - rewrite /hash_of /= /bind !hash_value //.
  - rewrite -(IH (id_gen a * 2 ^ 32 + id_idx a)%N). rewrite /hash_of /= /bind hash_value //.
    by destruct (ecsids_hash _ _ _) as [[] ? []| | |].
Qed.
Lemma hash_combining_refuted : ∃ es es' le h, Forall id_wf es ∧ Forall id_wf es' ∧
  length es = length es' ∧ es ≠ es' ∧ is_Some (hash_of h (ecsids_hash le es)) ∧
  hash_of h (ecsids_hash le es) = hash_of h (ecsids_hash le es').
Proof.
  exists [EcsId 0 1; EcsId 0 2], [EcsId 0 3; EcsId 0 2], true, hasher_default.
  split; [by repeat constructor|]. split; [by repeat constructor|].
  split; [done|]. split; [done|]. split; [by eexists; vm_compute|by vm_compute].
Qed.
Lemma from_le_nth bs i b :
  Forall (λ b, b < 256)%N bs → bs !! i = Some b →
  ((from_le_bytes bs / 256 ^ N.of_nat i) mod 256 = b)%N.
Proof.
  intros Hbs. revert i. induction Hbs as [|c bs Hc Hbs IH]; intros i Hi; [done|].
  cbn [from_le_bytes]. destruct i as [|i].
  - injection Hi as ->. rewrite N.div_1_r N.mul_comm N.mod_add // N.mod_small //.
  - cbn in Hi. rewrite Nat2N.inj_succ N.pow_succ_r' -N.div_div //; [|by apply N.pow_nonzero].
    rewrite (N.mul_comm 256 (from_le_bytes bs)) N.div_add // (N.div_small c 256) // N.add_0_l. by apply IH.
Qed.
Lemma hash_bytes le h bs : Forall (λ b, b < 256)%N bs →
  match hasher_write le bs h with
  | Done _ h' ev => ev = [] ∧ length bs = 8 ∧
      ∀ i b, bs !! i = Some b →
        ((hasher_finish h' / 256 ^ N.of_nat (if le then i else 7 - i)%nat) mod 256 = b)%N
  | Panicked r h' ev => length bs ≠ 8 ∧ r = RUnwrap ∧ h' = h ∧ ev = []
  | _ => False
  end.
Proof.
  intros Hbs. rewrite /hasher_write. case_decide as Hl; [|done].
  split; [done|]. split; [done|]. intros i b Hi. rewrite /hasher_finish /from_ne_bytes.
  destruct le; [by apply from_le_nth|].
  apply from_le_nth; [by apply Forall_reverse|].
  pose proof (lookup_lt_Some _ _ _ Hi).
  rewrite reverse_lookup; [|lia]. rewrite Hl. by replace (8 - S (7 - i)) with i by lia.
Qed.

(** ** Printing *)
Lemma string_app_cons c s t : String c s +:+ t = String c (s +:+ t).
Proof. done. Qed.
Lemma string_app_assoc s t u : s +:+ (t +:+ u) = (s +:+ t) +:+ u.
Proof. induction s as [|c s IH]; [done|]. by rewrite !string_app_cons IH. Qed.
Lemma string_length_app s t : String.length (s +:+ t) = String.length s + String.length t.
Proof. induction s as [|c s IH]; [done|]. by rewrite string_app_cons /= IH. Qed.
Lemma read_hex_app acc s t :
  read_hex acc (s +:+ t) =
    match read_hex acc s with Some n => read_hex n t | None => None end.
Proof. revert acc. induction s as [|c s IH]; intros acc; [done|]. rewrite string_app_cons /=. by destruct (digit_value c). Qed.
Lemma hex_digit_value n : (n < 16)%N → digit_value (hex_digit n) = Some n.
Proof.
  intros Hn. rewrite -(N2Nat.id n). assert (N.to_nat n < 16) as Hk by lia.
  generalize dependent (N.to_nat n). intros k Hk.
  do 16 (destruct k as [|k]; [by vm_compute|]). lia.
Qed.
Lemma hex_digits_length k n : String.length (hex_digits k n) = k.
Proof.
  revert n. induction k as [|k IH]; intros n; [done|].
  cbn [hex_digits]. rewrite string_length_app IH /=. lia.
Qed.
Lemma hex_digits_read k n : (n < 16 ^ N.of_nat k)%N → read_hex 0 (hex_digits k n) = Some n.
Proof.
  revert n. induction k as [|k IH]; intros n Hn; [cbn in Hn |- *; f_equal; lia|].
  cbn [hex_digits]. rewrite read_hex_app IH.
  - cbn [read_hex]. rewrite hex_digit_value; [|by apply N.mod_lt].
    f_equal. pose proof (N.div_mod n 16). lia.
  - apply N.div_lt_upper_bound; [done|]. rewrite Nat2N.inj_succ N.pow_succ_r' in Hn. lia.
Qed.
Lemma hex8_digits n : (n < u32_modulus)%N → hex8 (hex_digits 8 n) n.
Proof. intros Hn. split; [apply hex_digits_length|by apply hex_digits_read]. Qed.

Lemma display_spec e : id_wf e → ∃ s t,
  ecsid_display e = "Generation 0x" +:+ s +:+ ", Index 0x" +:+ t ∧
  hex8 s (id_gen e) ∧ hex8 t (id_idx e).
Proof.
  intros [Hg Hi]. exists (hex_digits 8 (id_gen e)), (hex_digits 8 (id_idx e)).
  split; [|by split; apply hex8_digits].
  rewrite /ecsid_display /gen_display /idx_display /fmt_hex !string_app_assoc.
  by rewrite -!string_app_assoc.
Qed.
Lemma debug_spec e : id_wf e → ∃ s t,
  ecsid_debug e = "EcsId(EcsId generation: 0x" +:+ s +:+ ", EcsId index: 0x" +:+ t +:+ ")" ∧
  hex8 s (id_gen e) ∧ hex8 t (id_idx e).
Proof.
  intros [Hg Hi]. exists (hex_digits 8 (id_gen e)), (hex_digits 8 (id_idx e)).
  split; [|by split; apply hex8_digits].
  rewrite /ecsid_debug /gen_debug /idx_debug /fmt_hex -!string_app_assoc. done.
Qed.
Lemma parts_spec n : (n < u32_modulus)%N → ∃ s, hex8 s n ∧
  gen_debug n = "EcsId generation: 0x" +:+ s ∧ gen_display n = "Generation 0x" +:+ s ∧
  idx_debug n = "EcsId index: 0x" +:+ s ∧ idx_display n = "Index 0x" +:+ s.
Proof. intros Hn. exists (hex_digits 8 n). split; [by apply hex8_digits|done]. Qed.

Lemma string_app_split s s' t t' :
  String.length s = String.length s' → s +:+ t = s' +:+ t' → s = s' ∧ t = t'.
Proof.
  revert s'. induction s as [|c s IH]; intros [|c' s'] Hl H; try done.
  rewrite !string_app_cons in H. cbn in Hl. injection H as -> H. destruct (IH s') as [-> ->]; [lia|done|done].
Qed.
Lemma display_inj a b : id_wf a → id_wf b → ecsid_display a = ecsid_display b → a = b.
Proof.
  intros Ha Hb. destruct (display_spec a Ha) as (s & t & -> & [Hs Rs] & [Ht Rt]).
  destruct (display_spec b Hb) as (s' & t' & -> & [Hs' Rs'] & [Ht' Rt']).
  intros [_ H]%string_app_split; [|done].
  apply string_app_split in H as [-> [_ ->]%string_app_split]; [|done|congruence].
  destruct a, b; cbn in *; congruence.
Qed.
Lemma debug_inj a b : id_wf a → id_wf b → ecsid_debug a = ecsid_debug b → a = b.
Proof.
  intros Ha Hb. destruct (debug_spec a Ha) as (s & t & -> & [Hs Rs] & [Ht Rt]).
  destruct (debug_spec b Hb) as (s' & t' & -> & [Hs' Rs'] & [Ht' Rt']).
  intros [_ H]%string_app_split; [|done].
  apply string_app_split in H as [-> H]; [|congruence].
  apply string_app_split in H as [_ [-> _]%string_app_split]; [|congruence|done].
  destruct a, b; cbn in *; congruence.
Qed.
