(** * Property theorems C59, C60: hashing and printing of ids. *)
From Verif Require Import SpecIdText ProofIdText.

(** C59: whatever was hashed before, an id hashes to generation times 2^32 plus index;
    hashing never panics. *)
Theorem C59_value : ∀ le h e, id_wf e →
  ecsid_hash le e h = Done tt (id_gen e * 2 ^ 32 + id_idx e)%N [].
Proof. exact hash_value. Qed.
Print Assumptions C59_value.

(** C59: two ids have the same hash exactly if they are equal, whichever hashers are used. *)
Theorem C59_agrees : ∀ le h1 h2 a b, id_wf a → id_wf b →
  ∃ x y, hash_of h1 (ecsid_hash le a) = Some x ∧ hash_of h2 (ecsid_hash le b) = Some y ∧
    (x = y ↔ ecsid_eqb a b = true) ∧ (x < 2 ^ 64)%N.
Proof. exact hash_agrees. Qed.
Print Assumptions C59_agrees.

(** C59: any u64 key (a [TypeId]) is its own hash. *)
Theorem C59_key : ∀ le h n, (n < 2 ^ 64)%N → hash_of h (u64_hash le n) = Some n.
Proof. exact hash_key. Qed.
Print Assumptions C59_key.

(** C59: a write of bytes panics exactly if there are not eight of them; otherwise the hash
    has these bytes, in the order of the target. *)
Theorem C59_bytes : ∀ le h bs, Forall (λ b, b < 256)%N bs →
  match hasher_write le bs h with
  | Done _ h' ev => ev = [] ∧ length bs = 8 ∧
      ∀ i b, bs !! i = Some b →
        ((hasher_finish h' / 256 ^ N.of_nat (if le then i else 7 - i)%nat) mod 256 = b)%N
  | Panicked r h' ev => length bs ≠ 8 ∧ r = RUnwrap ∧ h' = h ∧ ev = []
  | _ => False
  end.
Proof. exact hash_bytes. Qed.
Print Assumptions C59_bytes.

(** C59: of a key made of several ids only the last one counts. *)
Theorem C59_last_only : ∀ le h es e, Forall id_wf es → id_wf e →
  hash_of h (ecsids_hash le (es ++ [e])) = hash_of hasher_default (ecsid_hash le e).
Proof. exact hash_last. Qed.
Print Assumptions C59_last_only.

(** C59: so that different keys of several ids hash differently is false. *)
Theorem C59_combined_refuted : ∃ es es' le h, Forall id_wf es ∧ Forall id_wf es' ∧
  length es = length es' ∧ es ≠ es' ∧ is_Some (hash_of h (ecsids_hash le es)) ∧
  hash_of h (ecsids_hash le es) = hash_of h (ecsids_hash le es').
Proof. exact hash_combining_refuted. Qed.
Print Assumptions C59_combined_refuted.

(** C60: what [{}] prints of an id: its generation, then its index, each in exactly eight
    upper case hexadecimal digits. *)
Theorem C60_display : ∀ e, id_wf e → ∃ s t,
  ecsid_display e = "Generation 0x" +:+ s +:+ ", Index 0x" +:+ t ∧
  hex8 s (id_gen e) ∧ hex8 t (id_idx e).
Proof. exact display_spec. Qed.
Print Assumptions C60_display.

(** C60: what [{:?}] prints of an id. *)
Theorem C60_debug : ∀ e, id_wf e → ∃ s t,
  ecsid_debug e = "EcsId(EcsId generation: 0x" +:+ s +:+ ", EcsId index: 0x" +:+ t +:+ ")" ∧
  hex8 s (id_gen e) ∧ hex8 t (id_idx e).
Proof. exact debug_spec. Qed.
Print Assumptions C60_debug.

(** C60: what is printed of a generation and of an index alone. *)
Theorem C60_parts : ∀ n, (n < u32_modulus)%N → ∃ s, hex8 s n ∧
  gen_debug n = "EcsId generation: 0x" +:+ s ∧ gen_display n = "Generation 0x" +:+ s ∧
  idx_debug n = "EcsId index: 0x" +:+ s ∧ idx_display n = "Index 0x" +:+ s.
Proof. exact parts_spec. Qed.
Print Assumptions C60_parts.

(** C60: different ids are printed differently. *)
Theorem C60_display_distinct : ∀ a b, id_wf a → id_wf b →
  ecsid_display a = ecsid_display b → a = b.
Proof. exact display_inj. Qed.
Print Assumptions C60_display_distinct.
Theorem C60_debug_distinct : ∀ a b, id_wf a → id_wf b →
  ecsid_debug a = ecsid_debug b → a = b.
Proof. exact debug_inj. Qed.
Print Assumptions C60_debug_distinct.
