(** * Model of the hashing and the printing of ids: [TypeIdHasher] (arche_tape/src/lib.rs:55-77)
    and the [Hash], [Debug] and [Display] impls of arche_tape/src/entities.rs. *)
From Coq Require Export Ascii.
From stdpp Require Export strings list.
From Verif Require Export Entities.

(** ** Hashing *)
(** [u64::to_ne_bytes], [u64::from_ne_bytes] (std): the byte order is that of the target;
    [le] says that it is little-endian. *)
Fixpoint to_le_bytes (k : nat) (n : N) : list N :=
  match k with
  | O => []
  | S k' => (n mod 256)%N :: to_le_bytes k' (n / 256)%N
  end.
Fixpoint from_le_bytes (bs : list N) : N :=
  match bs with
  | [] => 0
  | b :: bs' => b + 256 * from_le_bytes bs'
  end%N.
Definition to_ne_bytes (le : bool) (n : N) : list N :=
  if le then to_le_bytes 8 n else reverse (to_le_bytes 8 n).
Definition from_ne_bytes (le : bool) (bs : list N) : N :=
  from_le_bytes (if le then bs else reverse bs).

(** [TypeIdHasher::default] (lib.rs:55-56), which is what [TypeIdHasherBuilder::build_hasher]
    (lib.rs:70-77) returns. *)
Definition hasher_default : N := 0.
(** [Hasher::write for TypeIdHasher] (lib.rs:59-61): [try_into().unwrap()] panics unless there
    are exactly eight bytes; what was hashed before is overwritten. *)
Definition hasher_write (le : bool) (bs : list N) : M N unit := λ h,
  if decide (length bs = 8) then Done tt (from_ne_bytes le bs) [] else Panicked RUnwrap h [].
(** [Hasher::finish] (lib.rs:62-64) *)
Definition hasher_finish (h : N) : N := h.
(** [u64::hash] (std): [write_u64], whose default writes the native bytes.  The derived
    [Hash for TypeId] of the toolchain of the repo hashes its one u64 field the same way. *)
Definition u64_hash (le : bool) (n : N) : M N unit := hasher_write le (to_ne_bytes le n).
(** [Hash for EcsId] (entities.rs:46-50) *)
Definition ecsid_hash (le : bool) (e : ecsid) : M N unit := u64_hash le (as_u64 e).
(** A key made of several ids, hashed as [Hash for \[T\]] does after its length prefix and
    [Hash for (T, ..)] does: one after the other (std). *)
Fixpoint ecsids_hash (le : bool) (es : list ecsid) : M N unit :=
  match es with
  | [] => ret tt
  | e :: es' => do* ecsid_hash le e in ecsids_hash le es'
  end.

(** ** Printing *)
(** One digit of [{:X}] (std). *)
Definition hex_digit (n : N) : ascii :=
  ascii_of_N (if (n <? 10)%N then 48 + n else 55 + n)%N.
Fixpoint hex_digits (k : nat) (n : N) : string :=
  match k with
  | O => ""
  | S k' => hex_digits k' (n / 16)%N +:+ String (hex_digit (n mod 16)%N) ""
  end.
(** [{:#010X}] of a u32 (std): "0x", then upper case digits, zeros in front up to ten
    characters in all; a u32 has at most eight digits. *)
Definition fmt_hex (n : N) : string := "0x" +:+ hex_digits 8 n.

(** [Debug for EcsIdGen] (entities.rs:6-10), [Display for EcsIdGen] (12-16) *)
Definition gen_debug (g : N) : string := "EcsId generation: " +:+ fmt_hex g.
Definition gen_display (g : N) : string := "Generation " +:+ fmt_hex g.
(** [Debug for EcsIdIndex] (entities.rs:18-22), [Display for EcsIdIndex] (24-28) *)
Definition idx_debug (i : N) : string := "EcsId index: " +:+ fmt_hex i.
Definition idx_display (i : N) : string := "Index " +:+ fmt_hex i.
(** derived [Debug for EcsId] (entities.rs:30-31), as [{:?}] prints a tuple struct *)
Definition ecsid_debug (e : ecsid) : string :=
  "EcsId(" +:+ gen_debug (id_gen e) +:+ ", " +:+ idx_debug (id_idx e) +:+ ")".
(** [Display for EcsId] (entities.rs:33-37) *)
Definition ecsid_display (e : ecsid) : string :=
  gen_display (id_gen e) +:+ ", " +:+ idx_display (id_idx e).
