(** * Concrete cases meeting the hypotheses of the theorems in PropsIdText.
    These are tests and witnesses, not proofs of the properties. *)
From Verif Require Import SpecIdText.

(** C59: the largest id, hashed by a hasher that was used before, on both kinds of target. *)
Example C59_case :
  id_wf (EcsId u32_max 7) ∧
  hash_of 12345 (ecsid_hash true (EcsId u32_max 7)) = Some (18446744069414584320 + 7)%N ∧
  hash_of 0 (ecsid_hash false (EcsId u32_max 7)) = Some (18446744069414584320 + 7)%N ∧
  ecsid_eqb (EcsId 1 7) (EcsId 7 1) = false.
Proof. repeat split; by vm_compute. Qed.
Example C59_case_bytes :
  Forall (λ b, b < 256)%N [1; 2; 3; 4; 5; 6; 7; 255]%N ∧
  hash_of 0 (hasher_write true [1; 2; 3; 4; 5; 6; 7; 255]%N) = Some (0xff07060504030201)%N ∧
  hash_of 0 (hasher_write false [1; 2; 3; 4; 5; 6; 7; 255]%N) = Some (0x01020304050607ff)%N ∧
  hasher_write true [1; 2; 3; 4]%N 9%N = Panicked RUnwrap 9%N [].
Proof. split; [by repeat constructor|]. split; [by vm_compute|]. split; by vm_compute. Qed.
Example C59_case_last :
  Forall id_wf [EcsId 0 1; EcsId 0 2] ∧
  hash_of 5 (ecsids_hash true [EcsId 0 1; EcsId 0 2; EcsId 3 4]) = Some (3 * 4294967296 + 4)%N.
Proof. split; [by repeat constructor|by vm_compute]. Qed.

(** C60 *)
Example C60_case :
  id_wf (EcsId 0xC0FFEE 0xFFFFFFFF) ∧
  ecsid_display (EcsId 0xC0FFEE 0xFFFFFFFF) = "Generation 0x00C0FFEE, Index 0xFFFFFFFF" ∧
  ecsid_debug (EcsId 1 0xAB09) =
    "EcsId(EcsId generation: 0x00000001, EcsId index: 0x0000AB09)".
Proof. repeat split; by vm_compute. Qed.
