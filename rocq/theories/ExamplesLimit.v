(** * Concrete cases meeting the hypotheses of the theorems in PropsLimit.
    These are tests and witnesses, not proofs of the properties. *)
From Verif Require Import ProofBase SpecUVec SpecLimit SpecQuery ExamplesBase ProofRefutedQuery ExamplesWorld ExamplesQuery ExamplesReuse ExamplesUVec.

(** Two entities with 4 + 2 and 2 bytes; the call brings six more and asks for fifty. *)
Definition lop : sop := SWorld (OSpawn (Some 50) cm_unit [BWith xA (x4 1); BWith xB (x2 10); BBuild] BDrop).
Definition ls : sess := rs None None.
Definition ltrace : list (sop * res * list event) := splay_trace (rops None None).
Example C52_case : reachable ls ∧ steps sess_new ltrace ls ∧ length ltrace = 2 ∧ sop_legal lop ls ∧ sop_tame lop ls ∧
  bytes_held (ss_world ls) = 8 ∧ sum_list_with passed_bytes (calls_of ltrace) = 8 ∧ call_bytes lop = 56 ∧
  (N.of_nat (bytes_held (ss_world ls) + call_bytes lop) <= byte_limit)%N.
Proof. split_and!; try ydone. Qed.
(** A new world keeps no buffer, and there are numbers beyond the address space. *)
Example C52_refused_case : reachable sess_new ∧ w_reuse (ss_world sess_new) = None ∧
  ∃ cap, (isize_max < N.of_nat cap)%N.
Proof. split_and!; [exists []; constructor|done|]. exists (N.to_nat (2 ^ 63)). by rewrite N2Nat.id. Qed.
(** A history of eleven calls on two vectors of two-byte elements. *)
Example C52_vec_case : ti_layout ex_ti1 = ti_layout ex_ti2 ∧ layout_wf (ti_layout ex_ti1) ∧ length ex_uhist = 11 ∧
  is_Some (lv_run (ti_size ex_ti1) (λ b, ti_drop (if b then ex_ti1 else ex_ti2)) ex_uhist ([], [])) ∧
  (N.of_nat (length ex_uhist * ti_size ex_ti1) <= byte_limit)%N.
Proof. split_and!; [done|done|done|vm_compute; eauto|done]. Qed.
