(** * Concrete cases meeting the hypotheses of the theorems in PropsReuse.
    These are tests and witnesses, not proofs of the properties. *)
From Verif Require Import ProofBase SpecReuse SpecQuery ExamplesBase ProofRefutedQuery ExamplesWorld ExamplesQuery.

(** Two builders; the second gets the buffer of the first (four of its bytes are still in it at the end). *)
Definition rops (c1 c2 : option nat) : list sop := SWorld <$>
  [OSpawn c1 cm_unit [BWith xA (x4 1); BWith xB (x2 10); BBuild] BDrop;
   OSpawn c2 cm_unit [BWith xB (x2 20); BWith xZ []; BBuild] BDrop].
Definition rs (c1 c2 : option nat) : sess := splay (rops c1 c2).
Example C47_case : reachable (rs None None) ∧ reachable (rs (Some 3) (Some 50)) ∧
  steps sess_new (splay_trace (rops None None)) (rs None None) ∧
  w_reuse (ss_world (rs None None)) = Some ([], Heap 1 (x2 20 ++ drop 2 (x4 1) ++ x2 10 ++ [None; None]), 8) ∧
  (∃ m, w_reuse (ss_world (rs (Some 3) (Some 50))) = Some ([], Heap 1 m, 6)) ∧
  splay_trace (rops None None) ≠ [] ∧
  (splay_trace (rops (Some 3) (Some 50))).*1.*2 = (splay_trace (rops None None)).*1.*2.
Proof. split_and!; try ydone. eexists; vm_compute; reflexivity. Qed.
