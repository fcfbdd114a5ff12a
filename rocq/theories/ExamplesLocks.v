(** * Concrete cases meeting the hypotheses of the theorems in PropsLocks.
    These are tests and witnesses, not proofs of the properties. *)
From Verif Require Import ProofBase SpecLocks ExamplesBase ExamplesWorld ProofRefutedQuery ExamplesQuery.

(** The session of ExamplesQuery.v: query 0 has A locked for writing, query 2 has B for reading. *)
Example C41_locks_case : reachable ys ∧ in_use (ss_world ys) xcA ∧ known (ss_world ys) xcA ∧ ¬ in_use (ss_world ys) (xid 6).
Proof. split_and!; ydone. Qed.
(** Query 0 is forgotten: queries for A block for ever; queries for B are fine. *)
Example C42_leaked_case : let s2 := splay (yops ++ [SForget 0; SDrop 1 false; SDrop 2 false; SOpenDyn [FMut (xid 6)]]) in
  reachable ys ∧ ss_open ys !! 0 = Some (Some (QDyn (yd 0))) ∧ oq_fetches yw (QDyn (yd 0)) = Some [FEcsId; FMut xcA] ∧
  reachable s2 ∧ requests (ss_world s2) (SOpenDyn [FImmut xcA]) (FImmut xcA) ∧
  sstep (SOpenDyn [FImmut xcA]) s2 = Deadlock ∧ sstep (SOpenStat [PRef xA]) s2 = Deadlock ∧
  opened (sstep (SOpenDyn [FImmut xcB]) s2) = Some 8.
Proof. split_and!; [ydone..| |ydone|ydone|ydone]. by left. Qed.
(** Query 0 is dropped while unwinding: queries for A panic, whatever else is dropped. *)
Example C42_poisoned_case : let s2 := splay (yops ++ [SDrop 0 true; SDrop 1 false; SDrop 2 false; SDrop 3 true]) in
  oq_fetches yw (QDyn (yd 0)) = Some [FEcsId; FMut xcA] ∧ reachable s2 ∧
  requests (ss_world s2) (SOpenDyn [FImmut xcA]) (FImmut xcA) ∧
  sstep (SOpenDyn [FImmut xcA]) s2 = Panicked RPoisoned s2 [] ∧ opened (sstep (SOpenDyn [FMut xcZ]) s2) = Some 7.
Proof. split_and!; [ydone|ydone| |ydone|ydone]. by left. Qed.
Example C42_readers_case : oq_fetches yw (QStat (yq 2)) = Some [FEcsId; FImmut xcB] ∧ sstep (SDrop 2 true) ys = sstep (SDrop 2 false) ys ∧
  sstep (SDrop 0 true) ys ≠ sstep (SDrop 0 false) ys.
Proof. split_and!; [ydone|ydone|]. vm_compute. discriminate. Qed.
