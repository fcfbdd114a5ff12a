(** * Concrete cases meeting the hypotheses of the theorems in PropsEntities, PropsBitset.
    These are tests and witnesses, not proofs of the properties. *)
From Verif Require Import SpecSmall.

Definition ex_hist : list eop :=
  [ESpawn; ESpawn; EDespawn (EcsId 0 0); ESpawn; EDespawn (EcsId 0 1); ESpawn; ESpawn].
Example ex_hist_wf : Forall eop_wf ex_hist.
Proof. repeat constructor. Qed.
(** C01: the ids handed out by the history, and one more spawn. *)
Example C01_case :
  (erun ex_hist entities_new).1 =
    [Some (EcsId 0 0); Some (EcsId 0 1); None; Some (EcsId 1 0); None; Some (EcsId 1 1); Some (EcsId 0 2)] ∧
  ∃ s, ents_spawn (erun ex_hist entities_new).2 = Done (EcsId 0 3) s [].
Proof. split; [by vm_compute|]. eexists. by vm_compute. Qed.
(** C02: id (0,0) is despawned, its slot is handed out once more, it stays dead. *)
Example C02_case :
  ∃ s2, ents_despawn (EcsId 0 0) (erun [ESpawn; ESpawn] entities_new).2 = Done true s2 [] ∧
  handed_out (EcsId 0 0) (erun [ESpawn; ESpawn] s2).1 = 1%N ∧
  ents_is_alive (erun [ESpawn; ESpawn] s2).2 (EcsId 0 0) = Some false ∧
  ents_is_alive (erun [ESpawn; ESpawn] s2).2 (EcsId 1 0) = Some true.
Proof. eexists. split; by vm_compute. Qed.
(** C03: the hypotheses hold for id (1,0) of the history. *)
Example C03_case : alive (erun ex_hist entities_new).2 (EcsId 1 0) ∧ id_wf (EcsId 1 0).
Proof. split; by vm_compute. Qed.
Example C19_case :
  id_wf (EcsId 7 9) ∧ as_u64 (EcsId 7 9) = (7 * 4294967296 + 9)%N ∧
  ecsid_leb (EcsId 6 100) (EcsId 7 9) = true.
Proof. split_and!; by vm_compute. Qed.

(** C15/C16: two slices of different length, one negated, cut by the bit length. *)
Definition ex_iters : list (list N * (N → N)) :=
  [([41; 5; 7]%N, λ x, x); ([8; 1]%N, word_not)].
Example C16_case :
  iters_wf ex_iters ∧ ex_iters ≠ [] ∧
  fst <$> bi_run 6 (bi_new ex_iters 67) = Some [Some 0; Some 5; Some 66; None; None; None].
Proof.
  split_and!; [|done|by vm_compute].
  intros ws f [[= -> ->]|[[= -> ->]|[]%elem_of_nil]%elem_of_cons]%elem_of_cons; by repeat constructor.
Qed.
Example C17_case :
  let h := [BVPush true; BVSet 70 true; BVSet 0 false; BVPush false] in
  (λ b, (bv_len b, bv_get_bit b 70, bv_get_bit b 5, bv_get_bit b 72)) <$> bv_run h bv_new =
  Some (72, Some (Some true), Some (Some false), Some None).
Proof. by vm_compute. Qed.
(** Sets and pushes for two component indices; index 0 has an empty vector, index 4 none. *)
Example C18_table_case :
  let h := [(EcsId 0 3, BVSet 1 true); (EcsId 5 1, BVPush true); (EcsId 0 3, BVPush true); (EcsId 2 3, BVSet 0 false)] in
  (λ bs, ((λ c, (λ b, (λ j, bv_get_bit b j) <$> [0; 1; 2; 3]) <$> bs_get_bitvec bs (EcsId 0 c)) <$> [0; 1; 3; 4]%N)) <$> bs_steps h [] =
    Some [Some [Some None; Some None; Some None; Some None]; Some [Some (Some true); Some None; Some None; Some None];
          Some [Some (Some false); Some (Some true); Some (Some true); Some None]; None] ∧
  ops_at 3 h = [BVSet 1 true; BVPush true; BVSet 0 false].
Proof. by vm_compute. Qed.
Example C18_case :
  let h := [(EcsId 0 3, 1, true); (EcsId 0 1, 1, true); (EcsId 0 3, 1, false); (EcsId 2 3, 66, true)] in
  (λ bs, (bs_read bs (EcsId 0 3) 1, bs_read bs (EcsId 0 1) 1, bs_read bs (EcsId 0 3) 66)) <$> bs_run h [] =
  Some (false, true, true).
Proof. by vm_compute. Qed.
