(** * Concrete cases meeting the hypotheses of the theorems in PropsArrayVec, PropsUVec.
    These are tests and witnesses, not proofs of the properties. *)
From Verif Require Import SpecSmall SpecUVec World.

Example C23_case :
  match av_pushes [1; 2; 3; 4; 5; 6]%N (av_new 4) with
  | AvOk (ds, v) => ds = [None; None; None; None; Some 1; Some 2]%N ∧ av_as_slice v = AvOk [6; 5; 4; 3]%N
  | _ => False
  end.
Proof. by vm_compute. Qed.
(** A refused push, a value pushed out at the end, an overwritten value, a write out of range. *)
Example C23_history_case : 0 < 2 ∧
  window_run 2 [AvoPush 1; AvoPushStart 2; AvoPush 3; AvoPushStart 4; AvoSet 1 5; AvoSet 2 6]%N [] =
    ([None; None; Some 3; Some 1; Some 2; None], [4; 5])%N.
Proof. split; [lia|by vm_compute]. Qed.
Example C24_case : [1; 2]%N ≠ [] ∧ length [1; 2]%N ≤ 4 ∧
  av_pop (av_push_all [1; 2]%N (av_new 4)) = AvUB ∧ av_pop (av_push_all [1; 2]%N (av_new 2)) = AvPanic RIndex.
Proof. split_and!; [done|simpl; lia|by vm_compute..]. Qed.
(** C22: the window overflows, an old entry is found through the map and comes back. *)
Example C22_cache_case :
  let c (n : nat) := EcsId 0 (N.of_nat n) in
  map_run [RCInsert (c 1) 1; RCInsert (c 2) 2; RCInsert (c 3) 3; RCInsert (c 4) 4; RCInsert (c 5) 5;
           RCLookup (c 1); RCInsert (c 1) 9; RCLookup (c 1); RCLookup (c 7)] ∅ =
  [Some 1; Some 2; Some 3; Some 4; Some 5; Some 1; Some 9; Some 9; None].
Proof. by vm_compute. Qed.
Example C50_case : index_twice 2 0 [5; 6; 7]%N = Some (7, 5)%N ∧ index_twice 1 1 [5; 6]%N = None ∧
  index_twice 0 2 [5; 6]%N = None.
Proof. by vm_compute. Qed.

(** Two-byte elements; the first vector has a destructor. *)
Definition ex_ti1 := TypeInfo (Layout 2 2) (Some (DropFn 1)).
Definition ex_ti2 := TypeInfo (Layout 2 2) None.
Definition ex_b (n : N) : value := [Some n; Some (n + 100)%N].
Definition ex_uhist : list uvop :=
  [UPop true; UPush true (ex_b 1) [None]; UPush true (ex_b 2) []; UPush true (ex_b 3) [];
   UPush true (ex_b 4) []; UPush true (ex_b 5) []; UPush false (ex_b 6) [];
   USwapRemove true 1; UMove true 0; UPop true; UMove false 1].
(** C25, C27-C29: hypotheses and both sides. *)
Example C25_case :
  lv_run 2 (λ b, ti_drop (if b then ex_ti1 else ex_ti2)) ex_uhist ([], []) =
    Some ([false; true; true; true; true; true; true; true; true; true; true],
          ([ex_b 4; ex_b 5; ex_b 1], [ex_b 6]),
          [EvDrop (DropFn 1) (ex_b 2); EvDrop (DropFn 1) (ex_b 3)]) ∧
  match uv_run ex_uhist (uv_new ex_ti1, uv_new ex_ti2) with
  | Done _ s ev => ev = [EvDrop (DropFn 1) (ex_b 2); EvDrop (DropFn 1) (ex_b 3)] ∧
      uv_elems_len s.1 = Done 3 s.1 [] ∧
      uv_as_slice (Ty 1 2 2) s.1 = Done [ex_b 4; ex_b 5; ex_b 1] s.1 [] ∧
      uv_drop s.1 = Done () (uv_set_len 0 s.1)
        [EvDrop (DropFn 1) (ex_b 1); EvDrop (DropFn 1) (ex_b 5); EvDrop (DropFn 1) (ex_b 4)]
  | _ => False
  end.
Proof. by vm_compute. Qed.
(** C25 for zero-sized elements. *)
Example C25_zst_case :
  lv_run 0 (λ _, Some (DropFn 1)) [UPush true [] []; UPush true [] [Some 1%N]; UMove true 1; UPop true] ([], []) =
  Some ([true; true; true; true], ([], [[]]), [EvDrop (DropFn 1) []]).
Proof. by vm_compute. Qed.
(** C26: wrong indices, panics caught, popping empty vectors of zero-sized elements. *)
Example C26_case :
  Forall (push_sized 2) ([USwapRemove true 7; UMove false 0] ++ ex_uhist ++ [UMove true 9; USwapRemove false 3]) ∧
  is_Some (uv_catch_run ([USwapRemove true 7; UMove false 0] ++ ex_uhist ++ [UMove true 9; USwapRemove false 3])
             (uv_new ex_ti1, uv_new ex_ti2)).
Proof. split; [by repeat constructor|]. vm_compute. eauto. Qed.
Example C27_case :
  lv_run 2 (λ b, ti_drop (if b then ex_ti1 else ex_ti2)) [UPush true (ex_b 1) []; UMove true 0] ([], []) =
  Some ([true; true], ([], [ex_b 1]), []).
Proof. by vm_compute. Qed.
(** C28: a history that feeds the first vector, and one that does not. *)
Example C28_case : Exists feeds ex_uhist ∧ ¬ Exists feeds [UPush false (ex_b 6) []] ∧
  lv_run 2 (λ b, ti_drop (if b then ex_ti1 else ex_ti2)) [UPush false (ex_b 6) []] ([], []) = Some ([true], ([], [ex_b 6]), []).
Proof.
  split; [|split]; [|rewrite Exists_cons, Exists_nil; simpl; naive_solver|by vm_compute]. unfold ex_uhist. apply Exists_cons_tl, Exists_cons_hd. done.
Qed.
(** C25, C28: same size, other alignment. *)
Example C25_other_case :
  let v := UVec (TypeInfo (Layout 4 4) None) (Heap 4 (Some <$> [1;2;3;4]%N)) 4 4 in
  ti_layout (uv_ti v) ≠ ti_layout (uv_ti (uv_new (TypeInfo (Layout 4 2) None))) ∧
  ti_layout (uv_ti v) ≠ Layout (ty_size (Ty 1 4 2)) (ty_align (Ty 1 4 2)) ∧ uv_as_slice (Ty 1 4 4) v = Done [Some <$> [1;2;3;4]%N] v [].
Proof. by vm_compute. Qed.
