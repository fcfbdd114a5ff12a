(** * What C53 is stated with: the blocks an allocator has handed out and not taken back, and
    the blocks a world points to. *)
From Verif Require Export MemLog.

Global Instance layout_wf_dec l : Decision (layout_wf l).
Proof. unfold layout_wf. apply _. Defined.
Fixpoint take_block (l : layout) (L : list layout) : option (list layout) :=
  match L with
  | [] => None
  | x :: L' => if decide (x = l) then Some L' else (x ::.) <$> take_block l L'
  end.
(** The live blocks after the calls [ops], starting from the live blocks [L]; [None] if a call
    releases or resizes a block with a layout no live block has, or asks for a block of no
    bytes or of more than isize::MAX bytes once rounded up to the alignment. *)
Fixpoint live (L : list layout) (ops : mlog) : option (list layout) :=
  match ops with
  | [] => Some L
  | MAlloc l :: ops' => if decide (l_size l ≠ 0 ∧ layout_wf l) then live (l :: L) ops' else None
  | MRealloc l n :: ops' =>
      if decide (n ≠ 0 ∧ layout_wf (Layout n (l_align l))) then
        match take_block l L with
        | Some L' => live (Layout n (l_align l) :: L') ops'
        | None => None
        end
      else None
  | MFree l :: ops' =>
      match take_block l L with Some L' => live L' ops' | None => None end
  end.

(** The block behind a pointer; the blocks behind the pointers of a world: its columns and the
    recycled buffer of the builders. *)
Definition block (p : ptr) : list layout :=
  match p with Dangling => [] | Heap a m => [Layout (length m) a] end.
Definition owned (w : world) : list layout :=
  (a ← w_archs w; s ← a_storages a; block (uv_data s.2)) ++
  match w_reuse w with Some (_, p, _) => block p | None => [] end.

(** Does this call leak a builder with [mem::forget]? *)
Definition leaks (o : sop) : nat :=
  match o with SWorld (OSpawn _ _ _ BForget) => 1 | _ => 0 end.
Fixpoint leaked (l : list (sop * res * list event)) : nat :=
  match l with [] => 0 | (o, _, _) :: l' => leaks o + leaked l' end.
