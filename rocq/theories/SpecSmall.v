(** * Specification vocabulary for the data-structure level properties.
    Nothing here is used by the model. *)
From Coq Require Export Sorting.Sorted.
From Verif Require Export Entities Bitset ArrayVec UVec.

(** ** Histories of the entity allocator (C01-C03) *)
Inductive eop := ESpawn | EDespawn (e : ecsid).
Definition eop_wf (o : eop) : Prop :=
  match o with ESpawn => True | EDespawn e => id_wf e end.
(** One call: the id handed out, if any, and the next state (also after a caught panic). *)
Definition estep (o : eop) (s : entities) : option ecsid * entities :=
  match o with
  | ESpawn =>
      match ents_spawn s with
      | Done e s' _ => (Some e, s')
      | Panicked _ s' _ => (None, s')
      | _ => (None, s)
      end
  | EDespawn e =>
      match ents_despawn e s with
      | Done _ s' _ => (None, s')
      | Panicked _ s' _ => (None, s')
      | _ => (None, s)
      end
  end.
Fixpoint erun (h : list eop) (s : entities) : list (option ecsid) * entities :=
  match h with
  | [] => ([], s)
  | o :: h' =>
      let '(r, s1) := estep o s in
      let '(rs, s2) := erun h' s1 in (r :: rs, s2)
  end.
(** How often the slot of [e] was handed out. *)
Fixpoint handed_out (e : ecsid) (outs : list (option ecsid)) : N :=
  match outs with
  | [] => 0
  | Some e' :: outs' =>
      ((if bool_decide (id_idx e' = id_idx e) then 1 else 0) + handed_out e outs')%N
  | None :: outs' => handed_out e outs'
  end.
Definition alive (s : entities) (e : ecsid) : Prop := ents_is_alive s e = Some true.
(** [n] rounds of: despawn the current id, spawn the next one. *)
Fixpoint cycle_ops (s : entities) (e : ecsid) (n : nat) : list eop :=
  match n with
  | O => []
  | S n' =>
      match estep ESpawn (estep (EDespawn e) s).2 with
      | (Some e', s') => EDespawn e :: ESpawn :: cycle_ops s' e' n'
      | _ => []
      end
  end.

(** ** Bitset iteration (C15, C16) *)
(** Bit [i] is set in every mapped slice (and inside every slice). *)
Definition common_bit (iters : list (list N * (N → N))) (i : nat) : Prop :=
  ∀ ws f, (ws, f) ∈ iters →
    ∃ w, ws !! (i / usize_bits) = Some w ∧ N.testbit (f w) (N.of_nat (i mod usize_bits)) = true.
(** What Rust's types say about slices of words and [fn(usize) -> usize]. *)
Definition iters_wf (iters : list (list N * (N → N))) : Prop :=
  ∀ ws f, (ws, f) ∈ iters → Forall (λ w, word_wf (f w)) ws.

(** ** Bit vectors (C17): a bit vector as a list of booleans *)
Definition bv_bits (b : bitvec) : list bool :=
  (λ i, match bv_get_bit b i with Some (Some x) => x | _ => false end) <$> seq 0 (bv_len b).
Inductive bvop := BVSet (i : nat) (v : bool) | BVPush (v : bool).
Definition bv_step (o : bvop) (b : bitvec) : option bitvec :=
  match o with BVSet i v => bv_set_bit b i v | BVPush v => bv_push_bit b v end.
Fixpoint bv_run (h : list bvop) (b : bitvec) : option bitvec :=
  match h with
  | [] => Some b
  | o :: h' => match bv_step o b with Some b' => bv_run h' b' | None => None end
  end.
(** The same operations on a plain list of booleans. *)
Definition bools_step (o : bvop) (l : list bool) : list bool :=
  match o with
  | BVSet i v => <[i := v]> (l ++ replicate (S i - length l) false)
  | BVPush v => l ++ [v]
  end.

(** ** The table of bit vectors (C18) *)
(** A write: component id, position, value. *)
Definition bs_write : Type := ecsid * nat * bool.
Fixpoint bs_run (h : list bs_write) (bs : bitsets) : option bitsets :=
  match h with
  | [] => Some bs
  | (c, k, v) :: h' => match bs_set_bit bs c k v with Some bs' => bs_run h' bs' | None => None end
  end.
(** Reading a bit: [get_bitvec(c)], then [get_bit(j)]; absent counts as false. *)
Definition bs_read (bs : bitsets) (c : ecsid) (j : nat) : bool :=
  match bs_get_bitvec bs c with
  | Some b => match bv_get_bit b j with Some (Some x) => x | _ => false end
  | None => false
  end.
(** The value last written at (component index, position); false if none. *)
Definition last_write (h : list bs_write) (i j : nat) : bool :=
  foldl (λ acc '(c, k, v), if decide (uindex c = i ∧ k = j) then v else acc) false h.

(** Histories of [set_bit] and [push_bit] on the table, and the calls that concern one component
    index. *)
Definition bs_step (o : ecsid * bvop) (bs : bitsets) : option bitsets :=
  match o.2 with BVSet k v => bs_set_bit bs o.1 k v | BVPush v => bs_push_bit bs o.1 v end.
Fixpoint bs_steps (h : list (ecsid * bvop)) (bs : bitsets) : option bitsets :=
  match h with
  | [] => Some bs
  | o :: h' => match bs_step o bs with Some bs' => bs_steps h' bs' | None => None end
  end.
Definition ops_at (i : nat) (h : list (ecsid * bvop)) : list bvop :=
  (filter (λ o, uindex o.1 = i) h).*2.

(** ** ArrayVec (C23, C24): a sequence of [push_start] calls; the evicted values and the result *)
Fixpoint av_pushes {T} (xs : list T) (v : array_vec T) : avres (list (option T) * array_vec T) :=
  match xs with
  | [] => AvOk ([], v)
  | x :: xs' =>
      match av_push_start v x with
      | AvOk (d, v1) =>
          match av_pushes xs' v1 with
          | AvOk (ds, v2) => AvOk (d :: ds, v2)
          | AvPanic r => AvPanic r
          | AvUB => AvUB
          end
      | AvPanic r => AvPanic r
      | AvUB => AvUB
      end
  end.
(** A sequence of [push] calls at the back. *)
Definition av_push_all {T} (xs : list T) (v : array_vec T) : array_vec T :=
  foldl (λ v x, (av_push v x).2) v xs.

(** Histories of all the calls that keep a vector usable ([pop] does not, C24).  Each call
    gives the value it drops: the value refused by a full vector, the value pushed out at the
    end, or the value overwritten. *)
Inductive avop (T : Type) := AvoPush (x : T) | AvoPushStart (x : T) | AvoSet (i : nat) (x : T).
Arguments AvoPush {T} _.
Arguments AvoPushStart {T} _.
Arguments AvoSet {T} _ _.
Definition av_step {T} (o : avop T) (v : array_vec T) : avres (option T * array_vec T) :=
  match o with
  | AvoPush x => let '(ok, v') := av_push v x in AvOk (if ok : bool then None else Some x, v')
  | AvoPushStart x => av_push_start v x
  | AvoSet i x => av_get_mut_set v i x
  end.
Fixpoint av_run {T} (h : list (avop T)) (v : array_vec T) : avres (list (option T) * array_vec T) :=
  match h with
  | [] => AvOk ([], v)
  | o :: h' =>
      match av_step o v with
      | AvOk (d, v1) =>
          match av_run h' v1 with
          | AvOk (ds, v2) => AvOk (d :: ds, v2)
          | AvPanic r => AvPanic r
          | AvUB => AvUB
          end
      | AvPanic r => AvPanic r
      | AvUB => AvUB
      end
  end.
(** The same calls on a list of at most [n] values. *)
Definition window_step {T} (n : nat) (o : avop T) (l : list T) : option T * list T :=
  match o with
  | AvoPush x => if decide (length l < n) then (None, l ++ [x]) else (Some x, l)
  | AvoPushStart x => ((x :: l) !! n, take n (x :: l))
  | AvoSet i x => (l !! i, <[i := x]> l)
  end.
Fixpoint window_run {T} (n : nat) (h : list (avop T)) (l : list T) : list (option T) * list T :=
  match h with
  | [] => ([], l)
  | o :: h' => let '(d, l1) := window_step n o l in let '(ds, l2) := window_run n h' l1 in (d :: ds, l2)
  end.

(** ** AddRemoveCache (C22): histories of lookups and insertions, with the lookup results *)
Inductive rcop := RCLookup (c : ecsid) | RCInsert (c : ecsid) (k : nat).
Definition rc_step (o : rcop) : M arcache (option nat) :=
  match o with
  | RCLookup c => rc_lookup_id c
  | RCInsert c k => do* rc_insert_id c k in ret (Some k)
  end.
Fixpoint rc_run (h : list rcop) : M arcache (list (option nat)) :=
  match h with
  | [] => ret []
  | o :: h' => let* r := rc_step o in let* rs := rc_run h' in ret (r :: rs)
  end.
(** The same with a plain finite map. *)
Fixpoint map_run (h : list rcop) (m : gmap ecsid nat) : list (option nat) :=
  match h with
  | [] => []
  | RCLookup c :: h' => m !! c :: map_run h' m
  | RCInsert c k :: h' => Some k :: map_run h' (<[c := k]> m)
  end.
