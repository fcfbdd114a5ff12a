(** * Model of arche_tape/src/bitset_iterator.rs *)
From Verif Require Export Base Entities.

(** A [usize] word is an [N] below [2^64]. *)
Definition word_modulus : N := 2 ^ 64.
Definition word_wf (w : N) : Prop := (w < word_modulus)%N.

(** [usize::trailing_zeros] *)
Fixpoint pos_ctz (p : positive) : nat :=
  match p with xO q => S (pos_ctz q) | _ => 0 end.
Definition trailing_zeros (w : N) : nat :=
  match w with N0 => usize_bits | Npos p => pos_ctz p end.

(** [!x] on usize *)
Definition word_not (w : N) : N := N.lxor w (word_modulus - 1).

(** ** struct BitsetIterator (bitset_iterator.rs:6-18).  A slice iterator is the list of the
    words it has not produced yet. *)
Record biter := BIter {
  bi_iters : list (list N * (N → N));
  bi_length : N;             (* u32 *)
  bi_index : nat;
  bi_remaining : nat;
  bi_bits : N
}.

(** [BitsetIterator::new] (bitset_iterator.rs:24-35) *)
Definition bi_new (iters : list (list N * (N → N))) (bit_length : N) : biter :=
  BIter iters bit_length 0 0 0.

(** Lines 51-53: the remaining iterators are advanced one by one and their mapped words
    ANDed; the first exhausted one makes [next] return None, the earlier ones having been
    advanced already.  Returns the advanced iterators and the word, if any. *)
Fixpoint bi_and_rest (iters : list (list N * (N → N))) (acc : N)
    : list (list N * (N → N)) * option N :=
  match iters with
  | [] => ([], Some acc)
  | (ws, f) :: rest =>
      match ws with
      | [] => ((ws, f) :: rest, None)
      | w :: ws' =>
          let r := bi_and_rest rest (N.land acc (f w)) in ((ws', f) :: r.1, r.2)
      end
  end.

(** Lines 46-56: fetch the next combined word. *)
Definition bi_fetch (iters : list (list N * (N → N)))
    : list (list N * (N → N)) * option N :=
  match iters with
  | [] => ([], None)
  | (ws, f) :: rest =>
      match ws with
      | [] => (iters, None)
      | w :: ws' => let r := bi_and_rest rest (f w) in ((ws', f) :: r.1, r.2)
      end
  end.

(** Line 79: [self.iters.borrow_mut()[0].0 = [].iter()]. *)
Definition bi_clear_first (iters : list (list N * (N → N))) : list (list N * (N → N)) :=
  match iters with [] => [] | (_, f) :: rest => ([], f) :: rest end.

(** [BitsetIterator::next] (bitset_iterator.rs:43-85).  The loop carries fuel; [None] means
    out of fuel (ProofBitset.bi_next_total: never happens with [bi_fuel]). *)
Fixpoint bi_next_fuel (fuel : nat) (it : biter) : option (option nat * biter) :=
  match fuel with
  | O => None
  | S fuel' =>
      (* lines 59-83, once bits are available *)
      let scan (it : biter) : option (option nat * biter) :=
        let zeros := trailing_zeros (bi_bits it) in
        if decide (zeros = usize_bits) then
          bi_next_fuel fuel'
            (BIter (bi_iters it) (bi_length it) (bi_index it + bi_remaining it) 0 (bi_bits it))
        else
          let remaining := bi_remaining it - (zeros + 1) in
          let bits := N.shiftr (N.shiftr (bi_bits it) 1) (N.of_nat zeros) in
          let index := bi_index it + (zeros + 1) in
          if (bi_length it <? N.of_nat index)%N then
            Some (None, BIter (bi_clear_first (bi_iters it)) (bi_length it) index remaining 0)
          else
            Some (Some (index - 1), BIter (bi_iters it) (bi_length it) index remaining bits) in
      if decide (bi_remaining it = 0) then
        match bi_fetch (bi_iters it) with
        | (iters, None) =>
            Some (None, BIter iters (bi_length it) (bi_index it) 0 (bi_bits it))
        | (iters, Some w) =>
            scan (BIter iters (bi_length it) (bi_index it) usize_bits w)
        end
      else scan it
  end.

Definition bi_fuel (it : biter) : nat :=
  2 + match bi_iters it with [] => 0 | (ws, _) :: _ => length ws end.

Definition bi_next (it : biter) : option (option nat * biter) := bi_next_fuel (bi_fuel it) it.

(** The results of the first [n] calls of [next]. *)
Fixpoint bi_run (n : nat) (it : biter) : option (list (option nat) * biter) :=
  match n with
  | O => Some ([], it)
  | S n' =>
      match bi_next it with
      | None => None
      | Some (r, it') =>
          match bi_run n' it' with
          | None => None
          | Some (rs, it'') => Some (r :: rs, it'')
          end
      end
  end.

(** ** struct Bitvec (bitset_iterator.rs:89-93 of the outer module: file lines 89-93) *)
Record bitvec := Bitvec { bv_data : list N; bv_len : nat }.

(** [Bitvec::new], [Bitvec::with_capacity] (bitset_iterator.rs:96-108) *)
Definition bv_new : bitvec := Bitvec [] 0.

(** [Bitvec::get_bit] (bitset_iterator.rs:111-120).  Outer [None]: index panic. *)
Definition bv_get_bit (b : bitvec) (index : nat) : option (option bool) :=
  if decide (bv_len b ≤ index) then Some None
  else
    match bv_data b !! (index / usize_bits) with
    | None => None
    | Some w =>
        Some (Some (N.land (N.shiftr w (N.of_nat (index mod usize_bits))) 1 =? 1)%N)
    end.

Definition b2n (b : bool) : N := if b then 1%N else 0%N.

(** [Bitvec::set_bit] (bitset_iterator.rs:122-138).  [None]: index panic. *)
Definition bv_set_bit (b : bitvec) (index : nat) (v : bool) : option bitvec :=
  let data_idx := index / usize_bits in
  let bit_idx := index mod usize_bits in
  let b1 :=
    if decide (bv_len b ≤ index) then
      Bitvec (if decide (length (bv_data b) < data_idx + 1)
              then bv_data b ++ replicate (data_idx + 1 - length (bv_data b)) 0%N
              else bv_data b)
             (index + 1)
    else b in
  match bv_data b1 !! data_idx with
  | None => None
  | Some bits =>
      let mask := N.shiftl 1 (N.of_nat bit_idx) in
      let bits1 := N.land bits (word_not mask) in
      let bits2 := N.lor bits1 (N.shiftl (b2n v) (N.of_nat bit_idx)) in
      Some (Bitvec (<[data_idx := bits2]> (bv_data b1)) (bv_len b1))
  end.

(** [Bitvec::push_bit] (bitset_iterator.rs:140-142) *)
Definition bv_push_bit (b : bitvec) (v : bool) : option bitvec :=
  bv_set_bit b (bv_len b) v.

(** ** struct Bitsetsss (bitset_iterator.rs:145-147): a Vec<Bitvec> indexed by the index part
    of the component id. *)
Notation bitsets := (list bitvec).

(** [Bitsetsss::insert_bitvec] (bitset_iterator.rs:164-172); [None] is the panic. *)
Definition bs_insert_bitvec (bs : bitsets) (i : nat) : option bitsets :=
  match bs !! i with
  | None => Some (bs ++ replicate (i + 1 - length bs) bv_new)
  | Some _ => None
  end.

(** [Bitsetsss::get_bitvec] (bitset_iterator.rs:174-176) *)
Definition bs_get_bitvec (bs : bitsets) (c : ecsid) : option bitvec := bs !! uindex c.

(** [Bitsetsss::set_bit] (bitset_iterator.rs:178-185); [None]: panic. *)
Definition bs_set_bit (bs : bitsets) (c : ecsid) (index : nat) (v : bool) : option bitsets :=
  let grown :=
    if decide (length bs ≤ uindex c) then bs_insert_bitvec bs (uindex c) else Some bs in
  match grown with
  | None => None
  | Some bs1 =>
      match bs1 !! uindex c with
      | None => None
      | Some b =>
          match bv_set_bit b index v with
          | None => None
          | Some b' => Some (<[uindex c := b']> bs1)
          end
      end
  end.

(** [Bitsetsss::push_bit] (bitset_iterator.rs:188-195); [None]: panic. *)
Definition bs_push_bit (bs : bitsets) (c : ecsid) (v : bool) : option bitsets :=
  let grown :=
    if decide (length bs ≤ uindex c) then bs_insert_bitvec bs (uindex c) else Some bs in
  match grown with
  | None => None
  | Some bs1 =>
      match bs1 !! uindex c with
      | None => None
      | Some b =>
          match bv_push_bit b v with
          | None => None
          | Some b' => Some (<[uindex c := b']> bs1)
          end
      end
  end.
