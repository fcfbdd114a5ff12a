(** * What the hashing and printing of ids should do (C59, C60).  Nothing here is used by
    the model. *)
From Verif Require Export IdText.

(** ** Hashing *)
(** What a [u64] key hashes to, as a hash map sees it: the result of [finish] after hashing
    the key with a hasher in state [h]. *)
Definition hash_of (h : N) (m : M N unit) : option N :=
  match m h with Done _ h' [] => Some (hasher_finish h') | _ => None end.

(** ** Reading back what is printed *)
(** The value of an upper case hexadecimal digit. *)
Definition digit_value (c : ascii) : option N :=
  let n := N_of_ascii c in
  if ((48 <=? n) && (n <=? 57))%N then Some (n - 48)%N
  else if ((65 <=? n) && (n <=? 70))%N then Some (n - 55)%N
  else None.
Fixpoint read_hex (acc : N) (s : string) : option N :=
  match s with
  | EmptyString => Some acc
  | String c s' =>
      match digit_value c with
      | Some d => read_hex (16 * acc + d)%N s'
      | None => None
      end
  end.
(** [s] is [n] in exactly eight upper case hexadecimal digits. *)
Definition hex8 (s : string) (n : N) : Prop := String.length s = 8 ∧ read_hex 0 s = Some n.
