(** * Bitset iterator and bit vectors (C15-C18) *)
From Verif Require Import ProofBase SpecSmall.

Local Arguments N.shiftr : simpl never.
Local Arguments N.testbit : simpl never.
Local Arguments Nat.div : simpl never.
Local Arguments Nat.modulo : simpl never.
Local Notation iterlist := (list (list N * (N → N))).

Lemma usize_bits_pos : usize_bits ≠ 0.
Proof. done. Qed.

(** ** trailing zeros *)
Lemma pos_ctz_testbit p : N.testbit (Npos p) (N.of_nat (pos_ctz p)) = true.
Proof.
  induction p as [p IH|p IH|]; cbn [pos_ctz]; [done| |done].
  rewrite Nat2N.inj_succ. change (Npos p~0) with (2 * Npos p)%N.
  by rewrite N.testbit_even_succ; [|lia].
Qed.
Lemma pos_ctz_low p j : j < pos_ctz p → N.testbit (Npos p) (N.of_nat j) = false.
Proof.
  revert j. induction p as [p IH|p IH|]; intros j Hj; cbn [pos_ctz] in Hj; [lia| |lia].
  destruct j as [|j]; [done|].
  rewrite Nat2N.inj_succ. change (Npos p~0) with (2 * Npos p)%N.
  rewrite N.testbit_even_succ; [|lia]. apply IH. lia.
Qed.
Lemma testbit_lt_pow2 b r j : (b < 2 ^ N.of_nat r)%N → N.testbit b (N.of_nat j) = true → j < r.
Proof.
  intros Hb Ht. destruct (decide (j < r)); [done|]. exfalso.
  destruct (decide (b = 0%N)) as [->|]; [by rewrite N.bits_0 in Ht|].
  assert (N.log2 b < N.of_nat j)%N as Hl.
  { apply N.log2_lt_pow2; [lia|]. eapply N.lt_le_trans; [exact Hb|].
    apply N.pow_le_mono_r; lia. }
  by rewrite N.bits_above_log2 in Ht.
Qed.

(** ** The bits of one word at an offset *)
Definition word_bits (base r : nat) (b : N) : list nat :=
  filter (λ i, N.testbit b (N.of_nat (i - base)) = true) (seq base r).
Lemma filter_none {A} (P : A → Prop) `{∀ x, Decision (P x)} (l : list A) :
  (∀ x, x ∈ l → ¬ P x) → filter P l = [].
Proof.
  intros H1. induction l as [|x l IH]; [done|].
  rewrite filter_cons_False; [|apply H1; by left]. apply IH. intros y Hy. apply H1. by right.
Qed.
Lemma filter_ext' {A} (P Q : A → Prop) `{∀ x, Decision (P x)} `{∀ x, Decision (Q x)} (l : list A) :
  (∀ x, x ∈ l → P x ↔ Q x) → filter P l = filter Q l.
Proof.
  intros H1. induction l as [|x l IH]; [done|].
  assert (P x ↔ Q x) as HPQ by (apply H1; by left).
  assert (filter P l = filter Q l) as IH' by (apply IH; intros; apply H1; by right).
  destruct (decide (P x)).
  - rewrite !filter_cons_True; [|tauto..]. by rewrite IH'.
  - rewrite !filter_cons_False; [|tauto..]. done.
Qed.
Lemma word_bits_0 base r : word_bits base r 0 = [].
Proof. apply filter_none. intros i _. by rewrite N.bits_0. Qed.
Lemma word_bits_step base r p :
  (Npos p < 2 ^ N.of_nat r)%N →
  let z := pos_ctz p in
  z < r ∧
  word_bits base r (Npos p) =
    (base + z) :: word_bits (base + (z + 1)) (r - (z + 1)) (N.shiftr (N.shiftr (Npos p) 1) (N.of_nat z)).
Proof.
  intros Hb z. assert (z < r) as Hz by (eapply testbit_lt_pow2; [exact Hb|apply pos_ctz_testbit]).
  split; [done|]. rewrite /word_bits.
  replace r with (z + S (r - (z + 1))) at 1 by lia. rewrite seq_app filter_app.
  rewrite (filter_none _ (seq base z)).
  2:{ intros i Hi%elem_of_seq. rewrite pos_ctz_low; [done|]. rewrite /z in Hi |- *. lia. }
  cbn [seq app]. rewrite filter_cons_True.
  2:{ replace (base + z - base) with z by lia. apply pos_ctz_testbit. }
  f_equal. replace (S (base + z)) with (base + (z + 1)) by lia.
  apply filter_ext'. intros i Hi%elem_of_seq.
  rewrite !N.shiftr_spec'.
  replace (N.of_nat (i - (base + (z + 1))) + N.of_nat z + 1)%N with (N.of_nat (i - base)) by lia.
  done.
Qed.
Lemma shiftr_bound b r z :
  (b < 2 ^ N.of_nat r)%N → z < r →
  (N.shiftr (N.shiftr b 1) (N.of_nat z) < 2 ^ N.of_nat (r - (z + 1)))%N.
Proof.
  intros Hb Hz. rewrite N.shiftr_shiftr N.shiftr_div_pow2.
  apply N.div_lt_upper_bound; [by apply N.pow_nonzero|].
  rewrite -N.pow_add_r. eapply N.lt_le_trans; [exact Hb|].
  apply N.pow_le_mono_r; lia.
Qed.

(** ** Combined words *)
Fixpoint comb (ws : list N) (f : N → N) (rest : iterlist) : list N :=
  match ws with
  | [] => []
  | w :: ws' =>
      match bi_and_rest rest (f w) with
      | (rest', Some x) => x :: comb ws' f rest'
      | (_, None) => []
      end
  end.
Definition combined (iters : iterlist) : list N :=
  match iters with [] => [] | (ws, f) :: rest => comb ws f rest end.
Definition exhausted (rest : iterlist) : Prop := ∃ f, ([], f) ∈ rest.

Lemma bi_and_rest_exhausted rest acc : exhausted rest →
  ∃ rest', bi_and_rest rest acc = (rest', None) ∧ exhausted rest'.
Proof.
  revert acc. induction rest as [|[ws f] rest IH]; intros acc [f' Hf']; [set_solver|].
  simpl. destruct ws as [|w ws].
  - eexists. split; [done|]. exists f. by left.
  - apply elem_of_cons in Hf' as [?|Hf']; [done|].
    destruct (IH (N.land acc (f w))) as (rest' & -> & [f'' ?]); [by exists f'|].
    eexists. split; [done|]. exists f''. by right.
Qed.
Lemma bi_and_rest_none rest acc rest' : bi_and_rest rest acc = (rest', None) → exhausted rest'.
Proof.
  revert acc rest'. induction rest as [|[ws f] rest IH]; intros acc rest'; simpl; [done|].
  destruct ws as [|w ws].
  - intros [= <-]. exists f. by left.
  - destruct (bi_and_rest rest _) as [r o] eqn:E. intros [= <- ->].
    destruct (IH _ _ E) as [f' ?]. exists f'. by right.
Qed.
Lemma comb_exhausted ws f rest : exhausted rest → comb ws f rest = [].
Proof.
  destruct ws as [|w ws]; [done|]. intros H. simpl.
  by destruct (bi_and_rest_exhausted rest (f w) H) as (? & -> & _).
Qed.
Definition tails (iters : iterlist) : iterlist := (λ p, (tail p.1, p.2)) <$> iters.
Lemma bi_and_rest_some rest acc rest' x : bi_and_rest rest acc = (rest', Some x) →
  rest' = tails rest ∧ (∀ ws f, (ws, f) ∈ rest → ∃ w ws', ws = w :: ws') ∧
  ∀ i, N.testbit x i = true ↔
       N.testbit acc i = true ∧ ∀ ws f, (ws, f) ∈ rest → ∃ w, ws !! 0 = Some w ∧ N.testbit (f w) i = true.
Proof.
  revert acc rest'. induction rest as [|[ws f] rest IH]; intros acc rest'; simpl.
  { intros [= <- <-]. split_and!; [done|set_solver|]. intros i. set_solver. }
  destruct ws as [|w ws]; [done|].
  destruct (bi_and_rest rest _) as [r o] eqn:E. intros [= <- ->].
  destruct (IH _ _ E) as (-> & Hne & Hbit). split_and!; [done| |].
  - intros ws' f' [[= -> ->]|?]%elem_of_cons; eauto.
  - intros i. rewrite Hbit N.land_spec andb_true_iff. split.
    + intros [[Ha Hw] Hall]. split; [done|]. intros ws' f' [[= -> ->]|?]%elem_of_cons; eauto.
    + intros [Ha Hall]. split; [split; [done|]|].
      * destruct (Hall (w :: ws) f) as (w' & [= ->] & ?); [by left|done].
      * intros ws' f' ?. apply Hall. by right.
Qed.
Lemma bi_and_rest_bound rest acc rest' x r : bi_and_rest rest acc = (rest', Some x) →
  (acc < 2 ^ r)%N → (x < 2 ^ r)%N.
Proof.
  intros H. destruct (bi_and_rest_some _ _ _ _ H) as (_ & _ & Hbit).
  intros Ha. destruct (decide (x = 0%N)) as [->|Hx]; [by apply N.neq_0_lt_0, N.pow_nonzero|].
  apply N.log2_lt_pow2; [lia|].
  assert (N.testbit acc (N.log2 x) = true) as Ht.
  { apply Hbit. by apply N.bit_log2. }
  destruct (decide (N.log2 x < r)%N); [done|]. exfalso.
  destruct (decide (acc = 0%N)) as [->|]; [by rewrite N.bits_0 in Ht|].
  assert (N.log2 acc < N.log2 x)%N as Hl.
  { apply N.log2_lt_pow2; [lia|]. eapply N.lt_le_trans; [exact Ha|]. apply N.pow_le_mono_r; lia. }
  by rewrite N.bits_above_log2 in Ht.
Qed.
Lemma bi_fetch_combined iters :
  match bi_fetch iters with
  | (iters', None) => combined iters = [] ∧ combined iters' = []
  | (iters', Some x) => combined iters = x :: combined iters' ∧
      length (default [] (fst <$> head iters)) = S (length (default [] (fst <$> head iters')))
  end.
Proof.
  destruct iters as [|[[|w ws] f] rest]; simpl; [done|done|].
  destruct (bi_and_rest rest (f w)) as [rest' [x|]] eqn:E; simpl; [done|].
  split; [done|]. by eapply comb_exhausted, bi_and_rest_none.
Qed.
Lemma comb_length ws f rest : length (comb ws f rest) ≤ length ws.
Proof.
  revert rest. induction ws as [|w ws IH]; intros rest; simpl; [lia|].
  destruct (bi_and_rest rest (f w)) as [rest' [x|]]; simpl; [|lia]. specialize (IH rest'). lia.
Qed.

Lemma bi_and_rest_length rest acc : length (bi_and_rest rest acc).1 = length rest.
Proof.
  revert acc. induction rest as [|[[|w ws] f] rest IH]; intros acc; simpl; [done|done|].
  by rewrite IH.
Qed.
Lemma bi_fetch_length iters : length (bi_fetch iters).1 = length iters.
Proof.
  rewrite /bi_fetch. repeat case_match; simpl; try done. by rewrite bi_and_rest_length.
Qed.
Lemma bi_fetch_head iters :
  length (default [] (fst <$> head (bi_fetch iters).1)) ≤ length (default [] (fst <$> head iters)).
Proof. destruct iters as [|[[|w ws] f] rest]; simpl; lia. Qed.

(** ** The future of an iterator *)
Fixpoint stream (base : nat) (ws : list N) : list nat :=
  match ws with
  | [] => []
  | w :: ws' => word_bits base usize_bits w ++ stream (base + usize_bits) ws'
  end.
Definition future (it : biter) : list nat :=
  filter (λ i, (N.of_nat i < bi_length it)%N)
    (word_bits (bi_index it) (bi_remaining it) (bi_bits it) ++
     stream (bi_index it + bi_remaining it) (combined (bi_iters it))).
Definition bi_inv (it : biter) : Prop :=
  Forall word_wf (combined (bi_iters it)) ∧
  bi_remaining it ≤ usize_bits ∧
  (0 < bi_remaining it → (bi_bits it < 2 ^ N.of_nat (bi_remaining it))%N).

Lemma elem_of_word_bits base r b i : i ∈ word_bits base r b → base ≤ i < base + r.
Proof. rewrite /word_bits elem_of_list_filter elem_of_seq. lia. Qed.
Lemma elem_of_stream_ge base ws i : i ∈ stream base ws → base ≤ i.
Proof.
  revert base. induction ws as [|w ws IH]; intros base; simpl; [set_solver|].
  rewrite elem_of_app. intros [H%elem_of_word_bits|H%IH]; lia.
Qed.

(** Everything at or above the bit length is cut. *)
Lemma future_cut (bl : N) (l : list nat) i :
  (∀ j, j ∈ l → i ≤ j) → (bl ≤ N.of_nat i)%N → filter (λ j, (N.of_nat j < bl)%N) l = [].
Proof. intros Hl Hi. apply filter_none. intros j Hj. specialize (Hl j Hj). lia. Qed.

Lemma bi_next_fuel_spec fuel it :
  bi_inv it →
  length (combined (bi_iters it)) + (if decide (bi_remaining it = 0) then 1 else 2) ≤ fuel →
  ∃ it', bi_inv it' ∧ bi_length it' = bi_length it ∧
    length (default [] (fst <$> head (bi_iters it'))) ≤ length (default [] (fst <$> head (bi_iters it))) ∧
    length (bi_iters it') = length (bi_iters it) ∧
    bi_next_fuel fuel it = Some (head (future it), it') ∧ future it' = tail (future it).
Proof.
  revert it. induction fuel as [|fuel IH].
  { intros it _ H. destruct (decide (bi_remaining it = 0)); lia. }
  intros it (Hw & Hr & Hb) Hfuel.
  (* the scanning part, from a state with bits *)
  assert (∀ it0, bi_inv it0 → length (combined (bi_iters it0)) + 1 ≤ fuel →
            (bi_remaining it0 ≠ 0) →
    ∃ it', bi_inv it' ∧ bi_length it' = bi_length it0 ∧
    length (default [] (fst <$> head (bi_iters it'))) ≤ length (default [] (fst <$> head (bi_iters it0))) ∧
    length (bi_iters it') = length (bi_iters it0) ∧
    future it' = tail (future it0) ∧
    (let zeros := trailing_zeros (bi_bits it0) in
        if decide (zeros = usize_bits) then
          bi_next_fuel fuel
            (BIter (bi_iters it0) (bi_length it0) (bi_index it0 + bi_remaining it0) 0 (bi_bits it0))
        else
          let remaining := bi_remaining it0 - (zeros + 1) in
          let bits := N.shiftr (N.shiftr (bi_bits it0) 1) (N.of_nat zeros) in
          let index := bi_index it0 + (zeros + 1) in
          if (bi_length it0 <? N.of_nat index)%N then
            Some (None, BIter (bi_clear_first (bi_iters it0)) (bi_length it0) index remaining 0)
          else
            Some (Some (index - 1), BIter (bi_iters it0) (bi_length it0) index remaining bits)) =
      Some (head (future it0), it')) as Hscan.
  { clear it Hw Hr Hb Hfuel. intros it (Hw & Hr & Hb) Hfuel Hrem.
    specialize (Hb ltac:(lia)). simpl.
    destruct (bi_bits it) as [|p] eqn:Hbits; simpl.
    - destruct (IH (BIter (bi_iters it) (bi_length it) (bi_index it + bi_remaining it) 0 0)) as
          (it' & Hinv & Hlen & Hh & Hil & Hnext & Hfut).
      { split; [done|]. simpl. split; lia. }
      { done. }
      assert (future (BIter (bi_iters it) (bi_length it) (bi_index it + bi_remaining it) 0 0) = future it) as Hfe.
      { rewrite /future /= Hbits word_bits_0 Nat.add_0_r. done. }
      rewrite Hfe in Hnext Hfut. exists it'. done.
    - destruct (word_bits_step (bi_index it) (bi_remaining it) p Hb) as [Hz Hwb].
      rewrite decide_False; [|lia].
      set (z := pos_ctz p) in *.
      assert (future it = filter (λ i, (N.of_nat i < bi_length it)%N)
         ((bi_index it + z) :: word_bits (bi_index it + (z + 1)) (bi_remaining it - (z + 1))
             (N.shiftr (N.shiftr (N.pos p) 1) (N.of_nat z)) ++
            stream (bi_index it + bi_remaining it) (combined (bi_iters it)))) as Hf.
      { by rewrite /future Hbits Hwb. }
      destruct (bi_length it <? N.of_nat (bi_index it + (z + 1)))%N eqn:Hlt.
      + apply N.ltb_lt in Hlt.
        exists (BIter (bi_clear_first (bi_iters it)) (bi_length it) (bi_index it + (z + 1))
                  (bi_remaining it - (z + 1)) 0). split; [|split; [done|split; [|split; [|split]]]].
        * split_and!; simpl; [|lia|].
          -- by destruct (bi_iters it) as [|[? ?] ?]; apply Forall_nil_2.
          -- intros _. by apply N.neq_0_lt_0, N.pow_nonzero.
        * simpl. destruct (bi_iters it) as [|[? ?] ?]; simpl; lia.
        * simpl. by destruct (bi_iters it) as [|[? ?] ?].
        * rewrite Hf. rewrite {1}/future /= word_bits_0.
          assert (combined (bi_clear_first (bi_iters it)) = []) as -> by by destruct (bi_iters it) as [|[? ?] ?].
          symmetry. rewrite filter_cons_False; [|lia].
          rewrite (future_cut _ _ (bi_index it + (z + 1))); [done| |lia].
          intros j [Hj%elem_of_word_bits|Hj%elem_of_stream_ge]%elem_of_app; lia.
        * do 2 f_equal. rewrite Hf filter_cons_False; [|lia].
          rewrite (future_cut _ _ (bi_index it + (z + 1))); [done| |lia].
          intros j [Hj%elem_of_word_bits|Hj%elem_of_stream_ge]%elem_of_app; lia.
      + apply N.ltb_ge in Hlt.
        exists (BIter (bi_iters it) (bi_length it) (bi_index it + (z + 1)) (bi_remaining it - (z + 1))
                  (N.shiftr (N.shiftr (N.pos p) 1) (N.of_nat z))). split; [|split; [done|split; [|split; [|split]]]].
        * split_and!; simpl; [done|lia|]. intros _. by apply shiftr_bound.
        * done.
        * done.
        * rewrite Hf. rewrite filter_cons_True; [|lia]. simpl. rewrite /future /=. do 3 f_equal. lia.
        * do 2 f_equal. rewrite Hf filter_cons_True; [|lia]. simpl. f_equal. lia. }
  simpl. destruct (decide (bi_remaining it = 0)) as [H0|H0].
  - pose proof (bi_fetch_combined (bi_iters it)) as Hfetch.
    destruct (bi_fetch (bi_iters it)) as [iters' [x|]] eqn:Ef.
    + destruct Hfetch as [Hcomb Hh].
      assert (future it = future (BIter iters' (bi_length it) (bi_index it) usize_bits x)) as Hfut.
      { rewrite /future /= Hcomb H0. rewrite Nat.add_0_r /=. done. }
      rewrite Hcomb in Hw, Hfuel. apply Forall_cons in Hw as [Hx Hw]. simpl in Hfuel.
      destruct (Hscan (BIter iters' (bi_length it) (bi_index it) usize_bits x)) as
          (it' & Hinv & Hlen & Hh' & Hil & Hfut' & Hnext).
      { split_and!; simpl; [done|lia|]. intros _. exact Hx. }
      { simpl. lia. }
      { done. }
      exists it'. rewrite Hfut. split_and!; try done.
      * simpl in Hh'. lia.
      * rewrite Hil /=. by rewrite -(bi_fetch_length (bi_iters it)) Ef.
    + destruct Hfetch as [Hc1 Hc2]. exists (BIter iters' (bi_length it) (bi_index it) 0 (bi_bits it)). split; [|split; [done|split; [|split; [|split]]]].
      * split_and!; simpl; [by rewrite Hc2|lia|lia].
      * pose proof (bi_fetch_head (bi_iters it)) as Hh. by rewrite Ef in Hh.
      * simpl. by rewrite -(bi_fetch_length (bi_iters it)) Ef.
      * do 2 f_equal. by rewrite /future Hc1 H0.
      * rewrite /future /= Hc1 Hc2 H0. done.
  - destruct (Hscan it) as (it' & Hinv & Hlen & Hh & Hil & Hfut & Hnext); [done|lia|done|].
    exists it'. done.
Qed.

Lemma bi_next_spec it : bi_inv it →
  ∃ it', bi_inv it' ∧ bi_next it = Some (head (future it), it') ∧ future it' = tail (future it).
Proof.
  intros Hinv. destruct (bi_next_fuel_spec (bi_fuel it) it Hinv) as (it' & ? & _ & _ & _ & ? & ?).
  { rewrite /bi_fuel. destruct (bi_iters it) as [|[ws f] rest] eqn:E; simpl.
    - case_decide; lia.
    - pose proof (comb_length ws f rest). case_decide; lia. }
  by exists it'.
Qed.
Lemma take_map_head (l : list nat) n :
  head l :: take n ((Some <$> tail l) ++ replicate n None) = take (S n) ((Some <$> l) ++ replicate (S n) None).
Proof.
  destruct l as [|x l]; simpl.
  - done.
  - f_equal. change (None :: replicate n None) with (replicate (S n) (@None nat)).
    rewrite replicate_S_end app_assoc. symmetry. apply take_app_le.
    rewrite app_length replicate_length. lia.
Qed.
Lemma bi_run_spec n it : bi_inv it →
  ∃ it', bi_inv it' ∧ bi_run n it = Some (take n ((Some <$> future it) ++ replicate n None), it') ∧
         future it' = drop n (future it).
Proof.
  revert it. induction n as [|n IH]; intros it Hinv; cbn [bi_run].
  { exists it. done. }
  destruct (bi_next_spec it Hinv) as (it1 & Hinv1 & -> & Hf1).
  destruct (IH it1 Hinv1) as (it2 & Hinv2 & -> & Hf2).
  exists it2. split_and!; [done| |].
  - rewrite Hf1. by rewrite take_map_head.
  - rewrite Hf2 Hf1. by destruct (future it); rewrite /= ?drop_nil.
Qed.

(** ** What a fresh iterator produces *)
Lemma div_shift base i : base + usize_bits ≤ i →
  (i - base) / usize_bits = S ((i - (base + usize_bits)) / usize_bits) ∧
  (i - base) mod usize_bits = (i - (base + usize_bits)) mod usize_bits.
Proof.
  intros H. replace (i - base) with (i - (base + usize_bits) + 1 * usize_bits) by lia.
  split; [rewrite Nat.div_add; [lia|done]|by rewrite Nat.mod_add].
Qed.
Lemma elem_of_stream base ws i :
  i ∈ stream base ws ↔ base ≤ i ∧ ∃ w, ws !! ((i - base) / usize_bits) = Some w ∧
                                   N.testbit w (N.of_nat ((i - base) mod usize_bits)) = true.
Proof.
  revert base. induction ws as [|w ws IH]; intros base; cbn [stream].
  { split; [set_solver|]. intros (_ & w & ? & _). done. }
  rewrite elem_of_app IH /word_bits elem_of_list_filter elem_of_seq.
  destruct (decide (base ≤ i)) as [H1|H1]; [|lia].
  destruct (decide (i < base + usize_bits)) as [H2|H2].
  - rewrite (Nat.div_small (i - base)); [|lia]. rewrite (Nat.mod_small (i - base)); [|lia]. simpl. split.
    + intros [[? _]|[? _]]; [|lia]. split; [done|]. by exists w.
    + intros (_ & w' & [= ->] & ?). left. done.
  - destruct (div_shift base i) as [-> ->]; [lia|]. simpl. split.
    + intros [?|[? ?]]; [lia|done].
    + intros [_ ?]. right. split; [lia|done].
Qed.
Lemma sorted_seq_filter (P : nat → Prop) `{∀ x, Decision (P x)} a n : StronglySorted lt (filter P (seq a n)).
Proof.
  revert a. induction n as [|n IH]; intros a; cbn [seq]; [constructor|].
  rewrite filter_cons. case_decide; [|done].
  constructor; [done|]. apply Forall_forall. intros x [_ Hx%elem_of_seq]%elem_of_list_filter. lia.
Qed.
Lemma sorted_app (l1 l2 : list nat) m :
  StronglySorted lt l1 → StronglySorted lt l2 → (∀ x, x ∈ l1 → x < m) → (∀ x, x ∈ l2 → m ≤ x) →
  StronglySorted lt (l1 ++ l2).
Proof.
  induction l1 as [|x l1 IH]; intros H1 H2 Hm1 Hm2; simpl; [done|].
  apply StronglySorted_inv in H1 as [H1 Hx]. constructor.
  - apply IH; [done..| |done]. intros y Hy. apply Hm1. by right.
  - apply Forall_app. split; [done|]. apply Forall_forall. intros y Hy%Hm2.
    specialize (Hm1 x). assert (x < m) by (apply Hm1; by left). lia.
Qed.
Lemma stream_sorted base ws : StronglySorted lt (stream base ws).
Proof.
  revert base. induction ws as [|w ws IH]; intros base; cbn [stream]; [constructor|].
  eapply (sorted_app _ _ (base + usize_bits)); [apply sorted_seq_filter|done| |].
  - intros x Hx%elem_of_word_bits. lia.
  - intros x Hx%elem_of_stream_ge. lia.
Qed.
Lemma StronglySorted_filter' (P : nat → Prop) `{∀ x, Decision (P x)} (l : list nat) :
  StronglySorted lt l → StronglySorted lt (filter P l).
Proof.
  induction 1 as [|x l Hs IH Hx]; [constructor|]. rewrite filter_cons. case_decide; [|done].
  constructor; [done|]. apply Forall_forall. intros y [_ Hy]%elem_of_list_filter.
  by eapply Forall_forall in Hx.
Qed.

Lemma bi_and_rest_none_before rest acc rest' : bi_and_rest rest acc = (rest', None) → exhausted rest.
Proof.
  revert acc rest'. induction rest as [|[ws f] rest IH]; intros acc rest'; simpl; [done|].
  destruct ws as [|w ws]; [intros _; exists f; by left|].
  destruct (bi_and_rest rest _) as [r o] eqn:E. intros [= <- ->].
  destruct (IH _ _ E) as [f' ?]. exists f'. by right.
Qed.
Lemma comb_lookup j ws f rest k :
  (∃ x, comb ws f rest !! j = Some x ∧ N.testbit x k = true) ↔
  ∀ ws' f', (ws', f') ∈ (ws, f) :: rest → ∃ w, ws' !! j = Some w ∧ N.testbit (f' w) k = true.
Proof.
  revert ws rest. induction j as [|j IH]; intros ws rest.
  - destruct ws as [|w ws]; cbn [comb].
    { split; [naive_solver|]. intros H. destruct (H [] f) as (? & ? & _); [by left|done]. }
    destruct (bi_and_rest rest (f w)) as [rest' [x|]] eqn:E.
    + destruct (bi_and_rest_some _ _ _ _ E) as (-> & Hne & Hbit). simpl. split.
      * intros (x' & [= <-] & Hx). apply Hbit in Hx as [Hx1 Hx2].
        intros ws' f' [[= -> ->]|?]%elem_of_cons; eauto.
      * intros H. exists x. split; [done|]. apply Hbit. split.
        -- destruct (H (w :: ws) f) as (? & [= ->] & ?); [by left|done].
        -- intros ws' f' ?. apply H. by right.
    + split; [naive_solver|]. intros H. exfalso.
      destruct (bi_and_rest_none_before _ _ _ E) as [f' ?]. destruct (H [] f') as (? & ? & _); [by right|done].
  - destruct ws as [|w ws]; cbn [comb].
    { split; [naive_solver|]. intros H. destruct (H [] f) as (? & ? & _); [by left|done]. }
    destruct (bi_and_rest rest (f w)) as [rest' [x|]] eqn:E.
    + destruct (bi_and_rest_some _ _ _ _ E) as (-> & Hne & _). simpl. rewrite IH. split.
      * intros H ws' f' [[= -> ->]|Hin]%elem_of_cons.
        -- apply (H ws f). by left.
        -- destruct (Hne _ _ Hin) as (w' & ws'' & ->). simpl. apply H. right.
           apply elem_of_list_fmap. by exists (w' :: ws'', f').
      * intros H ws' f' [[= -> ->]|([ws'' f''] & [= -> ->] & Hin)%elem_of_list_fmap]%elem_of_cons.
        -- destruct (H (w :: ws) f) as (w' & ? & ?); [by left|]. eauto.
        -- destruct (Hne _ _ Hin) as (w' & ws''' & ->).
           destruct (H (w' :: ws''') f'') as (w'' & ? & ?); [by right|]. simpl. eauto.
    + split; [naive_solver|]. intros H. exfalso.
      destruct (bi_and_rest_none_before _ _ _ E) as [f'' ?]. destruct (H [] f'') as (? & ? & _); [by right|done].
Qed.
Lemma comb_wf ws f rest : Forall (λ w, word_wf (f w)) ws → Forall word_wf (comb ws f rest).
Proof.
  revert rest. induction ws as [|w ws IH]; intros rest Hw; cbn [comb]; [constructor|].
  apply Forall_cons in Hw as [Hw Hws].
  destruct (bi_and_rest rest (f w)) as [rest' [x|]] eqn:E; constructor; [|by apply IH].
  rewrite /word_wf /word_modulus. by eapply bi_and_rest_bound.
Qed.
Lemma bi_new_inv iters bl : iters_wf iters → bi_inv (bi_new iters bl).
Proof.
  intros Hwf. split_and!; simpl; [|lia|lia]. destruct iters as [|[ws f] rest]; [constructor|].
  apply comb_wf. apply (Hwf ws f). by left.
Qed.
Lemma future_new_sorted iters bl : StronglySorted lt (future (bi_new iters bl)).
Proof. apply StronglySorted_filter'. simpl. apply stream_sorted. Qed.
Lemma elem_of_future_new iters bl i :
  iters ≠ [] → i ∈ future (bi_new iters bl) ↔ (N.of_nat i < bl)%N ∧ common_bit iters i.
Proof.
  intros Hne. rewrite /future elem_of_list_filter /=. f_equiv.
  destruct iters as [|[ws f] rest]; [done|]. rewrite elem_of_stream Nat.sub_0_r /combined comb_lookup.
  rewrite /common_bit. split; [by intros [_ H]|]. intros H. split; [lia|done].
Qed.
Lemma future_new_nil bl : future (bi_new [] bl) = [].
Proof. done. Qed.
Lemma future_new_zero iters : future (bi_new iters 0) = [].
Proof. apply filter_none. intros i _. simpl. lia. Qed.

(** *** C16 and C15 *)
Lemma bitset_iter_exact iters bl : iters ≠ [] → iters_wf iters →
  ∃ L, StronglySorted lt L ∧ (∀ i, i ∈ L ↔ (N.of_nat i < bl)%N ∧ common_bit iters i) ∧
    ∀ n, ∃ it', bi_run n (bi_new iters bl) = Some (take n ((Some <$> L) ++ replicate n None), it').
Proof.
  intros Hne Hwf. exists (future (bi_new iters bl)). split_and!.
  - apply future_new_sorted.
  - intros i. by apply elem_of_future_new.
  - intros n. destruct (bi_run_spec n (bi_new iters bl)) as (it' & _ & ? & _); [by apply bi_new_inv|]. eauto.
Qed.
Lemma bitset_iter_fused iters bl n m outs : iters_wf iters →
  (∃ it', bi_run (n + m) (bi_new iters bl) = Some (outs, it')) →
  outs !! n = Some None → ∀ k, n ≤ k < n + m → outs !! k = Some None.
Proof.
  intros Hwf [it' Hrun] Hn k Hk.
  destruct (bi_run_spec (n + m) (bi_new iters bl)) as (it'' & _ & Hrun' & _); [by apply bi_new_inv|].
  rewrite Hrun in Hrun'. simplify_eq.
  set (L := future (bi_new iters bl)) in *.
  rewrite lookup_take in Hn; [|lia]. rewrite lookup_take; [|lia].
  assert (length L ≤ n) as HL.
  { destruct (decide (n < length L)) as [Hlt|]; [|lia]. exfalso.
    rewrite lookup_app_l in Hn; [|by rewrite fmap_length]. rewrite list_lookup_fmap in Hn.
    by destruct (L !! n) eqn:E. }
  rewrite lookup_app_r; [|rewrite fmap_length; lia]. rewrite fmap_length.
  apply lookup_replicate. split; [done|lia].
Qed.
Lemma bitset_iter_total iters bl n : iters_wf iters → bi_run n (bi_new iters bl) ≠ None.
Proof.
  intros Hwf. destruct (bi_run_spec n (bi_new iters bl)) as (it' & _ & -> & _); [by apply bi_new_inv|done].
Qed.

(** ** Bit vectors *)
Definition bit_of (ws : list N) (i : nat) : bool :=
  match ws !! (i / usize_bits) with
  | Some w => N.testbit w (N.of_nat (i mod usize_bits))
  | None => false
  end.
Definition bv_wf (b : bitvec) : Prop :=
  Forall word_wf (bv_data b) ∧ bv_len b ≤ usize_bits * length (bv_data b) ∧
  ∀ i, bv_len b ≤ i → bit_of (bv_data b) i = false.
Lemma bv_wf_new : bv_wf bv_new.
Proof. split_and!; simpl; [constructor|lia|done]. Qed.

Lemma testbit_high w j : word_wf w → usize_bits ≤ j → N.testbit w (N.of_nat j) = false.
Proof.
  intros Hw Hj. destruct (N.testbit w (N.of_nat j)) eqn:E; [|done].
  apply (testbit_lt_pow2 _ usize_bits) in E; [lia|exact Hw].
Qed.
Lemma word_wf_iff w : word_wf w ↔ ∀ j, usize_bits ≤ j → N.testbit w (N.of_nat j) = false.
Proof.
  split; [intros; by apply testbit_high|]. intros H.
  destruct (decide (w = 0%N)) as [->|Hw]; [done|]. rewrite /word_wf /word_modulus.
  apply N.log2_lt_pow2; [lia|]. destruct (decide (N.log2 w < 64)%N); [done|]. exfalso.
  specialize (H (N.to_nat (N.log2 w))). rewrite N2Nat.id N.bit_log2 // in H.
  assert (true = false) by (apply H; change usize_bits with (N.to_nat 64); lia). done.
Qed.
Lemma testbit_b2n v j : N.testbit (b2n v) j = bool_decide (j = 0%N) && v.
Proof.
  destruct v; simpl.
  - case_bool_decide as H; [by subst|]. destruct j as [|p]; [done|]. by destruct p.
  - rewrite N.bits_0. by rewrite andb_false_r.
Qed.
Lemma set_word_testbit w k v j : word_wf w → k < usize_bits →
  N.testbit (N.lor (N.land w (word_not (N.shiftl 1 (N.of_nat k)))) (N.shiftl (b2n v) (N.of_nat k))) (N.of_nat j) =
  if decide (j = k) then v else N.testbit w (N.of_nat j).
Proof.
  intros Hw Hk. rewrite N.lor_spec N.land_spec /word_not N.lxor_spec.
  assert (N.testbit (word_modulus - 1) (N.of_nat j) = bool_decide (j < usize_bits)) as ->.
  { change (word_modulus - 1)%N with (N.ones 64). case_bool_decide.
    - apply N.ones_spec_low. change 64%N with (N.of_nat usize_bits). lia.
    - apply N.ones_spec_high. change 64%N with (N.of_nat usize_bits). lia. }
  assert (∀ b, N.testbit (N.shiftl (b2n b) (N.of_nat k)) (N.of_nat j) = bool_decide (j = k) && b) as Hs.
  { intros b. destruct (decide (k ≤ j)) as [Hle|Hlt].
    - rewrite N.shiftl_spec_high'; [|lia]. rewrite testbit_b2n. f_equal. apply bool_decide_ext. lia.
    - rewrite N.shiftl_spec_low; [|lia]. rewrite bool_decide_false; [done|lia]. }
  rewrite (Hs v). pose proof (Hs true) as Ht. change (b2n true) with 1%N in Ht. rewrite Ht.
  case_decide as Hjk.
  - subst. rewrite !bool_decide_true //=. by rewrite andb_false_r.
  - rewrite !(bool_decide_false (j = k)) //=. rewrite orb_false_r ?xorb_false_l.
    destruct (decide (j < usize_bits)).
    + rewrite bool_decide_true //. by rewrite andb_true_r.
    + rewrite bool_decide_false //. rewrite andb_false_r. rewrite testbit_high //. lia.
Qed.

Lemma bit_of_insert ws i k w v j :
  ws !! i = Some w → word_wf w → k < usize_bits →
  bit_of (<[i := N.lor (N.land w (word_not (N.shiftl 1 (N.of_nat k)))) (N.shiftl (b2n v) (N.of_nat k))]> ws) j =
  if decide (j = i * usize_bits + k) then v else bit_of ws j.
Proof.
  intros Hi Hw Hk. rewrite /bit_of. assert (i < length ws) as Hil by by eapply lookup_lt_Some.
  destruct (decide (j / usize_bits = i)) as [E|E].
  - rewrite E list_lookup_insert // Hi set_word_testbit //.
    assert (j = i * usize_bits + j mod usize_bits) as Hj.
    { rewrite -E. rewrite {1}(Nat.div_mod j usize_bits) //. lia. }
    destruct (decide (j mod usize_bits = k)), (decide (j = i * usize_bits + k)); try done; lia.
  - rewrite list_lookup_insert_ne //. rewrite decide_False //.
    intros ->. apply E. rewrite Nat.div_add_l // Nat.div_small //.
Qed.
Lemma bit_of_app_zeros ws n j : bit_of (ws ++ replicate n 0%N) j = bit_of ws j.
Proof.
  rewrite /bit_of. destruct (decide (j / usize_bits < length ws)).
  - rewrite lookup_app_l //.
  - rewrite lookup_app_r; [|lia]. rewrite (lookup_ge_None_2 ws); [|lia].
    destruct (replicate n 0%N !! _) eqn:E; [|done]. apply lookup_replicate in E as [-> _].
    by rewrite N.bits_0.
Qed.

Lemma bv_set_bit_spec b i v : bv_wf b →
  ∃ b', bv_set_bit b i v = Some b' ∧ bv_wf b' ∧ bv_len b' = Nat.max (bv_len b) (i + 1) ∧
        ∀ j, bit_of (bv_data b') j = if decide (j = i) then v else bit_of (bv_data b) j.
Proof.
  intros (Hw & Hlen & Hz). rewrite /bv_set_bit.
  set (b1 := if decide (bv_len b ≤ i) then _ else b).
  pose proof (Nat.mod_upper_bound i usize_bits usize_bits_pos) as Hm.
  pose proof (Nat.div_mod i usize_bits usize_bits_pos) as Hdm.
  assert (bv_len b1 = Nat.max (bv_len b) (i + 1) ∧
          Forall word_wf (bv_data b1) ∧ i / usize_bits < length (bv_data b1) ∧
          bv_len b1 ≤ usize_bits * length (bv_data b1) ∧
          ∀ j, bit_of (bv_data b1) j = bit_of (bv_data b) j) as (Hl1 & Hw1 & Hd1 & Hlen1 & Hb1).
  { rewrite /b1. case_decide as Hi; cbn [bv_len bv_data].
    - case_decide as Hgrow.
      + rewrite app_length replicate_length.
        split_and!; [lia| |lia|change usize_bits with 64 in *; lia|].
        * apply Forall_app. split; [done|]. by apply Forall_replicate.
        * intros j. apply bit_of_app_zeros.
      + split_and!; [lia|done|lia|change usize_bits with 64 in *; lia|done].
    - split_and!; [lia|done| |lia|done].
      destruct (decide (i / usize_bits < length (bv_data b))); [done|].
      change usize_bits with 64 in *; lia. }
  destruct (lookup_lt_is_Some_2 _ _ Hd1) as [w Hwi]. rewrite Hwi.
  assert (word_wf w) as Hww by by eapply Forall_lookup_1 in Hwi.
  eexists. split; [done|]. cbn [bv_len bv_data].
  assert (∀ j, bit_of (<[i / usize_bits := N.lor (N.land w (word_not (N.shiftl 1 (N.of_nat (i mod usize_bits))))) (N.shiftl (b2n v) (N.of_nat (i mod usize_bits)))]> (bv_data b1)) j =
     if decide (j = i) then v else bit_of (bv_data b) j) as Hbits.
  { intros j. rewrite (bit_of_insert _ _ _ _ _ _ Hwi Hww Hm) Hb1.
    assert (j = i / usize_bits * usize_bits + i mod usize_bits ↔ j = i) as Hiff by lia.
    by destruct (decide (j = i / usize_bits * usize_bits + i mod usize_bits)), (decide (j = i)); naive_solver. }
  split_and!; [|done|done].
  split_and!; cbn [bv_len bv_data].
  - apply Forall_insert; [done|]. apply word_wf_iff. intros j Hj. rewrite set_word_testbit //.
    rewrite decide_False; [by apply testbit_high|]. lia.
  - by rewrite insert_length.
  - intros j Hj. rewrite Hbits decide_False; [|lia]. apply Hz. lia.
Qed.
Lemma bv_get_bit_spec b i : bv_wf b →
  bv_get_bit b i = Some (if decide (i < bv_len b) then Some (bit_of (bv_data b) i) else None).
Proof.
  intros (Hw & Hlen & Hz). rewrite /bv_get_bit /bit_of.
  destruct (decide (bv_len b ≤ i)); [rewrite decide_False //; lia|]. rewrite decide_True; [|lia].
  pose proof (Nat.mod_upper_bound i usize_bits usize_bits_pos) as Hm.
  pose proof (Nat.div_mod i usize_bits usize_bits_pos) as Hdm.
  destruct (lookup_lt_is_Some_2 (bv_data b) (i / usize_bits)) as [w ->].
  { change usize_bits with 64 in *; lia. }
  do 2 f_equal. change 1%N with (N.ones 1) at 1. rewrite N.land_ones.
  rewrite N.pow_1_r. rewrite -N.bit0_mod N.shiftr_spec' N.add_0_l.
  by destruct (N.testbit w _).
Qed.

Lemma bv_step_wf o b : bv_wf b → ∃ b', bv_step o b = Some b' ∧ bv_wf b' ∧ bv_bits b' = bools_step o (bv_bits b).
Proof.
  intros Hwf.
  assert (∀ b, bv_wf b → length (bv_bits b) = bv_len b) as HL.
  { intros b0 _. by rewrite /bv_bits fmap_length seq_length. }
  assert (∀ b i, bv_wf b → bv_bits b !! i = if decide (i < bv_len b) then Some (bit_of (bv_data b) i) else None) as HG.
  { intros b0 i Hwf0. rewrite /bv_bits list_lookup_fmap. case_decide.
    - rewrite lookup_seq_lt //= bv_get_bit_spec //. by rewrite decide_True.
    - by rewrite lookup_seq_ge; [|lia]. }
  assert (∀ i v, ∃ b', bv_set_bit b i v = Some b' ∧ bv_wf b' ∧
             bv_bits b' = <[i := v]> (bv_bits b ++ replicate (S i - length (bv_bits b)) false)) as Hset.
  { intros i v. destruct (bv_set_bit_spec b i v Hwf) as (b' & -> & Hwf' & Hlen & Hbits).
    exists b'. split_and!; [done|done|]. apply list_eq. intros j. rewrite HG // Hlen Hbits.
    destruct (decide (j = i)) as [->|Hne].
    - rewrite decide_True; [|lia]. rewrite list_lookup_insert //.
      rewrite app_length replicate_length HL //. lia.
    - rewrite list_lookup_insert_ne //. destruct (decide (j < bv_len b)) as [Hj|Hj].
      + rewrite decide_True; [|lia]. rewrite lookup_app_l; [|by rewrite HL]. rewrite HG // decide_True //.
      + rewrite lookup_app_r; [|rewrite HL //; lia]. rewrite HL //. case_decide.
        * rewrite lookup_replicate_2; [|lia]. f_equal. destruct Hwf as (_ & _ & Hz). apply Hz. lia.
        * rewrite lookup_ge_None_2 // replicate_length. lia. }
  destruct o as [i v|v]; simpl; [apply Hset|].
  rewrite /bv_push_bit. destruct (Hset (bv_len b) v) as (b' & -> & ? & Hb'). exists b'. split_and!; [done|done|]. rewrite Hb'.
  rewrite HL //. replace (S (bv_len b) - bv_len b) with 1 by lia. simpl.
  rewrite insert_app_r_alt; rewrite HL //. by rewrite Nat.sub_diag.
Qed.
(** *** C17 *)
Lemma bv_run_correct h : ∃ b, bv_run h bv_new = Some b ∧ bv_wf b ∧
  bv_bits b = foldl (λ l o, bools_step o l) [] h.
Proof.
  assert (∀ b, bv_wf b → ∃ b', bv_run h b = Some b' ∧ bv_wf b' ∧ bv_bits b' = foldl (λ l o, bools_step o l) (bv_bits b) h) as H.
  { induction h as [|o h IH]; intros b Hb; simpl; [by exists b|].
    destruct (bv_step_wf o b Hb) as (b1 & -> & Hb1 & Hbits). destruct (IH b1 Hb1) as (b2 & -> & ? & Hb2).
    exists b2. by rewrite Hb2 Hbits. }
  apply (H _ bv_wf_new).
Qed.
Lemma bv_run_observe h b i : bv_run h bv_new = Some b →
  bv_get_bit b i = Some (foldl (λ l o, bools_step o l) [] h !! i).
Proof.
  intros Hrun. destruct (bv_run_correct h) as (b' & Hrun' & Hwf & Hbits). rewrite Hrun in Hrun'. simplify_eq.
  rewrite -Hbits bv_get_bit_spec // /bv_bits list_lookup_fmap. f_equal. case_decide.
  - rewrite lookup_seq_lt //= bv_get_bit_spec // decide_True //.
  - by rewrite lookup_seq_ge; [|lia].
Qed.

(** *** C18: the table *)
Definition bs_bit (bs : bitsets) (i k : nat) : bool :=
  match bs !! i with Some b => bit_of (bv_data b) k | None => false end.
Definition bs_len (bs : bitsets) (i : nat) : nat :=
  match bs !! i with Some b => bv_len b | None => 0 end.
Lemma bs_set_bit_spec bs c k v : Forall bv_wf bs →
  ∃ bs', bs_set_bit bs c k v = Some bs' ∧ Forall bv_wf bs' ∧
    length bs' = Nat.max (length bs) (uindex c + 1) ∧
    (∀ i, i ≠ uindex c → bs' !! i = if decide (i < length bs') then Some (default bv_new (bs !! i)) else None) ∧
    (∃ b', bs' !! uindex c = Some b' ∧ bv_set_bit (default bv_new (bs !! uindex c)) k v = Some b').
Proof.
  intros Hwf. rewrite /bs_set_bit.
  set (grown := if decide (length bs ≤ uindex c) then _ else _).
  assert (∃ bs1, grown = Some bs1 ∧ Forall bv_wf bs1 ∧ length bs1 = Nat.max (length bs) (uindex c + 1) ∧
     ∀ i, bs1 !! i = if decide (i < length bs1) then Some (default bv_new (bs !! i)) else None) as (bs1 & -> & Hwf1 & Hl1 & Hb1).
  { rewrite /grown /bs_insert_bitvec. case_decide as Hle.
    - rewrite (lookup_ge_None_2 bs); [|lia]. eexists. split; [done|]. rewrite app_length replicate_length.
      split_and!.
      + apply Forall_app. split; [done|]. apply Forall_replicate, bv_wf_new.
      + lia.
      + intros i. destruct (decide (i < length bs)) as [Hi|Hi].
        * rewrite lookup_app_l // decide_True; [|lia]. by destruct (lookup_lt_is_Some_2 bs i Hi) as [? ->].
        * rewrite lookup_app_r; [|lia]. rewrite (lookup_ge_None_2 bs); [|lia]. simpl. case_decide.
          -- rewrite lookup_replicate_2 //. lia.
          -- rewrite lookup_ge_None_2 // replicate_length. lia.
    - exists bs. split_and!; [done|done|lia|]. intros i. case_decide as Hi.
      + destruct (lookup_lt_is_Some_2 bs i Hi) as [x Hx]. rewrite Hx. done.
      + rewrite lookup_ge_None_2 //. lia. }
  pose proof (Hb1 (uindex c)) as Hc. rewrite decide_True in Hc; [|lia]. rewrite Hc.
  assert (bv_wf (default bv_new (bs !! uindex c))) as Hbwf by by eapply Forall_lookup_1 in Hc.
  destruct (bv_set_bit_spec (default bv_new (bs !! uindex c)) k v Hbwf) as (b' & Hb' & Hwfb' & _).
  rewrite Hb'. eexists. split; [done|]. rewrite insert_length. split_and!.
  - by apply Forall_insert.
  - done.
  - intros i Hi. by rewrite list_lookup_insert_ne.
  - exists b'. split; [|done]. rewrite list_lookup_insert //. lia.
Qed.
Lemma bs_set_bit_bits bs c k v bs' : Forall bv_wf bs → bs_set_bit bs c k v = Some bs' →
  ∀ i j, bs_bit bs' i j = if decide (i = uindex c ∧ j = k) then v else bs_bit bs i j.
Proof.
  intros Hwf Hs i j. destruct (bs_set_bit_spec bs c k v Hwf) as (bs1 & Hs' & Hwf1 & Hl & Hoth & (b' & Hb & Hb')).
  rewrite Hs in Hs'. simplify_eq. rewrite /bs_bit. destruct (decide (i = uindex c)) as [->|Hi].
  - rewrite Hb. assert (bv_wf (default bv_new (bs !! uindex c))) as Hbwf.
    { destruct (bs !! uindex c) eqn:E; simpl; [by eapply Forall_lookup_1 in E|apply bv_wf_new]. }
    destruct (bv_set_bit_spec _ k v Hbwf) as (b2 & Hb2 & _ & _ & Hbits). rewrite Hb' in Hb2. simplify_eq.
    rewrite Hbits. destruct (decide (j = k)) as [->|]; [by rewrite decide_True|].
    rewrite decide_False; [|naive_solver]. by destruct (bs !! uindex c).
  - rewrite decide_False; [|naive_solver]. rewrite Hoth //. case_decide as Hlt.
    + by destruct (bs !! i).
    + rewrite lookup_ge_None_2 //. lia.
Qed.
Lemma bs_set_bit_len bs c k v bs' : Forall bv_wf bs → bs_set_bit bs c k v = Some bs' →
  ∀ i, bs_len bs' i = if decide (i = uindex c) then Nat.max (bs_len bs i) (k + 1) else bs_len bs i.
Proof.
  intros Hwf Hs i. destruct (bs_set_bit_spec bs c k v Hwf) as (bs1 & Hs' & Hwf1 & Hl & Hoth & (b' & Hb & Hb')).
  rewrite Hs in Hs'. simplify_eq. rewrite /bs_len. destruct (decide (i = uindex c)) as [->|Hi].
  - rewrite Hb. assert (bv_wf (default bv_new (bs !! uindex c))) as Hbwf.
    { destruct (bs !! uindex c) eqn:E; simpl; [by eapply Forall_lookup_1 in E|apply bv_wf_new]. }
    destruct (bv_set_bit_spec _ k v Hbwf) as (b2 & Hb2 & _ & Hlen & _). rewrite Hb' in Hb2. simplify_eq.
    rewrite Hlen. by destruct (bs !! uindex c).
  - rewrite Hoth //. case_decide as Hlt.
    + by destruct (bs !! i).
    + rewrite lookup_ge_None_2 //. lia.
Qed.

Lemma bv_run_bools h :
  ∃ b, bv_run h bv_new = Some b ∧
    bv_len b = length (foldl (λ l o, bools_step o l) [] h) ∧
    ∀ i, bv_get_bit b i = Some (foldl (λ l o, bools_step o l) [] h !! i).
Proof.
  destruct (bv_run_correct h) as (b & Hrun & Hwf & Hbits). exists b. split_and!; [done| |].
  - by rewrite -Hbits /bv_bits fmap_length seq_length.
  - intros i. by apply bv_run_observe.
Qed.
Lemma bs_read_bit bs c j : Forall bv_wf bs → bs_read bs c j = bs_bit bs (uindex c) j.
Proof.
  intros Hwf. rewrite /bs_read /bs_get_bitvec /bs_bit. destruct (bs !! uindex c) as [b|] eqn:E; [|done].
  assert (bv_wf b) as Hb by by eapply Forall_lookup_1 in E.
  rewrite bv_get_bit_spec //. case_decide; [done|]. symmetry. apply Hb. lia.
Qed.
Lemma bs_run_spec h : ∀ bs, Forall bv_wf bs →
  ∃ bs', bs_run h bs = Some bs' ∧ Forall bv_wf bs' ∧
    ∀ i j, bs_bit bs' i j =
      foldl (λ acc '(c, k, v), if decide (uindex c = i ∧ k = j) then v else acc) (bs_bit bs i j) h.
Proof.
  induction h as [|[[c k] v] h IH]; intros bs Hwf; simpl; [by exists bs|].
  destruct (bs_set_bit_spec bs c k v Hwf) as (bs1 & Hs & Hwf1 & _). rewrite Hs.
  destruct (IH bs1 Hwf1) as (bs2 & -> & Hwf2 & Hb). exists bs2. split_and!; [done|done|].
  intros i j. rewrite Hb. f_equal. rewrite (bs_set_bit_bits _ _ _ _ _ Hwf Hs).
  by destruct (decide (i = uindex c ∧ j = k)), (decide (uindex c = i ∧ k = j)); naive_solver.
Qed.
Lemma bs_run_frame h :
  ∃ bs, bs_run h [] = Some bs ∧ ∀ c j, bs_read bs c j = last_write h (uindex c) j.
Proof.
  destruct (bs_run_spec h []) as (bs & Hrun & Hwf & Hb); [constructor|]. exists bs. split; [done|].
  intros c j. rewrite bs_read_bit // Hb. done.
Qed.
Lemma bs_set_bit_frame h bs c k v bs' d :
  bs_run h [] = Some bs → bs_set_bit bs c k v = Some bs' → uindex d ≠ uindex c →
  ∀ j, bs_read bs' d j = bs_read bs d j.
Proof.
  intros Hrun Hs Hd j. destruct (bs_run_spec h []) as (bs0 & Hrun0 & Hwf & _); [constructor|].
  rewrite Hrun in Hrun0. simplify_eq.
  destruct (bs_set_bit_spec bs0 c k v Hwf) as (bs1 & Hs' & Hwf1 & _). rewrite Hs in Hs'. simplify_eq.
  rewrite !bs_read_bit // (bs_set_bit_bits _ _ _ _ _ Hwf Hs). rewrite decide_False //. naive_solver.
Qed.

Lemma bs_push_bit_set bs c v : bs_push_bit bs c v = bs_set_bit bs c (bs_len bs (uindex c)) v.
Proof.
  rewrite /bs_push_bit /bs_set_bit /bs_len /bs_insert_bitvec. case_decide as Hle.
  - rewrite lookup_ge_None_2 //. rewrite lookup_app_r //. rewrite lookup_replicate_2; [|lia]. done.
  - destruct (bs !! uindex c); done.
Qed.
Lemma bv_set_bit_bits b i v b' : bv_wf b → bv_set_bit b i v = Some b' → bv_bits b' = bools_step (BVSet i v) (bv_bits b).
Proof. intros Hwf E. destruct (bv_step_wf (BVSet i v) b Hwf) as (b2 & E2 & _ & H). cbn [bv_step] in E2. by simplify_eq. Qed.
(** The list of booleans a table shows for a component index. *)
Definition bs_list (bs : bitsets) (i : nat) : list bool := bv_bits (default bv_new (bs !! i)).
Lemma bs_step_list o bs : Forall bv_wf bs →
  ∃ bs', bs_step o bs = Some bs' ∧ Forall bv_wf bs' ∧ length bs' = Nat.max (length bs) (uindex o.1 + 1) ∧
    ∀ i, bs_list bs' i = if decide (uindex o.1 = i) then bools_step o.2 (bs_list bs i) else bs_list bs i.
Proof.
  intros Hwf. destruct o as [c o].
  set (i0 := uindex c). assert (bv_wf (default bv_new (bs !! i0))) as Hb.
  { destruct (bs !! i0) eqn:E; cbn; [by eapply Forall_lookup_1 in E|apply bv_wf_new]. }
  assert (∃ k v, bs_step (c, o) bs = bs_set_bit bs c k v ∧
    (∀ b', bv_set_bit (default bv_new (bs !! i0)) k v = Some b' → bv_bits b' = bools_step o (bs_list bs i0))) as (k & v & -> & Hl).
  { destruct o as [k v|v]; cbn [bs_step fst snd].
    - exists k, v. split; [done|]. intros b' E. by apply bv_set_bit_bits.
    - exists (bs_len bs i0), v. split; [apply bs_push_bit_set|]. intros b' E.
      destruct (bv_step_wf (BVPush v) _ Hb) as (b2 & E2 & _ & H). cbn [bv_step] in E2. rewrite /bv_push_bit in E2.
      assert (bs_len bs i0 = bv_len (default bv_new (bs !! i0))) as Hlen by (rewrite /bs_len; by destruct (bs !! i0)).
      rewrite Hlen E2 in E. by simplify_eq. }
  destruct (bs_set_bit_spec bs c k v Hwf) as (bs' & -> & Hwf' & Hlen & Ho & (b' & Hb' & E)). fold i0 in Hlen, Ho, Hb', E.
  exists bs'. split_and!; [done|done|done|]. intros i. cbn [fst snd]. fold i0. case_decide as Hi; [subst i|].
  - rewrite {1}/bs_list Hb'. by apply Hl.
  - rewrite /bs_list Ho; [|done]. case_decide; [done|]. rewrite lookup_ge_None_2 //. lia.
Qed.
Lemma bs_steps_list h : ∀ bs, Forall bv_wf bs →
  ∃ bs', bs_steps h bs = Some bs' ∧ Forall bv_wf bs' ∧
    (∀ i, i < length bs' ↔ i < length bs ∨ ∃ o, o ∈ h ∧ i ≤ uindex o.1) ∧
    ∀ i, bs_list bs' i = foldl (λ l o, bools_step o l) (bs_list bs i) (ops_at i h).
Proof.
  induction h as [|o h IH]; intros bs Hwf; cbn [bs_steps].
  { exists bs. split_and!; [done|done| |done]. intros i. split; [by left|]. intros [?|(o & Ho & _)]; [done|]. by apply elem_of_nil in Ho. }
  destruct (bs_step_list o bs Hwf) as (bs1 & -> & Hwf1 & Hl & Hb).
  destruct (IH bs1 Hwf1) as (bs2 & -> & Hwf2 & Hl2 & Hb2). exists bs2. split_and!; [done|done| |].
  - intros i. rewrite Hl2 Hl. split.
    + intros [?|(o' & Ho & ?)]; [|right; exists o'; split; [by right|done]].
      destruct (decide (i < length bs)); [by left|]. right. exists o. split; [by left|lia].
    + intros [?|(o' & [->|Ho]%elem_of_cons & ?)]; [left; lia|left; lia|]. right. by exists o'.
  - intros i. rewrite Hb2 Hb /ops_at filter_cons. by case_decide.
Qed.
Lemma bs_steps_lists h :
  ∃ bs, bs_steps h [] = Some bs ∧
    (∀ c, bs_get_bitvec bs c = None ↔ ∀ o, o ∈ h → uindex o.1 < uindex c) ∧
    ∀ c b, bs_get_bitvec bs c = Some b →
      ∀ j, bv_get_bit b j = Some (foldl (λ l o, bools_step o l) [] (ops_at (uindex c) h) !! j).
Proof.
  destruct (bs_steps_list h [] (Forall_nil_2 _)) as (bs & E & Hwf & Hl & Hb). exists bs. split_and!; [done| |].
  - intros c. rewrite /bs_get_bitvec lookup_ge_None. split.
    + intros H o Ho. destruct (decide (uindex o.1 < uindex c)); [done|]. enough (uindex c < length bs) by lia.
      apply Hl. right. exists o. split; [done|lia].
    + intros H. destruct (decide (uindex c < length bs)) as [Hlt|]; [|lia]. apply Hl in Hlt as [Hlt|(o & Ho & ?)]; [cbn in Hlt; lia|].
      specialize (H o Ho). lia.
  - intros c b Ec j. assert (bv_wf b) as Hwb by by eapply Forall_lookup_1 in Ec.
    rewrite -(Hb (uindex c) : _ = foldl _ [] _) /bs_list. rewrite /bs_get_bitvec in Ec. rewrite Ec. cbn [default from_option id].
    rewrite bv_get_bit_spec // /bv_bits list_lookup_fmap. f_equal. case_decide.
    + rewrite lookup_seq_lt //= bv_get_bit_spec // decide_True //.
    + by rewrite lookup_seq_ge; [|lia].
Qed.
