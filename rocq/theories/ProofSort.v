(** * Sorting of component ids, the id-to-position lookup *)
From Coq Require Import Sorting.Sorted.
From Verif Require Import ProofBase SpecSmall World.

Definition id_lt (x y : ecsid) : Prop := ecsid_leb x y = true ∧ x ≠ y.

Lemma ecsid_leb_spec x y :
  ecsid_leb x y = true ↔ (id_gen x < id_gen y ∨ (id_gen x = id_gen y ∧ id_idx x ≤ id_idx y))%N.
Proof. rewrite /ecsid_leb orb_true_iff andb_true_iff N.ltb_lt N.eqb_eq N.leb_le. done. Qed.
Lemma id_lt_spec x y :
  id_lt x y ↔ (id_gen x < id_gen y ∨ (id_gen x = id_gen y ∧ id_idx x < id_idx y))%N.
Proof.
  rewrite /id_lt ecsid_leb_spec. destruct x as [g i], y as [g' i']. simpl. split.
  - intros [H Hne]. destruct H as [H|[-> H]]; [by left|right]. split; [done|].
    assert (i ≠ i') by (intros ->; done). lia.
  - intros H. split; [lia|]. intros [= -> ->]. lia.
Qed.
Lemma ecsid_leb_total x y : ecsid_leb x y = false → id_lt y x.
Proof.
  intros H. assert (¬ ecsid_leb x y = true) as H' by by rewrite H.
  rewrite ecsid_leb_spec in H'. rewrite id_lt_spec. lia.
Qed.
Lemma id_lt_trans x y z : id_lt x y → id_lt y z → id_lt x z.
Proof. rewrite !id_lt_spec. lia. Qed.
Lemma id_lt_irrefl x : ¬ id_lt x x.
Proof. rewrite id_lt_spec. lia. Qed.

Lemma sorted_NoDup l : StronglySorted id_lt l → NoDup l.
Proof.
  induction 1 as [|x l Hs IH Hx]; constructor; [|done].
  intros Hin. rewrite Forall_forall in Hx. by apply (id_lt_irrefl x), Hx.
Qed.
Lemma sorted_ext l1 l2 : StronglySorted id_lt l1 → StronglySorted id_lt l2 →
  (∀ x, x ∈ l1 ↔ x ∈ l2) → l1 = l2.
Proof.
  intros H1. revert l2. induction H1 as [|x l1 Hs1 IH Hx]; intros l2 H2 Heq.
  - destruct l2 as [|y l2]; [done|]. exfalso. assert (y ∈ []) by (apply Heq; left). set_solver.
  - destruct l2 as [|y l2]; [exfalso; assert (x ∈ []) by (apply Heq; left); set_solver|].
    inversion H2 as [|? ? Hs2 Hy]; subst. rewrite Forall_forall in Hx. rewrite Forall_forall in Hy.
    assert (x = y) as <-.
    { destruct (decide (x = y)) as [|Hne]; [done|]. exfalso.
      assert (x ∈ l2) as Hx2 by (assert (x ∈ y :: l2) as H by (apply Heq; left); set_solver).
      assert (y ∈ l1) as Hy1 by (assert (y ∈ x :: l1) as H by (apply Heq; left); set_solver).
      apply (id_lt_irrefl x). eapply id_lt_trans; [by apply Hx|by apply Hy]. }
    f_equal. apply IH; [done|]. intros z. split; intros Hz.
    + assert (z ∈ x :: l2) as H by (apply Heq; by right). apply elem_of_cons in H as [->|]; [|done].
      exfalso. by apply (id_lt_irrefl x), Hx.
    + assert (z ∈ x :: l1) as H by (apply Heq; by right). apply elem_of_cons in H as [->|]; [|done].
      exfalso. by apply (id_lt_irrefl x), Hy.
Qed.
Lemma sorted_filter (P : ecsid → Prop) `{∀ x, Decision (P x)} l :
  StronglySorted id_lt l → StronglySorted id_lt (filter P l).
Proof.
  induction 1 as [|x l Hs IH Hx]; [constructor|]. rewrite filter_cons. case_decide; [|done].
  constructor; [done|]. apply Forall_forall. intros y [_ Hy]%elem_of_list_filter.
  rewrite Forall_forall in Hx. by apply Hx.
Qed.

(** ** sort_by *)
Lemma insert_by_perm {A} leb (x : A) l : insert_by leb x l ≡ₚ x :: l.
Proof.
  induction l as [|y l IH]; simpl; [done|]. destruct (leb x y); [done|]. rewrite IH. apply Permutation_swap.
Qed.
Lemma sort_by_perm {A} leb (l : list A) : sort_by leb l ≡ₚ l.
Proof. induction l as [|x l IH]; simpl; [done|]. by rewrite insert_by_perm IH. Qed.
Lemma insert_by_sorted x l : x ∉ l → StronglySorted id_lt l → StronglySorted id_lt (insert_by ecsid_leb x l).
Proof.
  intros Hx H. induction H as [|y l Hs IH Hy]; simpl; [by repeat constructor|].
  apply not_elem_of_cons in Hx as [Hne Hx]. destruct (ecsid_leb x y) eqn:E.
  - constructor; [by constructor|]. constructor; [done|]. eapply Forall_impl; [done|].
    intros z Hz. by eapply id_lt_trans; [|exact Hz].
  - constructor; [by apply IH|]. apply Forall_forall. intros z Hz. rewrite insert_by_perm in Hz.
    apply elem_of_cons in Hz as [->|Hz]; [by apply ecsid_leb_total|]. rewrite Forall_forall in Hy. by apply Hy.
Qed.
Lemma sort_by_sorted l : NoDup l → StronglySorted id_lt (sort_by ecsid_leb l).
Proof.
  induction 1 as [|x l Hx Hn IH]; simpl; [constructor|]. apply insert_by_sorted; [|done]. by rewrite sort_by_perm.
Qed.
Lemma elem_of_sort_by {A} leb (l : list A) x : x ∈ sort_by leb l ↔ x ∈ l.
Proof. by rewrite sort_by_perm. Qed.
Lemma sort_by_length {A} leb (l : list A) : length (sort_by leb l) = length l.
Proof. by rewrite sort_by_perm. Qed.
Lemma insert_by_fst x (l : list (ecsid * uvec)) :
  (insert_by storage_leb x l).*1 = insert_by ecsid_leb x.1 l.*1.
Proof.
  induction l as [|y l IH]; simpl; [done|].
  assert (storage_leb x y = ecsid_leb x.1 y.1) as -> by done.
  destruct (ecsid_leb x.1 y.1); [done|]. by rewrite fmap_cons IH.
Qed.
Lemma sort_by_fst (l : list (ecsid * uvec)) : (sort_by storage_leb l).*1 = sort_by ecsid_leb l.*1.
Proof. induction l as [|x l IH]; [done|]. change (sort_by storage_leb (x :: l)) with (insert_by storage_leb x (sort_by storage_leb l)).
  by rewrite insert_by_fst IH. Qed.

(** ** The lookup tables *)
Lemma index_ids_lookup n ids m c i : NoDup ids → 
  index_ids n ids m !! c = Some i ↔ (∃ j, i = n + j ∧ ids !! j = Some c) ∨ (c ∉ ids ∧ m !! c = Some i).
Proof.
  revert n m. induction ids as [|x ids IH]; intros n m Hn; simpl.
  { split; [intros H; right; split; [set_solver|done]|]. intros [(j & _ & H)|[_ H]]; done. }
  apply NoDup_cons in Hn as [Hx Hn]. rewrite IH //. split.
  - intros [(j & -> & Hj)|[Hc Hm]].
    + left. exists (S j). split; [lia|done].
    + destruct (decide (c = x)) as [->|Hne].
      * rewrite lookup_insert in Hm. left. exists 0. split; [naive_solver lia|done].
      * rewrite lookup_insert_ne // in Hm. right. split; [set_solver|done].
  - intros [([|j] & -> & Hj)|[Hc Hm]]; simpl in *.
    + injection Hj as ->. right. split; [done|]. rewrite lookup_insert. f_equal. lia.
    + left. exists j. split; [lia|done].
    + apply not_elem_of_cons in Hc as [Hne Hc]. right. split; [done|]. by rewrite lookup_insert_ne.
Qed.
Lemma index_ids_spec ids c i : NoDup ids → index_ids 0 ids ∅ !! c = Some i ↔ ids !! i = Some c.
Proof.
  intros Hn. rewrite index_ids_lookup //. split.
  - intros [(j & -> & Hj)|[_ H]]; [done|by rewrite lookup_empty in H].
  - intros H. left. by exists i.
Qed.
Lemma index_ids_distinct_some n ids m : NoDup ids → (∀ x, x ∈ ids → m !! x = None) →
  index_ids_distinct n ids m = Some (index_ids n ids m).
Proof.
  revert n m. induction ids as [|x ids IH]; intros n m Hn Hm; simpl; [done|].
  apply NoDup_cons in Hn as [Hx Hn]. rewrite Hm; [|left]. apply IH; [done|].
  intros y Hy. rewrite lookup_insert_ne; [|set_solver]. apply Hm. by right.
Qed.
Lemma index_ids_distinct_none n ids m : ¬ NoDup ids → index_ids_distinct n ids m = None.
Proof.
  intros H. assert (∀ y k, y ∈ ids → m !! y = Some k → index_ids_distinct n ids m = None) as Haux.
  { clear H. revert n m. induction ids as [|x ids IH]; intros n m y k Hy Hm; simpl; [set_solver|].
    destruct (m !! x) as [|] eqn:E; [done|]. apply elem_of_cons in Hy as [->|Hy]; [congruence|].
    eapply (IH _ _ y k); [done|]. rewrite lookup_insert_ne //. congruence. }
  revert n m H Haux. induction ids as [|x ids IH]; intros n m H Haux; [by destruct H; constructor|].
  simpl. destruct (m !! x) eqn:E; [done|]. destruct (decide (x ∈ ids)) as [Hx|Hx].
  - clear IH Haux H. 
    assert (∀ n m, is_Some (m !! x) → index_ids_distinct n ids m = None) as Haux2.
    { clear n m E. induction ids as [|y ids IH]; intros n m Hm; [set_solver|]. simpl.
      destruct (m !! y) eqn:E; [done|]. apply elem_of_cons in Hx as [->|Hx].
      { destruct Hm. congruence. }
      apply IH; [done|]. destruct (decide (x = y)) as [->|]; [rewrite lookup_insert|rewrite lookup_insert_ne]; eauto. }
    apply Haux2. rewrite lookup_insert. eauto.
  - apply IH; [|intros y k Hy Hk].
    + intros Hn. apply H. by constructor.
    + clear IH H. revert Hk Hy. generalize (<[x:=n]> m) (S n). clear. intros m n Hk Hy.
      revert n m Hk. induction ids as [|z ids IH]; intros n m Hk; [set_solver|]. simpl.
      destruct (m !! z) eqn:E; [done|]. apply elem_of_cons in Hy as [->|Hy]; [congruence|].
      apply IH; [done|]. rewrite lookup_insert_ne //. congruence.
Qed.
Lemma zip_ids_agree_refl ids ss : ss.*1 = ids → zip_ids_agree ids ss = true.
Proof.
  intros <-. rewrite /zip_ids_agree. induction ss as [|[c v] ss IH]; simpl; [done|].
  by rewrite bool_decide_true.
Qed.
