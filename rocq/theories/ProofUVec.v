(** * Untyped vectors (C25-C29) *)
From Verif Require Import ProofBase SpecUVec.
Local Arguments Nat.mul : simpl never.

(** ** Representation: the vector stores exactly the values [l]. *)
Definition uv_rep (v : uvec) (l : list value) : Prop :=
  Forall (λ x : value, length x = uv_size v) l ∧
  if decide (uv_size v = 0) then
    uv_data v = Dangling ∧ uv_cap v = 0 ∧ uv_len v = length l
  else
    uv_len v = length l * uv_size v ∧
    ((uv_cap v = 0 ∧ uv_data v = Dangling ∧ l = []) ∨
     (∃ rest, uv_data v = Heap (uv_align v) (concat l ++ rest) ∧
              uv_cap v = length (concat l ++ rest) ∧
              4 * uv_size v ≤ uv_cap v ∧
              layout_from_size_align (uv_cap v) (uv_align v) = Some (Layout (uv_cap v) (uv_align v)))).
(** The values of a vector, computed. *)
Definition uv_vals (v : uvec) : list value :=
  if decide (uv_size v = 0) then replicate (uv_len v) []
  else match uv_data v with
       | Dangling => []
       | Heap _ m => chunks (uv_len v / uv_size v) (uv_size v) m
       end.
Definition uv_wf (v : uvec) : Prop := uv_rep v (uv_vals v).

Lemma layout_from_size_align_inv n a lay : layout_from_size_align n a = Some lay → lay = Layout n a.
Proof. rewrite /layout_from_size_align. case_match; naive_solver. Qed.

Lemma concat_length_eq (l : list value) s :
  Forall (λ x : value, length x = s) l → length (concat l) = length l * s.
Proof. induction 1 as [|x l Hx _ IH]; simpl; [done|]. rewrite app_length IH Hx. done. Qed.
Lemma concat_split (l : list value) i x s :
  Forall (λ x : value, length x = s) l → l !! i = Some x →
  ∃ A B, l = A ++ x :: B ∧ length A = i ∧ concat l = concat A ++ x ++ concat B ∧
         length (concat A) = i * s ∧ length x = s.
Proof.
  intros Hl Hi. exists (take i l), (drop (S i) l).
  assert (i < length l) as Hlt by by eapply lookup_lt_Some.
  assert (l = take i l ++ x :: drop (S i) l) as Heq by by rewrite take_drop_middle.
  split_and!; [done|rewrite take_length; lia| | |].
  - by rewrite {1}Heq concat_app.
  - rewrite (concat_length_eq _ s); [|by apply Forall_take]. rewrite take_length. f_equal. lia.
  - exact (Forall_lookup_1 _ _ _ _ Hl Hi).
Qed.
Lemma chunks_concat (l : list value) s rest :
  Forall (λ x : value, length x = s) l → chunks (length l) s (concat l ++ rest) = l.
Proof.
  induction 1 as [|x l Hx _ IH]; simpl; [done|].
  rewrite -app_assoc. f_equal.
  - by rewrite take_app_alt.
  - by rewrite drop_app_alt.
Qed.
Lemma replicate_nil_eq (l : list value) : Forall (λ x : value, length x = 0) l → l = replicate (length l) [].
Proof. induction 1 as [|x l Hx _ IH]; simpl; [done|]. destruct x; [|done]. by rewrite -IH. Qed.

Lemma uv_rep_vals v l : uv_rep v l → uv_vals v = l.
Proof.
  intros [Hl Hrep]. rewrite /uv_vals. case_decide as Hs.
  - destruct Hrep as (_ & _ & ->). rewrite Hs in Hl. by rewrite -replicate_nil_eq.
  - destruct Hrep as (Hlen & [(_ & -> & ->)|(rest & -> & _)]); [done|].
    rewrite Hlen Nat.div_mul //. by apply chunks_concat.
Qed.
Lemma uv_rep_wf v l : uv_rep v l → uv_wf v.
Proof. intros H. rewrite /uv_wf. by rewrite (uv_rep_vals _ _ H). Qed.
Lemma uv_rep_size v l x i : uv_rep v l → l !! i = Some x → length x = uv_size v.
Proof. intros [Hl _] Hi. exact (Forall_lookup_1 _ _ _ _ Hl Hi). Qed.

Lemma uv_rep_new ti : uv_rep (uv_new ti) [].
Proof. split; [constructor|]. case_decide; [done|]. split; [done|]. by left. Qed.

Lemma uv_rep_zst v l : uv_size v = 0 →
  uv_rep v l ↔ Forall (λ x : value, length x = 0) l ∧ uv_data v = Dangling ∧ uv_cap v = 0 ∧ uv_len v = length l.
Proof. intros Hs. rewrite /uv_rep decide_True // Hs. naive_solver. Qed.
Lemma uv_rep_sized v l : uv_size v ≠ 0 →
  uv_rep v l ↔ Forall (λ x : value, length x = uv_size v) l ∧ uv_len v = length l * uv_size v ∧
    ((uv_cap v = 0 ∧ uv_data v = Dangling ∧ l = []) ∨
     (∃ rest, uv_data v = Heap (uv_align v) (concat l ++ rest) ∧
              uv_cap v = length (concat l ++ rest) ∧
              4 * uv_size v ≤ uv_cap v ∧
              layout_from_size_align (uv_cap v) (uv_align v) = Some (Layout (uv_cap v) (uv_align v)))).
Proof. intros Hs. rewrite /uv_rep decide_False //. Qed.

(** *** Observers *)
Lemma uv_elems_len_rep v l : uv_rep v l → uv_elems_len v = Done (length l) v [].
Proof.
  intros [Hl Hrep]. rewrite /uv_elems_len /bind /gets /=. case_decide as Hs.
  - destruct Hrep as (_ & _ & ->). done.
  - destruct Hrep as (Hlen & _). rewrite Hlen Nat.mod_mul // Nat.div_mul //.
Qed.
Lemma uv_get_raw_rep v l i : uv_rep v l →
  uv_get_raw i v = Done (if decide (i < length l) then Some (i * uv_size v) else None) v [].
Proof.
  intros [Hl Hrep]. rewrite /uv_get_raw /bind /gets /=. destruct (decide (uv_len v = 0)) as [H0|H0].
  - rewrite decide_False; [done|]. case_decide as Hs; [lia|]. destruct Hrep as (Hlen & _).
    destruct l; [simpl; lia|]. simpl in Hlen. lia.
  - case_decide as Hs.
    + destruct Hrep as (_ & _ & Hlen). rewrite Hs Nat.mul_0_r Hlen. done.
    + destruct Hrep as (Hlen & _). rewrite Hlen Nat.mod_mul // Nat.div_mul //.
Qed.
Lemma uv_read_rep v l i x : uv_rep v l → l !! i = Some x →
  mem_read (uv_data v) (i * uv_size v) (uv_size v) = Some x.
Proof.
  intros [Hl Hrep] Hi. destruct (concat_split l i x (uv_size v) Hl Hi) as (A & B & Heq & HA & Hc & HcA & Hx).
  rewrite /mem_read. case_decide as Hs.
  - destruct Hrep as (-> & _). rewrite decide_True; [|rewrite Hs; lia]. rewrite Hs in Hx. by destruct x.
  - destruct Hrep as (_ & [(_ & _ & ->)|(rest & -> & _)]); [done|].
    rewrite Hc. rewrite decide_True.
    + f_equal. rewrite -!app_assoc drop_app_alt // take_app_alt //.
    + rewrite !app_length. lia.
Qed.
(** A readable range of the element size at an element boundary. *)
Lemma uv_write_rep v l i y : uv_rep v l → i < length l → length y = uv_size v →
  ∃ p, mem_write (uv_data v) (i * uv_size v) y = Some p ∧
       uv_rep (uv_set_data p (uv_cap v) v) (<[i := y]> l).
Proof.
  intros [Hl Hrep] Hlt Hy. destruct (lookup_lt_is_Some_2 l i Hlt) as [x Hi].
  destruct (concat_split l i x (uv_size v) Hl Hi) as (A & B & Heq & HA & Hc & HcA & Hx).
  assert (Forall (λ x : value, length x = uv_size v) (<[i := y]> l)) as Hl' by by apply Forall_insert.
  assert (<[i := y]> l = A ++ y :: B) as Hins.
  { rewrite Heq -HA. by rewrite -(Nat.add_0_r (length A)) insert_app_r. }
  rewrite /mem_write. destruct (decide (uv_size v = 0)) as [Hs|Hs].
  - destruct Hrep as (-> & Hcap & Hlen). rewrite decide_True; [|rewrite Hy Hs; lia].
    eexists. split; [done|]. apply uv_rep_zst; [done|]. rewrite insert_length.
    split_and!; [by rewrite Hs in Hl'|done|done|done].
  - destruct Hrep as (Hlen & [(_ & _ & ->)|(rest & -> & Hcap & Hcap4 & Hlay)]); [done|].
    rewrite Hc. rewrite decide_True; [|rewrite !app_length; lia].
    eexists. split; [done|]. apply uv_rep_sized; [done|]. rewrite insert_length.
    split_and!; [done|done|]. right. exists rest. simpl.
    rewrite Hins concat_app /=. split_and!.
    + f_equal. rewrite /write_at. rewrite -!app_assoc. rewrite take_app_alt; [|done]. f_equal. f_equal.
      rewrite (app_assoc (concat A)) drop_app_alt //. rewrite app_length. lia.
    + rewrite Hcap Hc !app_length. lia.
    + done.
    + done.
Qed.

Lemma uv_size_set_data p c v : uv_size (uv_set_data p c v) = uv_size v.
Proof. done. Qed.

(** *** push *)
Lemma uv_realloc_rep v l : uv_rep v l → uv_size v ≠ 0 → uv_cap v < uv_len v + uv_size v →
  wp uv_realloc v (λ _ v' ev, ev = [] ∧ uv_ti v' = uv_ti v ∧ uv_len v' = uv_len v ∧ uv_rep v' l ∧
                              uv_len v + uv_size v ≤ uv_cap v')
     no_panic.
Proof.
  intros Hrep Hs Hcap. apply uv_rep_sized in Hrep as (Hl & Hlen & Hcase); [|done].
  pose proof (concat_length_eq l _ Hl) as Hcl.
  rewrite /uv_realloc. apply wp_bind, wp_gets. simpl. rewrite decide_False //.
  destruct Hcase as [(Hc0 & Hd & ->)|(rest & Hd & Hc & Hc4 & Hlay)].
  - rewrite decide_True //. apply wp_bind, wp_unwrap_cap. intros lay Hlay.
    pose proof (layout_from_size_align_inv _ _ _ Hlay) as ->.
    apply wp_bind. rewrite /heap_alloc decide_False; [|simpl; lia]. apply wp_or_ub with (1 := eq_refl).
    apply wp_modify. split_and!; [done|done|done| |].
    + apply uv_rep_sized; [done|]. split_and!; [done|done|]. right.
      exists (replicate (uv_size v * 4) None). simpl. rewrite replicate_length.
      rewrite uv_size_set_data. split_and!; [done|done|lia|done].
    + simpl. simpl in Hlen. lia.
  - rewrite decide_False; [|lia]. apply wp_bind, wp_massert_cap. intros _.
    apply wp_bind. rewrite Hlay. apply wp_unwrap_some with (1 := eq_refl).
    apply wp_bind, wp_unwrap_cap. intros lay' Hlay'.
    pose proof (layout_from_size_align_inv _ _ _ Hlay') as ->.
    apply wp_bind. rewrite Hd /heap_realloc /=. rewrite decide_True; [|split_and!; [done|done|lia]].
    apply wp_or_ub with (1 := eq_refl). apply wp_modify. split_and!; [done|done|done| |].
    + apply uv_rep_sized; [done|]. split_and!; [done|done|]. right.
      exists (rest ++ replicate (uv_cap v * 2 - length (concat l ++ rest)) None). simpl.
      rewrite take_ge; [|lia]. rewrite -!app_assoc uv_size_set_data. split_and!; [done| |lia|done].
      rewrite !app_length replicate_length. rewrite app_length in Hc. lia.
    + simpl. rewrite app_length Hcl in Hc. lia.
Qed.
Lemma uv_push_rep v l src : uv_rep v l → uv_size v ≤ length src →
  wp (uv_push_raw src) v
     (λ _ v' ev, ev = [] ∧ uv_ti v' = uv_ti v ∧ uv_rep v' (l ++ [take (uv_size v) src])) no_panic.
Proof.
  intros Hrep Hsrc. rewrite /uv_push_raw. apply wp_bind, wp_gets. simpl.
  destruct (decide (uv_size v = 0)) as [Hs|Hs].
  - apply wp_modify. split_and!; [done|done|].
    apply uv_rep_zst in Hrep as (Hl & Hd & Hc & Hlen); [|done].
    apply uv_rep_zst; [done|]. rewrite app_length /= Hlen. split_and!; [|done|done|done].
    apply Forall_app. split; [done|]. constructor; [|done]. rewrite Hs. by destruct src.
  - apply wp_bind.
    eapply (wp_mono _ _ (λ _ v' ev, ev = [] ∧ uv_ti v' = uv_ti v ∧ uv_len v' = uv_len v ∧ uv_rep v' l ∧
                              uv_len v + uv_size v ≤ uv_cap v') _ no_panic); [| |by intros].
    { case_decide as Hcap; [by apply uv_realloc_rep|]. apply wp_ret. split_and!; [done|done|done|done|lia]. }
    intros _ v1 e1 (-> & Hti & Hlen1 & Hrep1 & Hcap1). simpl.
    assert (uv_size v1 = uv_size v) as Hs1 by by rewrite /uv_size Hti.
    apply wp_bind, wp_gets. simpl. rewrite decide_False; [|lia].
    pose proof Hrep1 as (Hl & Hlen & Hcase)%uv_rep_sized; [|by rewrite Hs1].
    pose proof (concat_length_eq l _ Hl) as Hcl.
    destruct Hcase as [(Hc0 & _)|(rest & Hd & Hc & Hc4 & Hlay)]; [lia|].
    rewrite app_length Hcl -Hlen in Hc.
    apply wp_bind. rewrite Hd /mem_write. rewrite decide_True.
    2:{ rewrite app_length take_length. lia. }
    apply wp_or_ub with (1 := eq_refl). apply wp_modify. split_and!; [done|by rewrite -Hti|].
    rewrite Hs1.
    assert (length (take (uv_size v) src) = uv_size v) as Ht by (rewrite take_length; lia).
    set (v2 := uv_set_len _ _).
    assert (uv_size v2 = uv_size v) as Hs2 by exact Hs1.
    assert (uv_align v2 = uv_align v1) as Ha2 by done.
    apply uv_rep_sized; [congruence|]. rewrite Hs2 Ha2 concat_app app_length /= app_nil_r. split_and!.
    + apply Forall_app. split; [by rewrite -Hs1|]. by constructor.
    + rewrite Hlen Hs1. lia.
    + right. exists (drop (uv_size v) rest). split_and!.
      * f_equal. rewrite /write_at Ht. rewrite take_app_alt; [|by rewrite Hlen Hcl].
        rewrite -app_assoc. do 2 f_equal. rewrite Hlen -Hcl. rewrite drop_app_ge; [|lia]. f_equal. lia.
      * rewrite !app_length Ht drop_length Hcl. lia.
      * rewrite -Hs1. lia.
      * done.
Qed.

(** *** pop *)
Lemma uv_pop_rep v l x : uv_rep v (l ++ [x]) →
  ∃ v', uv_pop v = Done true v' (drop_event (ti_drop (uv_ti v)) x) ∧ uv_ti v' = uv_ti v ∧ uv_rep v' l ∧
        uv_data v' = uv_data v ∧ uv_cap v' = uv_cap v.
Proof.
  intros Hrep. pose proof (uv_rep_size v _ x (length l) Hrep) as Hx.
  specialize (Hx ltac:(by rewrite lookup_app_r // Nat.sub_diag)).
  rewrite /uv_pop /bind /gets /=. destruct (decide (uv_size v = 0)) as [Hs|Hs].
  - apply uv_rep_zst in Hrep as (Hl & Hd & Hc & Hlen); [|done]. rewrite app_length /= in Hlen.
    rewrite decide_True; [|lia]. simpl. exists (uv_set_len (uv_len v - 1) v). split_and!; try done.
    + rewrite Hs in Hx. destruct x; [|done]. by rewrite app_nil_r.
    + apply uv_rep_zst; [done|]. apply Forall_app in Hl as [Hl _]. split_and!; [done..|]. simpl. lia.
  - pose proof Hrep as (Hl & Hlen & Hcase)%uv_rep_sized; [|done].
    rewrite app_length /= in Hlen. rewrite decide_False; [|lia]. rewrite decide_True; [|lia].
    assert (uv_len v - uv_size v = length l * uv_size v) as -> by lia.
    rewrite (uv_read_rep v _ (length l) x Hrep); [|by rewrite lookup_app_r // Nat.sub_diag]. simpl.
    exists (uv_set_len (length l * uv_size v) v). split_and!; try done.
    + by rewrite app_nil_r.
    + apply uv_rep_sized; [done|]. apply Forall_app in Hl as [Hl _]. split_and!; [done|done|].
      destruct Hcase as [(? & ? & H)|(rest & Hd & Hc & Hc4 & Hlay)].
      { by destruct l. }
      right. exists (x ++ rest). rewrite concat_app /= app_nil_r -app_assoc in Hd, Hc. done.
Qed.
Lemma uv_pop_empty v : uv_rep v [] → uv_size v ≠ 0 → uv_pop v = Done false v [].
Proof.
  intros Hrep Hs. apply uv_rep_sized in Hrep as (_ & Hlen & _); [|done]. simpl in Hlen.
  rewrite /uv_pop /bind /gets /=. rewrite decide_False; [|lia]. rewrite decide_False; [done|lia].
Qed.

(** *** swapping two elements *)
Lemma uv_swap_rep v l i j x y : uv_rep v l → uv_size v ≠ 0 → i ≠ j → l !! i = Some x → l !! j = Some y →
  ∃ p, mem_swap (uv_data v) (i * uv_size v) (j * uv_size v) (uv_size v) = Some p ∧
       uv_rep (uv_set_data p (uv_cap v) v) (<[j := x]> (<[i := y]> l)).
Proof.
  intros Hrep Hs Hij Hi Hj.
  rewrite /mem_swap decide_True; [|nia]. rewrite (uv_read_rep _ _ _ _ Hrep Hi) (uv_read_rep _ _ _ _ Hrep Hj).
  destruct (uv_write_rep v l i y Hrep) as (p1 & -> & Hrep1).
  { by eapply lookup_lt_Some. } { by eapply uv_rep_size. }
  destruct (uv_write_rep _ _ j x Hrep1) as (p2 & Hw2 & Hrep2).
  { rewrite insert_length. by eapply lookup_lt_Some. } { rewrite uv_size_set_data. by eapply uv_rep_size. }
  simpl in Hw2. change (uv_size (uv_set_data p1 (uv_cap v) v)) with (uv_size v) in Hw2. rewrite Hw2.
  exists p2. done.
Qed.
Lemma swap_to_end {A} (l : list A) i x y : i ≠ length l → l !! i = Some x →
  <[length l := x]> (<[i := y]> (l ++ [y])) = <[i := y]> l ++ [x].
Proof.
  intros Hi Hx. assert (i < length l) by by eapply lookup_lt_Some.
  rewrite insert_app_l //. replace (length l) with (length (<[i:=y]> l) + 0) by (rewrite insert_length; lia).
  by rewrite insert_app_r.
Qed.
Lemma vec_swap_remove_app {A} (l : list A) i y : i < length l →
  vec_swap_remove i (l ++ [y]) = Some (<[i := y]> l).
Proof.
  intros Hi. rewrite /vec_swap_remove app_length /= decide_True; [|lia]. rewrite last_snoc.
  f_equal. rewrite insert_app_l //. replace (length l + 1 - 1) with (length (<[i:=y]> l)).
  - by rewrite take_app.
  - rewrite insert_length. lia.
Qed.
Lemma vec_swap_remove_end {A} (l : list A) y : vec_swap_remove (length l) (l ++ [y]) = Some l.
Proof.
  rewrite /vec_swap_remove app_length /= decide_True; [|lia]. rewrite last_snoc. f_equal.
  rewrite list_insert_id; [|by rewrite lookup_app_r // Nat.sub_diag].
  replace (length l + 1 - 1) with (length l) by lia. by rewrite take_app.
Qed.

(** *** swap_remove *)
Lemma uv_swap_remove_rep v l i x l' : uv_rep v l → l !! i = Some x → vec_swap_remove i l = Some l' →
  ∃ v', uv_swap_remove i v = Done () v' (drop_event (ti_drop (uv_ti v)) x) ∧
        uv_ti v' = uv_ti v ∧ uv_rep v' l'.
Proof.
  intros Hrep Hi Hl'. assert (i < length l) as Hlt by by eapply lookup_lt_Some.
  destruct (exists_last (l := l)) as (l0 & y & ->); [by intros ->|].
  rewrite app_length /= in Hlt.
  rewrite /uv_swap_remove /bind /gets /=.
  assert (0 < uv_len v) as Hlen0.
  { destruct (decide (uv_size v = 0)) as [Hs|Hs].
    - apply uv_rep_zst in Hrep as (_ & _ & _ & Hlen); [|done]. rewrite app_length /= in Hlen. lia.
    - apply uv_rep_sized in Hrep as (_ & Hlen & _); [|done]. rewrite app_length /= in Hlen. nia. }
  rewrite (bool_decide_true (0 < uv_len v)) //=.
  assert (uv_size v ≠ 0 → uv_len v / uv_size v = S (length l0)) as Hdiv.
  { intros Hs. apply uv_rep_sized in Hrep as (_ & Hlen & _); [|done]. rewrite Hlen Nat.div_mul // app_length /=. lia. }
  assert (bool_decide (uv_size v = 0) || bool_decide (i < uv_len v / uv_size v) = true) as ->.
  { destruct (decide (uv_size v = 0)); [by rewrite bool_decide_true|]. rewrite Hdiv //.
    rewrite (bool_decide_true (i < S (length l0))); [|lia]. by rewrite orb_true_r. }
  simpl. case_decide as Hbr.
  - (* pop *)
    assert (i < uv_len v) as Hil.
    { destruct (decide (uv_size v = 0)) as [Hs|Hs].
      - apply uv_rep_zst in Hrep as (_ & _ & _ & Hlen); [|done]. rewrite app_length /= in Hlen. lia.
      - apply uv_rep_sized in Hrep as (_ & Hlen & _); [|done]. rewrite app_length /= in Hlen. nia. }
    rewrite bool_decide_true //=.
    destruct (decide (uv_size v = 0)) as [Hs|Hs].
    + (* zero-sized: all values are [] *)
      pose proof Hrep as (Hl & _)%uv_rep_zst; [|done]. pose proof (replicate_nil_eq _ Hl) as Hrn.
      assert (x = [] ∧ y = []) as [-> ->].
      { split; [|apply Forall_app in Hl as [_ Hy]; apply nil_length_inv, (Forall_inv Hy)].
        apply nil_length_inv. exact (Forall_lookup_1 _ _ _ _ Hl Hi). }
      destruct (uv_pop_rep _ _ _ Hrep) as (v' & Hp & Hti & Hrep' & _). rewrite Hp /=. exists v'.
      rewrite app_nil_r. split_and!; [done|done|].
      assert (l' = l0) as ->; [|done].
      apply vec_swap_remove_length in Hl' as Hll. rewrite app_length /= in Hll.
      assert (Forall (λ x : value, length x = 0) l') as Hf.
      { apply Forall_lookup_2. intros j z Hz. rewrite (vec_swap_remove_lookup _ _ _ j Hl') in Hz.
        case_decide; [|done]. case_decide; exact (Forall_lookup_1 _ _ _ _ Hl Hz). }
      apply Forall_app in Hl as [Hl0 _].
      rewrite (replicate_nil_eq _ Hf) (replicate_nil_eq _ Hl0). f_equal. lia.
    + destruct Hbr as [|Hbr]; [done|]. rewrite Hdiv // in Hbr. assert (i = length l0) as -> by lia.
      rewrite lookup_app_r // Nat.sub_diag in Hi. injection Hi as ->.
      rewrite vec_swap_remove_end in Hl'. injection Hl' as <-.
      destruct (uv_pop_rep _ _ _ Hrep) as (v' & Hp & Hti & Hrep' & _). rewrite Hp /=. exists v'.
      by rewrite app_nil_r.
  - assert (uv_size v ≠ 0) as Hs by naive_solver. rewrite Hdiv // in Hbr. assert (i ≠ length l0) as Hne by lia.
    assert (uv_len v - uv_size v = length l0 * uv_size v) as Hts.
    { apply uv_rep_sized in Hrep as (_ & Hlen & _); [|done]. rewrite Hlen app_length /=. nia. }
    rewrite Hts.
    destruct (uv_swap_rep v _ i (length l0) x y Hrep Hs Hne Hi) as (p & -> & Hrep1).
    { by rewrite lookup_app_r // Nat.sub_diag. }
    rewrite lookup_app_l in Hi; [|lia].
    rewrite (swap_to_end l0 i x y Hne Hi) in Hrep1.
    rewrite vec_swap_remove_app in Hl'; [|lia]. injection Hl' as <-.
    destruct (uv_pop_rep _ _ _ Hrep1) as (v' & Hp & Hti & Hrep' & _). simpl. rewrite Hp /=.
    exists v'. by rewrite app_nil_r.
Qed.

(** *** swap_move_element_to_other_vec *)
Lemma uv_swap_move_rep v o l lo i x l' :
  uv_rep v l → uv_rep o lo → ti_layout (uv_ti v) = ti_layout (uv_ti o) →
  l !! i = Some x → vec_swap_remove i l = Some l' →
  wp (uv_swap_move i) (v, o)
     (λ _ s ev, ev = [] ∧ uv_ti s.1 = uv_ti v ∧ uv_ti s.2 = uv_ti o ∧ uv_rep s.1 l' ∧ uv_rep s.2 (lo ++ [x]))
     no_panic.
Proof.
  intros Hrep Hrepo Hti Hi Hl'. assert (i < length l) as Hlt by by eapply lookup_lt_Some.
  assert (uv_size o = uv_size v) as Hso by by rewrite /uv_size /ti_size Hti.
  destruct (exists_last (l := l)) as (l0 & y & ->); [by intros ->|].
  rewrite app_length /= in Hlt.
  rewrite /uv_swap_move. apply wp_bind, wp_gets. cbn [fst snd id].
  apply wp_bind, wp_massert_true; [by rewrite /ti_eqb bool_decide_true|].
  assert (0 < uv_len v) as Hlen0.
  { destruct (decide (uv_size v = 0)) as [Hs|Hs].
    - apply uv_rep_zst in Hrep as (_ & _ & _ & Hlen); [|done]. rewrite app_length /= in Hlen. lia.
    - apply uv_rep_sized in Hrep as (_ & Hlen & _); [|done]. rewrite app_length /= in Hlen. nia. }
  assert (uv_size v ≠ 0 → uv_len v / uv_size v = S (length l0)) as Hdiv.
  { intros Hs. apply uv_rep_sized in Hrep as (_ & Hlen & _); [|done]. rewrite Hlen Nat.div_mul // app_length /=. lia. }
  apply wp_bind, wp_massert_true; [by rewrite bool_decide_true|].
  apply wp_bind, wp_massert_true.
  { destruct (decide (uv_size v = 0)); [by rewrite bool_decide_true|]. rewrite Hdiv //.
    rewrite (bool_decide_true (i < S (length l0))); [|lia]. by rewrite orb_true_r. }
  destruct (decide (uv_size v = 0)) as [Hs|Hs].
  - pose proof Hrep as (Hl & Hd & Hc & Hlen)%uv_rep_zst; [|done].
    pose proof Hrepo as (Hlo & Hdo & Hco & Hleno)%uv_rep_zst; [|congruence].
    apply wp_bind. eapply wp_zoom; [done|]. apply wp_modify. cbn [fst snd].
    eapply wp_zoom; [done|]. apply wp_modify. cbn [fst snd]. split_and!; [done|done|done| |].
    + apply uv_rep_zst; [done|]. apply vec_swap_remove_length in Hl' as Hll. rewrite app_length /= in Hll, Hlen.
      split_and!; [|done|done|simpl; lia].
      apply Forall_lookup_2. intros j z Hz. rewrite (vec_swap_remove_lookup _ _ _ j Hl') in Hz.
      case_decide; [|done]. case_decide; exact (Forall_lookup_1 _ _ _ _ Hl Hz).
    + apply uv_rep_zst; [by rewrite -Hso in Hs|]. rewrite app_length /=. split_and!; [|done|done|lia].
      apply Forall_app. split; [done|]. constructor; [|done]. exact (Forall_lookup_1 _ _ _ _ Hl Hi).
  - rewrite Hdiv //. assert (uv_len v - uv_size v = length l0 * uv_size v) as Hts.
    { apply uv_rep_sized in Hrep as (_ & Hlen & _); [|done]. rewrite Hlen app_length /=. nia. }
    rewrite Hts.
    assert (∀ v1 l1 z, uv_rep v1 (l1 ++ [z]) → uv_size v1 ≠ 0 → uv_rep (uv_set_len (length l1 * uv_size v1) v1) l1) as Hshrink.
    { intros v1 l1 z Hr1 Hs1. pose proof Hr1 as (Hl & Hlen & Hcase)%uv_rep_sized; [|done].
      apply uv_rep_sized; [done|]. apply Forall_app in Hl as [Hl _]. split_and!; [done|done|].
      destruct Hcase as [(? & ? & H)|(rest & Hd & Hc & Hc4 & Hlay)].
      { by destruct l1. }
      right. exists (z ++ rest). rewrite concat_app /= app_nil_r -app_assoc in Hd, Hc. done. }
    case_decide as Hbr.
    + assert (i = length l0) as -> by lia.
      apply wp_bind. eapply wp_or_ub; [by eapply uv_read_rep|].
      rewrite lookup_app_r // Nat.sub_diag in Hi. injection Hi as ->.
      rewrite vec_swap_remove_end in Hl'. injection Hl' as <-.
      apply wp_bind. eapply wp_zoom; [done|]. cbn [fst snd].
      assert (length x = uv_size v) as Hx.
      { eapply (uv_rep_size _ _ _ (length l0) Hrep). by rewrite lookup_app_r // Nat.sub_diag. }
      eapply wp_mono; [apply (uv_push_rep o lo x Hrepo); lia| |done].
      intros _ o' e (-> & Htio & Hro). simpl. eapply wp_zoom; [done|]. apply wp_modify. cbn [fst snd].
      split_and!; [done|done|done|by eapply Hshrink|]. rewrite Hso take_ge in Hro; [done|lia].
    + assert (i ≠ length l0) as Hne by lia.
      destruct (uv_swap_rep v _ i (length l0) x y Hrep Hs Hne Hi) as (p & -> & Hrep1).
      { by rewrite lookup_app_r // Nat.sub_diag. }
      rewrite lookup_app_l in Hi; [|lia].
      rewrite (swap_to_end l0 i x y Hne Hi) in Hrep1.
      rewrite vec_swap_remove_app in Hl'; [|lia]. injection Hl' as <-.
      apply wp_bind. apply wp_or_ub with (1 := eq_refl).
      apply wp_bind. eapply wp_zoom; [done|]. apply wp_modify. cbn [fst snd].
      assert (length (<[i:=y]> l0) = length l0) as Hll by by rewrite insert_length.
      assert ((<[i:=y]> l0 ++ [x]) !! length l0 = Some x) as Hend.
      { by rewrite lookup_app_r Hll // Nat.sub_diag. }
      pose proof (uv_read_rep _ _ _ _ Hrep1 Hend) as Hread.
      change (uv_size (uv_set_data p (uv_cap v) v)) with (uv_size v) in Hread. simpl in Hread.
      apply wp_bind. eapply wp_or_ub; [exact Hread|].
      assert (length x = uv_size v) as Hx by exact (uv_rep_size _ _ _ _ Hrep1 Hend).
      apply wp_bind. eapply wp_zoom; [done|]. cbn [fst snd].
      eapply wp_mono; [apply (uv_push_rep o lo x Hrepo); lia| |done].
      intros _ o' e (-> & Htio & Hro). simpl. eapply wp_zoom; [done|]. apply wp_modify. cbn [fst snd].
      split_and!; [done|done|done| |].
      * pose proof (Hshrink _ _ _ Hrep1 Hs) as H. rewrite Hll in H. exact H.
      * rewrite Hso take_ge in Hro; [done|lia].
Qed.

(** *** drop *)
Lemma uv_pop_all_rep v l fuel : uv_rep v l → uv_size v ≠ 0 → length l < fuel →
  ∃ v', uv_pop_all fuel v = Done () v' (concat (drop_event (ti_drop (uv_ti v)) <$> reverse l)) ∧
        uv_ti v' = uv_ti v ∧ uv_data v' = uv_data v ∧ uv_cap v' = uv_cap v.
Proof.
  revert v l. induction fuel as [|fuel IH]; intros v l Hrep Hs Hf; [lia|]. simpl.
  destruct (decide (l = [])) as [->|Hne].
  - exists v. by rewrite /bind uv_pop_empty.
  - destruct (exists_last Hne) as (l0 & x & ->). rewrite app_length /= in Hf.
    destruct (uv_pop_rep _ _ _ Hrep) as (v1 & Hp & Hti & Hrep1 & Hd & Hc).
    destruct (IH v1 l0 Hrep1) as (v2 & Hr & Hti2 & Hd2 & Hc2); [by rewrite /uv_size Hti|lia|].
    exists v2. rewrite /bind Hp Hr /=. split_and!; [|congruence..].
    f_equal. rewrite reverse_app /= Hti. done.
Qed.
Definition drop_events_of (ti : type_info) (l : list value) : list event :=
  if decide (ti_size ti = 0) then [] else concat (drop_event (ti_drop ti) <$> reverse l).
Lemma uv_drop_rep v l : uv_rep v l →
  ∃ v', uv_drop v = Done () v' (drop_events_of (uv_ti v) l).
Proof.
  intros Hrep. rewrite /drop_events_of -/(uv_size v).
  rewrite /uv_drop (bind_done_nil _ _ v v v eq_refl).
  destruct (decide (uv_size v = 0)) as [Hs|Hs].
  - apply uv_rep_zst in Hrep as (_ & _ & Hc & _); [|done]. case_decide; [lia|]. by exists v.
  - pose proof Hrep as (Hl & Hlen & Hcase)%uv_rep_sized; [|done].
    destruct Hcase as [(Hc & Hd & ->)|(rest & Hd & Hc & Hc4 & Hlay)].
    { case_decide; [lia|]. by exists v. }
    case_decide; [|lia].
    destruct (uv_pop_all_rep v l (S (S (uv_len v))) Hrep Hs) as (v1 & Hpop & Hti & Hd1 & Hc1).
    { rewrite Hlen. nia. }
    exists v1. rewrite (bind_done _ _ _ _ _ _ Hpop) (bind_done_nil _ _ v1 v1 v1 eq_refl).
    rewrite /bind Hc1 /uv_align Hti -/(uv_align v) Hlay /=. rewrite Hd1 Hd /heap_dealloc /=.
    rewrite decide_True //=. by rewrite app_nil_r.
Qed.
Lemma uv_drop_events_rep v l : uv_rep v l → uv_drop_events v = Some (drop_events_of (uv_ti v) l).
Proof. intros Hrep. rewrite /uv_drop_events. by destruct (uv_drop_rep _ _ Hrep) as [v' ->]. Qed.

(** ** Histories *)
Lemma list_swap_remove_vec i l x l' : list_swap_remove i l = Some (x, l') →
  l !! i = Some x ∧ vec_swap_remove i l = Some l'.
Proof.
  rewrite /list_swap_remove. destruct (l !! i) as [x'|] eqn:Hi; [|done].
  destruct (last l) as [y|] eqn:Hy; [|done]. intros [= <- <-]. split; [done|].
  assert (i < length l) as Hlt by by eapply lookup_lt_Some.
  apply last_Some in Hy as [l0 ->]. rewrite app_length /= in Hlt |- *.
  case_decide as Hd.
  - assert (i = length l0) as -> by lia. by rewrite vec_swap_remove_end take_app.
  - rewrite vec_swap_remove_app; [|lia]. do 2 f_equal.
    replace (length l0 + 1 - 1) with (length l0) by lia. by rewrite take_app.
Qed.
Lemma uv_rep_observes v l : uv_rep v l → observes v l.
Proof.
  intros Hrep. split; [by apply uv_elems_len_rep|].
  assert (uv_raw_len v = (if decide (uv_size v = 0) then length l else length (concat l)) ∧
          uv_is_empty v = bool_decide (l = [])) as [H1 H2].
  { destruct Hrep as [Hl Hrep]. rewrite /uv_raw_len /uv_is_empty. case_decide as Hs.
    - destruct Hrep as (_ & _ & ->). split; [done|]. apply bool_decide_ext. by destruct l.
    - destruct Hrep as [-> _]. split.
      + by rewrite (concat_length_eq _ _ Hl).
      + apply bool_decide_ext. destruct l; [done|]. split; [|done]. cbn. lia. }
  split_and!; [done..|]. intros i. rewrite (uv_get_raw_rep v l i Hrep).
  destruct (l !! i) as [x|] eqn:Hi.
  - rewrite decide_True; [|by eapply lookup_lt_Some]. eexists. split; [done|]. by eapply uv_read_rep.
  - rewrite decide_False; [done|]. apply Nat.nlt_ge. by apply lookup_ge_None_1.
Qed.

(** Vectors of one layout representing a pair of lists. *)
Definition rep2 (ti1 ti2 : type_info) (s : uvec * uvec) (p : lpair) : Prop :=
  uv_ti s.1 = ti1 ∧ uv_ti s.2 = ti2 ∧ uv_rep s.1 p.1 ∧ uv_rep s.2 p.2.

Lemma uv_step_spec ti1 ti2 o s p r p' ev : ti_layout ti1 = ti_layout ti2 → rep2 ti1 ti2 s p →
  lv_step (ti_size ti1) (λ b, ti_drop (if b then ti1 else ti2)) o p = Some (r, p', ev) →
  wp (uv_step o) s (λ r' s' ev', r' = r ∧ ev' = ev ∧ rep2 ti1 ti2 s' p') no_panic.
Proof.
  intros Hti (H1 & H2 & Hr1 & Hr2). destruct s as [v1 v2], p as [l1 l2]. simpl in *.
  assert (uv_size v1 = ti_size ti1) as Hs1 by by rewrite /uv_size H1.
  assert (uv_size v2 = ti_size ti1) as Hs2 by by rewrite /uv_size H2 /ti_size Hti.
  destruct o as [b x junk|b|b i|b i]; simpl.
  - case_decide as Hx; [|done]. intros [= <- <- <-]. apply wp_bind.
    destruct b; (eapply wp_zoom; [done|]); cbn [fst snd lset lget].
    + eapply wp_mono; [apply (uv_push_rep v1 l1); [done|rewrite app_length; lia]| |done].
      intros _ v' e (-> & Ht & Hr). apply wp_ret. split_and!; [done|done|]. split_and!; simpl; [congruence..| |done].
      rewrite Hs1 take_app_alt // in Hr.
    + eapply wp_mono; [apply (uv_push_rep v2 l2); [done|rewrite app_length; lia]| |done].
      intros _ v' e (-> & Ht & Hr). apply wp_ret. split_and!; [done|done|]. split_and!; simpl; [congruence..|done|].
      rewrite Hs2 take_app_alt // in Hr.
  - destruct (last (lget b (l1, l2))) as [x|] eqn:Hl.
    + intros [= <- <- <-]. apply last_Some in Hl as [l0 Hl0].
      destruct b; (eapply wp_zoom; [done|]); cbn [fst snd lset lget] in *; subst.
      * destruct (uv_pop_rep _ _ _ Hr1) as (v' & Hp & Ht & Hr & _). rewrite /wp Hp.
        rewrite app_length /=. replace (length l0 + 1 - 1) with (length l0) by lia. rewrite take_app. done.
      * destruct (uv_pop_rep _ _ _ Hr2) as (v' & Hp & Ht & Hr & _). rewrite /wp Hp.
        rewrite app_length /=. replace (length l0 + 1 - 1) with (length l0) by lia. rewrite take_app. done.
    + case_decide as Hs; [done|]. intros [= <- <- <-]. apply last_None in Hl.
      destruct b; (eapply wp_zoom; [done|]); cbn [fst snd lset lget] in *; subst.
      * rewrite /wp uv_pop_empty //.
      * rewrite /wp uv_pop_empty //. by rewrite Hs2.
  - destruct (list_swap_remove i (lget b (l1, l2))) as [[x l']|] eqn:Hl; [|done].
    intros [= <- <- <-]. apply list_swap_remove_vec in Hl as [Hi Hv]. apply wp_bind.
    destruct b; (eapply wp_zoom; [done|]); cbn [fst snd lset lget] in *.
    + destruct (uv_swap_remove_rep _ _ _ _ _ Hr1 Hi Hv) as (v' & Hp & Ht & Hr). rewrite /wp Hp /=.
      rewrite app_nil_r. split_and!; [done|by rewrite H1|]. split_and!; simpl; [congruence|done|done|done].
    + destruct (uv_swap_remove_rep _ _ _ _ _ Hr2 Hi Hv) as (v' & Hp & Ht & Hr). rewrite /wp Hp /=.
      rewrite app_nil_r. split_and!; [done|by rewrite H2|]. split_and!; simpl; [done|congruence|done|done].
  - destruct (list_swap_remove i (lget b (l1, l2))) as [[x l']|] eqn:Hl; [|done].
    intros [= <- <- <-]. apply list_swap_remove_vec in Hl as [Hi Hv]. apply wp_bind.
    destruct b; cbn [fst snd lset lget negb] in *.
    + eapply wp_mono; [apply (uv_swap_move_rep v1 v2 l1 l2 i x l'); [done|done|congruence|done|done]| |done].
      intros _ [v1' v2'] e (-> & Ht1 & Ht2 & Hr1' & Hr2'). apply wp_ret.
      split_and!; [done|done|]. split_and!; simpl in *; [congruence|congruence|done|done].
    + eapply wp_zoom; [done|]. simpl.
      eapply wp_mono; [apply (uv_swap_move_rep v2 v1 l2 l1 i x l'); [done|done|congruence|done|done]| |done].
      intros _ [v1' v2'] e (-> & Ht1 & Ht2 & Hr1' & Hr2'). apply wp_ret.
      split_and!; [done|done|]. split_and!; simpl in *; [congruence|congruence|done|done].
Qed.

Lemma uv_run_spec ti1 ti2 h s p rs p' ev : ti_layout ti1 = ti_layout ti2 → rep2 ti1 ti2 s p →
  lv_run (ti_size ti1) (λ b, ti_drop (if b then ti1 else ti2)) h p = Some (rs, p', ev) →
  wp (uv_run h) s (λ rs' s' ev', rs' = rs ∧ ev' = ev ∧ rep2 ti1 ti2 s' p') no_panic.
Proof.
  intros Hti. revert s p rs p' ev. induction h as [|o h IH]; intros s p rs p' ev Hrep; simpl.
  { intros [= <- <- <-]. by apply wp_ret. }
  destruct (lv_step _ _ _ _) as [[[r p1] e1]|] eqn:Hst; [|done].
  destruct (lv_run _ _ _ _) as [[[rs1 p2] e2]|] eqn:Hrun; [|done]. intros [= <- <- <-].
  apply wp_bind. eapply wp_mono; [by eapply uv_step_spec| |done].
  intros r' s' ev' (-> & -> & Hrep'). apply wp_bind.
  eapply wp_mono; [by eapply IH| |done]. intros rs' s2 ev2 (-> & -> & Hrep2).
  apply wp_ret. by rewrite app_nil_r.
Qed.
Lemma rep2_new ti1 ti2 : rep2 ti1 ti2 (uv_new ti1, uv_new ti2) ([], []).
Proof. split_and!; [done|done|apply uv_rep_new|apply uv_rep_new]. Qed.

Lemma uv_sequence ti1 ti2 h rs l1 l2 ev : ti_layout ti1 = ti_layout ti2 →
  lv_run (ti_size ti1) (λ b, ti_drop (if b then ti1 else ti2)) h ([], []) = Some (rs, (l1, l2), ev) →
  match uv_run h (uv_new ti1, uv_new ti2) with
  | Done rs' s ev' => rs' = rs ∧ ev' = ev ∧ observes s.1 l1 ∧ observes s.2 l2
  | Panicked r _ _ => r = RCapacity
  | Deadlock | UB => False
  end.
Proof.
  intros Hti Hrun. pose proof (uv_run_spec _ _ _ _ _ _ _ _ Hti (rep2_new ti1 ti2) Hrun) as Hwp.
  rewrite /wp in Hwp. destruct (uv_run h _) as [rs' s ev'|r s ev'| |]; [|by destruct Hwp|done..].
  destruct Hwp as (-> & -> & _ & _ & H1 & H2). split_and!; [done|done|by apply uv_rep_observes|by apply uv_rep_observes].
Qed.

(** *** Panics leave the vectors as they were *)
Lemma uv_realloc_panic v r v' e : uv_realloc v = Panicked r v' e → v' = v ∧ e = [].
Proof.
  rewrite /uv_realloc (bind_done_nil _ _ v v v eq_refl). case_decide; [by inversion 1|]. case_decide.
  - destruct (layout_from_size_align _ _) as [lay|]; [|by inversion 1].
    rewrite (bind_done_nil _ _ v lay v eq_refl). by destruct (heap_alloc lay).
  - destruct (_ <? _)%N; [|by inversion 1]. rewrite (bind_done_nil _ _ v () v eq_refl).
    destruct (layout_from_size_align _ _) as [lay|]; [|by inversion 1].
    rewrite (bind_done_nil _ _ v lay v eq_refl).
    destruct (layout_from_size_align _ _) as [lay'|]; [|by inversion 1].
    rewrite (bind_done_nil _ _ v lay' v eq_refl). by destruct (heap_realloc _ _ _).
Qed.
Lemma uv_push_panic v src r v' e : uv_push_raw src v = Panicked r v' e → v' = v ∧ e = [].
Proof.
  rewrite /uv_push_raw (bind_done_nil _ _ v v v eq_refl). case_decide; [done|].
  intros [Hp|(a & v1 & e1 & e2 & Hd & Hk & ->)]%bind_panic_inv.
  - case_decide; [by eapply uv_realloc_panic|done].
  - exfalso. rewrite (bind_done_nil _ _ v1 v1 v1 eq_refl) in Hk.
    case_decide; [done|]. rewrite /bind /or_ub in Hk. by destruct (mem_write _ _ _).
Qed.

(** Every call, whatever its arguments: no undefined behaviour; a panic changes nothing. *)
Definition total1 (v v' : uvec) : Prop := uv_ti v' = uv_ti v ∧ uv_wf v'.
Lemma uv_pop_total v : uv_wf v → ∃ b v' e, uv_pop v = Done b v' e ∧ total1 v v'.
Proof.
  intros Hwf. destruct (decide (uv_vals v = [])) as [Hn|Hn].
  - destruct (decide (uv_size v = 0)) as [Hs|Hs].
    + pose proof Hwf as (_ & Hd & Hc & Hlen)%uv_rep_zst; [|done]. rewrite Hn /= in Hlen.
      exists true, (uv_set_len (uv_len v - uv_size v) v), (drop_event (ti_drop (uv_ti v)) []).
      split.
      * rewrite /uv_pop (bind_done_nil _ _ v v v eq_refl).
        rewrite decide_False; [|lia]. rewrite decide_True; [|lia].
        rewrite (bind_done_nil _ _ v () _ eq_refl) Hlen Hs Hd /=. by rewrite /bind /= app_nil_r.
      * split; [done|]. apply (uv_rep_wf _ []). apply uv_rep_zst; [done|]. simpl. split_and!; [done|done|done|lia].
    + exists false, v, []. split; [|done]. apply uv_pop_empty; [|done]. by rewrite -Hn.
  - destruct (exists_last Hn) as (l & x & Hl). rewrite /uv_wf Hl in Hwf.
    destruct (uv_pop_rep _ _ _ Hwf) as (v' & Hp & Ht & Hr & _). do 3 eexists. split; [done|].
    split; [done|]. by eapply uv_rep_wf.
Qed.
Lemma uv_len_pos v : uv_wf v → 0 < uv_len v → 0 < length (uv_vals v).
Proof.
  intros Hwf. destruct (decide (uv_size v = 0)) as [Hs|Hs].
  - apply uv_rep_zst in Hwf as (_ & _ & _ & Hlen); [|done]. lia.
  - apply uv_rep_sized in Hwf as (_ & Hlen & _); [|done]. rewrite Hlen. destruct (uv_vals v); simpl; lia.
Qed.
Lemma uv_len_div v : uv_wf v → uv_size v ≠ 0 → uv_len v / uv_size v = length (uv_vals v).
Proof. intros Hwf Hs. apply uv_rep_sized in Hwf as (_ & Hlen & _); [|done]. by rewrite Hlen Nat.div_mul. Qed.
Lemma uv_swap_remove_out v i : uv_wf v → length (uv_vals v) ≤ i → uv_swap_remove i v = Panicked RAssert v [].
Proof.
  intros Hwf Hi. rewrite /uv_swap_remove (bind_done_nil _ _ v v v eq_refl).
  case_bool_decide as H0; [|done]. rewrite (bind_done_nil _ _ v () v eq_refl).
  destruct (decide (uv_size v = 0)) as [Hs|Hs].
  - rewrite (bool_decide_true (uv_size v = 0)) //. rewrite (bind_done_nil _ _ v () v eq_refl).
    rewrite decide_True; [|by left]. apply uv_rep_zst in Hwf as (_ & _ & _ & Hlen); [|done].
    rewrite bool_decide_false; [|lia]. done.
  - rewrite (bool_decide_false (uv_size v = 0)) // uv_len_div // bool_decide_false; [done|lia].
Qed.
Lemma uv_swap_move_out v o i : uv_wf v → uv_size v ≠ 0 → length (uv_vals v) ≤ i →
  uv_swap_move i (v, o) = Panicked RAssert (v, o) [].
Proof.
  intros Hwf Hs Hi. rewrite /uv_swap_move (bind_done_nil _ _ (v, o) (v, o) (v, o) eq_refl).
  destruct (ti_eqb _ _); [|done]. rewrite (bind_done_nil _ _ (v, o) () (v, o) eq_refl).
  case_bool_decide as H0; [|done]. rewrite (bind_done_nil _ _ (v, o) () (v, o) eq_refl).
  rewrite (bool_decide_false (uv_size v = 0)) // uv_len_div // bool_decide_false; [done|lia].
Qed.
Lemma uv_swap_remove_total v i : uv_wf v →
  match uv_swap_remove i v with
  | Done _ v' _ => total1 v v' | Panicked _ v' _ => v' = v | _ => False
  end.
Proof.
  intros Hwf. destruct (decide (i < length (uv_vals v))) as [Hi|Hi].
  - destruct (lookup_lt_is_Some_2 _ _ Hi) as [x Hx]. destruct (vec_swap_remove_some _ _ Hi) as [l' Hl'].
    destruct (uv_swap_remove_rep _ _ _ _ _ Hwf Hx Hl') as (v' & -> & Ht & Hr). split; [done|]. by eapply uv_rep_wf.
  - rewrite uv_swap_remove_out //. lia.
Qed.
Lemma uv_push_total v src : uv_wf v → uv_size v ≤ length src →
  match uv_push_raw src v with
  | Done _ v' _ => total1 v v' | Panicked _ v' _ => v' = v | _ => False
  end.
Proof.
  intros Hwf Hsrc. pose proof (uv_push_rep v _ src Hwf Hsrc) as Hwp. rewrite /wp in Hwp.
  destruct (uv_push_raw src v) as [a v' e|r v' e| |] eqn:Hp; [|by apply uv_push_panic in Hp as [-> _]|done..].
  destruct Hwp as (_ & Ht & Hr). split; [done|]. by eapply uv_rep_wf.
Qed.
(** During a move the two vectors may already have been reordered when the push panics. *)
Lemma uv_set_len_wf v n : uv_wf v → uv_size v = 0 → uv_wf (uv_set_len n v).
Proof.
  intros Hw Hs. apply uv_rep_zst in Hw as (Hl & Hd & Hc & Hlen); [|done]. apply (uv_rep_wf _ (replicate n [])).

  apply uv_rep_zst; [done|]. rewrite replicate_length. split_and!; [|done|done|done].
  by apply Forall_replicate.
Qed.
Lemma uv_swap_move_total v o i : uv_wf v → uv_wf o →
  match uv_swap_move i (v, o) with
  | Done _ s _ | Panicked _ s _ => total1 v s.1 ∧ total1 o s.2 | _ => False
  end.
Proof.
  intros Hwf Hwfo.
  destruct (ti_eqb (uv_ti v) (uv_ti o)) eqn:Hti.
  2:{ rewrite /uv_swap_move (bind_done_nil _ _ (v, o) (v, o) (v, o) eq_refl) Hti /=. done. }
  pose proof Hti as Hti'. rewrite /ti_eqb bool_decide_eq_true in Hti'.
  destruct (decide (0 < uv_len v)) as [H0|H0].
  2:{ rewrite /uv_swap_move (bind_done_nil _ _ (v, o) (v, o) (v, o) eq_refl) Hti.
      rewrite (bind_done_nil _ _ (v, o) () (v, o) eq_refl) bool_decide_false //=. }
  destruct (decide (uv_size v = 0)) as [Hs|Hs].
  { assert (uv_size o = 0) as Hso by by rewrite /uv_size /ti_size -Hti'.
    rewrite /uv_swap_move (bind_done_nil _ _ (v, o) (v, o) (v, o) eq_refl) Hti.
    rewrite (bind_done_nil _ _ (v, o) () (v, o) eq_refl) bool_decide_true //.
    rewrite (bind_done_nil _ _ (v, o) () (v, o) eq_refl) (bool_decide_true (uv_size v = 0)) //.
    rewrite (bind_done_nil _ _ (v, o) () (v, o) eq_refl) decide_True //=.
    split; (split; [done|]); by apply uv_set_len_wf. }
  destruct (decide (i < length (uv_vals v))) as [Hi|Hi].
  2:{ rewrite uv_swap_move_out //. lia. }
  destruct (lookup_lt_is_Some_2 _ _ Hi) as [x Hx]. destruct (vec_swap_remove_some _ _ Hi) as [l' Hl'].
  pose proof (uv_swap_move_rep _ _ _ _ _ _ _ Hwf Hwfo Hti' Hx Hl') as Hwp. rewrite /wp in Hwp.
  destruct (uv_swap_move i (v, o)) as [a s e|r s e| |] eqn:Hm; [| |done..].
  { destruct Hwp as (_ & H1 & H2 & H3 & H4). split; (split; [done|]); by eapply uv_rep_wf. }
  (* capacity panic inside push *)
  rewrite /uv_swap_move (bind_done_nil _ _ (v, o) (v, o) (v, o) eq_refl) Hti in Hm.
  rewrite (bind_done_nil _ _ (v, o) () (v, o) eq_refl) bool_decide_true // in Hm.
  rewrite (bind_done_nil _ _ (v, o) () (v, o) eq_refl) (bool_decide_false (uv_size v = 0)) // in Hm.
  rewrite uv_len_div // bool_decide_true // in Hm.
  rewrite (bind_done_nil _ _ (v, o) () (v, o) eq_refl) decide_False // in Hm.
  assert (∀ v1 bytes r s e, (do* on_snd (uv_push_raw bytes) in on_fst (modify (uv_set_len (uv_len v - uv_size v)))) (v1, o) = Panicked r s e → s = (v1, o)) as Hpush.
  { intros v1 bytes r' s' e' [Hp|(a & s1 & e1 & e2 & Hd & Hk & ->)]%bind_panic_inv; [|done].
    rewrite /on_snd /zoom /= in Hp. destruct (uv_push_raw bytes o) as [| r1 o' e1| |] eqn:Hpo; try done.
    apply uv_push_panic in Hpo as [-> ->]. by injection Hp as <- <- <-. }
  case_decide as Hbr.
  - rewrite (uv_read_rep _ _ _ _ Hwf Hx) in Hm. rewrite (bind_done_nil _ _ (v, o) x (v, o) eq_refl) in Hm.
    apply Hpush in Hm as ->. done.
  - destruct (exists_last (l := uv_vals v)) as (l0 & y & Hl0). { intros E. rewrite E /= in Hi. lia. }
    rewrite Hl0 app_length /= in Hbr. assert (i ≠ length l0) as Hne by lia.
    assert (uv_len v - uv_size v = length l0 * uv_size v) as Hts.
    { pose proof Hwf as (_ & Hlen & _)%uv_rep_sized; [|done]. rewrite Hlen Hl0 app_length /=. nia. }
    rewrite Hts in Hm, Hpush.
    destruct (uv_swap_rep v _ i (length l0) x y Hwf Hs Hne Hx) as (p & Hp & Hrep1).
    { by rewrite Hl0 lookup_app_r // Nat.sub_diag. }
    rewrite Hp in Hm. rewrite (bind_done_nil _ _ (v, o) p (v, o) eq_refl) in Hm.
    rewrite (bind_done_nil _ _ (v, o) () (uv_set_data p (uv_cap v) v, o) eq_refl) in Hm.
    destruct (mem_read p _ _) as [bytes|] eqn:Hread; [|done].
    rewrite (bind_done_nil _ _ (uv_set_data p (uv_cap v) v, o) bytes _ eq_refl) in Hm.
    apply Hpush in Hm as ->. split; [|done]. split; [done|]. by eapply uv_rep_wf.
Qed.

Lemma total1_refl v : uv_wf v → total1 v v.
Proof. done. Qed.
Lemma uv_step_total o s : uv_wf s.1 → uv_wf s.2 → uv_size s.1 = uv_size s.2 → push_sized (uv_size s.1) o →
  match uv_step o s with
  | Done _ s' _ | Panicked _ s' _ => total1 s.1 s'.1 ∧ total1 s.2 s'.2 | _ => False
  end.
Proof.
  destruct s as [v1 v2]. simpl. intros H1 H2 Hs Hsz. destruct o as [b x junk|b|b i|b i]; simpl in Hsz; cbn [uv_step].
  - rewrite /bind. destruct b; rewrite /on_side /on_fst /on_snd /zoom; cbn [fst snd].
    + pose proof (uv_push_total v1 (x ++ junk) H1 ltac:(rewrite app_length; lia)).
      destruct (uv_push_raw _ _); simpl; try done; subst; by auto using total1_refl.
    + pose proof (uv_push_total v2 (x ++ junk) H2 ltac:(rewrite app_length; lia)).
      destruct (uv_push_raw _ _); simpl; try done; subst; by auto using total1_refl.
  - destruct b; rewrite /on_side /on_fst /on_snd /zoom; cbn [fst snd].
    + destruct (uv_pop_total v1 H1) as (b & v' & e & -> & ?). done.
    + destruct (uv_pop_total v2 H2) as (b & v' & e & -> & ?). done.
  - rewrite /bind. destruct b; rewrite /on_side /on_fst /on_snd /zoom; cbn [fst snd].
    + pose proof (uv_swap_remove_total v1 i H1). destruct (uv_swap_remove _ _); simpl; try done; subst; by auto using total1_refl.
    + pose proof (uv_swap_remove_total v2 i H2). destruct (uv_swap_remove _ _); simpl; try done; subst; by auto using total1_refl.
  - rewrite /bind. destruct b; rewrite /zoom; cbn [fst snd].
    + pose proof (uv_swap_move_total v1 v2 i H1 H2). by destruct (uv_swap_move _ _).
    + pose proof (uv_swap_move_total v2 v1 i H2 H1) as Hm. destruct (uv_swap_move _ _); simpl; try done; by destruct Hm.
Qed.
Lemma uv_wf_alloc_ok v : uv_wf v → alloc_ok v.
Proof.
  intros Hwf. destruct (decide (uv_size v = 0)) as [Hs|Hs].
  - left. apply uv_rep_zst in Hwf as (_ & ? & ? & _); done.
  - right. apply uv_rep_sized in Hwf as (Hl & Hlen & Hcase); [|done].
    destruct Hcase as [(Hc & Hd & Hn)|(rest & Hd & Hc & Hc4 & Hlay)].
    + left. rewrite Hn in Hlen. done.
    + right. split; [done|]. eexists. split_and!; [done|done| |by rewrite Hlen Nat.mod_mul|done].
      rewrite Hc app_length (concat_length_eq _ _ Hl). lia.
Qed.
Lemma uv_catch_run_spec h s : uv_wf s.1 → uv_wf s.2 → uv_size s.1 = uv_size s.2 →
  Forall (push_sized (uv_size s.1)) h →
  ∃ s', uv_catch_run h s = Some s' ∧ total1 s.1 s'.1 ∧ total1 s.2 s'.2.
Proof.
  revert s. induction h as [|o h IH]; intros s H1 H2 Hs Hh; simpl; [by exists s|].
  apply Forall_cons in Hh as [Ho Hh].
  pose proof (uv_step_total o s H1 H2 Hs Ho) as Hst.
  assert (∀ s1, total1 s.1 s1.1 ∧ total1 s.2 s1.2 → ∃ s', uv_catch_run h s1 = Some s' ∧ total1 s.1 s'.1 ∧ total1 s.2 s'.2) as Hgo.
  { intros s1 [[Ht1 Hw1] [Ht2 Hw2]]. 
    destruct (IH s1) as (s' & Hr & [Ht1' Hw1'] & [Ht2' Hw2']); [done|done|by rewrite /uv_size Ht1 Ht2| |].
    { rewrite /uv_size Ht1. done. }
    exists s'. split; [done|]. split; (split; [congruence|done]). }
  destruct (uv_step o s); naive_solver.
Qed.
Lemma uv_no_ub ti1 ti2 h : ti_size ti1 = ti_size ti2 → Forall (push_sized (ti_size ti1)) h →
  ∃ v1 v2, uv_catch_run h (uv_new ti1, uv_new ti2) = Some (v1, v2) ∧
    alloc_ok v1 ∧ alloc_ok v2 ∧
    (∃ v1' e, uv_drop v1 = Done () v1' e) ∧ (∃ v2' e, uv_drop v2 = Done () v2' e).
Proof.
  intros Hs Hh.
  destruct (uv_catch_run_spec h (uv_new ti1, uv_new ti2)) as ([v1 v2] & Hr & [_ H1] & [_ H2]); try done.
  { by eapply uv_rep_wf, uv_rep_new. } { by eapply uv_rep_wf, uv_rep_new. }
  exists v1, v2. split_and!; [done|by apply uv_wf_alloc_ok..| |].
  - destruct (uv_drop_rep _ _ H1) as [v' ?]. eauto.
  - destruct (uv_drop_rep _ _ H2) as [v' ?]. eauto.
Qed.

(** *** as_slice and drop after a history *)
Lemma uv_as_slice_rep v l t : uv_rep v l → ti_layout (uv_ti v) = layout_of t → ty_size t ≠ 0 →
  ty_align t = 1 ∨ (uv_cap v ≠ 0 ∧ ty_align t ≠ 0) → uv_as_slice t v = Done l v [].
Proof.
  intros Hrep Hlay Hs Hal. rewrite /uv_as_slice (bind_done_nil _ _ v v v eq_refl).
  assert (uv_size v = ty_size t) as Hsz by by rewrite /uv_size /ti_size Hlay.
  assert (uv_align v = ty_align t) as Hall by by rewrite /uv_align Hlay.
  rewrite bool_decide_true // (bind_done_nil _ _ v () v eq_refl). rewrite decide_False; [|congruence].
  pose proof Hrep as (Hl & Hlen & Hcase)%uv_rep_sized; [|congruence].
  rewrite Hlen Nat.mod_mul; [|congruence]. rewrite bool_decide_true // (bind_done_nil _ _ v () v eq_refl).
  rewrite Nat.div_mul; [|congruence]. pose proof (concat_length_eq _ _ Hl) as Hcl.
  destruct Hcase as [(Hc & Hd & ->)|(rest & Hd & Hc & Hc4 & Hlay')].
  - destruct Hal as [Hal|[]]; [|done]. rewrite Hd /= bool_decide_true //.
  - rewrite Hd /=. rewrite bool_decide_true.
    2:{ rewrite Hall. destruct Hal as [->|[_ Ha]]; [done|]. split; [done|]. by apply Nat.mod_same. }
    rewrite -Hsz. rewrite decide_True; [|rewrite app_length; lia].
    rewrite drop_0 take_app_alt; [|lia]. rewrite (bind_done_nil _ _ v (concat l) v eq_refl) /ret.
    f_equal. rewrite -{1}(app_nil_r (concat l)). by apply chunks_concat.
Qed.
Lemma lv_run_alloc ti1 ti2 h s p rs p' ev : ti_layout ti1 = ti_layout ti2 → rep2 ti1 ti2 s p →
  lv_run (ti_size ti1) (λ b, ti_drop (if b then ti1 else ti2)) h p = Some (rs, p', ev) →
  wp (uv_run h) s (λ _ s' _, rep2 ti1 ti2 s' p') no_panic.
Proof. intros H1 H2 H3. eapply wp_mono; [by eapply uv_run_spec| |done]. by intros ??? (_ & _ & ?). Qed.
Lemma uv_rep_nonempty_cap v l : uv_rep v l → uv_size v ≠ 0 → l ≠ [] → uv_cap v ≠ 0.
Proof.
  intros Hrep Hs Hl. apply uv_rep_sized in Hrep as (_ & _ & [(_ & _ & ?)|(rest & _ & Hc & Hc4 & _)]); [done| |done]. lia.
Qed.
Lemma uv_as_slice_hist ti1 ti2 h rs l1 l2 ev t : ti_layout ti1 = layout_of t → ti_layout ti2 = layout_of t →
  ty_size t ≠ 0 → ty_align t ≠ 0 → l1 ≠ [] ∨ ty_align t = 1 →
  lv_run (ty_size t) (λ b, ti_drop (if b then ti1 else ti2)) h ([], []) = Some (rs, (l1, l2), ev) →
  match uv_run h (uv_new ti1, uv_new ti2) with
  | Done _ s _ => uv_as_slice t s.1 = Done l1 s.1 []
  | Panicked r _ _ => r = RCapacity
  | Deadlock | UB => False
  end.
Proof.
  intros Hlay Hlay2 Hs Ha Hne Hrun.
  assert (ty_size t = ti_size ti1) as Hsz by by rewrite /ti_size Hlay.
  rewrite Hsz in Hrun. assert (ti_layout ti1 = ti_layout ti2) as Hti by congruence.
  pose proof (uv_run_spec _ _ _ _ _ _ _ _ Hti (rep2_new ti1 ti2) Hrun) as Hwp.
  rewrite /wp in Hwp. destruct (uv_run h _) as [rs' s ev'|r s ev'| |]; [|by destruct Hwp|done..].
  destruct Hwp as (_ & _ & H1 & _ & Hr & _). simpl in Hr.
  apply uv_as_slice_rep; [done|congruence|done|].
  destruct Hne as [Hne|Hne]; [right|by left]. split; [|done].
  eapply uv_rep_nonempty_cap; [done| |done]. rewrite /uv_size H1. congruence.
Qed.
Lemma uv_drop_hist ti1 ti2 h rs l1 l2 ev : ti_layout ti1 = ti_layout ti2 → ti_size ti1 ≠ 0 →
  lv_run (ti_size ti1) (λ b, ti_drop (if b then ti1 else ti2)) h ([], []) = Some (rs, (l1, l2), ev) →
  match uv_run h (uv_new ti1, uv_new ti2) with
  | Done _ s _ => ∃ v', uv_drop s.1 = Done () v' (concat (ldrop (ti_drop ti1) <$> reverse l1))
  | Panicked r _ _ => r = RCapacity
  | Deadlock | UB => False
  end.
Proof.
  intros Hti Hs Hrun.
  pose proof (uv_run_spec _ _ _ _ _ _ _ _ Hti (rep2_new ti1 ti2) Hrun) as Hwp.
  rewrite /wp in Hwp. destruct (uv_run h _) as [rs' s ev'|r s ev'| |]; [|by destruct Hwp|done..].
  destruct Hwp as (_ & _ & H1 & _ & Hr & _). simpl in Hr.
  destruct (uv_drop_rep _ _ Hr) as [v' Hd]. exists v'. rewrite Hd /drop_events_of H1 decide_False //.
Qed.
Lemma uv_pop_empty_hist ti1 ti2 h rs l2 ev : ti_layout ti1 = ti_layout ti2 → ti_size ti1 ≠ 0 →
  lv_run (ti_size ti1) (λ b, ti_drop (if b then ti1 else ti2)) h ([], []) = Some (rs, ([], l2), ev) →
  match uv_run h (uv_new ti1, uv_new ti2) with
  | Done _ s _ => uv_pop s.1 = Done false s.1 []
  | Panicked r _ _ => r = RCapacity
  | Deadlock | UB => False
  end.
Proof.
  intros Hti Hs Hrun.
  pose proof (uv_run_spec _ _ _ _ _ _ _ _ Hti (rep2_new ti1 ti2) Hrun) as Hwp.
  rewrite /wp in Hwp. destruct (uv_run h _) as [rs' s ev'|r s ev'| |]; [|by destruct Hwp|done..].
  destruct Hwp as (_ & _ & H1 & _ & Hr & _). simpl in Hr. apply uv_pop_empty; [done|]. by rewrite /uv_size H1.
Qed.
Lemma uv_out_of_range_hist ti1 ti2 h rs l1 l2 ev i : ti_layout ti1 = ti_layout ti2 → length l1 ≤ i →
  lv_run (ti_size ti1) (λ b, ti_drop (if b then ti1 else ti2)) h ([], []) = Some (rs, (l1, l2), ev) →
  match uv_run h (uv_new ti1, uv_new ti2) with
  | Done _ s _ => (∃ r, uv_swap_remove i s.1 = Panicked r s.1 []) ∧
                  (ti_size ti1 ≠ 0 → ∃ r, uv_swap_move i s = Panicked r s [])
  | Panicked r _ _ => r = RCapacity
  | Deadlock | UB => False
  end.
Proof.
  intros Hti Hi Hrun.
  pose proof (uv_run_spec _ _ _ _ _ _ _ _ Hti (rep2_new ti1 ti2) Hrun) as Hwp.
  rewrite /wp in Hwp. destruct (uv_run h _) as [rs' s ev'|r s ev'| |]; [|by destruct Hwp|done..].
  destruct Hwp as (_ & _ & H1 & _ & Hr & _). simpl in Hr. pose proof (uv_rep_vals _ _ Hr) as Hv.
  pose proof (uv_rep_wf _ _ Hr) as Hwf. split.
  - exists RAssert. apply uv_swap_remove_out; [done|]. by rewrite Hv.
  - intros Hs. exists RAssert. destruct s as [v1 v2]. apply uv_swap_move_out; [done| |by rewrite Hv].
    rewrite /uv_size. simpl in H1. by rewrite H1.
Qed.
