(** * Destructors that panic: vectors, and dropping a world *)
From Verif Require Import ProofBase SpecSmall World Query History ProofEntities ProofBitset ProofArrayVec ProofUVec.
From Verif Require Export ProofLife ProofMute SpecDropPanic.

Lemma drop_event_ldrop f x : drop_event f x = ldrop f x.
Proof. done. Qed.
Section vec.
  Context (bomb : dropfn → value → bool).
  Lemma harmless_nil : harmless bomb [].
  Proof. by apply Forall_nil_2. Qed.
  Lemma harmless_one x : harmless bomb [x] ↔ goes_off bomb x = false.
  Proof. by rewrite /harmless Forall_singleton. Qed.
  Lemma harmless_app a b : harmless bomb (a ++ b) ↔ harmless bomb a ∧ harmless bomb b.
  Proof. apply Forall_app. Qed.
  Lemma cut_off_app_l a b c : cut_off bomb a b → cut_off bomb (a ++ c) b.
  Proof. intros (pre & x & post & -> & -> & H). exists pre, x, (post ++ c). by rewrite -app_assoc. Qed.
  Lemma cut_off_app_r a b c : harmless bomb a → cut_off bomb b c → cut_off bomb (a ++ b) (a ++ c).
  Proof. intros Ha (pre & x & post & -> & -> & H & Hx). exists (a ++ pre), x, post. by rewrite -!app_assoc harmless_app. Qed.
  Lemma cut_off_not ev ev1 : cut_off bomb ev ev1 → ¬ harmless bomb ev.
  Proof. intros (pre & x & post & -> & _ & _ & Hx) [_ H]%harmless_app. apply Forall_inv in H. congruence. Qed.
  Lemma cut_off_prefix ev ev1 : cut_off bomb ev ev1 → ∃ l, ev = ev1 ++ l.
  Proof. intros (pre & x & post & -> & -> & _). exists post. by rewrite -app_assoc. Qed.
  Lemma cut_off_ldrop f x : ¬ harmless bomb (ldrop f x) → cut_off bomb (ldrop f x) (ldrop f x).
  Proof.
    destruct f as [f|]; cbn; [|intros H; destruct H; apply harmless_nil]. rewrite harmless_one. intros H.
    exists [], (EvDrop f x), []. split_and!; [done|done|apply harmless_nil|]. by destruct (goes_off _ _).
  Qed.
  Lemma blasts_app a b : blasts bomb (a ++ b) = blasts bomb a + blasts bomb b.
  Proof. by rewrite /blasts filter_app app_length. Qed.
  Lemma blasts_harmless a : harmless bomb a → blasts bomb a = 0.
  Proof. intros H. rewrite /blasts. induction H as [|x l Hx _ IH]; [done|]. rewrite filter_cons. case_decide; [congruence|done]. Qed.
  Lemma blasts_cut_off a b : cut_off bomb a b → blasts bomb b = 1.
  Proof. intros (pre & x & post & _ & -> & Hp & Hx). rewrite blasts_app blasts_harmless // /blasts filter_cons decide_True //. Qed.

  Lemma call_drop_explode {S} f v (s : S) : call_drop bomb f v s = explode bomb (emit (drop_event f v) s).
  Proof.
    rewrite /emit /drop_event /explode. case_decide as H; destruct f as [f|]; cbn; rewrite /bind /=.
    - rewrite harmless_one /= in H. by rewrite H.
    - done.
    - rewrite harmless_one /= in H. by destruct (bomb f v).
    - destruct H. apply harmless_nil.
  Qed.
  Lemma vec_pop v : uv_pop_b bomb v = explode bomb (uv_pop v).
  Proof.
    rewrite /uv_pop_b /uv_pop /bind /gets /modify /or_ub. cbn [add_events]. repeat case_decide.
    - rewrite call_drop_explode /explode /emit /ret. case_decide as H1; cbn [add_events]; rewrite !app_nil_r !app_nil_l; by destruct (decide _).
    - destruct (mem_read _ _ _); [|done]. rewrite /ret. cbn [add_events].
      rewrite call_drop_explode /explode /emit /ret. case_decide as H1; cbn [add_events]; rewrite !app_nil_r !app_nil_l; by destruct (decide _).
    - done.
  Qed.
  Lemma explode_bind_ret {S A B} (o : outcome S A) (b : B) :
    match explode bomb o with Done _ s' ev => add_events ev (ret b s') | Panicked r s' ev => Panicked r s' ev | Deadlock => Deadlock | UB => UB end
    = explode bomb match o with Done _ s' ev => add_events ev (ret b s') | Panicked r s' ev => Panicked r s' ev | Deadlock => Deadlock | UB => UB end.
  Proof. destruct o; cbn; try done. rewrite app_nil_r. case_decide; cbn; by rewrite ?app_nil_r. Qed.
  Lemma vec_swap_remove_explode i v : uv_swap_remove_b bomb i v = explode bomb (uv_swap_remove i v).
  Proof.
    assert (∀ v, match uv_pop_b bomb v with Done _ s' ev => add_events ev (ret () s') | Panicked r s' ev => Panicked r s' ev | Deadlock => Deadlock | UB => UB end
      = explode bomb match uv_pop v with Done _ s' ev => add_events ev (ret () s') | Panicked r s' ev => Panicked r s' ev | Deadlock => Deadlock | UB => UB end) as H.
    { intros v0. rewrite vec_pop. apply explode_bind_ret. }
    rewrite /uv_swap_remove_b /uv_swap_remove !(bind_done_nil _ _ v v v eq_refl). case_bool_decide; [|done].
    rewrite !(bind_done_nil _ _ v () v eq_refl). destruct (bool_decide _ || _); [|done].
    rewrite !(bind_done_nil _ _ v () v eq_refl). case_decide.
    - case_bool_decide; [|done]. rewrite !(bind_done_nil _ _ v () v eq_refl). apply H.
    - destruct (mem_swap _ _ _ _) as [p|]; [|done]. rewrite !(bind_done_nil _ _ v p v eq_refl).
      rewrite !(bind_done_nil _ _ v () (uv_set_data p (uv_cap v) v) eq_refl). apply H.
  Qed.
  Lemma uv_pop_events v b v' ev : uv_pop v = Done b v' ev → ∃ f x, ev = ldrop f x.
  Proof using Type.
    rewrite /uv_pop !(bind_done_nil _ _ v v v eq_refl). case_decide.
    - rewrite /bind. cbn. intros [= <- <- <-]. rewrite app_nil_r. eauto.
    - case_decide.
      + rewrite /bind /modify /=. destruct (mem_read _ _ _); [|done]. cbn. intros [= <- <- <-]. rewrite app_nil_r. eauto.
      + intros [= <- <- <-]. by exists None, [].
  Qed.
  Lemma vec_pop_all fuel v v' ev : uv_pop_all fuel v = Done () v' ev →
    (harmless bomb ev ∧ uv_pop_all_b bomb fuel v = Done () v' ev) ∨
    ∃ v1 ev1, uv_pop_all_b bomb fuel v = Panicked RDestructor v1 ev1 ∧ cut_off bomb ev ev1.
  Proof.
    revert v ev. induction fuel as [|fuel IH]; intros v ev; [done|]. cbn [uv_pop_all uv_pop_all_b]. rewrite /bind vec_pop.
    destruct (uv_pop v) as [b v1 ev1|?| |] eqn:E; [|done..]. cbn [explode].
    assert (harmless bomb ev1 ∨ cut_off bomb ev1 ev1) as Hcase.
    { destruct (uv_pop_events _ _ _ _ E) as (f & x & ->). destruct (decide (harmless bomb (ldrop f x))); [by left|right; by apply cut_off_ldrop]. }
    destruct b.
    - destruct (uv_pop_all fuel v1) as [[] v2 ev2|?| |] eqn:E2; [|done..]. cbn. intros [= <- <-]. case_decide as Hh.
      + destruct (IH _ _ E2) as [[H ->]|(v3 & ev3 & -> & Hc)]; [left|right].
        * split; [by apply harmless_app|done].
        * exists v3, (ev1 ++ ev3). split; [done|]. by apply cut_off_app_r.
      + right. exists v1, ev1. split; [done|]. apply cut_off_app_l. by destruct Hcase.
    - cbn. intros [= <- <-]. rewrite app_nil_r. case_decide as Hh; [left; by rewrite /= app_nil_r|]. right. exists v1, ev1. split; [done|]. by destruct Hcase.
  Qed.
  Lemma vec_drop v v' ev : uv_drop v = Done () v' ev →
    (harmless bomb ev ∧ uv_drop_b bomb v = Done () v' ev) ∨
    ∃ v1 ev1, uv_drop_b bomb v = Panicked RDestructor v1 ev1 ∧ cut_off bomb ev ev1.
  Proof.
    rewrite /uv_drop /uv_drop_b. rewrite !(bind_done_nil _ _ v v v eq_refl). case_decide.
    2:{ intros [= <- <-]. left. split; [apply harmless_nil|done]. }
    generalize (S (S (uv_len v))) as fuel. intros fuel. rewrite /bind. destruct (uv_pop_all fuel v) as [[] v1 ev1|?| |] eqn:E; [|done..]. cbn.
    destruct (vec_pop_all _ _ _ _ E) as [[Hh ->]|(v3 & ev3 & -> & Hc)].
    - destruct (layout_from_size_align _ _); [|done]. cbn. destruct (heap_dealloc _ _); [|done]. cbn. rewrite app_nil_r. intros E2. left. by simplify_eq.
    - destruct (layout_from_size_align _ _); [|done]. cbn. destruct (heap_dealloc _ _); [|done]. cbn. rewrite app_nil_r. intros E2. right. simplify_eq. eauto.
  Qed.
End vec.

(** *** What a column owes *)
Lemma mem_read_chunk u l i x : uv_rep u l → uv_size u ≠ 0 → l !! i = Some x →
  mem_read (uv_data u) (i * uv_size u) (uv_size u) = Some x.
Proof.
  intros Hrep Hs Hi. pose proof Hrep as (Hl & Hlen & [(_ & _ & ->)|(rest & -> & _ & _)])%uv_rep_sized; [done| |done].
  destruct (concat_split _ _ _ _ Hl Hi) as (A & B & -> & HA & HC & HlA & Hlx). rewrite /mem_read decide_True.
  - rewrite HC -!app_assoc. rewrite -HlA drop_app -Hlx take_app. done.
  - rewrite HC !app_length. lia.
Qed.
Lemma vec_values_rep u l : uv_rep u l → vec_values u = l.
Proof.
  intros Hrep. rewrite /vec_values. case_decide as Hs.
  - apply uv_rep_zst in Hrep as (Hl & _ & _ & ->); [|done]. symmetry. by apply replicate_nil_eq.
  - pose proof Hrep as (_ & Hlen & _)%uv_rep_sized; [|done]. rewrite Hlen Nat.div_mul //.
    apply list_eq. intros i. rewrite list_lookup_fmap. destruct (l !! i) as [x|] eqn:E.
    + rewrite lookup_seq_lt; [|by eapply lookup_lt_Some]. cbn. by rewrite (mem_read_chunk _ _ _ _ Hrep Hs E).
    + rewrite lookup_seq_ge; [done|]. by apply lookup_ge_None.
Qed.
Definition owed_list (ti : type_info) (l : list value) : list event := l ≫= ldrop (ti_drop ti).
Lemma owed_vec_rep u l : uv_rep u l → owed_vec u = owed_list (uv_ti u) l.
Proof. intros H. by rewrite /owed_vec (vec_values_rep _ _ H). Qed.
Lemma drop_events_owed ti l : drop_events_of ti l ≡ₚ if decide (ti_size ti = 0) then [] else owed_list ti l.
Proof.
  rewrite /drop_events_of. case_decide; [done|]. trans (owed_list ti (reverse l)); [|by rewrite /owed_list reverse_Permutation]. rewrite /owed_list.
  induction (reverse l) as [|x l' IH]; [done|]. rewrite fmap_cons concat_cons bind_cons IH. done.
Qed.
Lemma owed_swap_remove u i : uv_wf u →
  match uv_swap_remove i u with
  | Done _ u' ev => uv_wf u' ∧ uv_ti u' = uv_ti u ∧ owed_vec u ≡ₚ ev ++ owed_vec u' ∧
      (∃ x, ev = ldrop (ti_drop (uv_ti u)) x)
  | Panicked r u' ev => r ≠ RDestructor ∧ u' = u ∧ ev = []
  | _ => False
  end.
Proof.
  intros Hwf. destruct (decide (i < length (uv_vals u))) as [Hi|Hi].
  - destruct (lookup_lt_is_Some_2 _ _ Hi) as [x Hx]. destruct (vec_swap_remove_some _ _ Hi) as [l' Hl'].
    destruct (uv_swap_remove_rep _ _ _ _ _ Hwf Hx Hl') as (v' & -> & Ht & Hr). split_and!; [by eapply uv_rep_wf|done| |by exists x].
    rewrite (owed_vec_rep _ _ Hwf) (owed_vec_rep _ _ Hr) Ht /owed_list. rewrite (vec_swap_remove_perm _ _ _ _ Hl' Hx). done.
  - rewrite uv_swap_remove_out //. lia.
Qed.
(** Rows other than the removed one and the last keep their bytes. *)
Lemma read_swap_remove u i u' ev j : uv_wf u → uv_swap_remove i u = Done () u' ev → j ≠ i → S j < length (uv_vals u) →
  mem_read (uv_data u') (j * uv_size u') (uv_size u') = mem_read (uv_data u) (j * uv_size u) (uv_size u).
Proof.
  intros Hwf. destruct (decide (i < length (uv_vals u))) as [Hi|Hi]; [|rewrite uv_swap_remove_out //; lia].
  destruct (lookup_lt_is_Some_2 _ _ Hi) as [x Hx]. destruct (vec_swap_remove_some _ _ Hi) as [l' Hl'].
  destruct (uv_swap_remove_rep _ _ _ _ _ Hwf Hx Hl') as (v' & -> & Ht & Hr). intros [= -> _] Hne Hj.
  assert (uv_size u' = uv_size u) as Hsz by by rewrite /uv_size Ht. rewrite Hsz. destruct (decide (uv_size u = 0)) as [Hs|Hs].
  - rewrite Hs Nat.mul_0_r. apply uv_rep_zst in Hr as (_ & -> & _); [|by rewrite Hsz]. by apply uv_rep_zst in Hwf as (_ & -> & _).
  - destruct (lookup_lt_is_Some_2 (uv_vals u) j) as [y Hy]; [lia|]. rewrite (mem_read_chunk u _ j y Hwf Hs Hy).
    rewrite -Hsz. apply (mem_read_chunk u' l' j y Hr); [by rewrite Hsz|]. rewrite (vec_swap_remove_lookup _ _ _ j Hl').
    case_decide; [|lia]. by rewrite decide_False.
Qed.

(** *** Dropping a world *)
Definition cols_wf (w : world) : Prop := Forall uv_wf (all_cols w).
Section fall.
  Context (bomb : dropfn → value → bool).
  Lemma vec_fall u : uv_wf u →
    (∃ v' ev, uv_drop_b bomb u = Done () v' ev ∧ harmless bomb ev ∧ ev ≡ₚ owed_vec_sized u) ∨
    (∃ v' ev left, uv_drop_b bomb u = Panicked RDestructor v' ev ∧ blasts bomb ev = 1 ∧ ev ++ left ≡ₚ owed_vec_sized u).
  Proof.
    intros Hwf. destruct (uv_drop_rep _ _ Hwf) as [v' Hd].
    assert (drop_events_of (uv_ti u) (uv_vals u) ≡ₚ owed_vec_sized u) as Ho.
    { rewrite drop_events_owed /owed_vec_sized (owed_vec_rep _ _ Hwf) //. }
    destruct (vec_drop bomb _ _ _ Hd) as [[H E]|(v1 & ev1 & E & Hc)]; [left|right].
    - eauto.
    - destruct (cut_off_prefix _ _ _ Hc) as [l Hl]. exists v1, ev1, l. split_and!; [done|by eapply blasts_cut_off|]. by rewrite -Hl.
  Qed.
  Lemma columns_fall_panicking vs : Forall uv_wf vs →
    ∃ x, drop_columns_b bomb true vs = Some x ∧
      match x with
      | Fallen p ev => p = true ∧ harmless bomb ev ∧ ev ≡ₚ vs ≫= owed_vec_sized
      | Aborted ev => blasts bomb ev = 1 ∧ ev ⊆+ vs ≫= owed_vec_sized
      end.
  Proof.
    induction 1 as [|u vs Hu Hvs (x & IH & Hx)].
    { eexists. split; [done|]. cbn. split_and!; [done|apply harmless_nil|done]. }
    cbn [drop_columns_b]. rewrite IH bind_cons. destruct (vec_fall u Hu) as [(v' & ev & -> & Hh & Ho)|(v' & ev & left & -> & Hb & Ho)].
    - destruct x as [p ev'|ev'].
      + destruct Hx as (-> & Hh' & Ho'). eexists. split; [done|]. cbn. split_and!; [done|by apply harmless_app|]. by rewrite Ho Ho'.
      + destruct Hx as (Hb' & Ho'). eexists. split; [done|]. cbn. split; [by rewrite blasts_app blasts_harmless|]. rewrite Ho. by apply submseteq_skips_l.
    - eexists. split; [done|]. cbn. split; [done|]. rewrite -Ho -app_assoc. apply submseteq_inserts_r. done.
  Qed.
  Lemma owed_sized_vec u : owed_vec_sized u ⊆+ owed_vec u.
  Proof. rewrite /owed_vec_sized. case_decide; [apply submseteq_nil_l|done]. Qed.
  Lemma columns_fall vs : Forall uv_wf vs →
    ∃ x, drop_columns_b bomb false vs = Some x ∧
      match x with
      | Fallen false ev => harmless bomb ev ∧ ev ≡ₚ vs ≫= owed_vec_sized
      | Fallen true ev => blasts bomb ev = 1 ∧ ∃ u left, u ∈ vs ∧ left ⊆+ owed_vec u ∧ ev ++ left ≡ₚ vs ≫= owed_vec_sized
      | Aborted ev => blasts bomb ev = 2 ∧ ev ⊆+ vs ≫= owed_vec_sized
      end.
  Proof.
    induction 1 as [|u vs Hu Hvs (x & IH & Hx)].
    { eexists. split; [done|]. cbn. split; [apply harmless_nil|done]. }
    cbn [drop_columns_b]. rewrite IH bind_cons. destruct (vec_fall u Hu) as [(v' & ev & -> & Hh & Ho)|(v' & ev & left & -> & Hb & Ho)].
    - destruct x as [[] ev'|ev'].
      + destruct Hx as (Hb & u0 & left & Hu0 & Hl & Ho'). eexists. split; [done|]. cbn. split; [by rewrite blasts_app blasts_harmless|].
        exists u0, left. split_and!; [by right|done|]. by rewrite -app_assoc Ho Ho'.
      + destruct Hx as (Hh' & Ho'). eexists. split; [done|]. cbn. split; [by apply harmless_app|]. by rewrite Ho Ho'.
      + destruct Hx as (Hb' & Ho'). eexists. split; [done|]. cbn. split; [by rewrite blasts_app blasts_harmless|]. rewrite Ho. by apply submseteq_skips_l.
    - destruct (columns_fall_panicking vs Hvs) as (x' & -> & Hx'). destruct x' as [p ev'|ev'].
      + destruct Hx' as (-> & Hh' & Ho'). eexists. split; [done|]. cbn. split; [by rewrite blasts_app Hb (blasts_harmless _ ev')|].
        exists u, left. split_and!; [by left| |].
        * etrans; [|apply owed_sized_vec]. rewrite -Ho. by apply submseteq_inserts_l.
        * rewrite Ho' -Ho -!app_assoc. f_equiv. apply Permutation_app_comm.
      + destruct Hx' as (Hb' & Ho'). eexists. split; [done|]. cbn. split; [by rewrite blasts_app Hb Hb'|].
        rewrite -Ho -app_assoc. apply submseteq_app; [done|]. etrans; [exact Ho'|]. by apply submseteq_inserts_l.
  Qed.
  Lemma world_falls w : cols_wf w → drop_reuse w = Some () → ∃ x, world_drop_b bomb w = Some x ∧ falls bomb w x.
  Proof.
    intros Hc Hr. rewrite /world_drop_b Hr. destruct (columns_fall _ Hc) as (x & E & Hx). exists x. split; [exact E|].
    by destruct x as [[] ev|ev].
  Qed.
End fall.
