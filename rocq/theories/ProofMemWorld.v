(** * Allocator calls of the world operations (C53) *)
From Verif Require Import ProofBase SpecSmall World Query History ProofEntities ProofBitset ProofArrayVec ProofUVec.
From Verif Require Export ProofMemory.

Lemma still_zoom {S T A} (own : S → list layout) (ownT : T → list layout) (get : S → option T) set (m : M T A) :
  (∀ s t, get s = Some t → ∃ R, own s ≡ₚ ownT t ++ R ∧ ∀ t', own (set t' s) ≡ₚ ownT t' ++ R) →
  still ownT m → still own (zoom get set m).
Proof.
  intros Hl H s. rewrite /zoom. destruct (get s) as [t|] eqn:E; [|done]. destruct (Hl s t E) as (R & H1 & H2).
  specialize (H t). destruct (m t) as [a t' ev|r t' ev| |]; [..|done|done]; by rewrite H2 H1 H.
Qed.
Lemma still_in_arch {A} k (m : M archetype A) : still aown m → still wown (in_arch k m).
Proof. apply still_zoom. intros w a. apply lens_arch. Qed.
Lemma still_in_storage {A} i (m : M uvec A) : still uown m → still aown (in_storage i m).
Proof. apply still_zoom. intros a v. apply lens_storage. Qed.
Lemma still_in_cache {A} (m : M arcache A) : still aown (in_cache m).
Proof. intros a. rewrite /in_cache /zoom. by destruct (m (a_cache a)). Qed.
Lemma still_in_ents {A} (m : M entities A) : still wown (in_ents m).
Proof. intros a. rewrite /in_ents /zoom. by destruct (m (w_ents a)). Qed.
Lemma still_in_world {A} (m : M world A) : still wown m → still bwown (in_world m).
Proof.
  apply still_zoom. intros [b w] t [= <-]. exists (bown (eb_cap b)). split; [|intros w']; rewrite /bwown /=; apply Permutation_app_comm.
Qed.
Lemma still_same {A} (m : M uvec A) : keeping same_buf m → still uown m.
Proof. intros H v. specialize (H v). destruct (m v); [..|done|done]; by rewrite (same_buf_own _ _ H). Qed.

Lemma still_bind {S A B} (own : S → list layout) (m : M S A) (k : A → M S B) :
  still own m → (∀ a, still own (k a)) → still own (bind m k).
Proof. apply keeping_bind, _. Qed.
Ltac st1 :=
  lazymatch goal with
  | |- still _ (bind _ _) => apply still_bind; [|intros ?]
  | |- still _ (ret _) => apply keeping_ret; apply _
  | |- still _ (panic _) => apply keeping_panic; apply _
  | |- still _ ub => apply keeping_ub; apply _
  | |- still _ deadlock => apply keeping_deadlock; apply _
  | |- still _ (gets _) => apply keeping_gets; apply _
  | |- still _ (emit _) => apply keeping_emit; apply _
  | |- still _ (massert _ _) => apply keeping_massert; apply _
  | |- still _ (unwrap _ _) => apply keeping_unwrap; apply _
  | |- still _ (or_ub _) => apply keeping_or_ub; apply _
  | |- still _ (in_arch _ _) => apply still_in_arch
  | |- still _ (in_storage _ _) => apply still_in_storage
  | |- still _ (in_cache _) => apply still_in_cache
  | |- still _ (in_ents _) => apply still_in_ents
  | |- still _ (in_world _) => apply still_in_world
  | |- still _ (modify _) => apply keeping_modify; [apply _|intros ?; try reflexivity]
  | |- still _ (if ?b then _ else _) => destruct b
  | |- still _ (match ?x with _ => _ end) => destruct x
  | |- still _ (let _ := _ in _) => cbv zeta
  end.
Ltac st := repeat (st1 || eauto with still).

Lemma still_is_alive e : still wown (is_alive e).
Proof. rewrite /is_alive. st. Qed.
Global Hint Resolve still_is_alive : still.
Lemma still_get_entity_meta e : still wown (get_entity_meta e).
Proof. rewrite /get_entity_meta. st. Qed.
Lemma still_set_entity_meta e m : still wown (set_entity_meta e m).
Proof. rewrite /set_entity_meta. st. Qed.
Lemma still_update_meta i f : still wown (update_meta i f).
Proof. rewrite /update_meta. st. Qed.
Lemma still_get_arch k : still wown (get_arch k).
Proof. rewrite /get_arch. st. Qed.
Global Hint Resolve still_get_entity_meta still_set_entity_meta still_update_meta still_get_arch : still.
Lemma still_find_sized fuel it n : still wown (find_sized fuel it n).
Proof. revert it. induction fuel as [|fuel IH]; intros it; cbn [find_sized]; st. Qed.
Global Hint Resolve still_find_sized : still.
Lemma still_search ids n : still wown (search ids n).
Proof. rewrite /search. st. Qed.
Global Hint Resolve still_search : still.
Lemma still_find_archetype_dynamic ids : still wown (find_archetype_dynamic ids).
Proof. rewrite /find_archetype_dynamic. st. Qed.
Lemma still_find_plus_id ids c : still wown (find_plus_id ids c).
Proof. rewrite /find_plus_id. st. Qed.
Lemma still_find_minus_id ids c : still wown (find_minus_id ids c).
Proof. rewrite /find_minus_id. st. Qed.
Lemma still_set_arch_bits ids n : still wown (set_arch_bits ids n).
Proof. induction ids as [|c ids IH]; cbn [set_arch_bits]; st. Qed.
Lemma still_ensure_lock c : still wown (ensure_lock c).
Proof. rewrite /ensure_lock. st. by destruct (w_lock_lookup s !! c). Qed.
Global Hint Resolve still_find_archetype_dynamic still_find_plus_id still_find_minus_id still_set_arch_bits still_ensure_lock : still.
Lemma still_storage_id k j : still wown (storage_id k j).
Proof. rewrite /storage_id. st. Qed.
Lemma still_remove_row cur row : still wown (remove_row cur row).
Proof. rewrite /remove_row. st. Qed.
Lemma still_push_row tar e : still wown (push_row tar e).
Proof. rewrite /push_row. st. Qed.
Lemma still_swap_remove k i row : still wown (in_arch k (in_storage i (uv_swap_remove row))).
Proof. st. apply still_same, same_swap_remove. Qed.
Lemma still_elems_len k i : still wown (in_arch k (in_storage i uv_elems_len)).
Proof. st. rewrite /uv_elems_len. st. Qed.
Global Hint Resolve still_storage_id still_remove_row still_push_row still_swap_remove still_elems_len : still.
Lemma still_swap_remove_storages k row is_ : still wown (swap_remove_storages k row is_).
Proof. induction is_ as [|i is_ IH]; cbn [swap_remove_storages]; [st|]. apply still_bind; [apply still_swap_remove|done]. Qed.
Global Hint Resolve still_swap_remove_storages : still.
Lemma still_arch_despawn k row e : still wown (arch_despawn k row e).
Proof. rewrite /arch_despawn. st. Qed.
Global Hint Resolve still_arch_despawn : still.
Lemma still_despawn e : still wown (despawn e).
Proof. rewrite /despawn. st. Qed.
Lemma still_has_component e t : still wown (has_component e t).
Proof. rewrite /has_component. st. Qed.
Lemma still_get_component_mut e c : still wown (get_component_mut e c).
Proof. rewrite /get_component_mut. st. all: rewrite /uv_get_raw; st. Qed.
Lemma still_write_loc l v : still wown (write_loc l v).
Proof.
  rewrite /write_loc. apply still_in_arch, still_in_storage, still_same. intros u. unfold bind, gets, or_ub. cbn [id].
  by destruct (mem_write (uv_data u) (loc_off l) v).
Qed.
Lemma still_ensure_locks ids : still wown (ensure_locks ids).
Proof. induction ids as [|c ids IH]; cbn [ensure_locks]; st. Qed.
Global Hint Resolve still_despawn still_has_component still_get_component_mut still_write_loc still_ensure_locks : still.
Lemma still_builder_with_dynamic c : still bwown (builder_with_dynamic c).
Proof.
  rewrite /builder_with_dynamic. st. intros [b w]. simpl. reflexivity.
Qed.

(** ** Adding and removing components *)
Lemma tr_in_arch {A} k (m : M archetype A) mt y : tr aown [] m mt y [] → tr wown [] (in_arch k m) (in_arch_t k mt) y [].
Proof. intros H. eapply tr_zoom; [|by left|done]. intros w a. apply lens_arch. Qed.
Lemma tr_in_storage {A} i (m : M uvec A) mt y : tr uown [] m mt y [] → tr aown [] (in_storage i m) (in_storage_t i mt) y [].
Proof. intros H. eapply tr_zoom; [|by left|done]. intros a v. apply lens_storage. Qed.
Lemma tr_move_element cur i tar j row : cur ≠ tar → tr wown [] (move_element cur i tar j row) (move_element_t cur i tar j row) no [].
Proof.
  intros Hne w lg Hok. rewrite /move_element /move_element_t. destruct (w_archs w !! cur) as [ca|] eqn:Ec; [|exists []; rewrite app_nil_r; split; [done|by apply acts_nil]].
  destruct (w_archs w !! tar) as [ta|] eqn:Et; [|exists []; rewrite app_nil_r; split; [done|by apply acts_nil]].
  destruct (a_storages ca !! i) as [[ci cv]|] eqn:Ei; [|exists []; rewrite app_nil_r; split; [done|by apply acts_nil]].
  destruct (a_storages ta !! j) as [[ti tv]|] eqn:Ej; [|exists []; rewrite app_nil_r; split; [done|by apply acts_nil]].
  destruct (lens_arch _ _ _ Ec) as (R1 & H1 & H1').
  assert (Hl : ∃ R, wown w ≡ₚ u2own (cv, tv) ++ R ∧ ∀ cv' tv', wown (set_archs
              (<[tar := a_set_storages (<[j := (ti, tv')]> (a_storages ta)) ta]>
               (<[cur := a_set_storages (<[i := (ci, cv')]> (a_storages ca)) ca]> (w_archs w))) w) ≡ₚ u2own (cv', tv') ++ R).
  { destruct (bind_insert aown _ _ _ Ec) as (Ra & Ha & Ha').
    destruct (bind_insert (λ s, uown s.2) _ _ _ Ei) as (Rc & Hc & Hc').
    destruct (bind_insert (λ s, uown s.2) _ _ _ Ej) as (Rt & Ht & Ht').
    set (X := match w_reuse w with Some (_, _, cap) => bown cap | None => [] end).
    assert (HB : ∃ Rb, (w_archs w ≫= aown) ≡ₚ aown ca ++ aown ta ++ Rb ∧
       ∀ ca' ta', (<[tar := ta']> (<[cur := ca']> (w_archs w)) ≫= aown) ≡ₚ aown ca' ++ aown ta' ++ Rb).
    { clear -Hne Ec Et. revert cur tar Hne Ec Et. induction (w_archs w) as [|x l IH]; intros cur tar Hne Ec Et; [done|].
      destruct cur as [|cur], tar as [|tar]; [done|..].
      - injection Ec as ->. destruct (bind_insert aown l tar ta Et) as (R & G1 & G2). exists R. split.
        + cbn. by rewrite G1.
        + intros ca' ta'. cbn. by rewrite G2.
      - injection Et as ->. destruct (bind_insert aown l cur ca Ec) as (R & G1 & G2). exists R. split.
        + cbn. rewrite G1. rewrite !app_assoc. by rewrite (Permutation_app_comm (aown ta)).
        + intros ca' ta'. cbn. rewrite G2. rewrite !app_assoc. by rewrite (Permutation_app_comm (aown ta')).
      - destruct (IH cur tar) as (R & G1 & G2); [congruence|done|done|]. exists (aown x ++ R). split.
        + cbn. rewrite G1. rewrite !app_assoc. f_equiv. rewrite (Permutation_app_comm (aown x)) -!app_assoc. f_equiv. apply Permutation_app_comm.
        + intros ca' ta'. cbn. rewrite G2. rewrite !app_assoc. f_equiv. rewrite (Permutation_app_comm (aown x)) -!app_assoc. f_equiv. apply Permutation_app_comm. }
    destruct HB as (Rb & HB & HB'). exists (Rc ++ Rt ++ Rb ++ X).
    assert (Hperm : ∀ (A B : list layout), ((A ++ Rc) ++ (B ++ Rt) ++ Rb) ++ X ≡ₚ (A ++ B) ++ Rc ++ Rt ++ Rb ++ X).
    { intros A B. rewrite -!app_assoc. f_equiv. rewrite !app_assoc. rewrite (Permutation_app_comm Rc). done. }
    split.
    - rewrite /wown -/X HB. rewrite /u2own /=. rewrite -Hperm. rewrite /aown /sown Hc Ht. done.
    - intros cv' tv'. rewrite /wown. cbn [w_archs w_reuse set_archs]. rewrite -/X HB' /u2own /= -Hperm.
      rewrite /aown /sown. cbn [a_storages a_set_storages]. by rewrite Hc' Ht'. }
  destruct Hl as (R & HR & HR'). assert (okl (u2own (cv, tv) ++ [])) as Hok'.
  { rewrite app_nil_r. rewrite app_nil_r HR Forall_app in Hok. tauto. }
  pose proof (tr_uv_swap_move row (cv, tv) lg Hok') as H.
  destruct (uv_swap_move row (cv, tv)) as [[] [cv' tv'] ev|r [cv' tv'] ev| |]; [..|by rewrite H|done].
  - destruct H as (ops & -> & H). exists ops. split; [done|]. rewrite !app_nil_r in H |- *.
    eapply acts_perm, (acts_frame _ _ _ R), H; [done|by rewrite HR'].
  - destruct H as (ops & -> & H). exists ops. split; [done|]. rewrite !app_nil_r in H |- *.
    eapply acts_perm, (acts_frame _ _ _ R), H; [done|by rewrite HR'].
Qed.
Lemma tr_add_zip c cur tar row n i js sk : cur ≠ tar → tr wown [] (add_zip c cur tar row n i js sk) (add_zip_t c cur tar row n i js sk) no [].
Proof.
  intros Hne. revert i sk. induction js as [|j js IH]; intros i sk; cbn [add_zip add_zip_t]; (destruct (decide (n ≤ i)); [by apply tr_ret|]); [by apply tr_ret|].
  eapply tr_bind; [apply tr_plain, still_storage_id|]. intros tid. cbn beta. destruct (decide (tid = c)).
  - eapply tr_bind; [apply tr_massert|]. intros []. apply IH.
  - eapply tr_bind; [by apply tr_move_element|]. intros []. apply IH.
Qed.
Lemma tr_rem_zip c cur tar row n is_ j sk : cur ≠ tar → tr wown [] (rem_zip c cur tar row n is_ j sk) (rem_zip_t c cur tar row n is_ j sk) no [].
Proof.
  intros Hne. revert j sk. induction is_ as [|i is_ IH]; intros j sk; cbn [rem_zip rem_zip_t]; [by apply tr_ret|].
  eapply tr_bind; [apply tr_plain, still_storage_id|]. intros cid. cbn beta. destruct (decide (cid = c)).
  - eapply tr_bind; [apply tr_massert|]. intros []. apply IH.
  - destruct (decide _); [by apply tr_ret|]. eapply tr_bind; [by apply tr_move_element|]. intros []. apply IH.
Qed.
Definition shift {S A} (own : S → list layout) (x : list layout) (m : M S A) (y : A → list layout) (z : list layout) : Prop :=
  ∀ s, match m s with
       | Done a s' _ => own s' ++ y a ≡ₚ own s ++ x
       | Panicked _ s' _ => own s' ++ z ≡ₚ own s ++ x
       | _ => True
       end.
Lemma shift_tr {S A} (own : S → list layout) x (m : M S A) y z : shift own x m y z → tr own x m (plain m) y z.
Proof.
  intros H s lg _. specialize (H s). rewrite /plain /on_fst /zoom. simpl. destruct (m s); [..|done|done].
  - exists []. rewrite app_nil_r. split; [done|]. by apply acts_nil.
  - exists []. rewrite app_nil_r. split; [done|]. by apply acts_nil.
Qed.
Lemma shift_bind {S A B} (own : S → list layout) x (m : M S A) y z (k : A → M S B) y' :
  shift own x m y z → (∀ a, shift own (y a) (k a) y' z) → shift own x (bind m k) y' z.
Proof.
  intros Hm Hk s. rewrite /bind. specialize (Hm s). destruct (m s) as [a s' ev|r s' ev| |]; [|done..].
  specialize (Hk a s'). destruct (k a s'); simpl; [by rewrite Hk..|done|done].
Qed.
Lemma still_shift {S A} (own : S → list layout) x (m : M S A) : still own m → shift own x m (λ _, x) x.
Proof. intros H s. specialize (H s). destruct (m s); [by rewrite H..|done|done]. Qed.
Lemma release_acts ss : acts (sown ss) (release_columns ss) [].
Proof.
  induction ss as [|[c v] ss IH]; [by apply acts_nil|]. eapply (acts_app _ (sown ss)); [|done].
  cbn. rewrite /uown. destruct (decide (0 < uv_cap v)), (decide (uv_cap v = 0)); [lia| | |lia].
  - apply (acts_frame [Layout (uv_cap v) (uv_align v)] _ [] (sown ss)), acts_free.
  - by apply acts_nil.
Qed.
Lemma tr_push_archetype a : tr wown (aown a) (push_archetype a) (push_archetype_t a) no [].
Proof.
  assert (Hs : shift wown (aown a) (push_archetype a) no (aown a)).
  { rewrite /push_archetype. eapply shift_bind; [by apply still_shift; st|]. intros n. cbn beta.
    eapply shift_bind; [apply still_shift, still_set_arch_bits|]. intros []. cbn beta.
    eapply shift_bind; [by apply still_shift; st|]. intros o. cbn beta.
    eapply shift_bind; [by apply still_shift; st|]. intros eb. cbn beta.
    eapply shift_bind; [apply still_shift; st|]. intros []. cbn beta.
    eapply (shift_bind _ _ _ no); [|intros []; intros w; simpl; reflexivity].
    intros w. unfold modify. rewrite app_nil_r /wown. cbn [w_archs w_reuse set_archs].
    rewrite bind_app. cbn. rewrite app_nil_r -!app_assoc. f_equiv. apply Permutation_app_comm. }
  apply shift_tr in Hs. intros w lg Hok. specialize (Hs w lg Hok). rewrite /push_archetype_t /on_unwind_t.
  destruct (push_archetype a w) as [n w' ev|r w' ev| |]; [..|done].
  - destruct Hs as (ops & -> & H). by exists ops.
  - destruct Hs as (ops & -> & H). exists (ops ++ release_columns (a_storages a)). rewrite app_assoc !app_nil_r. split; [done|].
    eapply acts_app; [done|]. eapply acts_perm, (acts_frame _ _ _ (wown w')), release_acts; [apply Permutation_app_comm|done].
  - by rewrite Hs.
Qed.
Lemma index_twice_ne {A} i j (l : list A) p : index_twice i j l = Some p → i ≠ j.
Proof. rewrite /index_twice. destruct (Nat.compare i j) eqn:E; [done| |]; [apply Nat.compare_lt_iff in E|apply Nat.compare_gt_iff in E]; lia. Qed.
Lemma tr_unwrap_bind {S A B} (own : S → list layout) x (o : option A) r (k : A → M S B) kt y :
  (∀ a, o = Some a → tr own x (k a) (kt a) y x) → tr own x (bind (unwrap o r) k) (bind (unwrap o r) kt) y x.
Proof.
  intros H. destruct o as [a|]; [|intros s lg _; exists []; rewrite app_nil_r; split; [done|by apply acts_nil]].
  intros s lg Hok. specialize (H a eq_refl s lg Hok). unfold bind, unwrap, ret. destruct (k a s) as [b s' ev|r' s' ev| |]; simpl; [..|by rewrite H|done].
  - destruct H as (ops & -> & H). by exists ops.
  - destruct H as (ops & -> & H). by exists ops.
Qed.
