(** * What iterators answer depends on the shape of the world only: not on the states of the
    locks and not on the bytes stored in the columns *)
From Verif Require Import ProofBase SpecSmall World Query History ProofEntities ProofBitset ProofArrayVec ProofUVec.
From Verif Require Export ProofAlias Flight.

(** *** Worlds of the same shape *)
Definition shape_ptr (p p' : ptr) : Prop :=
  match p, p' with
  | Dangling, Dangling => True
  | Heap a m, Heap a' m' => a = a' ∧ length m = length m'
  | _, _ => False
  end.
Definition shape_col (x y : ecsid * uvec) : Prop :=
  x.1 = y.1 ∧ uv_ti x.2 = uv_ti y.2 ∧ uv_cap x.2 = uv_cap y.2 ∧ uv_len x.2 = uv_len y.2 ∧ shape_ptr (uv_data x.2) (uv_data y.2).
Definition shape_arch (a b : archetype) : Prop :=
  a_lookup a = a_lookup b ∧ a_entities a = a_entities b ∧ a_comp_ids a = a_comp_ids b ∧ Forall2 shape_col (a_storages a) (a_storages b).
Definition shape (w w' : world) : Prop :=
  Forall2 shape_arch (w_archs w) (w_archs w') ∧ w_bitset w = w_bitset w' ∧ w_entbits w = w_entbits w' ∧
  w_ents w = w_ents w' ∧ w_meta w = w_meta w' ∧ w_types w = w_types w' ∧ w_lock_lookup w = w_lock_lookup w'.

Lemma shape_ptr_refl p : shape_ptr p p.
Proof. by destruct p. Qed.
Lemma shape_col_refl x : shape_col x x.
Proof. rewrite /shape_col. split_and!; try done. apply shape_ptr_refl. Qed.
Lemma shape_arch_refl a : shape_arch a a.
Proof. rewrite /shape_arch. split_and!; try done. apply Forall_Forall2_diag, Forall_forall. intros; apply shape_col_refl. Qed.
Lemma shape_refl w : shape w w.
Proof. rewrite /shape. split_and!; try done. apply Forall_Forall2_diag, Forall_forall. intros; apply shape_arch_refl. Qed.
Lemma shape_locks w ls : shape w (set_locks ls w).
Proof. exact (shape_refl w). Qed.

Lemma write_at_length m off bs : off + length bs ≤ length m → length (write_at m off bs) = length m.
Proof. intros H. rewrite /write_at !app_length take_length drop_length. lia. Qed.
Lemma shape_store p v w : match ptr_store p v w with Done _ w' _ | Panicked _ w' _ => shape w w' | _ => True end.
Proof.
  destruct p as [| |k i off]; [done..|]. cbn [ptr_store]. rewrite /write_loc /in_arch /zoom. cbn [loc_arch loc_storage loc_off].
  destruct (w_archs w !! k) as [a|] eqn:Ha; [|apply shape_refl]. rewrite /in_storage /zoom.
  destruct (a_storages a !! i) as [[c u]|] eqn:Hu; cbn [fmap option_fmap option_map snd].
  2:{ rewrite list_insert_id //. by destruct w; apply shape_refl. }
  rewrite /bind /=. destruct (mem_write (uv_data u) off v) as [p|] eqn:Hm; [|done]. cbn.
  pose proof (shape_refl w) as (H & ?). split; [|done]. cbn [w_archs set_archs].
  rewrite -{1}(list_insert_id _ _ _ Ha). apply Forall2_insert; [done|]. split_and!; [done..|]. cbn [a_storages a_set_storages].
  pose proof (shape_arch_refl a) as (_ & _ & _ & Hs). apply Forall2_same_length_lookup_2; [by rewrite alter_length|].
  intros j x y Hx Hy. destruct (decide (j = i)) as [->|Hj].
  - rewrite list_lookup_alter Hx /= in Hy. injection Hy as <-. rewrite Hu in Hx. injection Hx as <-. split_and!; try done. cbn.
    revert Hm. rewrite /mem_write. destruct (uv_data u) as [|al m]; case_decide; try done; intros [= <-]; [done|]. split; [done|]. by rewrite write_at_length.
  - rewrite list_lookup_alter_ne // in Hy. rewrite Hx in Hy. injection Hy as <-. apply shape_col_refl.
Qed.

(** *** Computations that read the shape only *)
Definition alike {A} (R : A → A → Prop) (m m' : M world A) : Prop := ∀ w w', shape w w' →
  match m w, m' w' with
  | Done a w1 ev, Done a' w1' ev' => R a a' ∧ w1 = w ∧ w1' = w' ∧ ev = ev'
  | Panicked r w1 ev, Panicked r' w1' ev' => r = r' ∧ w1 = w ∧ w1' = w' ∧ ev = ev'
  | Deadlock, Deadlock | UB, UB => True
  | _, _ => False
  end.
Lemma alike_ret {A} (R : A → A → Prop) a a' : R a a' → alike R (ret a) (ret a').
Proof. by intros H w w' _. Qed.
Lemma alike_ub {A} (R : A → A → Prop) : alike R ub ub.
Proof. by intros w w' _. Qed.
Lemma alike_bind {A B} (R : A → A → Prop) (S : B → B → Prop) m m' k k' :
  alike R m m' → (∀ a a', R a a' → alike S (k a) (k' a')) → alike S (bind m k) (bind m' k').
Proof.
  intros Hm Hk w w' Hs. rewrite /bind. specialize (Hm w w' Hs).
  destruct (m w) as [a w1 ev|r w1 ev| |], (m' w') as [a' w1' ev'|r' w1' ev'| |]; try done.
  destruct Hm as (Ha & -> & -> & ->). specialize (Hk a a' Ha w w' Hs).
  destruct (k a w), (k' a' w'); try done; cbn; naive_solver.
Qed.
Lemma alike_gets {A} (R : A → A → Prop) (f f' : world → A) : (∀ w w', shape w w' → R (f w) (f' w')) → alike R (gets f) (gets f').
Proof. intros H w w' Hs. cbn. split; [by apply H|done]. Qed.
Lemma alike_unwrap {A} (R : A → A → Prop) o o' r : option_Forall2 R o o' → alike R (unwrap o r) (unwrap o' r).
Proof. by intros [] w w' _. Qed.
Lemma alike_weaken {A} (R S : A → A → Prop) m m' : (∀ a a', R a a' → S a a') → alike R m m' → alike S m m'.
Proof.
  intros H Hm w w' Hs. specialize (Hm w w' Hs). destruct (m w), (m' w'); try done. naive_solver.
Qed.
Lemma option_Forall2_eq {A} (o : option A) : option_Forall2 eq o o.
Proof. destruct o; by constructor. Qed.
Lemma shape_lookup w w' k : shape w w' → option_Forall2 shape_arch (w_archs w !! k) (w_archs w' !! k).
Proof.
  intros (H & _). destruct (w_archs w !! k) as [a|] eqn:Ha.
  - destruct (Forall2_lookup_l _ _ _ _ _ H Ha) as (b & -> & ?). by constructor.
  - apply lookup_ge_None in Ha. rewrite (Forall2_length _ _ _ H) in Ha. apply lookup_ge_None in Ha as ->. constructor.
Qed.
Lemma shape_arch_storage a b i : shape_arch a b → option_Forall2 shape_col (a_storages a !! i) (a_storages b !! i).
Proof.
  intros (_ & _ & _ & H). destruct (a_storages a !! i) as [x|] eqn:Hx.
  - destruct (Forall2_lookup_l _ _ _ _ _ H Hx) as (y & -> & ?). by constructor.
  - apply lookup_ge_None in Hx. rewrite (Forall2_length _ _ _ H) in Hx. apply lookup_ge_None in Hx as ->. constructor.
Qed.

(** *** Iterating over archetypes *)
Definition shape_found (x y : nat * archetype) : Prop := x.1 = y.1 ∧ shape_arch x.2 y.2.
Lemma alike_get_arch k : alike shape_arch (get_arch k) (get_arch k).
Proof.
  rewrite /get_arch. eapply (alike_bind (option_Forall2 shape_arch)); [|intros; by apply alike_unwrap].
  apply alike_gets. intros w w' H. by apply shape_lookup.
Qed.
Lemma alike_arch_next b : alike (λ x y, option_Forall2 shape_found x.1 y.1 ∧ x.2 = y.2) (arch_next b) (arch_next b).
Proof.
  rewrite /arch_next. destruct (bi_next b) as [[[k|] b']|]; [| |apply alike_ub].
  - eapply alike_bind; [apply alike_get_arch|]. intros a a' Ha. apply alike_ret. split; [|done]. by constructor.
  - apply alike_ret. split; [|done]. constructor.
Qed.
Lemma alike_fetch_iters fs : alike eq (fetch_iters fs) (fetch_iters fs).
Proof.
  induction fs as [|f fs IH]; cbn [fetch_iters]; [by apply alike_ret|]. eapply (alike_bind eq).
  - rewrite /fetch_iter. eapply (alike_bind shape); [by apply alike_gets|]. intros w w' (_ & Hb & He & _). rewrite -He -Hb.
    destruct (fetch_id f); [|by apply alike_ret]. eapply (alike_bind eq); [apply alike_unwrap, option_Forall2_eq|]. intros b _ <-. by apply alike_ret.
  - intros i _ <-. eapply (alike_bind eq); [exact IH|]. intros l _ <-. by apply alike_ret.
Qed.
Lemma alike_bit_length fs : alike eq (gets (λ w, fetch_bit_length w fs)) (gets (λ w, fetch_bit_length w fs)).
Proof. apply alike_gets. intros w w' (_ & Hb & He & _). by rewrite /fetch_bit_length Hb He. Qed.
Lemma alike_entbits : alike eq (gets (λ w, bv_data (w_entbits w))) (gets (λ w, bv_data (w_entbits w))).
Proof. apply alike_gets. by intros w w' (_ & _ & -> & _). Qed.
Lemma alike_dq_arch_iter q : alike eq (dq_arch_iter q) (dq_arch_iter q).
Proof.
  rewrite /dq_arch_iter. destruct (dq_incomplete q).
  - eapply (alike_bind eq); [apply alike_entbits|]. intros d _ <-. by apply alike_ret.
  - eapply (alike_bind eq); [apply alike_fetch_iters|]. intros d _ <-. eapply (alike_bind eq); [apply alike_bit_length|]. intros b _ <-. by apply alike_ret.
Qed.
Lemma alike_sq_arch_iter q : alike eq (sq_arch_iter q) (sq_arch_iter q).
Proof.
  rewrite /sq_arch_iter. destruct (sq_fetches q) as [fs|].
  - eapply (alike_bind eq); [apply alike_fetch_iters|]. intros d _ <-. eapply (alike_bind eq); [apply alike_bit_length|]. intros b _ <-. by apply alike_ret.
  - eapply (alike_bind eq); [apply alike_entbits|]. intros d _ <-. by apply alike_ret.
Qed.
Lemma alike_create_ptrs k a b fs : shape_arch a b → alike eq (create_ptrs k a fs) (create_ptrs k b fs).
Proof.
  intros Hab. induction fs as [|f fs IH]; cbn [create_ptrs]; [by apply alike_ret|]. eapply (alike_bind eq).
  - rewrite /create_ptr. destruct (fetch_id f) as [c|]; [|by apply alike_ret]. eapply (alike_bind eq).
    + apply alike_unwrap. destruct Hab as (-> & _). apply option_Forall2_eq.
    + intros i _ <-. eapply (alike_bind shape_col); [apply alike_unwrap; by apply shape_arch_storage|].
      intros x y (_ & Ht & _). apply alike_ret. by rewrite /uv_size Ht.
  - intros p _ <-. eapply (alike_bind eq); [exact IH|]. intros l _ <-. by apply alike_ret.
Qed.

(** *** Pointers *)
Lemma shape_extent w w' p : shape w w' → ptr_extent w p = ptr_extent w' p.
Proof.
  intros H. destruct p as [|k off|k i off]; [done|..]; cbn [ptr_extent].
  - destruct (shape_lookup _ _ k H) as [a b (_ & He & _)|]; [|done]. cbn. by rewrite He.
  - destruct (shape_lookup _ _ k H) as [a b Hab|]; [|done]. cbn. destruct (shape_arch_storage _ _ i Hab) as [x y (_ & _ & _ & _ & Hp)|]; [|done]. cbn.
    destruct (uv_data x.2), (uv_data y.2); try done. by destruct Hp as [_ ->].
Qed.
Lemma alike_ptr_add p n : alike eq (ptr_add p n) (ptr_add p n).
Proof.
  intros w w' Hs. rewrite /ptr_add -(shape_extent _ _ p Hs). case_decide; [done|]. destruct (ptr_extent w p); [|done]. by case_decide.
Qed.
Lemma alike_advance ps : alike eq (advance ps) (advance ps).
Proof.
  induction ps as [|[p n] ps IH]; cbn [advance]; [by apply alike_ret|]. eapply (alike_bind eq); [apply alike_ptr_add|]. intros p' _ <-.
  eapply (alike_bind eq); [exact IH|]. intros l _ <-. by apply alike_ret.
Qed.
Lemma alike_offset_ptrs n l : alike eq (offset_ptrs n l) (offset_ptrs n l).
Proof.
  induction l as [|[p q] l IH]; cbn [offset_ptrs]; [by apply alike_ret|]. eapply (alike_bind eq); [apply alike_ptr_add|]. intros p' _ <-.
  eapply (alike_bind eq); [exact IH|]. intros r _ <-. by apply alike_ret.
Qed.
Lemma alike_param_ptrs k a b fs : shape_arch a b → alike eq (param_ptrs k a fs) (param_ptrs k b fs).
Proof.
  intros Hab. induction fs as [|f fs IH]; cbn [param_ptrs]; [by apply alike_ret|]. eapply (alike_bind eq).
  - rewrite /param_ptr. destruct (fetch_id f) as [c|]; [|by apply alike_ret]. destruct Hab as (Hl & Hab'). rewrite -Hl.
    destruct (a_lookup a !! c) as [i|]; [|by apply alike_ret].
    eapply (alike_bind shape_col); [apply alike_unwrap; by apply shape_arch_storage|]. intros x y _. by apply alike_ret.
  - intros o _ <-. destruct o as [p|]; [|by apply alike_ret]. eapply (alike_bind eq); [exact IH|]. intros r _ <-. by apply alike_ret.
Qed.
Definition same_ptrs (l l' : list (qptr * item)) : Prop := l.*1 = l'.*1.
Lemma alike_cast_ptr p q : alike (λ x y, x.1 = y.1) (cast_ptr p q) (cast_ptr p q).
Proof.
  intros w w' Hs. rewrite /cast_ptr.
  assert (∀ t, match (match deref_val w q (ty_size t) with Some v => if col_aligned w q (ty_align t) then Done (q, IVal v) w [] else UB | None => UB end),
                     (match deref_val w' q (ty_size t) with Some v => if col_aligned w' q (ty_align t) then Done (q, IVal v) w' [] else UB | None => UB end) with
               | Done a w1 ev, Done a' w1' ev' => a.1 = a'.1 ∧ w1 = w ∧ w1' = w' ∧ ev = ev'
               | Panicked r w1 ev, Panicked r' w1' ev' => r = r' ∧ w1 = w ∧ w1' = w' ∧ ev = ev'
               | Deadlock, Deadlock | UB, UB => True
               | _, _ => False
               end) as Hval.
  { intros t. destruct q as [|k off|k i off]; [done..|]. rewrite /deref_val /col_aligned.
    destruct (shape_lookup _ _ k Hs) as [a b Hab|]; [|done]. cbn. destruct (shape_arch_storage _ _ i Hab) as [x y (_ & _ & _ & _ & Hp)|]; [|done]. cbn.
    rewrite /mem_read /ptr_aligned. destruct (uv_data x.2), (uv_data y.2); try done.
    - case_decide; [|done]. by destruct (_ && _).
    - destruct Hp as [-> ->]. case_decide; [|done]. by destruct (_ && _). }
  destruct p as [t|t|]; [apply Hval..|].
  destruct q as [|k off|k i off]; [done| |done]. rewrite /deref_ent. case_decide; [|done].
  destruct (shape_lookup _ _ k Hs) as [a b (_ & He & _)|]; [|done]. cbn. rewrite He. by destruct (_ !! _).
Qed.
Lemma alike_cast_ptrs l : alike same_ptrs (cast_ptrs l) (cast_ptrs l).
Proof.
  induction l as [|[p q] l IH]; cbn [cast_ptrs]; [by apply alike_ret|]. eapply alike_bind; [apply alike_cast_ptr|]. intros x y Hxy.
  eapply alike_bind; [exact IH|]. intros r r' Hr. apply alike_ret. rewrite /same_ptrs !fmap_cons. by f_equal.
Qed.

(** *** The three iterators *)
Lemma alike_dq_iter q : alike eq (dq_iter q) (dq_iter q).
Proof. eapply (alike_bind eq); [apply alike_dq_arch_iter|]. intros b _ <-. by apply alike_ret. Qed.
Lemma alike_dq_column_iter q : alike eq (dq_column_iter q) (dq_column_iter q).
Proof. eapply (alike_bind eq); [apply alike_dq_arch_iter|]. intros b _ <-. by apply alike_ret. Qed.
Lemma alike_sq_iter q : alike eq (sq_iter q) (sq_iter q).
Proof. eapply (alike_bind eq); [apply alike_sq_arch_iter|]. intros b _ <-. by apply alike_ret. Qed.
Lemma alike_intra_next ii : alike eq (intra_next ii) (intra_next ii).
Proof.
  rewrite /intra_next. case_decide; [by apply alike_ret|]. eapply (alike_bind eq); [apply alike_advance|]. intros l _ <-. by apply alike_ret.
Qed.
Lemma alike_di_next it : alike eq (di_next it) (di_next it).
Proof.
  rewrite /di_next. generalize (arch_fuel (di_arch it)). intros fuel. revert it. induction fuel as [|fuel IH]; intros it; cbn [di_next_fuel]; [apply alike_ub|].
  eapply (alike_bind eq); [apply alike_intra_next|]. intros [o ii] _ <-. destruct o; [by apply alike_ret|].
  eapply alike_bind; [apply alike_arch_next|]. intros [oa b] [oa' b'] [Ho Hb]. cbn in Ho, Hb. subst b'.
  destruct Ho as [[k a] [k' a'] [Hk Ha]|]; [|by apply alike_ret]. cbn in Hk, Ha. subst k'.
  eapply (alike_bind eq); [by apply alike_create_ptrs|]. intros ps _ <-. destruct Ha as (_ & <- & _). apply IH.
Qed.
Lemma alike_ci_next it : alike eq (ci_next it) (ci_next it).
Proof.
  rewrite /ci_next. eapply alike_bind; [apply alike_arch_next|]. intros [oa b] [oa' b'] [Ho Hb]. cbn in Ho, Hb. subst b'.
  destruct Ho as [[k a] [k' a'] [Hk Ha]|]; [|by apply alike_ret]. cbn in Hk, Ha. subst k'.
  eapply (alike_bind eq); [by apply alike_create_ptrs|]. intros ps _ <-. destruct Ha as (_ & <- & _). by apply alike_ret.
Qed.
Lemma alike_si_next it : alike (λ x y, option_Forall2 same_ptrs x.1 y.1 ∧ x.2 = y.2) (si_next it) (si_next it).
Proof.
  rewrite /si_next. generalize (arch_fuel (si_arch it)). intros fuel. revert it. induction fuel as [|fuel IH]; intros it; cbn [si_next_fuel]; [apply alike_ub|].
  eapply (alike_bind eq).
  { rewrite /si_intra_next. case_decide; [by apply alike_ret|]. eapply (alike_bind eq); [apply alike_offset_ptrs|]. intros l _ <-. by apply alike_ret. }
  intros [o it1] _ <-. destruct o.
  { eapply alike_bind; [apply alike_cast_ptrs|]. intros r r' Hr. apply alike_ret. split; [by constructor|done]. }
  eapply alike_bind; [apply alike_arch_next|]. intros [oa b] [oa' b'] [Ho Hb]. cbn in Ho, Hb. subst b'.
  destruct Ho as [[k a] [k' a'] [Hk Ha]|]; [|apply alike_ret; split; [constructor|done]]. cbn in Hk, Ha. subst k'.
  eapply (alike_bind eq); [apply alike_unwrap, option_Forall2_eq|]. intros fs _ <-.
  eapply (alike_bind eq); [by apply alike_param_ptrs|]. intros ops _ <-.
  eapply (alike_bind eq); [apply alike_unwrap, option_Forall2_eq|]. intros ps _ <-. destruct Ha as (_ & <- & _). apply IH.
Qed.
