(** * Every allocator call releases or resizes a block that is live (C53) *)
From Verif Require Import ProofBase SpecSmall World Query History ProofEntities ProofBitset ProofArrayVec ProofUVec.
From Verif Require Export ProofLimit SpecMemory.

(** ** Blocks up to order *)
Lemma take_block_in l L : l ∈ L → ∃ L', take_block l L = Some L' ∧ L ≡ₚ l :: L'.
Proof.
  induction L as [|x L IH]; [by intros ?%elem_of_nil|]. cbn [take_block]. destruct (decide (x = l)) as [->|Hx].
  - intros _. by exists L.
  - intros [->|Hl]%elem_of_cons; [done|]. destruct (IH Hl) as (L' & -> & Hp). exists (x :: L'). split; [done|].
    rewrite Hp. apply Permutation_swap.
Qed.
Notation okl := (Forall layout_wf).
Definition acts (L : list layout) (ops : mlog) (L' : list layout) : Prop :=
  (okl L → okl L') ∧ ∀ L0 F, L0 ≡ₚ L ++ F → ∃ L1, live L0 ops = Some L1 ∧ L1 ≡ₚ L' ++ F.
Lemma live_app L o1 o2 : live L (o1 ++ o2) = match live L o1 with Some L' => live L' o2 | None => None end.
Proof.
  revert L. induction o1 as [|[l|l n|l] o1 IH]; intros L; cbn [live app]; [done|..].
  - by destruct (decide _).
  - destruct (decide _); [|done]. by destruct (take_block l L).
  - by destruct (take_block l L).
Qed.
Lemma acts_nil L L' : L ≡ₚ L' → acts L [] L'.
Proof. intros H. split; [by rewrite H|]. intros L0 F H0. exists L0. split; [done|]. by rewrite H0 H. Qed.
Lemma acts_app L L' L'' o1 o2 : acts L o1 L' → acts L' o2 L'' → acts L (o1 ++ o2) L''.
Proof.
  intros [W1 H1] [W2 H2]. split; [by auto|]. intros L0 F H0. destruct (H1 L0 F H0) as (L1 & E1 & P1). destruct (H2 L1 F P1) as (L2 & E2 & P2).
  exists L2. by rewrite live_app E1.
Qed.
Lemma acts_frame L ops L' R : acts L ops L' → acts (L ++ R) ops (L' ++ R).
Proof.
  intros [W H]. split; [rewrite !Forall_app; by intros [? ?]; auto|].
  intros L0 F H0. rewrite -app_assoc in H0. destruct (H _ _ H0) as (L1 & ? & ?). exists L1. by rewrite -app_assoc.
Qed.
Lemma acts_perm L M ops L' M' : M ≡ₚ L → L' ≡ₚ M' → acts L ops L' → acts M ops M'.
Proof.
  intros H1 H2 [W H]. split; [by rewrite H1 -H2|].
  intros L0 F H0. destruct (H L0 F) as (L1 & ? & ?); [by rewrite H0 H1|]. exists L1. by rewrite -H2.
Qed.
Lemma acts_alloc l : l_size l ≠ 0 → layout_wf l → acts [] [MAlloc l] [l].
Proof.
  intros Hl Hw. split; [by constructor|].
  intros L0 F H0. exists (l :: L0). cbn [live]. destruct (decide _) as [_|[]]; [|done]. split; [done|]. by rewrite H0.
Qed.
Lemma acts_free l : acts [l] [MFree l] [].
Proof.
  split; [by constructor|].
  intros L0 F H0. destruct (take_block_in l L0) as (L' & E & P); [rewrite H0; by apply elem_of_cons; left|].
  exists L'. cbn [live]. rewrite E. split; [done|]. rewrite P in H0. simpl. by apply Permutation_cons_inv in H0.
Qed.
Lemma acts_realloc l n : n ≠ 0 → layout_wf (Layout n (l_align l)) → acts [l] [MRealloc l n] [Layout n (l_align l)].
Proof.
  intros Hn Hw. split; [by repeat constructor|].
  intros L0 F H0. destruct (take_block_in l L0) as (L' & E & P); [rewrite H0; by apply elem_of_cons; left|].
  exists (Layout n (l_align l) :: L'). cbn [live]. destruct (decide _) as [_|[]]; [|done]. rewrite E. split; [done|]. rewrite P in H0. simpl.
  apply Permutation_cons_inv in H0. by rewrite H0.
Qed.

(** ** The logged computation does what the plain one does, and its allocator calls turn the
    blocks owned before (by the state, and [x] in passing) into those owned after (by the state,
    and [y] by the result, [z] when it panics). *)
Definition tr {S A} (own : S → list layout) (x : list layout) (m : M S A) (mt : M (S * mlog) A)
    (y : A → list layout) (z : list layout) : Prop :=
  ∀ s lg, okl (own s ++ x) →
    match m s with
    | Done a s' ev => ∃ ops, mt (s, lg) = Done a (s', lg ++ ops) ev ∧ acts (own s ++ x) ops (own s' ++ y a)
    | Panicked r s' ev => ∃ ops, mt (s, lg) = Panicked r (s', lg ++ ops) ev ∧ acts (own s ++ x) ops (own s' ++ z)
    | Deadlock => mt (s, lg) = Deadlock
    | UB => True
    end.
Notation no := (λ _, []).

Section tr.
  Context {S : Type} (own : S → list layout).
  Lemma tr_bind {A B} x (m : M S A) mt y z (k : A → M S B) kt y' :
    tr own x m mt y z → (∀ a, tr own (y a) (k a) (kt a) y' z) → tr own x (bind m k) (bind mt kt) y' z.
  Proof.
    intros Hm Hk s lg Hok. rewrite /bind. specialize (Hm s lg Hok). destruct (m s) as [a s' ev|r s' ev| |]; [|..|done].
    - destruct Hm as (o1 & -> & H1). specialize (Hk a s' (lg ++ o1) (proj1 H1 Hok)). destruct (k a s') as [b s'' ev'|r s'' ev'| |]; simpl; [..|by rewrite Hk|done].
      + destruct Hk as (o2 & -> & H2). exists (o1 ++ o2). rewrite app_assoc. split; [done|]. by eapply acts_app.
      + destruct Hk as (o2 & -> & H2). exists (o1 ++ o2). rewrite app_assoc. split; [done|]. by eapply acts_app.
    - destruct Hm as (o1 & -> & H1). by exists o1.
    - by rewrite Hm.
  Qed.
  Lemma tr_ret {A} x (a : A) y z : x ≡ₚ y a → tr own x (ret a) (ret a) y z.
  Proof. intros H s lg _. simpl. exists []. rewrite app_nil_r. split; [done|]. apply acts_nil. by rewrite H. Qed.
  Lemma tr_panic {A} x r (y : A → _) z : x ≡ₚ z → tr own x (panic r) (panic r) y z.
  Proof. intros H s lg _. simpl. exists []. rewrite app_nil_r. split; [done|]. apply acts_nil. by rewrite H. Qed.
  Lemma tr_ub {A} x (mt : M _ A) y z : tr own x ub mt y z.
  Proof. done. Qed.
  Lemma tr_gets {A} x (f : S → A) g z : (∀ s lg, g (s, lg) = f s) → tr own x (gets f) (gets g) (λ _, x) z.
  Proof. intros H s lg _. simpl. exists []. rewrite app_nil_r. rewrite /gets H. split; [done|]. by apply acts_nil. Qed.
  Lemma tr_massert x b r : tr own x (massert b r) (massert b r) (λ _, x) x.
  Proof. destruct b; [by apply tr_ret|by apply tr_panic]. Qed.
  Lemma tr_unwrap {A} x (o : option A) r : tr own x (unwrap o r) (unwrap o r) (λ _, x) x.
  Proof. destruct o; [by apply tr_ret|by apply tr_panic]. Qed.
  Lemma tr_or_ub {A} x (o : option A) z : tr own x (or_ub o) (or_ub o) (λ _, x) z.
  Proof. destruct o; [by apply tr_ret|done]. Qed.
  Lemma tr_modify x f z : (∀ s, own (f s) ≡ₚ own s) → tr own x (modify f) (plain (modify f)) (λ _, x) z.
  Proof. intros H s lg _. exists []. rewrite app_nil_r. split; [done|]. apply acts_nil. by rewrite H. Qed.
  Lemma tr_modify_to x f y z : (∀ s, own (f s) ++ y ≡ₚ own s ++ x) → tr own x (modify f) (plain (modify f)) (λ _, y) z.
  Proof. intros H s lg _. exists []. rewrite app_nil_r. split; [done|]. apply acts_nil. by rewrite H. Qed.
  Definition still {A} (m : M S A) : Prop := keeping (λ s s', own s' ≡ₚ own s) m.
  Lemma tr_plain {A} x (m : M S A) : still m → tr own x m (plain m) (λ _, x) x.
  Proof.
    intros H s lg _. specialize (H s). rewrite /plain /on_fst /zoom. simpl. destruct (m s) as [a s' ev|r s' ev| |]; [..|done|done].
    - exists []. rewrite app_nil_r. split; [done|]. apply acts_nil. by rewrite H.
    - exists []. rewrite app_nil_r. split; [done|]. apply acts_nil. by rewrite H.
  Qed.
  Lemma tr_frame {A} x (m : M S A) mt y z R : tr own x m mt y z → tr own (x ++ R) m mt (λ a, y a ++ R) (z ++ R).
  Proof.
    intros H s lg Hok. assert (okl (own s ++ x)) as Hok'.
    { rewrite !Forall_app in Hok. rewrite !Forall_app. tauto. }
    specialize (H s lg Hok'). destruct (m s) as [a s' ev|r s' ev| |]; [..|done|done].
    - destruct H as (ops & -> & H). exists ops. split; [done|]. rewrite !app_assoc. by apply acts_frame.
    - destruct H as (ops & -> & H). exists ops. split; [done|]. rewrite !app_assoc. by apply acts_frame.
  Qed.
  Lemma tr_perm {A} x (m : M S A) mt y z x' y' z' :
    tr own x m mt y z → x' ≡ₚ x → (∀ a, y a ≡ₚ y' a) → z ≡ₚ z' → tr own x' m mt y' z'.
  Proof.
    intros H Hx Hy Hz s lg Hok. rewrite Hx in Hok. specialize (H s lg Hok). destruct (m s) as [a s' ev|r s' ev| |]; [..|done|done].
    - destruct H as (ops & -> & H). exists ops. split; [done|]. eapply acts_perm, H; [by rewrite Hx|by rewrite Hy].
    - destruct H as (ops & -> & H). exists ops. split; [done|]. eapply acts_perm, H; [by rewrite Hx|by rewrite Hz].
  Qed.
  Definition frees (cl : option (list event)) (clt : option (list event * mlog)) (x : list layout) : Prop :=
    ∀ ev, cl = Some ev → ∃ ops, clt = Some (ev, ops) ∧ acts x ops [].
  Lemma tr_on_unwind {A} x (m : M S A) mt y z cl clt :
    tr own x m mt y z → frees cl clt z → tr own x (on_unwind m cl) (on_unwind_t mt clt) y [].
  Proof.
    intros H Hf s lg Hok. specialize (H s lg Hok). rewrite /on_unwind /on_unwind_t. destruct (m s) as [a s' ev|r s' ev| |]; [..|done].
    - destruct H as (ops & -> & H). by exists ops.
    - destruct cl as [ev'|]; [|done]. destruct (Hf ev' eq_refl) as (o2 & -> & H2). destruct H as (o1 & -> & H1).
      exists (o1 ++ o2). rewrite app_assoc. split; [done|]. eapply acts_app; [done|].
      eapply acts_perm, (acts_frame _ _ _ (own s')), H2; [apply Permutation_app_comm|by rewrite app_nil_r].
    - by rewrite H.
  Qed.
  Lemma tr_zoom {T A} (ownT : T → list layout) (get : S → option T) set (m : M T A) mt y z x :
    (∀ s t, get s = Some t → ∃ R, own s ≡ₚ ownT t ++ R ∧ ∀ t', own (set t' s) ≡ₚ ownT t' ++ R) →
    (x = z ∨ ∀ s, is_Some (get s)) →
    tr ownT x m mt y z → tr own x (zoom get set m) (tzoom get set mt) y z.
  Proof.
    intros Hl Hn H s lg Hok. rewrite /zoom /tzoom /zoom. simpl. destruct (get s) as [t|] eqn:E; simpl.
    - destruct (Hl s t E) as (R & HR & HR'). assert (okl (ownT t ++ x)) as Hok'.
      { rewrite HR !Forall_app in Hok. rewrite Forall_app. tauto. }
      specialize (H t lg Hok'). destruct (m t) as [a t' ev|r t' ev| |]; [..|by rewrite H|done].
      + destruct H as (ops & -> & H). exists ops. split; [done|]. eapply acts_perm, (acts_frame _ _ _ R), H.
        * rewrite HR. by rewrite -!app_assoc (Permutation_app_comm x).
        * rewrite HR'. by rewrite -!app_assoc (Permutation_app_comm (y a)).
      + destruct H as (ops & -> & H). exists ops. split; [done|]. eapply acts_perm, (acts_frame _ _ _ R), H.
        * rewrite HR. by rewrite -!app_assoc (Permutation_app_comm x).
        * rewrite HR'. by rewrite -!app_assoc (Permutation_app_comm z).
    - exists []. rewrite app_nil_r. destruct Hn as [->|Hn]; [split; [done|by apply acts_nil]|]. destruct (Hn s) as [? ?]. by rewrite E in H0.
  Qed.
  Lemma tr_alloc x l z : layout_wf l → tr own x (or_ub (heap_alloc l)) (alloc_t l) (λ _, l :: x) z.
  Proof.
    intros Hw s lg _. rewrite /heap_alloc /alloc_t /heap_alloc. destruct (decide (l_size l = 0)); [done|]. exists [MAlloc l]. split; [done|].
    eapply acts_perm, (acts_frame _ _ _ (own s ++ x)), (acts_alloc l n Hw); [done|]. simpl. by rewrite Permutation_middle.
  Qed.
  Lemma tr_realloc x p l n z : layout_wf (Layout n (l_align l)) → tr own (l :: x) (or_ub (heap_realloc p l n)) (realloc_t p l n) (λ _, Layout n (l_align l) :: x) z.
  Proof.
    intros Hw s lg _. rewrite /realloc_t. destruct (heap_realloc p l n) as [p'|] eqn:E; [|done]. simpl. exists [MRealloc l n]. split; [done|].
    assert (Hn : n ≠ 0). { intros ->. destruct p; [done|]. simpl in E. destruct (decide _) as [(_ & _ & ?)|]; done. }
    eapply acts_perm, (acts_frame _ _ _ (own s ++ x)), (acts_realloc l n Hn Hw); simpl; by rewrite Permutation_middle.
  Qed.
  Lemma tr_dealloc x p l z : tr own (l :: x) (or_ub (heap_dealloc p l)) (dealloc_t p l) (λ _, x) z.
  Proof.
    intros s lg _. rewrite /dealloc_t. destruct (heap_dealloc p l) as [[]|] eqn:E; [|done]. simpl. exists [MFree l]. split; [done|].
    eapply acts_perm, (acts_frame _ _ _ (own s ++ x)), (acts_free l); simpl; [by rewrite Permutation_middle|done].
  Qed.
End tr.

(** ** Who owns what, by capacity *)
Definition uown (v : uvec) : list layout :=
  if decide (uv_cap v = 0) then [] else [Layout (uv_cap v) (uv_align v)].
Definition sown (l : list (ecsid * uvec)) : list layout := l ≫= λ s, uown s.2.
Definition aown (a : archetype) : list layout := sown (a_storages a).
Definition bown (cap : nat) : list layout := if decide (cap = 0) then [] else [Layout cap 1].
Definition wown (w : world) : list layout :=
  (w_archs w ≫= aown) ++ match w_reuse w with Some (_, _, cap) => bown cap | None => [] end.
Definition bwown (s : bw) : list layout := bown (eb_cap s.1) ++ wown s.2.

Lemma lfsa_eq n a l : layout_from_size_align n a = Some l → l = Layout n a.
Proof. rewrite /layout_from_size_align. destruct (_ && _); [by intros [= <-]|done]. Qed.
Lemma lfsa_wf n a l : layout_from_size_align n a = Some l → layout_wf (Layout n a).
Proof. intros H. rewrite /layout_wf /=. pose proof (lfsa_eq _ _ _ H) as ->. done. Qed.
Lemma heap_alloc_nz l p : heap_alloc l = Some p → l_size l ≠ 0.
Proof. rewrite /heap_alloc. by destruct (decide _). Qed.
Lemma heap_realloc_nz p l n p' : heap_realloc p l n = Some p' → n ≠ 0.
Proof. destruct p; [done|]. simpl. destruct (decide _) as [(_ & _ & ?)|]; done. Qed.

Section at_state.
  Context {S : Type} (own : S → list layout).
  Definition tr_at {A} (s : S) (x : list layout) (m : M S A) (mt : M (S * mlog) A)
      (y : A → list layout) (z : list layout) : Prop :=
    ∀ lg, okl (own s ++ x) →
    match m s with
    | Done a s' ev => ∃ ops, mt (s, lg) = Done a (s', lg ++ ops) ev ∧ acts (own s ++ x) ops (own s' ++ y a)
    | Panicked r s' ev => ∃ ops, mt (s, lg) = Panicked r (s', lg ++ ops) ev ∧ acts (own s ++ x) ops (own s' ++ z)
    | Deadlock => mt (s, lg) = Deadlock
    | UB => True
    end.
  Lemma tr_ats {A} x (m : M S A) mt y z : (∀ s, tr_at s x m mt y z) → tr own x m mt y z.
  Proof. intros H s. apply H. Qed.
  Lemma tr_at_of {A} s x (m : M S A) mt y z : tr own x m mt y z → tr_at s x m mt y z.
  Proof. intros H lg. apply H. Qed.
  Lemma tr_at_bind {A B} s x (m : M S A) mt y z (k : A → M S B) kt y' :
    tr_at s x m mt y z → (∀ a s' ev, m s = Done a s' ev → tr_at s' (y a) (k a) (kt a) y' z) → tr_at s x (bind m k) (bind mt kt) y' z.
  Proof.
    intros Hm Hk lg Hok. rewrite /bind. specialize (Hm lg Hok). destruct (m s) as [a s' ev|r s' ev| |]; [|..|done].
    - destruct Hm as (o1 & -> & H1). specialize (Hk a s' ev eq_refl (lg ++ o1) (proj1 H1 Hok)). destruct (k a s') as [b s'' ev'|r s'' ev'| |]; simpl; [..|by rewrite Hk|done].
      + destruct Hk as (o2 & -> & H2). exists (o1 ++ o2). rewrite app_assoc. split; [done|]. by eapply acts_app.
      + destruct Hk as (o2 & -> & H2). exists (o1 ++ o2). rewrite app_assoc. split; [done|]. by eapply acts_app.
    - destruct Hm as (o1 & -> & H1). by exists o1.
    - by rewrite Hm.
  Qed.
  Lemma tr_at_get {A B} s x (f : S → A) g (k : A → M S B) kt y z :
    (∀ s lg, g (s, lg) = f s) → tr_at s x (k (f s)) (kt (f s)) y z → tr_at s x (bind (gets f) k) (bind (gets g) kt) y z.
  Proof.
    intros Hg H lg Hok. specialize (H lg Hok). unfold bind at 1. unfold gets at 1. unfold bind. rewrite /gets Hg.
    destruct (k (f s) s) as [b s' ev|r s' ev| |]; simpl; [..|by rewrite H|done].
    - destruct H as (ops & -> & H). by exists ops.
    - destruct H as (ops & -> & H). by exists ops.
  Qed.
  Lemma tr_at_modify s x f y z : own (f s) ++ y ≡ₚ own s ++ x → tr_at s x (modify f) (plain (modify f)) (λ _, y) z.
  Proof. intros H lg _. exists []. rewrite app_nil_r. split; [done|]. apply acts_nil. by rewrite H. Qed.
End at_state.

(** ** UntypedVec *)
Lemma tr_uv_realloc : tr uown [] uv_realloc uv_realloc_t no [].
Proof.
  apply tr_ats. intros v. rewrite /uv_realloc /uv_realloc_t. apply tr_at_get; [done|]. cbv beta. simpl id.
  destruct (decide (uv_size v = 0)); [by apply tr_at_of, tr_panic|].
  destruct (decide (uv_cap v = 0)) as [Hc|Hc].
  - cbv zeta. destruct (layout_from_size_align (uv_size v * 4) (uv_align v)) as [l|] eqn:El; [|by apply tr_at_of, tr_panic].
    pose proof (lfsa_wf _ _ _ El) as Hw. apply lfsa_eq in El as ->. eapply tr_at_bind; [apply tr_at_of, (tr_ret _ [] _ no); done|]. intros l s' ev [= <- <- <-].
    eapply tr_at_bind; [by apply tr_at_of, tr_alloc|]. intros p s' ev Hp. rewrite /or_ub in Hp.
    destruct (heap_alloc _) as [p'|]; [|done]. injection Hp as -> <- <-.
    apply tr_at_modify. rewrite /uown /=. repeat case_decide; done || lia.
  - cbv zeta. eapply tr_at_bind; [apply tr_at_of, tr_massert|]. intros [] s' ev Hs.
    destruct (N.of_nat (uv_cap v * 2) <? isize_max)%N; [|done]. injection Hs as <- <-.
    destruct (layout_from_size_align (uv_cap v) (uv_align v)) as [l|] eqn:El; [|by apply tr_at_of, tr_panic].
    apply lfsa_eq in El as ->. eapply tr_at_bind; [apply tr_at_of, (tr_ret _ [] _ no); done|]. intros l s' ev [= <- <- <-].
    eapply tr_at_bind; [apply tr_at_of, tr_unwrap|]. intros l s' ev Hs.
    destruct (layout_from_size_align (uv_cap v * 2) (uv_align v)) as [l'|] eqn:El'; [|done]. injection Hs as -> <- <-.
    pose proof (lfsa_wf _ _ _ El') as Hw. intros lg _. unfold bind. rewrite /or_ub /realloc_t /or_ub.
    destruct (heap_realloc (uv_data v) _ (uv_cap v * 2)) as [p|] eqn:Ep; [|done]. simpl.
    exists [MRealloc (Layout (uv_cap v) (uv_align v)) (uv_cap v * 2)]. split; [done|]. rewrite /uown /= !app_nil_r.
    repeat case_decide; [lia..|]. apply heap_realloc_nz in Ep. by apply (acts_realloc (Layout _ _)).
Qed.
Lemma tr_uv_push_raw src : tr uown [] (uv_push_raw src) (uv_push_raw_t src) no [].
Proof.
  apply tr_ats. intros v. rewrite /uv_push_raw /uv_push_raw_t. apply tr_at_get; [done|]. simpl id.
  destruct (decide (uv_size v = 0)); [by apply tr_at_modify|].
  eapply tr_at_bind.
  { instantiate (1 := no). destruct (decide _); [apply tr_at_of, tr_uv_realloc|by apply tr_at_of, tr_ret]. }
  intros [] v1 ev _. apply tr_at_get; [done|]. simpl id. destruct (decide (length src < uv_size v1)); [done|].
  eapply tr_at_bind; [apply tr_at_of, tr_or_ub|]. intros p v2 ev' Hp. destruct (mem_write _ _ _); [|done]. injection Hp as -> <- <-.
  by apply tr_at_modify.
Qed.
Definition u2own (p : uvec * uvec) : list layout := uown p.1 ++ uown p.2.
Lemma tr_on_snd_uv {A} (m : M uvec A) mt y : tr uown [] m mt y [] → tr u2own [] (on_snd m) (on_snd_t mt) y [].
Proof.
  intros H. eapply tr_zoom; [|by left|done]. intros [a b] t [= <-]. exists (uown a). split; [apply Permutation_app_comm|].
  intros t'. apply Permutation_app_comm.
Qed.
Lemma tr_uv_swap_move e : tr u2own [] (uv_swap_move e) (uv_swap_move_t e) no [].
Proof.
  apply tr_ats. intros [v o]. rewrite /uv_swap_move /uv_swap_move_t. apply tr_at_get; [done|]. simpl id. cbv beta iota.
  eapply tr_at_bind; [apply tr_at_of, tr_massert|]. intros [] s1 ev1 H1. destruct (ti_eqb _ _); [|done]. injection H1 as <- <-.
  eapply tr_at_bind; [apply tr_at_of, tr_massert|]. intros [] s1 ev1 H1. destruct (bool_decide (0 < _)); [|done]. injection H1 as <- <-.
  eapply tr_at_bind; [apply tr_at_of, tr_massert|]. intros [] s1 ev1 H1. destruct (_ || _); [|done]. injection H1 as <- <-.
  destruct (decide (uv_size v = 0)).
  { apply tr_at_of. eapply tr_bind; [apply tr_plain; intros [? ?]; simpl; reflexivity|]. intros []. apply tr_plain; intros [? ?]; simpl; reflexivity. }
  destruct (decide _).
  - apply tr_at_of. eapply tr_bind; [apply tr_or_ub|]. intros bytes. cbn beta.
    eapply tr_bind; [apply tr_on_snd_uv, tr_uv_push_raw|]. intros []. apply tr_plain; intros [? ?]; simpl; reflexivity.
  - cbv zeta. eapply tr_at_bind; [apply tr_at_of, tr_or_ub|]. intros p s1 ev1 H1. destruct (mem_swap _ _ _ _); [|done]. injection H1 as -> <- <-.
    eapply (tr_at_bind _ _ _ _ _ no); [|intros [] s1 ev1 _; apply tr_at_of; eapply tr_bind; [apply tr_or_ub|]; intros bytes; cbn beta;
      eapply tr_bind; [apply tr_on_snd_uv, tr_uv_push_raw|]; intros []; apply tr_plain; intros [? ?]; simpl; reflexivity].
    intros lg _. exists []. rewrite app_nil_r. split; [done|]. by apply acts_nil.
Qed.
Definition same_buf (v v' : uvec) : Prop := uv_cap v' = uv_cap v ∧ uv_ti v' = uv_ti v.
Global Instance same_buf_preorder : PreOrder same_buf.
Proof. split; [done|]. intros v1 v2 v3 [H1 H2] [H3 H4]. split; congruence. Qed.
Lemma same_buf_own v v' : same_buf v v' → uown v' = uown v.
Proof. intros [H1 H2]. by rewrite /uown /uv_align H1 H2. Qed.
Lemma same_pop : keeping same_buf uv_pop.
Proof.
  intros v. rewrite /uv_pop. unfold bind at 1. unfold gets at 1. destruct (decide _); [by simpl|]. destruct (decide _); [|by simpl].
  cbv zeta. unfold bind, modify, or_ub. cbn [id]. by destruct (mem_read _ _ _).
Qed.
Lemma same_pop_all n : keeping same_buf (uv_pop_all n).
Proof.
  induction n as [|n IH]; [done|]. cbn [uv_pop_all]. apply keeping_bind; [apply _|apply same_pop|]. intros []; [done|].
  apply keeping_ret, _.
Qed.
Lemma same_swap_remove e : keeping same_buf (uv_swap_remove e).
Proof.
  intros v. rewrite /uv_swap_remove. unfold bind, gets, massert, ret, panic, modify, or_ub, ub. cbn [id]. assert (Hp := λ v, same_pop v).
  destruct (bool_decide (0 < uv_len v)); [|done]. destruct (_ || _); [|done]. destruct (decide _).
  - destruct (bool_decide _); [|done]. specialize (Hp v). destruct (uv_pop v); simpl; done.
  - destruct (mem_swap _ _ _ _) as [p|]; [|done]. specialize (Hp (uv_set_data p (uv_cap v) v)). simpl. destruct (uv_pop (uv_set_data p (uv_cap v) v)); simpl; done.
Qed.
Lemma frees_uv v : frees (uv_drop_events v) (uv_drop_events_t v) (uown v).
Proof.
  intros ev. rewrite /uv_drop_events /uv_drop_events_t /uv_drop /uv_drop_t /uown.
  unfold bind, gets. cbn [id fst]. destruct (decide (0 < uv_cap v)) as [Hc|Hc].
  - destruct (decide (uv_cap v = 0)); [lia|]. rewrite /plain /on_fst /zoom. cbn [fst snd].
    pose proof (same_pop_all (S (S (uv_len v))) v) as Hs.
    destruct (uv_pop_all (S (S (uv_len v))) v) as [[] v1 ev1|r v1 ev1| |]; [|done..]. destruct Hs as [Hs1 Hs2].
    cbn [fst snd]. rewrite Hs1 /uv_align Hs2.
    destruct (layout_from_size_align _ _) as [l|] eqn:El; [|done]. apply lfsa_eq in El as ->.
    unfold unwrap, ret. rewrite /dealloc_t. unfold bind, or_ub.
    destruct (heap_dealloc _ _) as [[]|]; [|done]. simpl. intros [= <-]. eexists. split; [reflexivity|]. apply acts_free.
  - simpl. intros [= <-]. exists []. split; [done|]. destruct (decide (uv_cap v = 0)); [by apply acts_nil|lia].
Qed.
Lemma frees_all vs : frees (uv_drop_all vs) (uv_drop_all_t vs) (vs ≫= uown).
Proof.
  induction vs as [|v vs IH]; intros ev; cbn [uv_drop_all uv_drop_all_t].
  { intros [= <-]. exists []. split; [done|]. by apply acts_nil. }
  pose proof (frees_uv v) as Hv. destruct (uv_drop_events v) as [e1|]; [|done]. destruct (uv_drop_all vs) as [e2|]; [|done].
  intros [= <-]. destruct (Hv e1 eq_refl) as (o1 & -> & H1). destruct (IH e2 eq_refl) as (o2 & -> & H2).
  exists (o1 ++ o2). split; [done|]. eapply acts_app; [by apply acts_frame|]. done.
Qed.
Lemma sown_snd (l : list (ecsid * uvec)) : (l.*2 ≫= uown) = sown l.
Proof. induction l as [|[i v] l IH]; [done|]. cbn. by rewrite IH. Qed.
Lemma frees_storages (l : list (ecsid * uvec)) : frees (uv_drop_all l.*2) (uv_drop_all_t l.*2) (sown l).
Proof. rewrite -sown_snd. apply frees_all. Qed.

(** ** Worlds: the parts that make no allocator call leave the buffers alone *)
Global Instance same_own_preorder {S} (own : S → list layout) : PreOrder (λ s s', own s' ≡ₚ own s).
Proof. split; [by intros s|]. intros a b c H1 H2. by rewrite H2 H1. Qed.
Lemma bind_insert {A} (f : A → list layout) (l : list A) k x :
  l !! k = Some x → ∃ R, (l ≫= f) ≡ₚ f x ++ R ∧ ∀ x', (<[k := x']> l ≫= f) ≡ₚ f x' ++ R.
Proof.
  revert k. induction l as [|y l IH]; intros k Hk; [done|]. destruct k as [|k].
  - injection Hk as ->. by exists (l ≫= f).
  - destruct (IH k Hk) as (R & H1 & H2). exists (f y ++ R). split; [|intros x']; cbn.
    + rewrite H1. by rewrite !app_assoc (Permutation_app_comm (f y)).
    + rewrite H2. by rewrite !app_assoc (Permutation_app_comm (f y)).
Qed.
Lemma lens_arch k w a : w_archs w !! k = Some a →
  ∃ R, wown w ≡ₚ aown a ++ R ∧ ∀ a', wown (set_archs (<[k := a']> (w_archs w)) w) ≡ₚ aown a' ++ R.
Proof.
  intros Hk. destruct (bind_insert aown _ _ _ Hk) as (R & H1 & H2).
  exists (R ++ match w_reuse w with Some (_, _, cap) => bown cap | None => [] end). rewrite /wown. split; [|intros a'; cbn [w_archs w_reuse set_archs]].
  - by rewrite H1 app_assoc.
  - by rewrite H2 app_assoc.
Qed.
Lemma lens_storage i a v : snd <$> a_storages a !! i = Some v →
  ∃ R, aown a ≡ₚ uown v ++ R ∧ ∀ v', aown (a_set_storages (alter (λ s, (s.1, v')) i (a_storages a)) a) ≡ₚ uown v' ++ R.
Proof.
  destruct (a_storages a !! i) as [[c v0]|] eqn:E; [|done]. intros [= ->].
  destruct (bind_insert (λ s, uown s.2) _ _ _ E) as (R & H1 & H2). exists R. split; [done|]. intros v'.
  rewrite /aown /sown. cbn [a_storages a_set_storages]. rewrite -(H2 (c, v')).
  assert (Ha : ∀ l : list (ecsid * uvec), l !! i = Some (c, v) → alter (λ s, (s.1, v')) i l = <[i := (c, v')]> l).
  { clear. revert i. induction i as [|i IH]; intros [|x l]; try done; cbn; [by intros [= ->]|]. intros H. by rewrite -IH. }
  by rewrite (Ha _ E).
Qed.
