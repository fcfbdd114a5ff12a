(** * Weakest preconditions for the outcome monad, and list lemmas *)
From Coq Require Export ssreflect.
From Verif Require Export Base UVec.
Global Open Scope general_if_scope.
Global Set SsrOldRewriteGoalsOrder.
Ltac done := stdpp.tactics.done.

(** [wp m s Q P]: running [m] from [s] neither deadlocks nor has undefined behaviour; if it
    returns then [Q], and if it panics for a reason other than [RCapacity] then [P]. *)
Definition post (S A : Type) : Type := A → S → list event → Prop.
Definition ppost (S : Type) : Type := reason → S → list event → Prop.
Definition wp {S A} (m : M S A) (s : S) (Q : post S A) (P : ppost S) : Prop :=
  match m s with
  | Done a s' ev => Q a s' ev
  | Panicked r s' ev => r = RCapacity ∨ P r s' ev
  | Deadlock | UB => False
  end.
(** No panic other than [RCapacity]. *)
Definition no_panic {S} : ppost S := λ _ _ _, False.

Section wp.
  Context {S : Type}.
  Implicit Types s : S.

  Lemma wp_ret {A} (a : A) s (Q : post S A) (P : ppost S) : Q a s [] → wp (ret a) s Q P.
  Proof. done. Qed.
  Lemma wp_panic {A} r s (Q : post S A) (P : ppost S) : P r s [] → wp (panic r) s Q P.
  Proof. intros; right; done. Qed.
  Lemma wp_mono {A} (m : M S A) s (Q Q' : post S A) (P P' : ppost S) :
    wp m s Q P → (∀ a s' e, Q a s' e → Q' a s' e) → (∀ r s' e, P r s' e → P' r s' e) →
    wp m s Q' P'.
  Proof. rewrite /wp. intros H1 H2 H3. destruct (m s); naive_solver. Qed.
  Lemma wp_bind {A B} (m : M S A) (k : A → M S B) s (Q : post S B) (P : ppost S) :
    wp m s (λ a s' e, wp (k a) s' (λ b s'' e', Q b s'' (e ++ e')) (λ r s'' e', P r s'' (e ++ e'))) P →
    wp (bind m k) s Q P.
  Proof.
    rewrite /wp /bind. destruct (m s) as [a s' e| | |]; try done.
    rewrite /add_events. destruct (k a s'); done.
  Qed.
  Lemma wp_bind' {A B} (m : M S A) (k : A → M S B) s (Q1 : post S A) (Q : post S B) (P : ppost S) :
    wp m s Q1 P →
    (∀ a s' e, Q1 a s' e →
       wp (k a) s' (λ b s'' e', Q b s'' (e ++ e')) (λ r s'' e', P r s'' (e ++ e'))) →
    wp (bind m k) s Q P.
  Proof. intros H1 H2. apply wp_bind. eapply wp_mono; [exact H1| exact H2 | done]. Qed.
  Lemma wp_gets {A} (f : S → A) s (Q : post S A) (P : ppost S) : Q (f s) s [] → wp (gets f) s Q P.
  Proof. done. Qed.
  Lemma wp_modify f s (Q : post S ()) (P : ppost S) : Q () (f s) [] → wp (modify f) s Q P.
  Proof. done. Qed.
  Lemma wp_emit e s (Q : post S ()) (P : ppost S) : Q () s e → wp (emit e) s Q P.
  Proof. done. Qed.
  Lemma wp_massert b r s (Q : post S ()) (P : ppost S) : (b = true → Q () s []) → (b = false → P r s []) → wp (massert b r) s Q P.
  Proof. destruct b; rewrite /wp /massert /=; naive_solver. Qed.
  Lemma wp_massert_true b r s (Q : post S ()) (P : ppost S) : b = true → Q () s [] → wp (massert b r) s Q P.
  Proof. by intros ->. Qed.
  Lemma wp_unwrap {A} (o : option A) r s (Q : post S A) (P : ppost S) :
    (∀ a, o = Some a → Q a s []) → (o = None → P r s []) → wp (unwrap o r) s Q P.
  Proof. destruct o; rewrite /wp /unwrap /=; naive_solver. Qed.
  Lemma wp_unwrap_some {A} (o : option A) a r s (Q : post S A) (P : ppost S) :
    o = Some a → Q a s [] → wp (unwrap o r) s Q P.
  Proof. by intros ->. Qed.
  (** Exhausting the address space is accepted by [wp]. *)
  Lemma wp_unwrap_cap {A} (o : option A) s (Q : post S A) (P : ppost S) :
    (∀ a, o = Some a → Q a s []) → wp (unwrap o RCapacity) s Q P.
  Proof. destruct o; rewrite /wp /unwrap /=; naive_solver. Qed.
  Lemma wp_massert_cap b s (Q : post S ()) (P : ppost S) :
    (b = true → Q () s []) → wp (massert b RCapacity) s Q P.
  Proof. destruct b; rewrite /wp /massert /=; naive_solver. Qed.
  Lemma wp_or_ub {A} (o : option A) a s (Q : post S A) (P : ppost S) : o = Some a → Q a s [] → wp (or_ub o) s Q P.
  Proof. by intros ->. Qed.
  Lemma wp_zoom {T A} (get : S → option T) set (m : M T A) s t (Q : post S A) (P : ppost S) :
    get s = Some t →
    wp m t (λ a t' e, Q a (set t' s) e) (λ r t' e, P r (set t' s) e) →
    wp (zoom get set m) s Q P.
  Proof. rewrite /wp /zoom. intros ->. by destruct (m t). Qed.
  Lemma wp_on_unwind {A} (m : M S A) c ev s (Q : post S A) (P : ppost S) :
    c = Some ev →
    wp m s Q (λ r s' e, P r s' (e ++ ev)) →
    wp (on_unwind m c) s Q P.
  Proof. rewrite /wp /on_unwind. intros ->. destruct (m s); naive_solver. Qed.
  (** From a [wp] and a concrete run. *)
  Lemma wp_done {A} (m : M S A) s (Q : post S A) (P : ppost S) a s' e : wp m s Q P → m s = Done a s' e → Q a s' e.
  Proof. rewrite /wp. intros H Hm. by rewrite Hm in H. Qed.
  Lemma wp_panicked {A} (m : M S A) s (Q : post S A) (P : ppost S) r s' e :
    wp m s Q P → m s = Panicked r s' e → r ≠ RCapacity → P r s' e.
  Proof. rewrite /wp. intros H Hm ?. rewrite Hm in H. by destruct H. Qed.
  Lemma wp_conj {A} (m : M S A) s (Q1 Q2 : post S A) (P1 P2 : ppost S) :
    wp m s Q1 P1 → wp m s Q2 P2 → wp m s (λ a s' e, Q1 a s' e ∧ Q2 a s' e) (λ r s' e, P1 r s' e ∧ P2 r s' e).
  Proof. rewrite /wp. intros H1 H2. destruct (m s); naive_solver. Qed.
  Lemma wp_and_run {A} (m : M S A) s (Q : post S A) (P : ppost S) :
    wp m s Q P → wp m s (λ a s' e, Q a s' e ∧ m s = Done a s' e) P.
  Proof. rewrite /wp. intros H. destruct (m s); naive_solver. Qed.
End wp.

Lemma bind_done {S A B} (m : M S A) (k : A → M S B) s a s1 e1 :
  m s = Done a s1 e1 → bind m k s = add_events e1 (k a s1).
Proof. rewrite /bind. by intros ->. Qed.
Lemma add_events_nil {S A} (o : outcome S A) : add_events [] o = o.
Proof. by destruct o. Qed.
Lemma bind_done_nil {S A B} (m : M S A) (k : A → M S B) s a s1 :
  m s = Done a s1 [] → bind m k s = k a s1.
Proof. intros H. rewrite (bind_done _ _ _ _ _ _ H). apply add_events_nil. Qed.
Lemma bind_done_inv {S A B} (m : M S A) (k : A → M S B) s b s2 e :
  bind m k s = Done b s2 e →
  ∃ a s1 e1 e2, m s = Done a s1 e1 ∧ k a s1 = Done b s2 e2 ∧ e = e1 ++ e2.
Proof.
  rewrite /bind /add_events. destruct (m s) as [a s1 e1| | |] eqn:?; try done.
  destruct (k a s1) eqn:?; try done. intros [= <- <- <-]. eauto 10.
Qed.
Lemma bind_panic_inv {S A B} (m : M S A) (k : A → M S B) s r s2 e :
  bind m k s = Panicked r s2 e →
  m s = Panicked r s2 e ∨
  ∃ a s1 e1 e2, m s = Done a s1 e1 ∧ k a s1 = Panicked r s2 e2 ∧ e = e1 ++ e2.
Proof.
  rewrite /bind /add_events. destruct (m s) as [a s1 e1| | |] eqn:?; try done.
  - destruct (k a s1) eqn:?; try done. intros [= <- <- <-]. right; eauto 10.
  - intros [= <- <- <-]. by left.
Qed.

(** ** [vec_swap_remove] *)
Lemma vec_swap_remove_some {A} i (l : list A) :
  i < length l → ∃ l', vec_swap_remove i l = Some l'.
Proof.
  intros Hi. rewrite /vec_swap_remove decide_True //.
  destruct (last l) eqn:E; [eauto|]. apply last_None in E. subst. simpl in Hi. lia.
Qed.
Lemma vec_swap_remove_length {A} i (l l' : list A) :
  vec_swap_remove i l = Some l' → length l' = length l - 1.
Proof.
  rewrite /vec_swap_remove. case_decide; [|done]. destruct (last l); [|done].
  intros [= <-]. rewrite take_length insert_length. lia.
Qed.
Lemma vec_swap_remove_lookup {A} i (l l' : list A) j :
  vec_swap_remove i l = Some l' →
  l' !! j = if decide (j < length l - 1) then
              (if decide (j = i) then l !! (length l - 1) else l !! j) else None.
Proof.
  rewrite /vec_swap_remove. case_decide as Hi; [|done]. destruct (last l) as [x|] eqn:Hl; [|done].
  intros [= <-]. rewrite last_lookup in Hl.
  case_decide.
  - rewrite lookup_take //. case_decide; subst.
    + rewrite list_lookup_insert //. rewrite -Hl. f_equal. lia.
    + by rewrite list_lookup_insert_ne.
  - apply lookup_take_ge. lia.
Qed.
Lemma vec_swap_remove_fmap {A B} (f : A → B) i (l l' : list A) :
  vec_swap_remove i l = Some l' → vec_swap_remove i (f <$> l) = Some (f <$> l').
Proof.
  rewrite /vec_swap_remove fmap_length. case_decide; [|done].
  rewrite fmap_last. destruct (last l); [|done]. intros [= <-].
  simpl. by rewrite fmap_take list_fmap_insert.
Qed.
(** The removed element and the rest are a permutation of the original list. *)
Lemma vec_swap_remove_perm {A} i (l l' : list A) x :
  vec_swap_remove i l = Some l' → l !! i = Some x → l ≡ₚ x :: l'.
Proof.
  rewrite /vec_swap_remove. case_decide as Hi; [|done].
  destruct (last l) as [y|] eqn:Hl; [|done]. intros [= <-] Hx.
  apply last_Some in Hl as [l1 ->]. rewrite app_length /= in Hi |- *.
  replace (length l1 + 1 - 1) with (length l1) by lia.
  destruct (decide (i = length l1)) as [->|].
  - rewrite lookup_app_r // in Hx. rewrite Nat.sub_diag in Hx. injection Hx as ->.
    rewrite list_insert_id; [|by rewrite lookup_app_r // Nat.sub_diag].
    rewrite take_app. by rewrite Permutation_app_comm.
  - rewrite lookup_app_l in Hx; [|lia]. rewrite insert_app_l; [|lia].
    assert (length l1 = length (<[i:=y]> l1)) as HL by by rewrite insert_length.
    rewrite HL take_app.
    rewrite -{1}(take_drop_middle l1 i x Hx).
    rewrite insert_take_drop; [|lia].
    rewrite (Permutation_app_comm _ [y]) /=.
    rewrite -(Permutation_middle _ _ y). rewrite -(Permutation_middle _ _ x). apply Permutation_swap.
Qed.
