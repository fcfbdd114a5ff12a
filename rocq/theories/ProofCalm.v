(** * Calls that allocate nothing never run out of address space *)
From Verif Require Import ProofBase SpecSmall World History.

Definition calm {S A} (m : M S A) : Prop :=
  ∀ s, match m s with Panicked r _ _ => r ≠ RCapacity | _ => True end.
Section calm.
  Context {S : Type}.
  Lemma calm_ret {A} (a : A) : calm (S := S) (ret a).
  Proof. by intros s. Qed.
  Lemma calm_panic {A} r : r ≠ RCapacity → calm (@panic S A r).
  Proof. by intros H s. Qed.
  Lemma calm_ub {A} : calm (@ub S A).
  Proof. by intros s. Qed.
  Lemma calm_bind {A B} (m : M S A) (k : A → M S B) : calm m → (∀ a, calm (k a)) → calm (bind m k).
  Proof.
    intros Hm Hk s. rewrite /bind. specialize (Hm s). destruct (m s) as [a s' ev|r s' ev| |]; [|done..].
    specialize (Hk a s'). by destruct (k a s').
  Qed.
  Lemma calm_gets {A} (f : S → A) : calm (gets f).
  Proof. by intros s. Qed.
  Lemma calm_emit ev : calm (S := S) (emit ev).
  Proof. by intros s. Qed.
  Lemma calm_modify f : calm (S := S) (modify f).
  Proof. by intros s. Qed.
  Lemma calm_massert b r : r ≠ RCapacity → calm (S := S) (massert b r).
  Proof. by destruct b; intros H s. Qed.
  Lemma calm_unwrap {A} (o : option A) r : r ≠ RCapacity → calm (S := S) (unwrap o r).
  Proof. by destruct o; intros H s. Qed.
  Lemma calm_or_ub {A} (o : option A) : calm (S := S) (or_ub o).
  Proof. by destruct o; intros s. Qed.
  Lemma calm_zoom {T A} (get : S → option T) set (m : M T A) : calm m → calm (zoom get set m).
  Proof. intros H s. rewrite /zoom. destruct (get s) as [t|]; [|done]. specialize (H t). by destruct (m t). Qed.
End calm.
Ltac calm1 :=
  lazymatch goal with
  | |- calm (bind _ _) => apply calm_bind; [|intros ?]
  | |- calm (ret _) => apply calm_ret
  | |- calm (panic _) => apply calm_panic; done
  | |- calm ub => apply calm_ub
  | |- calm (gets _) => apply calm_gets
  | |- calm (emit _) => apply calm_emit
  | |- calm (modify _) => apply calm_modify
  | |- calm (massert _ _) => apply calm_massert; done
  | |- calm (unwrap _ _) => apply calm_unwrap; done
  | |- calm (or_ub _) => apply calm_or_ub
  | |- calm (in_arch _ _) => apply calm_zoom
  | |- calm (in_storage _ _) => apply calm_zoom
  | |- calm (in_ents _) => apply calm_zoom
  | |- calm (if ?b then _ else _) => destruct b
  | |- calm (match ?x with _ => _ end) => destruct x
  | |- calm (let _ := _ in _) => cbv zeta
  end.
Ltac calm := repeat (calm1 || eauto with calm).
Lemma calm_is_alive e : calm (is_alive e).
Proof. rewrite /is_alive. calm. Qed.
Global Hint Resolve calm_is_alive : calm.
Lemma calm_get_entity_meta e : calm (get_entity_meta e).
Proof. rewrite /get_entity_meta. calm. Qed.
Lemma calm_get_arch k : calm (get_arch k).
Proof. rewrite /get_arch. calm. Qed.
Lemma calm_update_meta i f : calm (update_meta i f).
Proof. rewrite /update_meta. calm. Qed.
Lemma calm_pop : calm uv_pop.
Proof. rewrite /uv_pop. calm. Qed.
Global Hint Resolve calm_get_entity_meta calm_get_arch calm_update_meta calm_pop : calm.
Lemma calm_swap_remove i : calm (uv_swap_remove i).
Proof. rewrite /uv_swap_remove. calm. Qed.
Global Hint Resolve calm_swap_remove : calm.
Lemma calm_swap_remove_storages k row is_ : calm (swap_remove_storages k row is_).
Proof. induction is_ as [|i is_ IH]; cbn [swap_remove_storages]; calm. Qed.
Global Hint Resolve calm_swap_remove_storages : calm.
Lemma calm_arch_despawn k row e : calm (arch_despawn k row e).
Proof. rewrite /arch_despawn. calm. Qed.
Lemma calm_ents_despawn e : calm (ents_despawn e).
Proof. intros s. rewrite /ents_despawn. repeat case_match; simplify_eq; done. Qed.
Global Hint Resolve calm_arch_despawn calm_ents_despawn : calm.
Lemma calm_despawn e : calm (despawn e).
Proof. rewrite /despawn. calm. Qed.
Lemma calm_get_component_mut e c : calm (get_component_mut e c).
Proof. rewrite /get_component_mut. calm. rewrite /uv_get_raw. calm. Qed.
Lemma calm_has_component e t : calm (has_component e t).
Proof. rewrite /has_component. calm. Qed.
Lemma calm_write_loc l v : calm (write_loc l v).
Proof. rewrite /write_loc. calm. Qed.
Global Hint Resolve calm_despawn calm_get_component_mut calm_has_component calm_write_loc : calm.
Lemma calm_step o : match o with ODespawn _ | OWrite _ _ _ | OHas _ _ | OIsAlive _ => calm (step o) | _ => True end.
Proof. destruct o; try done; cbn [step]; calm. Qed.

(** *** Queries *)
Lemma calm_arch_next it : calm (arch_next it).
Proof. rewrite /arch_next. calm. Qed.
Lemma calm_ptr_add p n : calm (ptr_add p n).
Proof. intros w. rewrite /ptr_add. repeat case_match; by simplify_eq. Qed.
Lemma calm_fetch_iter f : calm (fetch_iter f).
Proof. rewrite /fetch_iter. calm. Qed.
Global Hint Resolve calm_arch_next calm_ptr_add calm_fetch_iter : calm.
Lemma calm_fetch_iters fs : calm (fetch_iters fs).
Proof. induction fs as [|f fs IH]; cbn [fetch_iters]; calm. Qed.
Lemma calm_create_ptr k a f : calm (create_ptr k a f).
Proof. rewrite /create_ptr. calm. Qed.
Global Hint Resolve calm_fetch_iters calm_create_ptr : calm.
Lemma calm_create_ptrs k a fs : calm (create_ptrs k a fs).
Proof. induction fs as [|f fs IH]; cbn [create_ptrs]; calm. Qed.
Lemma calm_advance ps : calm (advance ps).
Proof. induction ps as [|[p n] ps IH]; cbn [advance]; calm. Qed.
Global Hint Resolve calm_create_ptrs calm_advance : calm.
Lemma calm_intra_next it : calm (intra_next it).
Proof. rewrite /intra_next. calm. Qed.
Global Hint Resolve calm_intra_next : calm.
Lemma calm_di_next it : calm (di_next it).
Proof.
  rewrite /di_next. generalize (arch_fuel (di_arch it)) as fuel. intros fuel. revert it.
  induction fuel as [|fuel IH]; intros it; cbn [di_next_fuel]; calm.
Qed.
Global Hint Resolve calm_di_next : calm.
Lemma calm_di_run n it : calm (di_run n it).
Proof. revert it. induction n as [|n IH]; intros it; cbn [di_run]; calm. Qed.
Lemma calm_dq_iter q : calm (dq_iter q).
Proof. rewrite /dq_iter /dq_arch_iter. calm. Qed.
Lemma calm_cast_ptr p q : calm (cast_ptr p q).
Proof. intros w. rewrite /cast_ptr. repeat case_match; by simplify_eq. Qed.
Global Hint Resolve calm_di_run calm_dq_iter calm_cast_ptr : calm.
Lemma calm_cast_ptrs l : calm (cast_ptrs l).
Proof. induction l as [|[p q] l IH]; cbn [cast_ptrs]; calm. Qed.
Lemma calm_param_ptr k a f : calm (param_ptr k a f).
Proof. rewrite /param_ptr. calm. Qed.
Global Hint Resolve calm_cast_ptrs calm_param_ptr : calm.
Lemma calm_param_ptrs k a fs : calm (param_ptrs k a fs).
Proof. induction fs as [|f fs IH]; cbn [param_ptrs]; calm. Qed.
Lemma calm_offset_ptrs n l : calm (offset_ptrs n l).
Proof. induction l as [|[p q] l IH]; cbn [offset_ptrs]; calm. Qed.
Global Hint Resolve calm_param_ptrs calm_offset_ptrs : calm.
Lemma calm_si_intra_next it : calm (si_intra_next it).
Proof. rewrite /si_intra_next. calm. Qed.
Global Hint Resolve calm_si_intra_next : calm.
Lemma calm_si_next it : calm (si_next it).
Proof.
  rewrite /si_next. generalize (arch_fuel (si_arch it)) as fuel. intros fuel. revert it.
  induction fuel as [|fuel IH]; intros it; cbn [si_next_fuel]; calm.
Qed.
Global Hint Resolve calm_si_next : calm.
Lemma calm_si_run n it : calm (si_run n it).
Proof. revert it. induction n as [|n IH]; intros it; cbn [si_run]; calm. Qed.
Lemma calm_sq_iter q : calm (sq_iter q).
Proof. rewrite /sq_iter /sq_arch_iter. calm. Qed.
Global Hint Resolve calm_si_run calm_sq_iter : calm.
Lemma calm_query_item q n : calm (query_item q n).
Proof. destruct q; cbn [query_item]; calm. Qed.
