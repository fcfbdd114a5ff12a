(** * Calls that run no destructor *)
From Verif Require Import ProofBase SpecSmall World History.

Definition mute {S A} (m : M S A) : Prop :=
  ∀ s, match m s with Done _ _ ev => ev = [] | Panicked r _ ev => ev = [] ∧ r ≠ RDestructor | _ => True end.
Section mute.
  Context {S : Type}.
  Lemma mute_ret {A} (a : A) : mute (S := S) (ret a).
  Proof. by intros s. Qed.
  Lemma mute_panic {A} r : r ≠ RDestructor → mute (@panic S A r).
  Proof. by intros H s. Qed.
  Lemma mute_ub {A} : mute (@ub S A).
  Proof. by intros s. Qed.
  Lemma mute_bind {A B} (m : M S A) (k : A → M S B) : mute m → (∀ a, mute (k a)) → mute (bind m k).
  Proof.
    intros Hm Hk s. rewrite /bind. specialize (Hm s). destruct (m s) as [a s' ev|r s' ev| |]; [|done..].
    subst ev. specialize (Hk a s'). by destruct (k a s').
  Qed.
  Lemma mute_gets {A} (f : S → A) : mute (gets f).
  Proof. by intros s. Qed.
  Lemma mute_modify f : mute (S := S) (modify f).
  Proof. by intros s. Qed.
  Lemma mute_massert b r : r ≠ RDestructor → mute (S := S) (massert b r).
  Proof. by destruct b; intros H s. Qed.
  Lemma mute_unwrap {A} (o : option A) r : r ≠ RDestructor → mute (S := S) (unwrap o r).
  Proof. by destruct o; intros H s. Qed.
  Lemma mute_or_ub {A} (o : option A) : mute (S := S) (or_ub o).
  Proof. by destruct o; intros s. Qed.
  Lemma mute_zoom {T A} (get : S → option T) set (m : M T A) : mute m → mute (zoom get set m).
  Proof. intros H s. rewrite /zoom. destruct (get s) as [t|]; [|done]. specialize (H t). by destruct (m t). Qed.
End mute.
Create HintDb mute.
Ltac mute1 :=
  lazymatch goal with
  | |- mute (bind _ _) => apply mute_bind; [|intros ?]
  | |- mute (ret _) => apply mute_ret
  | |- mute (panic _) => apply mute_panic; done
  | |- mute ub => apply mute_ub
  | |- mute (gets _) => apply mute_gets
  | |- mute (modify _) => apply mute_modify
  | |- mute (massert _ _) => apply mute_massert; done
  | |- mute (unwrap _ _) => apply mute_unwrap; done
  | |- mute (or_ub _) => apply mute_or_ub
  | |- mute (in_arch _ _) => apply mute_zoom
  | |- mute (in_storage _ _) => apply mute_zoom
  | |- mute (in_cache _) => apply mute_zoom
  | |- mute (in_ents _) => apply mute_zoom
  | |- mute (on_fst _) => apply mute_zoom
  | |- mute (on_snd _) => apply mute_zoom
  | |- mute (if ?b then _ else _) => destruct b
  | |- mute (match ?x with _ => _ end) => destruct x
  | |- mute (let _ := _ in _) => cbv zeta
  end.
Ltac mute := repeat (mute1 || eauto with mute).
Lemma mute_is_alive e : mute (is_alive e).
Proof. rewrite /is_alive. mute. Qed.
Global Hint Resolve mute_is_alive : mute.
Lemma mute_get_entity_meta e : mute (get_entity_meta e).
Proof. rewrite /get_entity_meta. mute. Qed.
Lemma mute_update_meta i f : mute (update_meta i f).
Proof. rewrite /update_meta. mute. Qed.
Lemma mute_get_arch k : mute (get_arch k).
Proof. rewrite /get_arch. mute. Qed.
Global Hint Resolve mute_get_entity_meta mute_update_meta mute_get_arch : mute.
Lemma av_push_start_panic {T} (v : array_vec T) x r : av_push_start v x = AvPanic r → r = RUnwrap.
Proof. rewrite /av_push_start. repeat case_match; naive_solver. Qed.
Lemma av_as_slice_panic {T} (v : array_vec T) r : av_as_slice v = AvPanic r → r = RIndex.
Proof. rewrite /av_as_slice. repeat case_match; naive_solver. Qed.
Lemma mute_rc_insert_id c k : mute (rc_insert_id c k).
Proof.
  intros s. rewrite /rc_insert_id. destruct (av_push_start _ _) as [[? ?]|r|] eqn:E; [done| |done]. by apply av_push_start_panic in E as ->.
Qed.
Lemma mute_rc_lookup_id c : mute (rc_lookup_id c).
Proof.
  intros s. rewrite /rc_lookup_id. destruct (av_as_slice _) as [l|r|] eqn:E; [|by apply av_as_slice_panic in E as ->|done].
  destruct (rc_scan l c); [done|]. destruct (rc_lookup s !! c); [|done].
  destruct (av_push_start _ _) as [[? ?]|r|] eqn:E'; [done| |done]. by apply av_push_start_panic in E' as ->.
Qed.
Global Hint Resolve mute_rc_lookup_id mute_rc_insert_id : mute.
Lemma mute_find_sized fuel it n : mute (find_sized fuel it n).
Proof. revert it. induction fuel as [|fuel IH]; intros it; cbn [find_sized]; mute. Qed.
Global Hint Resolve mute_find_sized : mute.
Lemma mute_search ids n : mute (search ids n).
Proof. rewrite /search. mute. Qed.
Global Hint Resolve mute_search : mute.
Lemma mute_find_minus_id ids c : mute (find_minus_id ids c).
Proof. rewrite /find_minus_id. mute. Qed.
Lemma mute_set_arch_bits ids n : mute (set_arch_bits ids n).
Proof. induction ids as [|c ids IH]; cbn [set_arch_bits]; mute. Qed.
Global Hint Resolve mute_find_minus_id mute_set_arch_bits : mute.
Lemma mute_push_archetype a : mute (push_archetype a).
Proof. rewrite /push_archetype. mute. Qed.
Lemma mute_uv_realloc : mute uv_realloc.
Proof. rewrite /uv_realloc. mute. Qed.
Global Hint Resolve mute_push_archetype mute_uv_realloc : mute.
Lemma mute_uv_push_raw src : mute (uv_push_raw src).
Proof. rewrite /uv_push_raw. mute. Qed.
Global Hint Resolve mute_uv_push_raw : mute.
Lemma mute_uv_swap_move i : mute (uv_swap_move i).
Proof. rewrite /uv_swap_move. mute. Qed.
Lemma mute_move_element cur i tar j row : mute (move_element cur i tar j row).
Proof.
  intros w. rewrite /move_element. destruct (w_archs w !! cur) as [ca|]; [|done].
  destruct (w_archs w !! tar) as [ta|]; [|done]. destruct (a_storages ca !! i) as [[ci cv]|]; [|done].
  destruct (a_storages ta !! j) as [[ti tv]|]; [|done]. pose proof (mute_uv_swap_move row (cv, tv)) as H.
  by destruct (uv_swap_move row (cv, tv)) as [? [cv' tv'] ?|? [cv' tv'] ?| |].
Qed.
Global Hint Resolve mute_move_element : mute.
Lemma mute_storage_id k j : mute (storage_id k j).
Proof. rewrite /storage_id. mute. Qed.
Global Hint Resolve mute_storage_id : mute.
Lemma mute_rem_zip c cur tar row n is_ j sk : mute (rem_zip c cur tar row n is_ j sk).
Proof. revert j sk. induction is_ as [|i is_ IH]; intros j sk; cbn [rem_zip]; mute. Qed.
Lemma mute_remove_row cur row : mute (remove_row cur row).
Proof. rewrite /remove_row. mute. Qed.
Lemma mute_push_row tar e : mute (push_row tar e).
Proof. rewrite /push_row. mute. Qed.
Lemma mute_ents_despawn e : mute (ents_despawn e).
Proof. intros s. rewrite /ents_despawn. repeat case_match; simplify_eq; done. Qed.
Global Hint Resolve mute_rem_zip mute_remove_row mute_push_row mute_ents_despawn : mute.
