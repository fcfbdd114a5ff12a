(** * The world calls do not look at the cached builder buffer *)
From Verif Require Import ProofBase SpecSmall World Query History ProofEntities ProofBitset ProofArrayVec ProofUVec.
From Verif Require Export ProofLife.

Definition restate {S S' A} (f : S → S') (o : outcome S A) : outcome S' A :=
  match o with
  | Done a s ev => Done a (f s) ev
  | Panicked r s ev => Panicked r (f s) ev
  | Deadlock => Deadlock
  | UB => UB
  end.
Definition blind {A} (m : M world A) : Prop :=
  ∀ r w, m (set_reuse r w) = restate (set_reuse r) (m w).

Lemma blind_ret {A} (a : A) : blind (ret a).
Proof. by intros r w. Qed.
Lemma blind_panic {A} x : blind (panic (A := A) x).
Proof. by intros r w. Qed.
Lemma blind_ub {A} : blind (ub (A := A)).
Proof. by intros r w. Qed.
Lemma blind_gets {A} (f : world → A) : (∀ r w, f (set_reuse r w) = f w) → blind (gets f).
Proof. intros H r w. by rewrite /gets H. Qed.
Lemma blind_modify f : (∀ r w, f (set_reuse r w) = set_reuse r (f w)) → blind (modify f).
Proof. intros H r w. by rewrite /modify H. Qed.
Lemma blind_emit ev : blind (emit ev).
Proof. by intros r w. Qed.
Lemma blind_massert c x : blind (massert c x).
Proof. by intros r w; destruct c. Qed.
Lemma blind_unwrap {A} (o : option A) x : blind (unwrap o x).
Proof. by intros r w; destruct o. Qed.
Lemma blind_or_ub {A} (o : option A) : blind (or_ub o).
Proof. by intros r w; destruct o. Qed.
Lemma blind_bind {A B} (m : M world A) (k : A → M world B) : blind m → (∀ a, blind (k a)) → blind (bind m k).
Proof.
  intros Hm Hk r w. rewrite /bind Hm. destruct (m w) as [a s ev|x s ev| |]; cbn [restate]; try done.
  rewrite Hk. by destruct (k a s).
Qed.
Lemma blind_gets_id {B} (k : world → M world B) :
  (∀ w, blind (k w)) → (∀ r w, k (set_reuse r w) = k w) → blind (bind (gets id) k).
Proof.
  intros Hk Hr r w. rewrite /bind /gets /=. rewrite !add_events_nil /id Hr. apply Hk.
Qed.
Lemma blind_in_ents {A} (m : M entities A) : blind (in_ents m).
Proof. intros r w. rewrite /in_ents /zoom /=. by destruct (m _). Qed.
Lemma blind_in_arch {A} k (m : M archetype A) : blind (in_arch k m).
Proof. intros r w. rewrite /in_arch /zoom /=. destruct (w_archs w !! k); [|done]. by destruct (m _). Qed.
Lemma blind_in_lock {A} k (m : M rwlock A) : blind (in_lock k m).
Proof. intros r w. rewrite /in_lock /zoom /=. destruct (w_locks w !! k); [|done]. by destruct (m _). Qed.
Lemma blind_on_unwind {A} (m : M world A) c : blind m → blind (on_unwind m c).
Proof. intros Hm r w. rewrite /on_unwind Hm. destruct (m w); try done. by destruct c. Qed.

Ltac blind1 :=
  first
  [ apply blind_ret | apply blind_panic | apply blind_ub | apply blind_emit | apply blind_massert
  | apply blind_unwrap | apply blind_or_ub | apply blind_in_ents | apply blind_in_arch | apply blind_in_lock
  | apply blind_gets; by intros ? ? | apply blind_modify; by intros ? ?
  | apply blind_bind; [|intros ?] | apply blind_on_unwind | assumption
  | match goal with |- blind (if ?c then _ else _) => destruct c end
  | match goal with |- blind (match ?c with _ => _ end) => destruct c end ].
Ltac blinds := repeat blind1.

(** ** world.rs *)
Lemma blind_is_alive e : blind (is_alive e).
Proof. rewrite /is_alive. blinds. Qed.
Lemma blind_get_entity_meta e : blind (get_entity_meta e).
Proof. rewrite /get_entity_meta. apply blind_bind; [apply blind_is_alive|intros []]; blinds. Qed.
Lemma blind_set_entity_meta e m : blind (set_entity_meta e m).
Proof. rewrite /set_entity_meta. apply blind_bind; [apply blind_is_alive|intros []]; blinds. Qed.
Lemma blind_update_meta i f : blind (update_meta i f).
Proof. rewrite /update_meta. blinds. Qed.
Lemma blind_get_arch k : blind (get_arch k).
Proof. rewrite /get_arch. blinds. Qed.
Lemma blind_find_sized fuel it n : blind (find_sized fuel it n).
Proof.
  revert it. induction fuel as [|fuel IH]; intros it; cbn [find_sized]; [apply blind_ub|].
  destruct (bi_next it) as [[[idx|] it']|]; [|blinds..].
  apply blind_bind; [apply blind_get_arch|intros a]. case_decide; [apply blind_ret|apply IH].
Qed.
Lemma blind_search ids n : blind (search ids n).
Proof.
  rewrite /search. apply blind_bind; [by apply blind_gets|intros bs].
  destruct (min_bit_length bs ids u32_max); [|apply blind_ret].
  apply blind_bind; [apply blind_unwrap|intros iters]. apply blind_find_sized.
Qed.
Lemma blind_find_archetype ids : blind (find_archetype_dynamic ids).
Proof.
  rewrite /find_archetype_dynamic. apply blind_bind; [by apply blind_gets|intros archs].
  case_decide; [|apply blind_search]. apply blind_bind; [apply blind_get_arch|intros a]. blinds.
Qed.
Lemma blind_find_plus ids c : blind (find_plus_id ids c).
Proof. apply blind_search. Qed.
Lemma blind_find_minus ids c : blind (find_minus_id ids c).
Proof.
  rewrite /find_minus_id. apply blind_bind; [by apply blind_gets|intros archs].
  case_decide; [|apply blind_search]. apply blind_bind; [apply blind_get_arch|intros a]. blinds.
Qed.
Lemma blind_set_arch_bits ids n : blind (set_arch_bits ids n).
Proof. induction ids as [|c ids IH]; cbn [set_arch_bits]; blinds. Qed.
Lemma blind_push_archetype a : blind (push_archetype a).
Proof.
  rewrite /push_archetype. apply blind_bind; [by apply blind_gets|intros n].
  apply blind_bind; [apply blind_set_arch_bits|intros _]. blinds.
Qed.
Lemma blind_ensure_lock c : blind (ensure_lock c).
Proof. apply blind_modify. intros r w. cbn. by destruct (w_lock_lookup w !! c). Qed.
Lemma blind_ensure_locks ids : blind (ensure_locks ids).
Proof. induction ids; cbn [ensure_locks]; [apply blind_ret|]. apply blind_bind; [apply blind_ensure_lock|done]. Qed.
Lemma blind_move_element cur i tar j row : blind (move_element cur i tar j row).
Proof.
  intros r w. rewrite /move_element. change (w_archs (set_reuse r w)) with (w_archs w). destruct (w_archs w !! cur) as [ca|]; [|done].
  destruct (w_archs w !! tar) as [ta|]; [|done]. destruct (a_storages ca !! i) as [[ci cv]|]; [|done].
  destruct (a_storages ta !! j) as [[ti tv]|]; [|done]. by destruct (uv_swap_move row (cv, tv)) as [? [] ?|? [] ?| |].
Qed.
Lemma blind_storage_id k j : blind (storage_id k j).
Proof. rewrite /storage_id. apply blind_bind; [apply blind_get_arch|intros a]. blinds. Qed.
Lemma blind_add_zip c cur tar row ncur js : ∀ i sk, blind (add_zip c cur tar row ncur i js sk).
Proof.
  induction js as [|j js IH]; intros i sk; cbn [add_zip]; case_decide; try apply blind_ret.
  apply blind_bind; [apply blind_storage_id|intros tid]. case_decide.
  - apply blind_bind; [apply blind_massert|intros _]. apply IH.
  - apply blind_bind; [apply blind_move_element|intros _]. apply IH.
Qed.
Lemma blind_rem_zip c cur tar row ntar is_ : ∀ j sk, blind (rem_zip c cur tar row ntar is_ j sk).
Proof.
  induction is_ as [|i is_ IH]; intros j sk; cbn [rem_zip]; try apply blind_ret.
  apply blind_bind; [apply blind_storage_id|intros tid]. case_decide.
  - apply blind_bind; [apply blind_massert|intros _]. apply IH.
  - case_decide; [apply blind_ret|]. apply blind_bind; [apply blind_move_element|intros _]. apply IH.
Qed.
Lemma blind_remove_row cur row : blind (remove_row cur row).
Proof.
  rewrite /remove_row. apply blind_bind; [apply blind_get_arch|intros a]. apply blind_bind; [apply blind_unwrap|intros es].
  apply blind_bind; [apply blind_in_arch|intros _]. destruct (es !! row); [apply blind_update_meta|apply blind_ret].
Qed.
Lemma blind_push_row tar e : blind (push_row tar e).
Proof.
  rewrite /push_row. apply blind_bind; [apply blind_in_arch|intros _]. apply blind_bind; [apply blind_get_arch|intros a].
  apply blind_update_meta.
Qed.
Lemma blind_add_with_data e c src : blind (add_component_with_data e c src).
Proof.
  rewrite /add_component_with_data. apply blind_bind; [apply blind_is_alive|intros []]; [|apply blind_ret].
  cbn [negb]. apply blind_bind; [apply blind_is_alive|intros []]; [|apply blind_ret]. cbn [negb].
  apply blind_bind; [apply blind_get_entity_meta|intros om]. apply blind_bind; [apply blind_unwrap|intros m]. cbv zeta.
  apply blind_bind; [apply blind_get_arch|intros a]. apply blind_bind; [apply blind_massert|intros _].
  apply blind_bind; [apply blind_in_arch|intros cached]. apply blind_bind.
  { destruct cached; [apply blind_ret|]. apply blind_bind; [apply blind_find_plus|intros [k|]]; [|apply blind_ret].
    apply blind_bind; [apply blind_in_arch|intros _; apply blind_ret]. }
  intros found. apply blind_bind.
  { destruct found; [apply blind_ret|]. apply blind_bind; [apply blind_ensure_lock|intros _].
    apply blind_bind; [apply blind_get_entity_meta|intros ocm]. apply blind_bind; [apply blind_unwrap|intros cm].
    apply blind_bind; [apply blind_get_arch|intros a1]. apply blind_bind; [apply blind_unwrap|intros na].
    apply blind_bind; [apply blind_push_archetype|intros n]. apply blind_bind; [apply blind_in_arch|intros _; apply blind_ret]. }
  intros tar. apply blind_bind; [by apply blind_gets|intros archs]. apply blind_bind; [apply blind_unwrap|intros [ca ta]].
  apply blind_bind; [apply blind_add_zip|intros sk]. apply blind_bind; [blinds|intros skipped].
  apply blind_bind; [apply blind_in_arch|intros _]. apply blind_bind; [apply blind_push_row|intros _]. apply blind_remove_row.
Qed.
Lemma blind_remove_dynamic e c : blind (remove_component_dynamic e c).
Proof.
  rewrite /remove_component_dynamic. apply blind_bind; [apply blind_is_alive|intros []]; [|apply blind_ret].
  cbn [negb]. apply blind_bind; [apply blind_is_alive|intros []]; [|apply blind_ret]. cbn [negb].
  apply blind_bind; [apply blind_get_entity_meta|intros om]. apply blind_bind; [apply blind_unwrap|intros m]. cbv zeta.
  apply blind_bind; [apply blind_get_arch|intros a]. apply blind_bind; [apply blind_massert|intros _].
  apply blind_bind; [apply blind_in_arch|intros cached]. apply blind_bind.
  { destruct cached; [apply blind_ret|]. apply blind_bind; [apply blind_find_minus|intros [k|]]; [|apply blind_ret].
    apply blind_bind; [apply blind_in_arch|intros _; apply blind_ret]. }
  intros found. apply blind_bind.
  { destruct found; [apply blind_ret|]. apply blind_bind; [apply blind_get_arch|intros a1]. apply blind_bind; [apply blind_unwrap|intros na].
    apply blind_bind; [apply blind_push_archetype|intros n]. apply blind_bind; [apply blind_in_arch|intros _; apply blind_ret]. }
  intros tar. apply blind_bind; [by apply blind_gets|intros archs]. apply blind_bind; [apply blind_unwrap|intros [ca ta]].
  apply blind_bind; [apply blind_rem_zip|intros sk]. apply blind_bind; [blinds|intros skipped].
  apply blind_bind; [apply blind_in_arch|intros _]. apply blind_bind; [apply blind_push_row|intros _]. apply blind_remove_row.
Qed.
Lemma blind_add_dynamic e c : blind (add_component_dynamic e c).
Proof.
  rewrite /add_component_dynamic. apply blind_bind; [apply blind_is_alive|intros ?]. apply blind_bind; [apply blind_massert|intros _].
  apply blind_bind; [apply blind_is_alive|intros ?]. apply blind_bind; [apply blind_massert|intros _].
  apply blind_bind; [apply blind_get_entity_meta|intros ocm]. apply blind_bind; [apply blind_unwrap|intros cm].
  apply blind_bind; [apply blind_massert|intros _]. apply blind_add_with_data.
Qed.
Lemma blind_swap_remove_storages k row is_ : blind (swap_remove_storages k row is_).
Proof. induction is_; cbn [swap_remove_storages]; blinds. Qed.
Lemma blind_arch_despawn k row e : blind (arch_despawn k row e).
Proof.
  rewrite /arch_despawn. apply blind_bind; [apply blind_get_arch|intros a]. apply blind_bind; [apply blind_unwrap|intros e'].
  apply blind_bind; [apply blind_massert|intros _]. apply blind_bind; [apply blind_unwrap|intros es].
  apply blind_bind; [apply blind_in_arch|intros _]. apply blind_bind; [apply blind_swap_remove_storages|intros _].
  apply blind_bind; [by apply blind_gets|intros len]. apply blind_bind; [apply blind_massert|intros _].
  apply blind_bind; [by apply blind_modify|intros _]. destruct (es !! row); [apply blind_update_meta|apply blind_ret].
Qed.
Lemma blind_despawn e : blind (despawn e).
Proof.
  rewrite /despawn. apply blind_bind; [apply blind_is_alive|intros []]; [|apply blind_ret]. cbn [negb].
  apply blind_bind; [by apply blind_gets|intros used]. apply blind_bind; [apply blind_massert|intros _].
  apply blind_bind; [apply blind_get_entity_meta|intros om]. apply blind_bind; [apply blind_unwrap|intros m].
  apply blind_bind; [apply blind_arch_despawn|intros _]. blinds.
Qed.
Lemma blind_has_component e t : blind (has_component e t).
Proof.
  rewrite /has_component. apply blind_bind; [by apply blind_gets|intros [c|]]; [|apply blind_ret].
  apply blind_bind; [apply blind_get_entity_meta|intros [m|]]; [|apply blind_ret].
  apply blind_bind; [apply blind_get_arch|intros a]. apply blind_ret.
Qed.
Lemma blind_get_component_mut e c : blind (get_component_mut e c).
Proof.
  rewrite /get_component_mut. apply blind_bind; [apply blind_is_alive|intros []]; [|apply blind_ret].
  cbn [negb]. apply blind_bind; [apply blind_is_alive|intros []]; [|apply blind_ret]. cbn [negb].
  apply blind_bind; [apply blind_get_entity_meta|intros [m|]]; [|apply blind_ret]. cbv zeta.
  apply blind_bind; [apply blind_get_arch|intros a]. blinds.
Qed.
Lemma blind_write_loc l v : blind (write_loc l v).
Proof. apply blind_in_arch. Qed.

(** ** Queries *)
Lemma release_lock_reuse b g r w : release_lock b g (set_reuse r w) = set_reuse r (release_lock b g w).
Proof. by destruct g. Qed.
Lemma release_all_reuse b gs r w : release_all b gs (set_reuse r w) = set_reuse r (release_all b gs w).
Proof. revert w. induction gs as [|g gs IH]; intros w; [done|]. cbn. by rewrite release_lock_reuse -/(release_all b gs _) IH. Qed.
Lemma blind_releasing {A} gs (m : M world A) : blind m → blind (releasing gs m).
Proof. intros Hm r w. rewrite /releasing Hm. destruct (m w); try done. cbn [restate]. by rewrite release_all_reuse. Qed.
Lemma blind_acquire_write i : blind (acquire_write i).
Proof. apply blind_in_lock. Qed.
Lemma blind_acquire_read i : blind (acquire_read i).
Proof. apply blind_in_lock. Qed.
Lemma blind_dq_lock fs : ∀ gs inc, blind (dq_lock fs gs inc).
Proof.
  induction fs as [|f fs IH]; intros gs inc; cbn [dq_lock]; [apply blind_ret|]. destruct (fetch_id f) as [c|]; [|apply IH].
  apply blind_bind; [by apply blind_gets|intros [i|]]; [|apply IH]. apply blind_bind; [|intros g; apply IH].
  apply blind_releasing. destruct f; [apply blind_acquire_read|apply blind_acquire_write|apply blind_acquire_read].
Qed.
Lemma blind_dq_new fs : blind (dq_new fs).
Proof. apply blind_bind; [apply blind_dq_lock|intros [gs inc]]. apply blind_ret. Qed.
Lemma blind_sq_lock fs : ∀ gs, blind (sq_lock fs gs).
Proof.
  induction fs as [|f fs IH]; intros gs; cbn [sq_lock]; [apply blind_ret|]. apply blind_bind; [|intros g; apply IH].
  apply blind_releasing. destruct (fetch_id f) as [c|]; [|apply blind_ret]. apply blind_bind; [by apply blind_gets|intros o].
  apply blind_bind; [apply blind_unwrap|intros i]. destruct f; [apply blind_acquire_read|apply blind_acquire_write|apply blind_acquire_read].
Qed.
Lemma param_fetch_reuse r w ps : mapM (param_fetch (set_reuse r w)) ps = mapM (param_fetch w) ps.
Proof. done. Qed.
Lemma blind_sq_new ps : blind (sq_new ps).
Proof.
  rewrite /sq_new. apply blind_bind; [by apply blind_gets|intros [fs|]]; [|apply blind_ret].
  apply blind_bind; [apply blind_sq_lock|intros gs]. apply blind_ret.
Qed.
Lemma blind_fetch_iter f : blind (fetch_iter f).
Proof.
  rewrite /fetch_iter. apply blind_gets_id; [intros w|done]. destruct (fetch_id f); blinds.
Qed.
Lemma blind_fetch_iters fs : blind (fetch_iters fs).
Proof.
  induction fs as [|f fs IH]; cbn [fetch_iters]; [apply blind_ret|]. apply blind_bind; [apply blind_fetch_iter|intros i].
  apply blind_bind; [done|intros is_]. apply blind_ret.
Qed.
Lemma blind_dq_arch_iter q : blind (dq_arch_iter q).
Proof.
  rewrite /dq_arch_iter. destruct (dq_incomplete q); [blinds|]. apply blind_bind; [apply blind_fetch_iters|intros is_]. blinds.
Qed.
Lemma blind_arch_next it : blind (arch_next it).
Proof.
  rewrite /arch_next. destruct (bi_next it) as [[[k|] it']|]; [|blinds..]. apply blind_bind; [apply blind_get_arch|intros a]. apply blind_ret.
Qed.
Lemma blind_create_ptrs k a fs : blind (create_ptrs k a fs).
Proof.
  induction fs as [|f fs IH]; cbn [create_ptrs]; [apply blind_ret|]. apply blind_bind.
  { rewrite /create_ptr. destruct (fetch_id f); blinds. }
  intros p. apply blind_bind; [done|intros ps]. apply blind_ret.
Qed.
Lemma ptr_extent_reuse r w p : ptr_extent (set_reuse r w) p = ptr_extent w p.
Proof. by destruct p. Qed.
Lemma blind_ptr_add p n : blind (ptr_add p n).
Proof. intros r w. rewrite /ptr_add ptr_extent_reuse. case_decide; [done|]. destruct (ptr_extent w p); [|done]. by case_decide. Qed.
Lemma blind_advance ps : blind (advance ps).
Proof.
  induction ps as [|[p n] ps IH]; cbn [advance]; [apply blind_ret|]. apply blind_bind; [apply blind_ptr_add|intros p'].
  apply blind_bind; [done|intros r]. apply blind_ret.
Qed.
Lemma blind_intra_next it : blind (intra_next it).
Proof. rewrite /intra_next. case_decide; [apply blind_ret|]. apply blind_bind; [apply blind_advance|intros ps]. apply blind_ret. Qed.
Lemma blind_di_next_fuel fuel : ∀ it, blind (di_next_fuel fuel it).
Proof.
  induction fuel as [|fuel IH]; intros it; cbn [di_next_fuel]; [apply blind_ub|].
  apply blind_bind; [apply blind_intra_next|intros [[ps|] ii]]; [apply blind_ret|].
  apply blind_bind; [apply blind_arch_next|intros [[[k a]|] b]]; [|apply blind_ret].
  apply blind_bind; [apply blind_create_ptrs|intros ps]. apply IH.
Qed.
Lemma blind_dq_iter q : blind (dq_iter q).
Proof. apply blind_bind; [apply blind_dq_arch_iter|intros b]. apply blind_ret. Qed.
Lemma blind_di_run n : ∀ it, blind (di_run n it).
Proof.
  induction n as [|n IH]; intros it; cbn [di_run]; [apply blind_ret|]. apply blind_bind; [apply blind_di_next_fuel|intros [r it']].
  apply blind_bind; [apply IH|intros [rs it'']]. apply blind_ret.
Qed.
Lemma blind_sq_iter q : blind (sq_iter q).
Proof.
  apply blind_bind; [|intros b; apply blind_ret]. rewrite /sq_arch_iter. destruct (sq_fetches q); [|blinds].
  apply blind_bind; [apply blind_fetch_iters|intros is_]. blinds.
Qed.
Lemma blind_offset_ptrs n l : blind (offset_ptrs n l).
Proof.
  induction l as [|[p q] l IH]; cbn [offset_ptrs]; [apply blind_ret|]. apply blind_bind; [apply blind_ptr_add|intros q'].
  apply blind_bind; [done|intros r]. apply blind_ret.
Qed.
Lemma blind_cast_ptrs l : blind (cast_ptrs l).
Proof.
  induction l as [|[p q] l IH]; cbn [cast_ptrs]; [apply blind_ret|]. apply blind_bind; [|intros x; apply blind_bind; [done|intros r; apply blind_ret]].
  intros r w. rewrite /cast_ptr.
  assert (∀ al, col_aligned (set_reuse r w) q al = col_aligned w q al) as Ha by by destruct q.
  assert (∀ n, deref_val (set_reuse r w) q n = deref_val w q n) as Hd by by destruct q.
  assert (deref_ent (set_reuse r w) q = deref_ent w q) as He by by destruct q.
  destruct p as [t|t|]; rewrite ?Ha ?Hd ?He; [| |by destruct (deref_ent w q)]; destruct (deref_val w q _); try done;
    by destruct (col_aligned w q _).
Qed.
Lemma blind_param_ptrs k a fs : blind (param_ptrs k a fs).
Proof.
  induction fs as [|f fs IH]; cbn [param_ptrs]; [apply blind_ret|]. apply blind_bind.
  { rewrite /param_ptr. destruct (fetch_id f); [|blinds]. destruct (a_lookup a !! _); blinds. }
  intros [p|]; [|apply blind_ret]. apply blind_bind; [done|intros r]. apply blind_ret.
Qed.
Lemma blind_si_next_fuel fuel : ∀ it, blind (si_next_fuel fuel it).
Proof.
  induction fuel as [|fuel IH]; intros it; cbn [si_next_fuel]; [apply blind_ub|]. apply blind_bind.
  { rewrite /si_intra_next. case_decide; [apply blind_ret|]. apply blind_bind; [apply blind_offset_ptrs|intros qs; apply blind_ret]. }
  intros [[ps|] it1]; [apply blind_bind; [apply blind_cast_ptrs|intros r; apply blind_ret]|].
  apply blind_bind; [apply blind_arch_next|intros [[[k a]|] b]]; [|apply blind_ret].
  apply blind_bind; [apply blind_unwrap|intros fs]. apply blind_bind; [apply blind_param_ptrs|intros ops].
  apply blind_bind; [apply blind_unwrap|intros ps]. apply IH.
Qed.
Lemma blind_si_run n : ∀ it, blind (si_run n it).
Proof.
  induction n as [|n IH]; intros it; cbn [si_run]; [apply blind_ret|]. apply blind_bind; [apply blind_si_next_fuel|intros [r it']].
  apply blind_bind; [apply IH|intros [rs it'']]. apply blind_ret.
Qed.
Lemma blind_query_item q n : blind (query_item q n).
Proof.
  destruct q as [q|q]; unfold query_item.
  - apply blind_bind; [apply blind_dq_iter|intros it]. apply blind_bind; [apply blind_di_run|intros [rs it']]. apply blind_ret.
  - apply blind_bind; [apply blind_sq_iter|intros it]. apply blind_bind; [apply blind_si_run|intros [rs it']]. apply blind_ret.
Qed.
Lemma blind_ptr_store p v : blind (ptr_store p v).
Proof. destruct p; [apply blind_ub..|apply blind_write_loc]. Qed.
Lemma blind_sq_get q e : blind (sq_get q e).
Proof.
  rewrite /sq_get. apply blind_bind; [apply blind_is_alive|intros []]; [|apply blind_ret]. cbn [negb].
  apply blind_bind; [apply blind_get_entity_meta|intros [m|]]; [|apply blind_ret]. cbv zeta.
  apply blind_bind; [apply blind_get_arch|intros a]. apply blind_bind; [apply blind_massert|intros _].
  destruct (sq_fetches q) as [fs|]; [|apply blind_ret]. apply blind_bind; [apply blind_param_ptrs|intros [ps|]]; [|apply blind_ret].
  apply blind_bind; [apply blind_offset_ptrs|intros qs]. apply blind_bind; [apply blind_cast_ptrs|intros r]. apply blind_ret.
Qed.
