(** * What a query should yield, in terms of what the world contains *)
From Verif Require Export SpecWorld.

(** *** Dynamic queries *)
(** [e] is in the world and has all the fetched components. *)
Definition wanted (w : world) (fs : list fetch) (e : ecsid) : Prop :=
  stored w e ∧ ∀ f c, f ∈ fs → fetch_id f = Some c → has w e c.
(** Through pointer [p] one sees the id of [e], or the bytes of its component. *)
Definition shows (w : world) (e : ecsid) (f : fetch) (p : qptr) : Prop :=
  match fetch_id f with
  | None => deref_ent w p = Some e
  | Some c => ∃ v, holds w e c v ∧ deref_val w p (length v) = Some v
  end.
Definition shows_row (w : world) (fs : list fetch) (e : ecsid) (ps : list qptr) : Prop :=
  Forall2 (shows w e) fs ps.
(** The outcomes of [n] calls of [next] of an iterator over the items [l]. *)
Definition calls {A} (n : nat) (l : list A) : list (option A) :=
  take n ((Some <$> l) ++ replicate n None).
(** [es] lists every entity satisfying [P] exactly once. *)
Definition enumerates (P : ecsid → Prop) (es : list ecsid) : Prop :=
  NoDup es ∧ ∀ e, e ∈ es ↔ P e.

(** *** Static queries *)
Definition wants (w : world) (ps : list param) (e : ecsid) : Prop :=
  stored w e ∧ ∀ p t, p ∈ ps → param_ty p = Some t → ∃ c, type_id w t c ∧ has w e c.
(** The item seen for parameter [p] at entity [e], and the address of the reference. *)
Definition yields (w : world) (e : ecsid) (p : param) (x : qptr * item) : Prop :=
  match param_ty p with
  | None => x.2 = IEnt e ∧ deref_ent w x.1 = Some e
  | Some t => ∃ c v, type_id w t c ∧ holds w e c v ∧ x.2 = IVal v ∧
      length v = ty_size t ∧ deref_val w x.1 (length v) = Some v ∧ col_aligned w x.1 (ty_align t) = true
  end.
Definition yields_row (w : world) (ps : list param) (e : ecsid) (xs : list (qptr * item)) : Prop :=
  Forall2 (yields w e) ps xs.

(** *** Columns *)
(** The size recorded for what is fetched. *)
Definition fetch_size (w : world) (f : fetch) : nat :=
  match fetch_id f with
  | None => ecsid_size
  | Some c => match get_entity_meta c w with Done (Some m) _ _ => cm_size (em_comp m) | _ => 0 end
  end.
(** The rows presented by one item of [column_iter], which holds per fetch the start of the
    column and its number of elements. *)
Definition column_rows (w : world) (fs : list fetch) (col : list (qptr * nat)) : list (list qptr) :=
  (λ i, zip_with (λ f x, ptr_move x.1 (i * fetch_size w f)) fs col) <$> seq 0 (default 0 (snd <$> head col)).
Definition even_column (col : list (qptr * nat)) : Prop := ∀ x y, x ∈ col → y ∈ col → x.2 = y.2.

(** *** Access *)
Definition all_in_use (w : world) (fs : list fetch) : Prop := ∀ f c, f ∈ fs → fetch_id f = Some c → in_use w c.
(** There is a lock for [c]; it is made when [c] is first to become part of an archetype. *)
Definition known (w : world) (c : ecsid) : Prop := is_Some (w_lock_lookup w !! c).
(** What the open queries have access to. *)
Definition open_fetches (s : sess) : list fetch :=
  ss_open s ≫= λ o, match o with
                    | Some (QDyn q) => dq_fetches q
                    | Some (QStat q) => default [] (sq_fetches q)
                    | None => []
                    end.
(** No two accesses to the same (known) component, one of them for writing. *)
Definition exclusive (w : world) (fs : list fetch) : Prop :=
  ∀ i j c f, i ≠ j → fs !! i = Some (FMut c) → fs !! j = Some f → fetch_id f = Some c → ¬ known w c.
Definition opens (o : sop) : Prop := match o with SOpenDyn _ | SOpenStat _ => True | _ => False end.
(** Histories in which no query was leaked ... *)
Definition no_forget (l : list (sop * res * list event)) : Prop := ∀ i, SForget i ∉ calls_of l.
(** ... no guard was dropped while unwinding. *)
Definition no_unwinding (l : list (sop * res * list event)) : Prop :=
  (∀ i, SDrop i true ∉ calls_of l) ∧ ∀ o r ev, (o, RPanic r, ev) ∈ l → ¬ opens o.
(** The [n] bytes from [p] and the [n'] bytes from [p'] have none in common; entity lists and
    columns are allocations of their own. *)
Definition apart (p : qptr) (n : nat) (p' : qptr) (n' : nat) : Prop :=
  match p, p' with
  | PCol k i off, PCol k' i' off' => (k, i) ≠ (k', i') ∨ off + n ≤ off' ∨ off' + n' ≤ off
  | PEnt k off, PEnt k' off' => k ≠ k' ∨ off + n ≤ off' ∨ off' + n' ≤ off
  | _, _ => True
  end.
(** What a parameter of a static query asks for. *)
Definition asks (w : world) (p : param) (f : fetch) : Prop :=
  match p with
  | PMut t => ∃ c, type_id w t c ∧ f = FMut c
  | PRef t => ∃ c, type_id w t c ∧ f = FImmut c
  | PEcsIds => f = FEcsId
  end.
(** Some type was never registered. *)
Definition unregistered (w : world) (ps : list param) : Prop :=
  ∃ p t, p ∈ ps ∧ param_ty p = Some t ∧ ∀ c, ¬ type_id w t c.
(** Some type is registered, but no archetype has a column for it. *)
Definition not_in_use (w : world) (ps : list param) : Prop :=
  ∃ p t c, p ∈ ps ∧ param_ty p = Some t ∧ type_id w t c ∧ ¬ in_use w c.

(** *** Using open queries *)
(** The answers of the first [n] calls of [next] of a fresh iterator. *)
Definition iter_dyn (q : dquery) (n : nat) : M world (list (option (list qptr))) :=
  let* it := dq_iter q in let* '(rs, _) := di_run n it in ret rs.
Definition iter_cols (q : dquery) (n : nat) : M world (list (option (list (qptr * nat)))) :=
  let* it := dq_column_iter q in let* '(rs, _) := ci_run n it in ret rs.
Definition iter_static (q : squery) (n : nat) : M world (list (option (list (qptr * item)))) :=
  let* it := sq_iter q in let* '(rs, _) := si_run n it in ret rs.
(** Every fetched component has a lock, although one of them is in no archetype. *)
Definition left_over (w : world) (fs : list fetch) : Prop :=
  (∀ f c, f ∈ fs → fetch_id f = Some c → known w c) ∧ ¬ all_in_use w fs.
(** Once an iterator answered [None] it does not answer anything else. *)
Definition fused {A} (rs : list (option A)) : Prop :=
  ∀ i j, i ≤ j → j < length rs → rs !! i = Some None → rs !! j = Some None.
(** Every type asked for is registered, and some archetype has a column for it. *)
Definition types_in_use (w : world) (ps : list param) : Prop :=
  ∀ p t, p ∈ ps → param_ty p = Some t → ∃ c, type_id w t c ∧ in_use w c.
(** [q] is open in [s], and its [n]-th row is [ps]. *)
Definition open_row (s : sess) (i : nat) (fs : list fetch) (n : nat) (ps : list qptr) : Prop :=
  ∃ q, ss_open s !! i = Some (Some q) ∧ oq_fetches (ss_world s) q = Some fs ∧
       query_item q n (ss_world s) = Done (Some ps) (ss_world s) [].
(** The [n] bytes from [p] are inside one allocation. *)
Definition in_bounds (w : world) (p : qptr) (n : nat) : Prop :=
  ∃ ext, ptr_extent w p = Some ext ∧ ptr_off p + n ≤ ext.
(** No call on the world panicked. *)
Definition no_panic (l : list (sop * res * list event)) : Prop := ∀ o r ev, (SWorld o, RPanic r, ev) ∉ l.
