(** * Histories of API calls: the executions over which the properties quantify *)
From Verif Require Export World Query.

(** The calls made on one EntityBuilder between [spawn] and its end of life. *)
Inductive bop :=
| BWith (t : ty) (v : value)                      (* .with(v) *)
| BWithDyn (c : ecsid)                            (* .with_dynamic(c) *)
| BWithDynData (c : ecsid) (v : value)            (* .with_dynamic_with_data(ptr, c) *)
| BBuild.                                         (* .build() *)
(** How the builder ends: dropped normally, or leaked with mem::forget. *)
Inductive bend := BDrop | BForget.

(** Calls on a [&mut World] (or [&World]) *)
Inductive op :=
| OSpawn (cap : option nat) (meta : component_meta) (bs : list bop) (fin : bend)
| ODespawn (e : ecsid)
| OAdd (e : ecsid) (t : ty) (v : value)
| ORemove (e : ecsid) (t : ty)
| OAddDyn (e c : ecsid)
| OAddDynData (e c : ecsid) (v : value)
| ORemoveDyn (e c : ecsid)
| ORegister (t : ty)
| OWrite (e c : ecsid) (v : value)                (* get_component_mut_dynamic, then write *)
| OHas (e : ecsid) (t : ty)
| OIsAlive (e : ecsid).

(** What a call returns. *)
Inductive oret :=
| RId (e : ecsid)
| RBool (b : bool)
| RUnit.

Definition run_bop (o : bop) : M bw () :=
  match o with
  | BWith t v => builder_with t v
  | BWithDyn c => builder_with_dynamic c
  | BWithDynData c v => builder_with_data c v
  | BBuild => do* build in ret ()
  end.
Fixpoint run_bops (bs : list bop) : M bw () :=
  match bs with [] => ret () | o :: bs' => do* run_bop o in run_bops bs' end.

(** As [with_builder], but the builder is leaked when it comes to its normal end. *)
Definition forget_builder {A} (b : builder) (m : M bw A) : M world A := λ w,
  match m (b, w) with
  | Done a (b', w') ev => Done a w' ev
  | _ => with_builder b m w
  end.

(** [World::spawn] / [spawn_with_capacity] / [spawn_with_component_meta] (world.rs:321-336,
    431-438) up to the creation of the builder. *)
Definition spawn_builder (cap : option nat) (meta : component_meta) : M world builder :=
  let* e := in_ents ents_spawn in
  match cap with
  | Some n => builder_with_capacity e meta n
  | None => builder_new e meta
  end.
(** ... followed by the builder's life.  Returns the id the builder was created for (which
    [build] returns). *)
Definition spawn_program (cap : option nat) (meta : component_meta) (bs : list bop) (fin : bend)
    : M world ecsid :=
  let* b := spawn_builder cap meta in
  do* (match fin with
       | BDrop => with_builder b (run_bops bs)
       | BForget => forget_builder b (run_bops bs)
       end) in
  ret (eb_entity b).

Definition step (o : op) : M world oret :=
  match o with
  | OSpawn cap meta bs fin => let* e := spawn_program cap meta bs fin in ret (RId e)
  | ODespawn e => let* b := despawn e in ret (RBool b)
  | OAdd e t v => do* add_component e t v in ret RUnit
  | ORemove e t => do* remove_component e t in ret RUnit
  | OAddDyn e c => do* add_component_dynamic e c in ret RUnit
  | OAddDynData e c v => do* add_component_with_data e c v in ret RUnit
  | ORemoveDyn e c => do* remove_component_dynamic e c in ret RUnit
  | ORegister t => let* c := get_or_create_type t in ret (RId c)
  | OWrite e c v =>
      let* l := get_component_mut e c in
      match l with
      | Some l => do* write_loc l v in ret (RBool true)
      | None => ret (RBool false)
      end
  | OHas e t => let* b := has_component e t in ret (RBool b)
  | OIsAlive e => let* b := is_alive e in ret (RBool b)
  end.

(** ** Legal calls: what safe Rust's type system and the documented contracts of the
    [unsafe] functions guarantee to the callee. *)
(** A [Layout] value is always valid; that of a type has a size multiple of its alignment. *)
Definition layout_wf (l : layout) : Prop :=
  layout_from_size_align (l_size l) (l_align l) = Some l.
Definition ty_wf (t : ty) : Prop :=
  layout_wf (layout_of t) ∧ ty_size t mod ty_align t = 0.
(** The value passed for component [c] has the size recorded for [c]. *)
Definition value_fits (w : world) (c : ecsid) (v : value) : Prop :=
  ∀ s m, get_entity_meta c w = Done (Some m) s [] → length v = cm_size (em_comp m).
Definition bop_legal (o : bop) (s : bw) : Prop :=
  match o with
  | BWith t v => ty_wf t ∧ length v = ty_size t
  | BWithDynData c v => id_wf c ∧ value_fits s.2 c v
  | BWithDyn c => id_wf c
  | BBuild => True
  end.
Fixpoint bops_legal (bs : list bop) (s : bw) : Prop :=
  match bs with
  | [] => True
  | o :: bs' =>
      bop_legal o s ∧
      match run_bop o s with Done _ s' _ => bops_legal bs' s' | _ => True end
  end.
Definition op_legal (o : op) (w : world) : Prop :=
  match o with
  | OSpawn cap meta bs fin =>
      layout_wf (cm_layout meta) ∧
      match spawn_builder cap meta w with
      | Done b w' _ => bops_legal bs (b, w')
      | _ => True
      end
  | OAdd e t v => id_wf e ∧ ty_wf t ∧ length v = ty_size t
  | OAddDynData e c v => id_wf e ∧ id_wf c ∧ value_fits w c v
  | OWrite e c v => id_wf e ∧ id_wf c ∧ value_fits w c v
  | ODespawn e | OIsAlive e => id_wf e
  | OAddDyn e c | ORemoveDyn e c => id_wf e ∧ id_wf c
  | ORemove e t | OHas e t => id_wf e ∧ ty_wf t
  | ORegister t => ty_wf t
  end.

(** A builder whose [build] is called at most once (see C32 for the others). *)
Fixpoint bops_builds (bs : list bop) : nat :=
  match bs with
  | [] => 0
  | BBuild :: bs' => S (bops_builds bs')
  | _ :: bs' => bops_builds bs'
  end.
(** The builder calls made before [build]. *)
Fixpoint bops_before (bs : list bop) : list bop :=
  match bs with
  | [] | BBuild :: _ => []
  | o :: bs' => o :: bops_before bs'
  end.
(** The conditions under which the positive theorems about executions are stated:
    - there are fewer than 2^32 - 2 archetypes (the search of archetypes works with u32);
    - a builder is built at most once;
    - the id of a registered type is not about to be handed out a second time: after
      [despawn e] of a living [e] the next id of that slot is not that of a registered type (this
      takes 2^32 despawns of one slot, see C03). *)
Definition op_tame (o : op) (w : world) : Prop :=
  (N.of_nat (length (w_archs w) + 1) <= u32_max)%N ∧
  match o with
  | OSpawn _ _ bs _ => bops_builds bs ≤ 1
  | ODespawn e => ents_is_alive (w_ents w) e = Some true →
      ∀ t c, w_types w !! t = Some c → uindex c = uindex e → wrap32 (id_gen e + 1) ≠ id_gen c
  | _ => True
  end.

(** ** Sessions: the world together with the queries currently open.  A slot becomes [None]
    when its query is dropped or forgotten. *)
Inductive oquery := QDyn (q : dquery) | QStat (q : squery).
(** The guards owned by a query (dyn_query.rs:149-156, static_query.rs:6-11); dropping the
    query drops them. *)
Definition oq_guards (q : oquery) : list lguard :=
  match q with QDyn q => dq_guards q | QStat q => sq_guards q end.
Record sess := Sess { ss_world : world; ss_open : list (option oquery) }.
Definition sess_new : sess := Sess world_new [].

Inductive sop :=
| SWorld (o : op)                 (* needs the world to be unborrowed, unless op_shared *)
| SOpenDyn (fs : list fetch)                       (* world.query_dynamic(fs) *)
| SOpenStat (ps : list param)                      (* world.query::<ps>() *)
| SDrop (i : nat) (unwinding : bool)               (* query i dropped, maybe by unwinding *)
| SForget (i : nat)                                (* mem::forget(query i) *)
| SStore (i n j : nat) (v : value).
    (* write v through the j-th pointer of the item of the (n+1)-th next() of query i *)

Inductive sret :=
| SRet (r : oret)
| SHandle (i : nat)
| SNothing.

Definition in_sworld {A} (m : M world A) : M sess A :=
  zoom (λ s, Some (ss_world s)) (λ w s, Sess w (ss_open s)) m.
Definition open_query (m : M world oquery) : M sess sret :=
  let* q := in_sworld m in
  let* i := gets (λ s, length (ss_open s)) in
  do* modify (λ s, Sess (ss_world s) (ss_open s ++ [Some q])) in
  ret (SHandle i).
Definition close_query (i : nat) : M sess () :=
  modify (λ s, Sess (ss_world s) (<[i := None]> (ss_open s))).

(** Write [v] through a pointer handed out by a query. *)
Definition ptr_store (p : qptr) (v : value) : M world () :=
  match p with
  | PCol k i off => write_loc (Loc k i off) v
  | _ => ub
  end.
Definition query_item (q : oquery) (n : nat) : M world (option (list qptr)) :=
  match q with
  | QDyn q =>
      let* it := dq_iter q in
      let* '(rs, _) := di_run (S n) it in
      ret (mjoin (last rs))
  | QStat q =>
      let* it := sq_iter q in
      let* '(rs, _) := si_run (S n) it in
      ret ((λ l, l.*1) <$> mjoin (last rs))
  end.

Definition sstep (o : sop) : M sess sret :=
  match o with
  | SWorld o => let* r := in_sworld (step o) in ret (SRet r)
  | SOpenDyn fs => open_query (let* q := dq_new fs in ret (QDyn q))
  | SOpenStat ps => open_query (let* q := sq_new ps in ret (QStat q))
  | SDrop i unwinding =>
      let* s := gets id in
      match ss_open s !! i with
      | Some (Some q) =>
          do* in_sworld (modify (release_all unwinding (oq_guards q))) in
          do* close_query i in ret SNothing
      | _ => ret SNothing
      end
  | SForget i => do* close_query i in ret SNothing
  | SStore i n j v =>
      let* s := gets id in
      match ss_open s !! i with
      | Some (Some q) =>
          let* o := in_sworld (query_item q n) in
          match o ≫= (.!! j) with
          | Some p => do* in_sworld (ptr_store p v) in ret SNothing
          | None => ret SNothing
          end
      | _ => ret SNothing
      end
  end.

Definition oq_fetches (w : world) (q : oquery) : option (list fetch) :=
  match q with QDyn q => Some (dq_fetches q) | QStat q => sq_fetches q end.
Definition fetch_wf (f : fetch) : Prop := ∀ c, fetch_id f = Some c → id_wf c.
Definition param_wf (p : param) : Prop :=
  match p with PMut t | PRef t => ty_wf t | PEcsIds => True end.

(** The calls taking [&World] (world.rs:359, 390), which are also possible while queries are
    open. *)
Definition op_shared (o : op) : Prop :=
  match o with OHas _ _ | OIsAlive _ => True | _ => False end.
Definition sop_legal (o : sop) (s : sess) : Prop :=
  match o with
  | SWorld o => op_legal o (ss_world s) ∧ (op_shared o ∨ Forall (λ q, q = None) (ss_open s))
  | SOpenDyn fs => Forall fetch_wf fs
  | SOpenStat ps => Forall param_wf ps
  | SStore i n j v =>
      (* the pointer was requested mutably and the value has the size of the component *)
      ∀ q, ss_open s !! i = Some (Some q) →
        ∃ fs c, oq_fetches (ss_world s) q = Some fs ∧ fs !! j = Some (FMut c) ∧
                value_fits (ss_world s) c v
  | _ => True
  end.
Definition param_ty (p : param) : option ty :=
  match p with PMut t | PRef t => Some t | PEcsIds => None end.
(** References to the parameter's type are aligned (see C44 for the others). *)
Definition param_tame (p : param) : Prop :=
  ∀ t, param_ty p = Some t → ty_size t ≠ 0 ∨ ty_align t = 1.
Definition sop_tame (o : sop) (s : sess) : Prop :=
  match o with
  | SWorld o => op_tame o (ss_world s)
  | SOpenStat ps => Forall param_tame ps
  | _ => True
  end.

(** ** Executions.  A caught panic does not end the execution, except one out of memory
    address space (RCapacity) and the corruption described at C34 (RColumnLength). *)
Inductive res := ROk (r : sret) | RPanic (r : reason).
Definition resumable (r : reason) : Prop := r ≠ RCapacity ∧ r ≠ RColumnLength.

Inductive steps : sess → list (sop * res * list event) → sess → Prop :=
| steps_nil s : steps s [] s
| steps_done s0 l s1 o r s2 ev :
    steps s0 l s1 → sop_legal o s1 → sop_tame o s1 →
    sstep o s1 = Done r s2 ev →
    steps s0 (l ++ [(o, ROk r, ev)]) s2
| steps_panic s0 l s1 o r s2 ev :
    steps s0 l s1 → sop_legal o s1 → sop_tame o s1 →
    sstep o s1 = Panicked r s2 ev → resumable r →
    steps s0 (l ++ [(o, RPanic r, ev)]) s2.

(** The states reachable from [World::new()]. *)
Definition reachable (s : sess) : Prop := ∃ l, steps sess_new l s.
(** The reachable worlds with no query open. *)
Definition reachable_world (w : world) : Prop :=
  ∃ s, reachable s ∧ ss_world s = w ∧ Forall (λ q, q = None) (ss_open s).
