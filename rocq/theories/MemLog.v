(** * The allocator calls made by the code.
    The functions of UVec.v, World.v and History.v that reach [std::alloc::{alloc, realloc,
    dealloc}], written a second time over a state that also carries the list of the allocator
    calls made so far.  The bodies are those of the plain functions (same citations); C53 shows
    that leaving out the log gives back the plain functions, result by result.  Only the manual
    allocations of the two crates are logged: untyped_vec/src/lib.rs:80-109, 363-377,
    arche_tape/src/entity_builder.rs:28-59, 102-161 and world.rs:278-289; the [Vec]s, hash maps
    and boxes inside the world are std's own business and not modelled. *)
From Verif Require Export World Query History.

(** One call of the allocator: [alloc(l)], [realloc(_, l, n)], [dealloc(_, l)]. *)
Inductive memop := MAlloc (l : layout) | MRealloc (l : layout) (n : nat) | MFree (l : layout).
Notation mlog := (list memop).

(** Add one call to the log; run a computation that makes no allocator call; run a computation
    on a component of the state, sharing the log. *)
Definition note {S} (o : memop) : M (S * mlog) () := modify (λ p, (p.1, p.2 ++ [o])).
Definition plain {S A} (m : M S A) : M (S * mlog) A := on_fst m.
Definition tzoom {S T A} (get : S → option T) (set : T → S → S) (m : M (T * mlog) A)
    : M (S * mlog) A :=
  zoom (λ p, (λ t, (t, p.2)) <$> get p.1) (λ q p, (set q.1 p.1, q.2)) m.
(** As [on_unwind], with the allocator calls of the cleanup. *)
Definition on_unwind_t {S A} (m : M (S * mlog) A) (cleanup : option (list event * mlog))
    : M (S * mlog) A := λ s,
  match m s with
  | Panicked r (s', lg) ev =>
      match cleanup with
      | Some (ev', ops) => Panicked r (s', lg ++ ops) (ev ++ ev')
      | None => UB
      end
  | o => o
  end.

Definition alloc_t {S} (l : layout) : M (S * mlog) ptr :=
  let* p := or_ub (heap_alloc l) in
  do* note (MAlloc l) in
  ret p.
Definition realloc_t {S} (p : ptr) (old : layout) (new_size : nat) : M (S * mlog) ptr :=
  let* p' := or_ub (heap_realloc p old new_size) in
  do* note (MRealloc old new_size) in
  ret p'.
Definition dealloc_t {S} (p : ptr) (l : layout) : M (S * mlog) () :=
  do* or_ub (heap_dealloc p l) in
  note (MFree l).

(** ** UntypedVec *)
(** [UntypedVec::realloc] (untyped_vec/src/lib.rs:80-109) *)
Definition uv_realloc_t : M (uvec * mlog) () :=
  let* v := gets fst in
  if decide (uv_size v = 0) then panic RAssert
  else if decide (uv_cap v = 0) then
    let new_cap := uv_size v * 4 in
    let* lay := unwrap (layout_from_size_align new_cap (uv_align v)) RCapacity in
    let* p := alloc_t lay in
    plain (modify (uv_set_data p new_cap))
  else
    let new_cap := uv_cap v * 2 in
    do* massert (N.of_nat new_cap <? isize_max)%N RCapacity in
    let* old := unwrap (layout_from_size_align (uv_cap v) (uv_align v)) RCapacity in
    let* _new := unwrap (layout_from_size_align new_cap (uv_align v)) RCapacity in
    let* p := realloc_t (uv_data v) old new_cap in
    plain (modify (uv_set_data p new_cap)).

(** [UntypedVec::push_raw] (119-143) *)
Definition uv_push_raw_t (src : list cell) : M (uvec * mlog) () :=
  let* v := gets fst in
  if decide (uv_size v = 0) then plain (modify (uv_set_len (uv_len v + 1)))
  else
    do* (if decide (uv_cap v < uv_len v + uv_size v) then uv_realloc_t else ret ()) in
    let* v1 := gets fst in
    if decide (length src < uv_size v1) then ub
    else
      let* p := or_ub (mem_write (uv_data v1) (uv_len v1) (take (uv_size v1) src)) in
      plain (modify (λ v2, uv_set_len (uv_len v1 + uv_size v1) (uv_set_data p (uv_cap v1) v2))).

(** Run a computation on the first/second of a pair, sharing the log. *)
Definition on_fst_t {S T A} (m : M (S * mlog) A) : M ((S * T) * mlog) A :=
  tzoom (λ p, Some p.1) (λ x p, (x, p.2)) m.
Definition on_snd_t {S T A} (m : M (T * mlog) A) : M ((S * T) * mlog) A :=
  tzoom (λ p, Some p.2) (λ x p, (p.1, x)) m.

(** [UntypedVec::swap_move_element_to_other_vec] (229-273); state = (self, other). *)
Definition uv_swap_move_t (element : nat) : M ((uvec * uvec) * mlog) () :=
  let* '(v, o) := gets fst in
  do* massert (ti_eqb (uv_ti v) (uv_ti o)) RAssert in
  do* massert (bool_decide (0 < uv_len v)) RAssert in
  do* massert (bool_decide (uv_size v = 0) || bool_decide (element < uv_len v / uv_size v)) RAssert in
  if decide (uv_size v = 0) then
    do* plain (on_fst (modify (uv_set_len (uv_len v - 1)))) in
    plain (on_snd (modify (uv_set_len (uv_len o + 1))))
  else if decide (element = uv_len v / uv_size v - 1) then
    let* bytes := or_ub (mem_read (uv_data v) (element * uv_size v) (uv_size v)) in
    do* on_snd_t (uv_push_raw_t bytes) in
    plain (on_fst (modify (uv_set_len (uv_len v - uv_size v))))
  else
    let to_swap := uv_len v - uv_size v in
    let* p := or_ub (mem_swap (uv_data v) (element * uv_size v) to_swap (uv_size v)) in
    do* plain (on_fst (modify (uv_set_data p (uv_cap v)))) in
    let* bytes := or_ub (mem_read p to_swap (uv_size v)) in
    do* on_snd_t (uv_push_raw_t bytes) in
    plain (on_fst (modify (uv_set_len (uv_len v - uv_size v)))).

(** [Drop for UntypedVec] (363-377) *)
Definition uv_drop_t : M (uvec * mlog) () :=
  let* v := gets fst in
  if decide (0 < uv_cap v) then
    do* plain (uv_pop_all (S (S (uv_len v)))) in
    let* v1 := gets fst in
    let* lay := unwrap (layout_from_size_align (uv_cap v1) (uv_align v1)) RCapacity in
    dealloc_t (uv_data v1) lay
  else ret ().

Definition uv_drop_events_t (v : uvec) : option (list event * mlog) :=
  match uv_drop_t (v, []) with Done _ (_, ops) ev => Some (ev, ops) | _ => None end.
Fixpoint uv_drop_all_t (vs : list uvec) : option (list event * mlog) :=
  match vs with
  | [] => Some ([], [])
  | v :: vs' =>
      match uv_drop_events_t v, uv_drop_all_t vs' with
      | Some (e1, o1), Some (e2, o2) => Some (e1 ++ e2, o1 ++ o2)
      | _, _ => None
      end
  end.

(** ** World *)
Definition in_arch_t {A} (k : nat) (m : M (archetype * mlog) A) : M (world * mlog) A :=
  tzoom (λ w, w_archs w !! k) (λ a w, set_archs (<[k := a]> (w_archs w)) w) m.
Definition in_storage_t {A} (i : nat) (m : M (uvec * mlog) A) : M (archetype * mlog) A :=
  tzoom (λ a, snd <$> a_storages a !! i)
        (λ v a, a_set_storages (alter (λ s, (s.1, v)) i (a_storages a)) a) m.

(** world.rs:699, 820 *)
Definition move_element_t (cur i tar j row : nat) : M (world * mlog) () := λ s,
  let '(w, lg) := s in
  match w_archs w !! cur, w_archs w !! tar with
  | Some ca, Some ta =>
      match a_storages ca !! i, a_storages ta !! j with
      | Some (ci, cv), Some (ti, tv) =>
          let put cv' tv' :=
            set_archs
              (<[tar := a_set_storages (<[j := (ti, tv')]> (a_storages ta)) ta]>
               (<[cur := a_set_storages (<[i := (ci, cv')]> (a_storages ca)) ca]> (w_archs w))) w in
          match uv_swap_move_t row ((cv, tv), lg) with
          | Done _ ((cv', tv'), lg') ev => Done () (put cv' tv', lg') ev
          | Panicked r ((cv', tv'), lg') ev => Panicked r (put cv' tv', lg') ev
          | Deadlock => Deadlock
          | UB => UB
          end
      | _, _ => Panicked RIndex (w, lg) []
      end
  | _, _ => Panicked RIndex (w, lg) []
  end.

(** world.rs:677-700 *)
Fixpoint add_zip_t (c : ecsid) (cur tar row ncur : nat) (i : nat) (js : list nat)
    (skipped : option nat) : M (world * mlog) (option nat) :=
  if decide (ncur ≤ i) then ret skipped
  else
    match js with
    | [] => ret skipped
    | j :: js' =>
        let* tid := plain (storage_id tar j) in
        if decide (tid = c) then
          do* massert (bool_decide (skipped = None)) RAssert in
          add_zip_t c cur tar row ncur i js' (Some j)
        else
          do* move_element_t cur i tar j row in
          add_zip_t c cur tar row ncur (S i) js' skipped
    end.

(** world.rs:799-821 *)
Fixpoint rem_zip_t (c : ecsid) (cur tar row ntar : nat) (is_ : list nat) (j : nat)
    (skipped : option nat) : M (world * mlog) (option nat) :=
  match is_ with
  | [] => ret skipped
  | i :: is' =>
      let* cid := plain (storage_id cur i) in
      if decide (cid = c) then
        do* massert (bool_decide (skipped = None)) RAssert in
        rem_zip_t c cur tar row ntar is' j (Some i)
      else if decide (ntar ≤ j) then ret skipped
      else
        do* move_element_t cur i tar j row in
        rem_zip_t c cur tar row ntar is' (S j) skipped
  end.

(** The columns of an archetype that could not be registered are dropped (a panic in 655-663,
    778-786 or entity_builder.rs:284-292, which never happens in a reachable world). *)
Definition release_columns (ss : list (ecsid * uvec)) : mlog :=
  s ← ss; if decide (0 < uv_cap s.2) then [MFree (Layout (uv_cap s.2) (uv_align s.2))] else [].
Definition push_archetype_t (a : archetype) : M (world * mlog) nat :=
  on_unwind_t (plain (push_archetype a)) (Some ([], release_columns (a_storages a))).

(** [World::add_component_dynamic_with_data] (587-731) *)
Definition add_component_with_data_t (e c : ecsid) (src : list cell) : M (world * mlog) () :=
  let* e_alive := plain (is_alive e) in
  if negb e_alive then ret ()
  else
  let* c_alive := plain (is_alive c) in
  if negb c_alive then ret ()
  else
  let* om := plain (get_entity_meta e) in
  let* m := unwrap om RUnwrap in
  let cur := im_arch (em_inst m) in
  let row := im_index (em_inst m) in
  let* a := plain (get_arch cur) in
  do* massert (negb (bool_decide (c ∈ a_comp_ids a))) RAssert in
  let* cached := plain (in_arch cur (in_cache (rc_lookup_id c))) in
  let* found :=
    match cached with
    | Some k => ret (Some k)
    | None =>
        let* idx := plain (find_plus_id (a_comp_ids a) c) in
        match idx with
        | Some k => do* plain (in_arch cur (in_cache (rc_insert_id c k))) in ret (Some k)
        | None => ret None
        end
    end in
  let* tar :=
    match found with
    | Some k => ret k
    | None =>
        do* plain (ensure_lock c) in
        let* ocm := plain (get_entity_meta c) in
        let* cm := unwrap ocm RUnwrap in
        let* a1 := plain (get_arch cur) in
        let* na := unwrap (from_archetype_with a1 (cm_type_info (em_comp cm)) c) RAssert in
        let* n := push_archetype_t na in
        do* plain (in_arch cur (in_cache (rc_insert_id c n))) in
        ret n
    end in
  let* archs := gets (λ s, w_archs s.1) in
  let* '(ca, ta) := unwrap (index_twice cur tar archs) RIndex in
  let* sk := add_zip_t c cur tar row (length (a_storages ca)) 0
                       (seq 0 (length (a_storages ta))) None in
  let* skipped :=
    match sk with
    | Some j => ret j
    | None =>
        let* l := unwrap (last (a_comp_ids ta)) RUnwrap in
        do* massert (bool_decide (l = c)) RAssert in
        ret (length (a_storages ta) - 1)
    end in
  do* in_arch_t tar (in_storage_t skipped (uv_push_raw_t src)) in
  do* plain (push_row tar e) in
  plain (remove_row cur row).

(** [World::remove_component_dynamic] (733-850) *)
Definition remove_component_dynamic_t (e c : ecsid) : M (world * mlog) () :=
  let* e_alive := plain (is_alive e) in
  if negb e_alive then ret ()
  else
  let* c_alive := plain (is_alive c) in
  if negb c_alive then ret ()
  else
  let* om := plain (get_entity_meta e) in
  let* m := unwrap om RUnwrap in
  let cur := im_arch (em_inst m) in
  let row := im_index (em_inst m) in
  let* a := plain (get_arch cur) in
  do* massert (bool_decide (c ∈ a_comp_ids a)) RAssert in
  let* cached := plain (in_arch cur (in_cache (rc_lookup_id c))) in
  let* found :=
    match cached with
    | Some k => ret (Some k)
    | None =>
        let* idx := plain (find_minus_id (a_comp_ids a) c) in
        match idx with
        | Some k => do* plain (in_arch cur (in_cache (rc_insert_id c k))) in ret (Some k)
        | None => ret None
        end
    end in
  let* tar :=
    match found with
    | Some k => ret k
    | None =>
        let* a1 := plain (get_arch cur) in
        let* na := unwrap (from_archetype_without a1 c) RAssert in
        let* n := push_archetype_t na in
        do* plain (in_arch cur (in_cache (rc_insert_id c n))) in
        ret n
    end in
  let* archs := gets (λ s, w_archs s.1) in
  let* '(ca, ta) := unwrap (index_twice cur tar archs) RIndex in
  let* sk := rem_zip_t c cur tar row (length (a_storages ta))
                       (seq 0 (length (a_storages ca))) 0 None in
  let* skipped :=
    match sk with
    | Some i => ret i
    | None =>
        let* l := unwrap (last (a_comp_ids ca)) RUnwrap in
        do* massert (bool_decide (l = c)) RAssert in
        ret (length (a_storages ca) - 1)
    end in
  do* plain (in_arch cur (in_storage skipped (uv_swap_remove row))) in
  do* plain (push_row tar e) in
  plain (remove_row cur row).

(** [World::add_component_dynamic] (403-423) *)
Definition add_component_dynamic_t (e c : ecsid) : M (world * mlog) () :=
  let* e_alive := plain (is_alive e) in
  do* massert e_alive RAssert in
  let* c_alive := plain (is_alive c) in
  do* massert c_alive RAssert in
  let* ocm := plain (get_entity_meta c) in
  let* cm := unwrap ocm RUnwrap in
  do* massert (bool_decide (cm_size (em_comp cm) = 0)) RAssert in
  add_component_with_data_t e c [].

(** ** EntityBuilder *)
Definition in_world_t {A} (m : M (world * mlog) A) : M (bw * mlog) A := on_snd_t m.

(** [Drop for EntityBuilder] (28-59) *)
Definition builder_drop_t (b : builder) : M (world * mlog) () :=
  if decide (eb_cap b = 0) then ret ()
  else
    let* reuse := gets (λ s, w_reuse s.1) in
    match reuse with
    | None => plain (modify (set_reuse (Some ([], eb_data b, eb_cap b))))
    | Some _ =>
        let* lay := unwrap (layout_from_size_align (eb_cap b) 1) RUnwrap in
        dealloc_t (eb_data b) lay
    end.

(** [EntityBuilder::new] and [new_from_world_cache] (62-100) *)
Definition builder_new_t (e : ecsid) (meta : component_meta) : M (world * mlog) builder :=
  let* reuse := gets (λ s, w_reuse s.1) in
  match reuse with
  | Some (ids, p, cap) =>
      do* plain (modify (set_reuse None)) in ret (Builder p cap 0 ids e meta 0)
  | None => ret (Builder Dangling 0 0 [] e meta 0)
  end.

(** [EntityBuilder::with_capacity] (102-135) *)
Definition builder_with_capacity_t (e : ecsid) (meta : component_meta) (cap : nat)
    : M (world * mlog) builder :=
  let* reuse := gets (λ s, w_reuse s.1) in
  match reuse with
  | Some _ => builder_new_t e meta
  | None =>
      if decide (cap = 0) then builder_new_t e meta
      else
        let* lay := unwrap (layout_from_size_align cap 1) RCapacity in
        let* p := alloc_t lay in
        ret (Builder p cap 0 [] e meta 0)
  end.

(** [EntityBuilder::realloc] (137-161) *)
Definition builder_realloc_t (new_size : nat) : M (bw * mlog) () :=
  do* massert (N.of_nat new_size <? isize_max)%N RCapacity in
  do* massert (bool_decide (0 < new_size)) RAssert in
  let* b := gets (λ s, s.1.1) in
  if decide (eb_cap b = 0) then
    let* lay := unwrap (layout_from_size_align new_size 1) RCapacity in
    let* p := alloc_t lay in
    plain (on_fst (modify (set_data p new_size)))
  else
    let* lay := unwrap (layout_from_size_align (eb_cap b) 1) RCapacity in
    let* p := realloc_t (eb_data b) lay new_size in
    plain (on_fst (modify (set_data p new_size))).

(** [EntityBuilder::with_dynamic_with_data] (189-220) *)
Definition builder_with_data_t (c : ecsid) (src : list cell) : M (bw * mlog) () :=
  do* plain (on_fst (modify (λ b, set_ids (eb_ids b ++ [c]) b))) in
  let* ocm := plain (in_world (get_entity_meta c)) in
  let* cm := unwrap ocm RDeadComponent in
  let size := cm_size (em_comp cm) in
  let* b := gets (λ s, s.1.1) in
  let required := eb_len b + size in
  do* (if decide (eb_cap b < required)
       then builder_realloc_t (Nat.max required (eb_cap b * 2)) else ret ()) in
  let* b1 := gets (λ s, s.1.1) in
  if decide (length src < size) then ub
  else
    let* p := or_ub (mem_write (eb_data b1) (eb_len b1) (take size src)) in
    plain (on_fst (modify (λ b, set_num (eb_num b + 1) (set_blen (eb_len b1 + size)
                                                  (set_data p (eb_cap b) b))))).

(** The push loop of [build] (236-262) *)
Fixpoint build_push_t (k : nat) (ids : list ecsid) (off : nat) : M (bw * mlog) () :=
  match ids with
  | [] => ret ()
  | c :: ids' =>
      let* ocm := plain (in_world (get_entity_meta c)) in
      let* cm := unwrap ocm RUnwrap in
      let* a := plain (in_world (get_arch k)) in
      let* si := unwrap (a_lookup a !! c) RIndex in
      let* b := gets (λ s, s.1.1) in
      do* in_world_t (in_arch_t k (in_storage_t si (uv_push_raw_t (readable (eb_data b) off)))) in
      let off' := off + cm_size (em_comp cm) in
      if offset_ok (eb_data b) off' then
        let* n := plain (in_world (in_arch k (in_storage si uv_elems_len))) in
        do* massert (bool_decide (n = length (a_entities a))) RColumnLength in
        build_push_t k ids' off'
      else ub
  end.

(** The storage loop of [create_archetype] (311-324).  When the push into the new, empty
    vector panics it has allocated nothing, so dropping it frees nothing. *)
Fixpoint create_storages_t (ids : list ecsid) (off : nat) (acc : list (ecsid * uvec))
    : M (bw * mlog) (list (ecsid * uvec)) :=
  match ids with
  | [] => ret acc
  | c :: ids' =>
      let* v' :=
        on_unwind_t
          (let* ocm := plain (in_world (get_entity_meta c)) in
           let* cm := unwrap ocm RUnwrap in
           let* b := gets (λ s, s.1.1) in
           let v := uv_new (cm_type_info (em_comp cm)) in
           λ s, match uv_push_raw_t (readable (eb_data b) off) (v, s.2) with
                | Done _ (v', lg) _ =>
                    if offset_ok (eb_data b) (off + cm_size (em_comp cm))
                    then Done (v', off + cm_size (em_comp cm)) (s.1, lg) [] else UB
                | Panicked r (_, lg) _ => Panicked r (s.1, lg) []
                | Deadlock => Deadlock
                | UB => UB
                end)
          (uv_drop_all_t acc.*2) in
      create_storages_t ids' v'.2 (acc ++ [(c, v'.1)])
  end.

(** [EntityBuilder::create_archetype] (308-355) *)
Definition create_archetype_t : M (bw * mlog) archetype :=
  let* b := gets (λ s, s.1.1) in
  let* ss := create_storages_t (eb_ids b) 0 [] in
  do* plain (on_fst (modify (λ b, set_ids (sort_by ecsid_leb (eb_ids b)) b))) in
  let ss' := sort_by storage_leb ss in
  let* ids := gets (λ s, eb_ids s.1.1) in
  let* lookup := on_unwind_t (unwrap (index_ids_distinct 0 ids ∅) RDuplicate) (uv_drop_all_t ss'.*2) in
  do* on_unwind_t (massert (zip_ids_agree ids ss') RAssert) (uv_drop_all_t ss'.*2) in
  do* plain (on_fst (modify (set_ids []))) in
  ret (Archetype lookup [eb_entity b] ss' ids rc_new).

(** [EntityBuilder::build] (229-305) *)
Definition build_t : M (bw * mlog) ecsid :=
  let* b := gets (λ s, s.1.1) in
  let* found := plain (in_world (find_archetype_dynamic (eb_ids b))) in
  match found with
  | Some k =>
      do* plain (in_world (in_arch k (modify (λ a, a_set_entities (a_entities a ++ [eb_entity b]) a)))) in
      do* build_push_t k (eb_ids b) 0 in
      let* a := plain (in_world (get_arch k)) in
      do* plain (in_world (set_entity_meta (eb_entity b)
                      (EntMeta (InstMeta k (length (a_entities a) - 1)) (eb_meta b)))) in
      ret (eb_entity b)
  | None =>
      do* plain (in_world (ensure_locks (eb_ids b))) in
      let* na := create_archetype_t in
      let* n := in_world_t (push_archetype_t na) in
      do* plain (in_world (set_entity_meta (eb_entity b) (EntMeta (InstMeta n 0) (eb_meta b)))) in
      ret (eb_entity b)
  end.

Definition with_builder_t {A} (b : builder) (m : M (bw * mlog) A) : M (world * mlog) A := λ s,
  match m ((b, s.1), s.2) with
  | Done a ((b', w'), lg) ev =>
      match builder_drop_t b' (w', lg) with
      | Done _ s'' ev' => Done a s'' (ev ++ ev')
      | Panicked r s'' ev' => Panicked r s'' (ev ++ ev')
      | Deadlock => Deadlock
      | UB => UB
      end
  | Panicked r ((b', w'), lg) ev =>
      match builder_drop_t b' (w', lg) with
      | Done _ s'' ev' => Panicked r s'' (ev ++ ev')
      | _ => UB
      end
  | Deadlock => Deadlock
  | UB => UB
  end.

(** [self.spawn().build()] (world.rs:321-324, 446) *)
Definition spawn_empty_t : M (world * mlog) ecsid :=
  let* e := plain (in_ents ents_spawn) in
  let* b := builder_new_t e cm_unit in
  with_builder_t b build_t.

(** [World::get_or_create_type_id_ecsid::<T>] (440-455) *)
Definition get_or_create_type_t (t : ty) : M (world * mlog) ecsid :=
  let* o := gets (λ s, w_types s.1 !! t) in
  match o with
  | Some c => ret c
  | None =>
      let* e := spawn_empty_t in
      let* o := gets (λ s, w_meta s.1 !! uindex e) in
      let* om := unwrap o RIndex in
      let* m := unwrap om RUnwrap in
      do* plain (modify (λ w, set_meta (<[uindex e := Some (EntMeta (em_inst m) (cm_from_generic t))]> (w_meta w)) w)) in
      do* plain (modify (λ w, set_types (<[t := e]> (w_types w)) w)) in
      ret e
  end.

(** [EntityBuilder::with::<C>] (223-227) *)
Definition builder_with_t (t : ty) (v : value) : M (bw * mlog) () :=
  let* c := in_world_t (get_or_create_type_t t) in
  builder_with_data_t c v.

(** [World::add_component::<T>] (371-382), [World::remove_component::<T>] (384-388) *)
Definition add_component_t (e : ecsid) (t : ty) (v : value) : M (world * mlog) () :=
  let* c :=
    on_unwind_t
      (let* alive := plain (is_alive e) in
       do* massert alive RAssert in
       get_or_create_type_t t)
      (Some ([EvDrop (DropOf t) v], [])) in
  add_component_with_data_t e c v.
Definition remove_component_t (e : ecsid) (t : ty) : M (world * mlog) () :=
  let* alive := plain (is_alive e) in
  do* massert alive RAssert in
  let* c := get_or_create_type_t t in
  remove_component_dynamic_t e c.

(** ** Drop for World (278-289) and its fields *)
Definition drop_reuse_t (w : world) : option mlog :=
  match w_reuse w with
  | None => Some []
  | Some (_, p, cap) =>
      match layout_from_size_align cap 1 with
      | Some lay => match heap_dealloc p lay with Some _ => Some [MFree lay] | None => None end
      | None => None
      end
  end.
Fixpoint drop_archs_t (l : list archetype) : option (list event * mlog) :=
  match l with
  | [] => Some ([], [])
  | a :: l' =>
      match uv_drop_all_t (a_storages a).*2, drop_archs_t l' with
      | Some (e1, o1), Some (e2, o2) => Some (e1 ++ e2, o1 ++ o2)
      | _, _ => None
      end
  end.
Definition world_drop_t (w : world) : option (list event * mlog) :=
  match drop_reuse_t w, drop_archs_t (w_archs w) with
  | Some o1, Some (ev, o2) => Some (ev, o1 ++ o2)
  | _, _ => None
  end.

(** ** Calls *)
Definition run_bop_t (o : bop) : M (bw * mlog) () :=
  match o with
  | BWith t v => builder_with_t t v
  | BWithDyn c => plain (builder_with_dynamic c)
  | BWithDynData c v => builder_with_data_t c v
  | BBuild => do* build_t in ret ()
  end.
Fixpoint run_bops_t (bs : list bop) : M (bw * mlog) () :=
  match bs with [] => ret () | o :: bs' => do* run_bop_t o in run_bops_t bs' end.
Definition forget_builder_t {A} (b : builder) (m : M (bw * mlog) A) : M (world * mlog) A := λ s,
  match m ((b, s.1), s.2) with
  | Done a ((b', w'), lg) ev => Done a (w', lg) ev
  | _ => with_builder_t b m s
  end.
Definition spawn_builder_t (cap : option nat) (meta : component_meta) : M (world * mlog) builder :=
  let* e := plain (in_ents ents_spawn) in
  match cap with
  | Some n => builder_with_capacity_t e meta n
  | None => builder_new_t e meta
  end.
Definition spawn_program_t (cap : option nat) (meta : component_meta) (bs : list bop) (fin : bend)
    : M (world * mlog) ecsid :=
  let* b := spawn_builder_t cap meta in
  do* (match fin with
       | BDrop => with_builder_t b (run_bops_t bs)
       | BForget => forget_builder_t b (run_bops_t bs)
       end) in
  ret (eb_entity b).

Definition step_t (o : op) : M (world * mlog) oret :=
  match o with
  | OSpawn cap meta bs fin => let* e := spawn_program_t cap meta bs fin in ret (RId e)
  | OAdd e t v => do* add_component_t e t v in ret RUnit
  | ORemove e t => do* remove_component_t e t in ret RUnit
  | OAddDyn e c => do* add_component_dynamic_t e c in ret RUnit
  | OAddDynData e c v => do* add_component_with_data_t e c v in ret RUnit
  | ORemoveDyn e c => do* remove_component_dynamic_t e c in ret RUnit
  | ORegister t => let* c := get_or_create_type_t t in ret (RId c)
  | _ => plain (step o)                     (* despawn, write, has, is_alive: no allocator call *)
  end.
Definition in_sworld_t {A} (m : M (world * mlog) A) : M (sess * mlog) A :=
  tzoom (λ s, Some (ss_world s)) (λ w s, Sess w (ss_open s)) m.
Definition sstep_t (o : sop) : M (sess * mlog) sret :=
  match o with
  | SWorld o => let* r := in_sworld_t (step_t o) in ret (SRet r)
  | _ => plain (sstep o)                    (* queries make no allocator call of their own *)
  end.

(** Executions with their allocator calls: as [steps]. *)
Inductive steps_t : sess * mlog → list (sop * res * list event) → sess * mlog → Prop :=
| steps_t_nil s : steps_t s [] s
| steps_t_done s0 l s1 o r s2 ev :
    steps_t s0 l s1 → sop_legal o s1.1 → sop_tame o s1.1 →
    sstep_t o s1 = Done r s2 ev →
    steps_t s0 (l ++ [(o, ROk r, ev)]) s2
| steps_t_panic s0 l s1 o r s2 ev :
    steps_t s0 l s1 → sop_legal o s1.1 → sop_tame o s1.1 →
    sstep_t o s1 = Panicked r s2 ev → resumable r →
    steps_t s0 (l ++ [(o, RPanic r, ev)]) s2.
