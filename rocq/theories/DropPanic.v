(** * Destructors that panic.

    The rest of the model takes destructors to return.  Here the functions that call them are
    written once more, with a destructor that may panic: [bomb f v] says whether the destructor
    [f] panics on the bytes [v].  A panicking destructor has run (its event is recorded); the
    panic leaves the state as it is at that point. *)
From Verif Require Export World.

Definition call_drop {S} (bomb : dropfn → value → bool) (f : option dropfn) (v : value) : M S () :=
  match f with
  | Some f => do* emit [EvDrop f v] in if bomb f v then panic RDestructor else ret ()
  | None => ret ()
  end.

Section bombs.
  Context (bomb : dropfn → value → bool).

  (** [UntypedVec::pop] (untyped_vec/src/lib.rs:200-224) *)
  Definition uv_pop_b : M uvec bool :=
    let* v := gets id in
    if decide (uv_size v = 0 ∧ 0 < uv_len v) then
      do* modify (uv_set_len (uv_len v - 1)) in
      do* call_drop bomb (ti_drop (uv_ti v)) [] in
      ret true
    else if decide (uv_size v ≤ uv_len v) then
      let len := uv_len v - uv_size v in
      do* modify (uv_set_len len) in
      let* bytes := or_ub (mem_read (uv_data v) len (uv_size v)) in
      do* call_drop bomb (ti_drop (uv_ti v)) bytes in
      ret true
    else ret false.
  (** [UntypedVec::swap_remove] (lib.rs:275-305) *)
  Definition uv_swap_remove_b (element : nat) : M uvec () :=
    let* v := gets id in
    do* massert (bool_decide (0 < uv_len v)) RAssert in
    do* massert (bool_decide (uv_size v = 0) || bool_decide (element < uv_len v / uv_size v)) RAssert in
    if decide (uv_size v = 0 ∨ element = uv_len v / uv_size v - 1) then
      do* massert (bool_decide (element < uv_len v)) RAssert in
      do* uv_pop_b in ret ()
    else
      let to_swap := uv_len v - uv_size v in
      let* p := or_ub (mem_swap (uv_data v) (element * uv_size v) to_swap (uv_size v)) in
      do* modify (uv_set_data p (uv_cap v)) in
      do* uv_pop_b in ret ().
  (** [Drop for UntypedVec] (lib.rs:363-377).  A panic leaves the loop; the fields of the vector
      have no destructors, so that its memory is not returned. *)
  Fixpoint uv_pop_all_b (fuel : nat) : M uvec () :=
    match fuel with
    | O => ub
    | S fuel' => let* b := uv_pop_b in if b then uv_pop_all_b fuel' else ret ()
    end.
  Definition uv_drop_b : M uvec () :=
    let* v := gets id in
    if decide (0 < uv_cap v) then
      do* uv_pop_all_b (S (S (uv_len v))) in
      let* v1 := gets id in
      let* lay := unwrap (layout_from_size_align (uv_cap v1) (uv_align v1)) RCapacity in
      or_ub (heap_dealloc (uv_data v1) lay)
    else ret ().

  (** [Archetype::despawn] (world.rs:173-199) *)
  Fixpoint swap_remove_storages_b (k row : nat) (is_ : list nat) : M world () :=
    match is_ with
    | [] => ret ()
    | i :: is' =>
        do* in_arch k (in_storage i (uv_swap_remove_b row)) in
        swap_remove_storages_b k row is'
    end.
  Definition arch_despawn_b (k row : nat) (e : ecsid) : M world () :=
    let* a := get_arch k in
    let* e' := unwrap (a_entities a !! row) RIndex in
    do* massert (bool_decide (e' = e)) RAssert in
    let* es := unwrap (vec_swap_remove row (a_entities a)) RIndex in
    do* in_arch k (modify (a_set_entities es)) in
    do* swap_remove_storages_b k row (seq 0 (length (a_storages a))) in
    let* len := gets (λ w, length (w_meta w)) in
    do* massert (bool_decide (uindex e < len)) RIndex in
    do* modify (λ w, set_meta (<[uindex e := None]> (w_meta w)) w) in
    match es !! row with
    | Some swapped => update_meta (uindex swapped) (λ im, InstMeta (im_arch im) row)
    | None => ret ()
    end.
  (** [World::despawn] (world.rs:339-357) *)
  Definition despawn_b (e : ecsid) : M world bool :=
    let* alive := is_alive e in
    if negb alive then ret false
    else
    let* used := gets (λ w, used_as_component w e) in
    do* massert (negb used) RComponentInUse in
    let* om := get_entity_meta e in
    let* m := unwrap om RUnwrap in
    do* arch_despawn_b (im_arch (em_inst m)) (im_index (em_inst m)) e in
    do* in_ents (ents_despawn e) in
    ret true.

  (** [World::remove_component_dynamic] (world.rs:733-850) *)
  Definition remove_component_dynamic_b (e c : ecsid) : M world () :=
    let* e_alive := is_alive e in
    if negb e_alive then ret ()
    else
    let* c_alive := is_alive c in
    if negb c_alive then ret ()
    else
    let* om := get_entity_meta e in
    let* m := unwrap om RUnwrap in
    let cur := im_arch (em_inst m) in
    let row := im_index (em_inst m) in
    let* a := get_arch cur in
    do* massert (bool_decide (c ∈ a_comp_ids a)) RAssert in
    let* cached := in_arch cur (in_cache (rc_lookup_id c)) in
    let* found :=
      match cached with
      | Some k => ret (Some k)
      | None =>
          let* idx := find_minus_id (a_comp_ids a) c in
          match idx with
          | Some k => do* in_arch cur (in_cache (rc_insert_id c k)) in ret (Some k)
          | None => ret None
          end
      end in
    let* tar :=
      match found with
      | Some k => ret k
      | None =>
          let* a1 := get_arch cur in
          let* na := unwrap (from_archetype_without a1 c) RAssert in
          let* n := push_archetype na in
          do* in_arch cur (in_cache (rc_insert_id c n)) in
          ret n
      end in
    let* archs := gets w_archs in
    let* '(ca, ta) := unwrap (index_twice cur tar archs) RIndex in
    let* sk := rem_zip c cur tar row (length (a_storages ta))
                       (seq 0 (length (a_storages ca))) 0 None in
    let* skipped :=
      match sk with
      | Some i => ret i
      | None =>
          let* l := unwrap (last (a_comp_ids ca)) RUnwrap in
          do* massert (bool_decide (l = c)) RAssert in
          ret (length (a_storages ca) - 1)
      end in
    do* in_arch cur (in_storage skipped (uv_swap_remove_b row)) in
    do* push_row tar e in
    remove_row cur row.

  (** [World::remove_component::<T>] (world.rs:384-388) *)
  Definition remove_component_b (e : ecsid) (t : ty) : M world () :=
    let* alive := is_alive e in
    do* massert alive RAssert in
    let* c := get_or_create_type t in
    remove_component_dynamic_b e c.

  (** The drop glue of [World] (cf. [World.world_drop]).  A panic in the destructor of one column
      leaves that column; the glue goes on with the others, now unwinding.  A second panic
      while unwinding aborts the process. *)
  Inductive fall :=
  | Fallen (panicking : bool) (ev : list event)
  | Aborted (ev : list event).
  Fixpoint drop_columns_b (panicking : bool) (vs : list uvec) : option fall :=
    match vs with
    | [] => Some (Fallen panicking [])
    | v :: vs' =>
        let go p ev :=
          match drop_columns_b p vs' with
          | Some (Fallen p' ev') => Some (Fallen p' (ev ++ ev'))
          | Some (Aborted ev') => Some (Aborted (ev ++ ev'))
          | None => None
          end in
        match uv_drop_b v with
        | Done _ _ ev => go panicking ev
        | Panicked _ _ ev => if panicking then Some (Aborted ev) else go true ev
        | _ => None
        end
    end.
  Definition world_drop_b (w : world) : option fall :=
    match drop_reuse w with
    | Some _ => drop_columns_b false (w_archs w ≫= λ a, (a_storages a).*2)
    | None => None
    end.
End bombs.
