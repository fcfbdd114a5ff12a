(** * Model of arche_tape/src/world.rs, arche_tape/src/entity_builder.rs and
    utils::index_twice_mut (arche_tape/src/lib.rs:78-95) *)
From Verif Require Export Base Entities Bitset ArrayVec UVec.

(** ** Metadata (world.rs:210-259) *)
Record component_meta := CompMeta { cm_drop : option dropfn; cm_layout : layout }.
Record instance_meta := InstMeta { im_arch : nat; im_index : nat }.
Record entity_meta := EntMeta { em_inst : instance_meta; em_comp : component_meta }.
Definition cm_size (m : component_meta) : nat := l_size (cm_layout m).

(** [ComponentMeta::from_generic::<T>] (245-250) *)
Definition cm_from_generic (t : ty) : component_meta :=
  CompMeta (Some (DropOf t)) (layout_of t).
(** [ComponentMeta::unit] (253-258) *)
Definition cm_unit : component_meta := CompMeta None (Layout 0 1).
(** [ComponentMeta::from_size_align] (237-242); [None] is the unwrap panic *)
Definition cm_from_size_align (size align : nat) : option component_meta :=
  match layout_from_size_align size align with
  | Some l => Some (CompMeta None l)
  | None => None
  end.
Definition cm_type_info (m : component_meta) : type_info := TypeInfo (cm_layout m) (cm_drop m).

(** ** Archetype (world.rs:62-79) *)
Record archetype := Archetype {
  a_lookup : gmap ecsid nat;
  a_entities : list ecsid;
  a_storages : list (ecsid * uvec);
  a_comp_ids : list ecsid;
  a_cache : arcache
}.
Definition a_set_entities (es : list ecsid) (a : archetype) : archetype :=
  Archetype (a_lookup a) es (a_storages a) (a_comp_ids a) (a_cache a).
Definition a_set_storages (ss : list (ecsid * uvec)) (a : archetype) : archetype :=
  Archetype (a_lookup a) (a_entities a) ss (a_comp_ids a) (a_cache a).
Definition a_set_cache (c : arcache) (a : archetype) : archetype :=
  Archetype (a_lookup a) (a_entities a) (a_storages a) (a_comp_ids a) c.

(** [Archetype::from_archetype] (82-99) *)
Definition from_archetype (from : archetype) : archetype :=
  Archetype (a_lookup from) []
    ((λ s, (s.1, uv_new_from s.2)) <$> a_storages from)
    (a_comp_ids from) rc_new.

Definition storage_leb (a b : ecsid * uvec) : bool := ecsid_leb a.1 b.1.

(** Lines 134-137 / 165-168: clear the lookup and re-insert (id, position) in order. *)
Fixpoint index_ids (n : nat) (ids : list ecsid) (m : gmap ecsid nat) : gmap ecsid nat :=
  match ids with
  | [] => m
  | i :: ids' => index_ids (S n) ids' (<[i := n]> m)
  end.

(** The assertion of lines 126-132 / 157-163: the zipped ids agree. *)
Definition zip_ids_agree (ids : list ecsid) (ss : list (ecsid * uvec)) : bool :=
  forallb (λ p, bool_decide (p.1 = p.2)) (zip ids ss.*1).

Definition sort_archetype (a : archetype) (ids : list ecsid) (ss : list (ecsid * uvec))
    : option archetype :=
  let ids' := sort_by ecsid_leb ids in
  let ss' := sort_by storage_leb ss in
  if zip_ids_agree ids' ss' then
    Some (Archetype (index_ids 0 ids' ∅) (a_entities a) ss' ids' (a_cache a))
  else None.

(** [Archetype::from_archetype_with] (105-140).  [None]: a failed assertion (the new
    storages are empty, so dropping them during unwinding runs no destructor). *)
Definition from_archetype_with (from : archetype) (ti : type_info) (c : ecsid)
    : option archetype :=
  let n := from_archetype from in
  match a_lookup n !! c with
  | Some _ => None                                                    (* 112 *)
  | None => sort_archetype n (a_comp_ids n ++ [c]) (a_storages n ++ [(c, uv_new ti)])
  end.

(** [Archetype::from_archetype_without] (142-171). *)
Definition from_archetype_without (from : archetype) (c : ecsid) : option archetype :=
  let n := from_archetype from in
  match a_lookup n !! c with
  | None => None                                                      (* 145 *)
  | Some i =>
      (* 148-149: Vec::remove panics when out of range *)
      if decide (i < length (a_comp_ids n) ∧ i < length (a_storages n)) then
        sort_archetype n (delete i (a_comp_ids n)) (delete i (a_storages n))
      else None
  end.

(** ** Locks: [RwLock<()>] as bookkeeping (who holds it is known from the queries). *)
Record rwlock := RwLock { rw_readers : nat; rw_writer : bool; rw_poisoned : bool }.
Definition rw_new : rwlock := RwLock 0 false false.

(** ** World (world.rs:261-276) *)
Record world := World {
  w_archs : list archetype;
  w_bitset : bitsets;
  w_entbits : bitvec;
  w_ents : entities;
  w_meta : list (option entity_meta);
  w_types : gmap ty ecsid;
  w_lock_lookup : gmap ecsid nat;
  w_locks : list rwlock;
  w_reuse : option (list ecsid * ptr * nat)
}.
Definition set_archs x w := World x (w_bitset w) (w_entbits w) (w_ents w) (w_meta w) (w_types w) (w_lock_lookup w) (w_locks w) (w_reuse w).
Definition set_bitset x w := World (w_archs w) x (w_entbits w) (w_ents w) (w_meta w) (w_types w) (w_lock_lookup w) (w_locks w) (w_reuse w).
Definition set_entbits x w := World (w_archs w) (w_bitset w) x (w_ents w) (w_meta w) (w_types w) (w_lock_lookup w) (w_locks w) (w_reuse w).
Definition set_ents x w := World (w_archs w) (w_bitset w) (w_entbits w) x (w_meta w) (w_types w) (w_lock_lookup w) (w_locks w) (w_reuse w).
Definition set_meta x w := World (w_archs w) (w_bitset w) (w_entbits w) (w_ents w) x (w_types w) (w_lock_lookup w) (w_locks w) (w_reuse w).
Definition set_types x w := World (w_archs w) (w_bitset w) (w_entbits w) (w_ents w) (w_meta w) x (w_lock_lookup w) (w_locks w) (w_reuse w).
Definition set_lock_lookup x w := World (w_archs w) (w_bitset w) (w_entbits w) (w_ents w) (w_meta w) (w_types w) x (w_locks w) (w_reuse w).
Definition set_locks x w := World (w_archs w) (w_bitset w) (w_entbits w) (w_ents w) (w_meta w) (w_types w) (w_lock_lookup w) x (w_reuse w).
Definition set_reuse x w := World (w_archs w) (w_bitset w) (w_entbits w) (w_ents w) (w_meta w) (w_types w) (w_lock_lookup w) (w_locks w) x.

(** [World::new] (298-317) *)
Definition world_new : world :=
  World [] [] bv_new entities_new [] ∅ ∅ [] None.

(** ** Access paths *)
Definition in_ents {A} (m : M entities A) : M world A :=
  zoom (λ w, Some (w_ents w)) set_ents m.
(** [self.archetypes[k]] *)
Definition in_arch {A} (k : nat) (m : M archetype A) : M world A :=
  zoom (λ w, w_archs w !! k) (λ a w, set_archs (<[k := a]> (w_archs w)) w) m.
Definition in_cache {A} (m : M arcache A) : M archetype A :=
  zoom (λ a, Some (a_cache a)) a_set_cache m.
(** [archetype.component_storages[i].1.get_mut()] *)
Definition in_storage {A} (i : nat) (m : M uvec A) : M archetype A :=
  zoom (λ a, snd <$> a_storages a !! i)
       (λ v a, a_set_storages (alter (λ s, (s.1, v)) i (a_storages a)) a) m.
Definition get_arch (k : nat) : M world archetype :=
  let* o := gets (λ w, w_archs w !! k) in unwrap o RIndex.

(** ** Liveness and metadata *)
(** [World::is_alive] (359-361) *)
Definition is_alive (e : ecsid) : M world bool :=
  let* o := gets (λ w, ents_is_alive (w_ents w) e) in unwrap o RNoGeneration.

(** [World::get_entity_meta] (457-463) *)
Definition get_entity_meta (e : ecsid) : M world (option entity_meta) :=
  let* alive := is_alive e in
  if alive then gets (λ w, mjoin (w_meta w !! uindex e)) else ret None.

(** [World::set_entity_meta] (465-476) *)
Definition set_entity_meta (e : ecsid) (m : entity_meta) : M world () :=
  let* alive := is_alive e in
  if alive then
    modify (λ w,
      set_meta
        (if decide (uindex e < length (w_meta w)) then <[uindex e := Some m]> (w_meta w)
         else w_meta w ++ replicate (uindex e - length (w_meta w)) None ++ [Some m]) w)
  else ret ().

(** Overwrite the instance metadata of an index: [ecs_id_meta[i].as_mut().unwrap().. = ..]
    (e.g. 191-195, 715-721, 725-729). *)
Definition update_meta (i : nat) (f : instance_meta → instance_meta) : M world () :=
  let* o := gets (λ w, w_meta w !! i) in
  let* om := unwrap o RIndex in
  let* m := unwrap om RUnwrap in
  modify (λ w, set_meta (<[i := Some (EntMeta (f (em_inst m)) (em_comp m))]> (w_meta w)) w).

(** ** Archetype search *)
(** The loop computing [bit_length] (495-503, 524-530, 563-569); [None] = early return. *)
Fixpoint min_bit_length (bs : bitsets) (ids : list ecsid) (bl : N) : option N :=
  match ids with
  | [] => Some bl
  | c :: ids' =>
      match bs_get_bitvec bs c with
      | None => None
      | Some b =>
          min_bit_length bs ids'
            (if (N.of_nat (bv_len b) <? bl)%N then wrap32 (N.of_nat (bv_len b)) else bl)
      end
  end.

Definition identity_map : N → N := λ x, x.

(** The slice iterators handed to BitsetIterator (505-509 and alike). *)
Definition bit_iters (bs : bitsets) (ids : list ecsid) : option (list (list N * (N → N))) :=
  mapM (λ c, b ← bs_get_bitvec bs c; Some (bv_data b, identity_map)) ids.

(** [iter.filter(|idx| self.archetypes[*idx].comp_ids.len() == n).next()] *)
Fixpoint find_sized (fuel : nat) (it : biter) (n : nat) : M world (option nat) :=
  match fuel with
  | O => ub
  | S fuel' =>
      match bi_next it with
      | None => ub
      | Some (None, _) => ret None
      | Some (Some idx, it') =>
          let* a := get_arch idx in
          if decide (length (a_comp_ids a) = n) then ret (Some idx) else find_sized fuel' it' n
      end
  end.
Definition find_fuel (iters : list (list N * (N → N))) : nat :=
  2 + usize_bits * match iters with [] => 0 | (ws, _) :: _ => length ws end.

Definition search (ids : list ecsid) (n : nat) : M world (option nat) :=
  let* bs := gets w_bitset in
  match min_bit_length bs ids u32_max with
  | None => ret None
  | Some bl =>
      let* iters := unwrap (bit_iters bs ids) RUnwrap in
      find_sized (find_fuel iters) (bi_new iters bl) n
  end.

(** [World::find_archetype_dynamic] (489-515) *)
Definition find_archetype_dynamic (ids : list ecsid) : M world (option nat) :=
  let* archs := gets w_archs in
  if decide (0 < length archs ∧ length ids = 0) then
    let* a := get_arch 0 in
    do* massert (bool_decide (length (a_comp_ids a) = 0)) RAssert in
    ret (Some 0)
  else search ids (length ids).

(** [World::find_archetype_dynamic_plus_id] (517-549) *)
Definition find_plus_id (ids : list ecsid) (extra : ecsid) : M world (option nat) :=
  search (ids ++ [extra]) (length ids + 1).

(** [World::find_archetype_dynamic_minus_id] (551-581).  [comp_ids.len() - 1] cannot
    underflow: the only caller has asserted that the list contains [without]. *)
Definition find_minus_id (ids : list ecsid) (without : ecsid) : M world (option nat) :=
  let* archs := gets w_archs in
  if decide (0 < length archs ∧ length ids = 1) then
    let* a := get_arch 0 in
    do* massert (bool_decide (length (a_comp_ids a) = 0)) RAssert in
    ret (Some 0)
  else search (filter (λ i, i ≠ without) ids) (length ids - 1).

(** ** Registering a new archetype *)
(** [for id in archetype.comp_ids { self.archetype_bitset.set_bit(id, n, true) }]
    (655-658, 778-781, entity_builder.rs:284-288) *)
Fixpoint set_arch_bits (ids : list ecsid) (n : nat) : M world () :=
  match ids with
  | [] => ret ()
  | c :: ids' =>
      let* o := gets (λ w, bs_set_bit (w_bitset w) c n true) in
      let* bs := unwrap o RIndex in
      do* modify (set_bitset bs) in
      set_arch_bits ids' n
  end.

(** Lines 655-663 / 778-786 / entity_builder.rs:284-292: bits, entity bit, push. *)
Definition push_archetype (a : archetype) : M world nat :=
  let* n := gets (λ w, length (w_archs w)) in
  do* set_arch_bits (a_comp_ids a) n in
  let* o := gets (λ w, bv_push_bit (w_entbits w) true) in
  let* eb := unwrap o RIndex in
  do* modify (set_entbits eb) in
  do* modify (λ w, set_archs (w_archs w ++ [a]) w) in
  ret n.

(** [lock_lookup.entry(id)]: insert a fresh lock if vacant (631-636, builder 273-280). *)
Definition ensure_lock (c : ecsid) : M world () :=
  modify (λ w,
    match w_lock_lookup w !! c with
    | Some _ => w
    | None => set_locks (w_locks w ++ [rw_new])
                (set_lock_lookup (<[c := length (w_locks w)]> (w_lock_lookup w)) w)
    end).

(** ** Moving an entity between archetypes *)
(** [utils::index_twice_mut] (lib.rs:78-95) as a pure function: [None] is a panic. *)
Definition index_twice {A} (i j : nat) (l : list A) : option (A * A) :=
  match Nat.compare i j with
  | Lt =>
      if decide (j ≤ length l) then                    (* split_at_mut(idx_2) *)
        match take j l !! i, head (drop j l) with
        | Some x, Some y => Some (x, y) | _, _ => None
        end
      else None
  | Gt =>
      if decide (i ≤ length l) then
        match head (drop i l), take i l !! j with
        | Some x, Some y => Some (x, y) | _, _ => None
        end
      else None
  | Eq => None
  end.

(** [cur_storage.swap_move_element_to_other_vec(tar_storage, row)] for storage [i] of
    archetype [cur] and storage [j] of archetype [tar] (world.rs:699, 820). *)
Definition move_element (cur i tar j row : nat) : M world () := λ w,
  match w_archs w !! cur, w_archs w !! tar with
  | Some ca, Some ta =>
      match a_storages ca !! i, a_storages ta !! j with
      | Some (ci, cv), Some (ti, tv) =>
          let put cv' tv' :=
            set_archs
              (<[tar := a_set_storages (<[j := (ti, tv')]> (a_storages ta)) ta]>
               (<[cur := a_set_storages (<[i := (ci, cv')]> (a_storages ca)) ca]> (w_archs w))) w in
          match uv_swap_move row (cv, tv) with
          | Done _ (cv', tv') ev => Done () (put cv' tv') ev
          | Panicked r (cv', tv') ev => Panicked r (put cv' tv') ev
          | Deadlock => Deadlock
          | UB => UB
          end
      | _, _ => Panicked RIndex w []
      end
  | _, _ => Panicked RIndex w []
  end.

Definition storage_id (k j : nat) : M world ecsid :=
  let* a := get_arch k in
  let* s := unwrap (a_storages a !! j) RIndex in ret s.1.

(** The zip loop of add_component_dynamic_with_data (677-700): the left iterator is advanced
    first; the right one skips the added component, recording its position. *)
Fixpoint add_zip (c : ecsid) (cur tar row ncur : nat) (i : nat) (js : list nat)
    (skipped : option nat) : M world (option nat) :=
  if decide (ncur ≤ i) then ret skipped
  else
    match js with
    | [] => ret skipped
    | j :: js' =>
        let* tid := storage_id tar j in
        if decide (tid = c) then
          do* massert (bool_decide (skipped = None)) RAssert in           (* 689 *)
          add_zip c cur tar row ncur i js' (Some j)
        else
          do* move_element cur i tar j row in
          add_zip c cur tar row ncur (S i) js' skipped
    end.

(** The zip loop of remove_component_dynamic (799-821): the left iterator skips the removed
    component; when the right one is exhausted the left one has been advanced once more. *)
Fixpoint rem_zip (c : ecsid) (cur tar row ntar : nat) (is_ : list nat) (j : nat)
    (skipped : option nat) : M world (option nat) :=
  match is_ with
  | [] => ret skipped
  | i :: is' =>
      let* cid := storage_id cur i in
      if decide (cid = c) then
        do* massert (bool_decide (skipped = None)) RAssert in             (* 806 *)
        rem_zip c cur tar row ntar is' j (Some i)
      else if decide (ntar ≤ j) then ret skipped
      else
        do* move_element cur i tar j row in
        rem_zip c cur tar row ntar is' (S j) skipped
  end.

(** [current_archetype.entities.swap_remove(row)] and the fix-up of the entity that took
    its place (723-730, 842-849). *)
Definition remove_row (cur row : nat) : M world () :=
  let* a := get_arch cur in
  let* es := unwrap (vec_swap_remove row (a_entities a)) RIndex in
  do* in_arch cur (modify (a_set_entities es)) in
  match es !! row with
  | Some swapped => update_meta (uindex swapped) (λ im, InstMeta (im_arch im) row)
  | None => ret ()
  end.

(** [target.entities.push(entity); meta = {target, len - 1}] (714-721, 833-840) *)
Definition push_row (tar : nat) (e : ecsid) : M world () :=
  do* in_arch tar (modify (λ a, a_set_entities (a_entities a ++ [e]) a)) in
  let* a := get_arch tar in
  update_meta (uindex e) (λ _, InstMeta tar (length (a_entities a) - 1)).

(** [World::add_component_dynamic_with_data] (587-731).  [src]: the memory readable through
    [component_ptr]. *)
Definition add_component_with_data (e c : ecsid) (src : list cell) : M world () :=
  let* e_alive := is_alive e in
  if negb e_alive then ret ()                                             (* 593-595 *)
  else
  let* c_alive := is_alive c in
  if negb c_alive then ret ()                                             (* 596-598 *)
  else
  let* om := get_entity_meta e in
  let* m := unwrap om RUnwrap in                                          (* 601 *)
  let cur := im_arch (em_inst m) in
  let row := im_index (em_inst m) in
  let* a := get_arch cur in
  do* massert (negb (bool_decide (c ∈ a_comp_ids a))) RAssert in          (* 609 *)
  let* cached := in_arch cur (in_cache (rc_lookup_id c)) in               (* 611-612 *)
  let* found :=
    match cached with
    | Some k => ret (Some k)
    | None =>                                                             (* 613-627 *)
        let* idx := find_plus_id (a_comp_ids a) c in
        match idx with
        | Some k => do* in_arch cur (in_cache (rc_insert_id c k)) in ret (Some k)
        | None => ret None
        end
    end in
  let* tar :=
    match found with
    | Some k => ret k
    | None =>                                                             (* 629-667 *)
        do* ensure_lock c in
        let* ocm := get_entity_meta c in
        let* cm := unwrap ocm RUnwrap in                                  (* 641 *)
        let* a1 := get_arch cur in
        let* na := unwrap (from_archetype_with a1 (cm_type_info (em_comp cm)) c) RAssert in
        let* n := push_archetype na in
        do* in_arch cur (in_cache (rc_insert_id c n)) in
        ret n
    end in
  let* archs := gets w_archs in
  let* '(ca, ta) := unwrap (index_twice cur tar archs) RIndex in          (* 669-673 *)
  let* sk := add_zip c cur tar row (length (a_storages ca)) 0
                     (seq 0 (length (a_storages ta))) None in             (* 675-700 *)
  let* skipped :=
    match sk with
    | Some j => ret j
    | None =>                                                             (* 702-705 *)
        let* l := unwrap (last (a_comp_ids ta)) RUnwrap in
        do* massert (bool_decide (l = c)) RAssert in
        ret (length (a_storages ta) - 1)
    end in
  do* in_arch tar (in_storage skipped (uv_push_raw src)) in               (* 707-712 *)
  do* push_row tar e in                                                   (* 714-721 *)
  remove_row cur row.                                                     (* 723-730 *)

(** [World::remove_component_dynamic] (733-850) *)
Definition remove_component_dynamic (e c : ecsid) : M world () :=
  let* e_alive := is_alive e in
  if negb e_alive then ret ()
  else
  let* c_alive := is_alive c in
  if negb c_alive then ret ()
  else
  let* om := get_entity_meta e in
  let* m := unwrap om RUnwrap in
  let cur := im_arch (em_inst m) in
  let row := im_index (em_inst m) in
  let* a := get_arch cur in
  do* massert (bool_decide (c ∈ a_comp_ids a)) RAssert in                 (* 750 *)
  let* cached := in_arch cur (in_cache (rc_lookup_id c)) in
  let* found :=
    match cached with
    | Some k => ret (Some k)
    | None =>
        let* idx := find_minus_id (a_comp_ids a) c in
        match idx with
        | Some k => do* in_arch cur (in_cache (rc_insert_id c k)) in ret (Some k)
        | None => ret None
        end
    end in
  let* tar :=
    match found with
    | Some k => ret k
    | None =>                                                             (* 771-790 *)
        let* a1 := get_arch cur in
        let* na := unwrap (from_archetype_without a1 c) RAssert in
        let* n := push_archetype na in
        do* in_arch cur (in_cache (rc_insert_id c n)) in
        ret n
    end in
  let* archs := gets w_archs in
  let* '(ca, ta) := unwrap (index_twice cur tar archs) RIndex in          (* 792-796 *)
  let* sk := rem_zip c cur tar row (length (a_storages ta))
                     (seq 0 (length (a_storages ca))) 0 None in           (* 798-821 *)
  let* skipped :=
    match sk with
    | Some i => ret i
    | None =>                                                             (* 823-826 *)
        let* l := unwrap (last (a_comp_ids ca)) RUnwrap in
        do* massert (bool_decide (l = c)) RAssert in
        ret (length (a_storages ca) - 1)
    end in
  do* in_arch cur (in_storage skipped (uv_swap_remove row)) in            (* 828-831 *)
  do* push_row tar e in                                                   (* 833-840 *)
  remove_row cur row.                                                     (* 842-849 *)

(** [World::add_component_dynamic] (403-423): the data pointer is [&mut ()]. *)
Definition add_component_dynamic (e c : ecsid) : M world () :=
  let* e_alive := is_alive e in
  do* massert e_alive RAssert in
  let* c_alive := is_alive c in
  do* massert c_alive RAssert in
  let* ocm := get_entity_meta c in
  let* cm := unwrap ocm RUnwrap in
  do* massert (bool_decide (cm_size (em_comp cm) = 0)) RAssert in
  add_component_with_data e c [].

(** ** Despawn *)
(** [for storage in .. { storage.swap_remove(entity_idx) }] (181-187) *)
Fixpoint swap_remove_storages (k row : nat) (is_ : list nat) : M world () :=
  match is_ with
  | [] => ret ()
  | i :: is' =>
      do* in_arch k (in_storage i (uv_swap_remove row)) in
      swap_remove_storages k row is'
  end.

(** [Archetype::despawn] (173-199) *)
Definition arch_despawn (k row : nat) (e : ecsid) : M world () :=
  let* a := get_arch k in
  let* e' := unwrap (a_entities a !! row) RIndex in
  do* massert (bool_decide (e' = e)) RAssert in                           (* 179 *)
  let* es := unwrap (vec_swap_remove row (a_entities a)) RIndex in        (* 180 *)
  do* in_arch k (modify (a_set_entities es)) in
  do* swap_remove_storages k row (seq 0 (length (a_storages a))) in       (* 181-187 *)
  let* len := gets (λ w, length (w_meta w)) in
  do* massert (bool_decide (uindex e < len)) RIndex in                    (* 188 *)
  do* modify (λ w, set_meta (<[uindex e := None]> (w_meta w)) w) in
  match es !! row with                                                    (* 190-196 *)
  | Some swapped => update_meta (uindex swapped) (λ im, InstMeta (im_arch im) row)
  | None => ret ()
  end.

(** Lines 345-349: is the id a component of some archetype? *)
Definition used_as_component (w : world) (c : ecsid) : bool :=
  existsb (λ a, bool_decide (is_Some (a_lookup a !! c))) (w_archs w).

(** [World::despawn] (339-357) *)
Definition despawn (e : ecsid) : M world bool :=
  let* alive := is_alive e in
  if negb alive then ret false
  else
  let* used := gets (λ w, used_as_component w e) in
  do* massert (negb used) RComponentInUse in                              (* 345-349 *)
  let* om := get_entity_meta e in
  let* m := unwrap om RUnwrap in                                          (* 351-352 *)
  do* arch_despawn (im_arch (em_inst m)) (im_index (em_inst m)) e in
  do* in_ents (ents_despawn e) in
  ret true.

(** ** EntityBuilder (entity_builder.rs:14-26).  The [&mut World] it holds is the other half
    of the state. *)
Record builder := Builder {
  eb_data : ptr;
  eb_cap : nat;
  eb_len : nat;
  eb_ids : list ecsid;
  eb_entity : ecsid;
  eb_meta : component_meta;
  eb_num : nat
}.
Definition bw : Type := builder * world.
Definition in_world {A} (m : M world A) : M bw A := on_snd m.
Definition set_data (p : ptr) (cap : nat) (b : builder) : builder :=
  Builder p cap (eb_len b) (eb_ids b) (eb_entity b) (eb_meta b) (eb_num b).
Definition set_ids (ids : list ecsid) (b : builder) : builder :=
  Builder (eb_data b) (eb_cap b) (eb_len b) ids (eb_entity b) (eb_meta b) (eb_num b).
Definition set_blen (len : nat) (b : builder) : builder :=
  Builder (eb_data b) (eb_cap b) len (eb_ids b) (eb_entity b) (eb_meta b) (eb_num b).
Definition set_num (n : nat) (b : builder) : builder :=
  Builder (eb_data b) (eb_cap b) (eb_len b) (eb_ids b) (eb_entity b) (eb_meta b) n.

(** [Drop for EntityBuilder] (28-59) *)
Definition builder_drop (b : builder) : M world () :=
  if decide (eb_cap b = 0) then ret ()
  else
    let* reuse := gets w_reuse in
    match reuse with
    | None => modify (set_reuse (Some ([], eb_data b, eb_cap b)))          (* 32-43 *)
    | Some _ =>                                                            (* 49-56 *)
        let* lay := unwrap (layout_from_size_align (eb_cap b) 1) RUnwrap in
        or_ub (heap_dealloc (eb_data b) lay)
    end.

(** [EntityBuilder::new] and [new_from_world_cache] (62-100) *)
Definition builder_new (e : ecsid) (meta : component_meta) : M world builder :=
  let* reuse := gets w_reuse in
  match reuse with
  | Some (ids, p, cap) =>
      do* modify (set_reuse None) in ret (Builder p cap 0 ids e meta 0)
  | None => ret (Builder Dangling 0 0 [] e meta 0)
  end.

(** [EntityBuilder::with_capacity] (102-135) *)
Definition builder_with_capacity (e : ecsid) (meta : component_meta) (cap : nat)
    : M world builder :=
  let* reuse := gets w_reuse in
  match reuse with
  | Some _ => builder_new e meta                                           (* 108-110 *)
  | None =>
      if decide (cap = 0) then builder_new e meta                          (* 112-114 *)
      else
        let* lay := unwrap (layout_from_size_align cap 1) RCapacity in
        let* p := or_ub (heap_alloc lay) in
        ret (Builder p cap 0 [] e meta 0)
  end.

(** [EntityBuilder::realloc] (137-161) *)
Definition builder_realloc (new_size : nat) : M bw () :=
  do* massert (N.of_nat new_size <? isize_max)%N RCapacity in              (* 138-141 *)
  do* massert (bool_decide (0 < new_size)) RAssert in                      (* 142 *)
  let* b := gets fst in
  if decide (eb_cap b = 0) then
    let* lay := unwrap (layout_from_size_align new_size 1) RCapacity in
    let* p := or_ub (heap_alloc lay) in
    on_fst (modify (set_data p new_size))
  else
    let* lay := unwrap (layout_from_size_align (eb_cap b) 1) RCapacity in
    let* p := or_ub (heap_realloc (eb_data b) lay new_size) in
    on_fst (modify (set_data p new_size)).

(** [EntityBuilder::with_dynamic] (167-182) *)
Definition builder_with_dynamic (c : ecsid) : M bw () :=
  let* ocm := in_world (get_entity_meta c) in
  let* cm := unwrap ocm RUnwrap in
  do* massert (bool_decide (cm_size (em_comp cm) = 0)) RAssert in
  on_fst (modify (λ b, set_num (eb_num b + 1) (set_ids (eb_ids b ++ [c]) b))).

(** [EntityBuilder::with_dynamic_with_data] (189-220) *)
Definition builder_with_data (c : ecsid) (src : list cell) : M bw () :=
  do* on_fst (modify (λ b, set_ids (eb_ids b ++ [c]) b)) in                (* 194 *)
  let* ocm := in_world (get_entity_meta c) in
  let* cm := unwrap ocm RDeadComponent in                                  (* 195-201 *)
  let size := cm_size (em_comp cm) in
  let* b := gets fst in
  let required := eb_len b + size in
  do* (if decide (eb_cap b < required)
       then builder_realloc (Nat.max required (eb_cap b * 2)) else ret ()) in (* 203-207 *)
  let* b1 := gets fst in
  if decide (length src < size) then ub
  else
    let* p := or_ub (mem_write (eb_data b1) (eb_len b1) (take size src)) in (* 209-215 *)
    on_fst (modify (λ b, set_num (eb_num b + 1) (set_blen (eb_len b1 + size)
                                                  (set_data p (eb_cap b) b)))).

(** The memory readable from [data_ptr] at offset [off]. *)
Definition readable (p : ptr) (off : nat) : list cell :=
  match p with Dangling => [] | Heap _ m => drop off m end.
(** [data_ptr.offset(size)]: must stay inside (or one past) the allocation. *)
Definition offset_ok (p : ptr) (off : nat) : bool :=
  match p with Dangling => bool_decide (off = 0) | Heap _ m => bool_decide (off ≤ length m) end.

(** The push loop of [build] (236-262) *)
Fixpoint build_push (k : nat) (ids : list ecsid) (off : nat) : M bw () :=
  match ids with
  | [] => ret ()
  | c :: ids' =>
      let* ocm := in_world (get_entity_meta c) in
      let* cm := unwrap ocm RUnwrap in                                     (* 238-243 *)
      let* a := in_world (get_arch k) in
      let* si := unwrap (a_lookup a !! c) RIndex in                        (* 246 *)
      let* b := gets fst in
      do* in_world (in_arch k (in_storage si (uv_push_raw (readable (eb_data b) off)))) in
      let off' := off + cm_size (em_comp cm) in
      if offset_ok (eb_data b) off' then
        let* n := in_world (in_arch k (in_storage si uv_elems_len)) in     (* 255-261 *)
        do* massert (bool_decide (n = length (a_entities a))) RColumnLength in
        build_push k ids' off'
      else ub
  end.

(** The storage loop of [create_archetype] (311-324).  On unwinding the storages built so
    far are dropped. *)
Fixpoint create_storages (ids : list ecsid) (off : nat) (acc : list (ecsid * uvec))
    : M bw (list (ecsid * uvec)) :=
  match ids with
  | [] => ret acc
  | c :: ids' =>
      let* v' :=
        on_unwind
          (let* ocm := in_world (get_entity_meta c) in
           let* cm := unwrap ocm RUnwrap in
           let* b := gets fst in
           let v := uv_new (cm_type_info (em_comp cm)) in
           match uv_push_raw (readable (eb_data b) off) v with
           | Done _ v' _ =>
               if offset_ok (eb_data b) (off + cm_size (em_comp cm))
               then ret (v', off + cm_size (em_comp cm)) else ub
           | Panicked r _ _ => panic r
           | Deadlock => deadlock
           | UB => ub
           end)
          (uv_drop_all acc.*2) in
      create_storages ids' v'.2 (acc ++ [(c, v'.1)])
  end.

(** Lines 329-339: build the lookup, rejecting a repeated id. *)
Fixpoint index_ids_distinct (n : nat) (ids : list ecsid) (m : gmap ecsid nat)
    : option (gmap ecsid nat) :=
  match ids with
  | [] => Some m
  | i :: ids' =>
      match m !! i with
      | Some _ => None
      | None => index_ids_distinct (S n) ids' (<[i := n]> m)
      end
  end.

(** [EntityBuilder::create_archetype] (308-355) *)
Definition create_archetype : M bw archetype :=
  let* b := gets fst in
  let* ss := create_storages (eb_ids b) 0 [] in
  do* on_fst (modify (λ b, set_ids (sort_by ecsid_leb (eb_ids b)) b)) in   (* 326 *)
  let ss' := sort_by storage_leb ss in                                     (* 327 *)
  let* ids := gets (λ s, eb_ids s.1) in
  let* lookup := on_unwind (unwrap (index_ids_distinct 0 ids ∅) RDuplicate) (uv_drop_all ss'.*2) in
  do* on_unwind (massert (zip_ids_agree ids ss') RAssert) (uv_drop_all ss'.*2) in
  do* on_fst (modify (set_ids [])) in                                      (* 351 *)
  ret (Archetype lookup [eb_entity b] ss' ids rc_new).

Fixpoint ensure_locks (ids : list ecsid) : M world () :=
  match ids with
  | [] => ret ()
  | c :: ids' => do* ensure_lock c in ensure_locks ids'
  end.

(** [EntityBuilder::build] (229-305) *)
Definition build : M bw ecsid :=
  let* b := gets fst in
  let* found := in_world (find_archetype_dynamic (eb_ids b)) in
  match found with
  | Some k =>                                                              (* 231-271 *)
      do* in_world (in_arch k (modify (λ a, a_set_entities (a_entities a ++ [eb_entity b]) a))) in
      do* build_push k (eb_ids b) 0 in
      let* a := in_world (get_arch k) in
      do* in_world (set_entity_meta (eb_entity b)
                      (EntMeta (InstMeta k (length (a_entities a) - 1)) (eb_meta b))) in
      ret (eb_entity b)
  | None =>                                                                (* 272-302 *)
      do* in_world (ensure_locks (eb_ids b)) in
      let* na := create_archetype in
      let* n := in_world (push_archetype na) in
      do* in_world (set_entity_meta (eb_entity b) (EntMeta (InstMeta n 0) (eb_meta b))) in
      ret (eb_entity b)
  end.

(** Run a builder computation and then drop the builder, also when unwinding (builders are
    consumed by value by [with..] and are temporaries in [spawn().build()]). *)
Definition with_builder {A} (b : builder) (m : M bw A) : M world A := λ w,
  match m (b, w) with
  | Done a (b', w') ev =>
      match builder_drop b' w' with
      | Done _ w'' ev' => Done a w'' (ev ++ ev')
      | Panicked r w'' ev' => Panicked r w'' (ev ++ ev')
      | Deadlock => Deadlock
      | UB => UB
      end
  | Panicked r (b', w') ev =>
      match builder_drop b' w' with
      | Done _ w'' ev' => Panicked r w'' (ev ++ ev')
      | _ => UB                                   (* panic while unwinding aborts *)
      end
  | Deadlock => Deadlock
  | UB => UB
  end.

(** [self.spawn().build()] (world.rs:321-324, 446) *)
Definition spawn_empty : M world ecsid :=
  let* e := in_ents ents_spawn in
  let* b := builder_new e cm_unit in
  with_builder b build.

(** [World::get_or_create_type_id_ecsid::<T>] (440-455) *)
Definition get_or_create_type (t : ty) : M world ecsid :=
  let* o := gets (λ w, w_types w !! t) in
  match o with
  | Some c => ret c
  | None =>
      let* e := spawn_empty in
      let* o := gets (λ w, w_meta w !! uindex e) in
      let* om := unwrap o RIndex in
      let* m := unwrap om RUnwrap in                                       (* 449 *)
      do* modify (λ w, set_meta (<[uindex e := Some (EntMeta (em_inst m) (cm_from_generic t))]> (w_meta w)) w) in
      do* modify (λ w, set_types (<[t := e]> (w_types w)) w) in            (* 452 *)
      ret e
  end.

(** [EntityBuilder::with::<C>] (223-227) *)
Definition builder_with (t : ty) (v : value) : M bw () :=
  let* c := in_world (get_or_create_type t) in
  builder_with_data c v.

(** ** Typed world operations *)
(** [World::add_component::<T>] (371-382).  The function owns the value until line 374 wraps it in
    [ManuallyDrop]: a panic before that destroys it, a panic after that leaks it. *)
Definition add_component (e : ecsid) (t : ty) (v : value) : M world () :=
  let* c :=
    on_unwind
      (let* alive := is_alive e in
       do* massert alive RAssert in
       get_or_create_type t)
      (Some [EvDrop (DropOf t) v]) in
  add_component_with_data e c v.

(** [World::remove_component::<T>] (384-388) *)
Definition remove_component (e : ecsid) (t : ty) : M world () :=
  let* alive := is_alive e in
  do* massert alive RAssert in
  let* c := get_or_create_type t in
  remove_component_dynamic e c.

(** [World::has_component::<T>] (390-398) *)
Definition has_component (e : ecsid) (t : ty) : M world bool :=
  let* o := gets (λ w, w_types w !! t) in
  match o with
  | None => ret false
  | Some c =>
      let* om := get_entity_meta e in
      match om with
      | None => ret false
      | Some m =>
          let* a := get_arch (im_arch (em_inst m)) in
          ret (bool_decide (is_Some (a_lookup a !! c)))
      end
  end.

(** A location inside a component column: archetype, storage, byte offset. *)
Record loc := Loc { loc_arch : nat; loc_storage : nat; loc_off : nat }.
Global Instance loc_eq_dec : EqDecision loc.
Proof. solve_decision. Defined.

(** [World::get_component_mut_dynamic] (852-878): the returned pointer as a location. *)
Definition get_component_mut (e c : ecsid) : M world (option loc) :=
  let* e_alive := is_alive e in
  if negb e_alive then ret None
  else
  let* c_alive := is_alive c in
  if negb c_alive then ret None
  else
  let* om := get_entity_meta e in
  match om with
  | None => ret None
  | Some m =>
      let k := im_arch (em_inst m) in
      let* a := get_arch k in
      let* si := unwrap (a_lookup a !! c) RIndex in                        (* 869 *)
      let* o := in_arch k (in_storage si (uv_get_raw (im_index (em_inst m)))) in
      let* off := unwrap o RUnwrap in                                      (* 876 *)
      ret (Some (Loc k si off))
  end.

(** Reading [n] bytes / writing bytes through a pointer into a column. *)
Definition read_loc (w : world) (l : loc) (n : nat) : option value :=
  match w_archs w !! loc_arch l with
  | None => None
  | Some a =>
      match a_storages a !! loc_storage l with
      | None => None
      | Some (_, v) => mem_read (uv_data v) (loc_off l) n
      end
  end.
Definition write_loc (l : loc) (bs : value) : M world () :=
  in_arch (loc_arch l) (in_storage (loc_storage l)
    (let* v := gets id in
     let* p := or_ub (mem_write (uv_data v) (loc_off l) bs) in
     modify (uv_set_data p (uv_cap v)))).

(** ** Drop for World (278-289) followed by the drop glue of its fields, in declaration
    order: only the archetypes own component values. *)
Definition drop_reuse (w : world) : option () :=
  match w_reuse w with
  | None => Some ()
  | Some (_, p, cap) =>
      match layout_from_size_align cap 1 with
      | Some lay => heap_dealloc p lay
      | None => None
      end
  end.
Fixpoint drop_archs (l : list archetype) : option (list event) :=
  match l with
  | [] => Some []
  | a :: l' =>
      match uv_drop_all (a_storages a).*2, drop_archs l' with
      | Some e1, Some e2 => Some (e1 ++ e2)
      | _, _ => None
      end
  end.
Definition world_drop (w : world) : option (list event) :=
  match drop_reuse w with
  | Some _ => drop_archs (w_archs w)
  | None => None
  end.

