(** * The repository's own unit tests, run on the model.
    One Example per #[test] of arche_tape/src/tests/*.rs and of untyped_vec/src/lib.rs, named
    after it.  They test that the model answers what the authors expect of the code.  They are
    tests, not proofs of the properties.  [despawn_component_entity] (tests/world.rs:211) returns
    at its first line and has nothing to check. *)
From Verif Require Import ProofBase SpecWorld ExamplesBase ExamplesWorld.

(** The types used: u32, u64, u128, &str, f32 and the local structs; values little-endian. *)
Definition le (n : nat) (x : N) : value := (λ i, Some (N.land (N.shiftr x (8 * N.of_nat i)) 255)) <$> seq 0 n.
Definition u32t : ty := Ty 101 4 4. Definition u32v : N → value := le 4.
Definition u64t : ty := Ty 102 8 8. Definition u64v : N → value := le 8.
Definition u128t : ty := Ty 103 16 16. Definition u128v : N → value := le 16.
Definition strt : ty := Ty 104 16 8.
Definition f32t : ty := Ty 105 4 4.
Definition structA : ty := Ty 106 4 4. Definition structB : ty := Ty 107 4 4.
Definition zero : ty := Ty 108 0 1.
(** [EcsId::new(index, generation)] *)
Definition eid (i g : N) : ecsid := EcsId g i.

Definition returned {S A} (o : outcome S A) : option A := match o with Done x _ _ => Some x | _ => None end.
(** All but the values is dropped: the tests compare what the references point to. *)
Definition all_static (ps : list param) (n : nat) : M world (list (option (list item))) :=
  let* q := sq_new ps in let* it := sq_iter q in let* '(rs, _) := si_run n it in ret (map (option_map (map snd)) rs).
Definition one_static (ps : list param) (e : ecsid) : M world (option (list item)) :=
  let* q := sq_new ps in let* r := sq_get q e in ret (option_map (map snd) r).
Definition read (w : world) (p : qptr) (n : nat) : option item :=
  match p with PEnt _ _ => IEnt <$> deref_ent w p | _ => IVal <$> deref_val w p n end.
(** As the tests do, cast the pointers to references to types of the given sizes. *)
Definition all_dyn (fs : list (fetch * nat)) (n : nat) : M world (list (option (list (option item)))) :=
  let* q := dq_new fs.*1 in let* it := dq_iter q in let* '(rs, _) := di_run n it in
  let* w := gets id in ret (map (option_map (λ ps, zip_with (λ p f, read w p f.2) ps fs)) rs).
Definition spawn_with (vs : list (ty * value)) : op := spawn_ (((λ tv, BWith tv.1 tv.2) <$> vs) ++ [BBuild]).
Definition where_is (w : world) (e : ecsid) : option (nat * nat) :=
  match get_entity_meta e w with Done (Some m) _ _ => Some (im_arch (em_inst m), im_index (em_inst m)) | _ => None end.
Definition row_count (w : world) (k : nat) : option nat := (λ a, length (a_entities a)) <$> w_archs w !! k.
(** [storage.len()] of each column *)
Definition col_lens (w : world) (k : nat) : option (list (option nat)) :=
  (λ a, (λ p : ecsid * uvec, returned (uv_elems_len p.2)) <$> a_storages a) <$> w_archs w !! k.
Definition alive_ (w : world) (e : ecsid) : option bool := returned (is_alive e w).

Ltac rdone := cbv zeta; repeat lazymatch goal with |- _ ∧ _ => split end; vm_compute; reflexivity.

(** ** arche_tape/src/tests/world.rs *)
Definition w_get : list op :=
  [spawn_with [(u32t, u32v 10); (u64t, u64v 12); (strt, le 16 1000)];
   spawn_with [(u32t, u32v 18); (strt, le 16 2000); (f32t, le 4 16)]].
Example world_get : wplays w_get = true ∧ let w := wplay w_get in
  returned (one_static [PMut strt] (eid 0 0) w) = Some (Some [IVal (le 16 1000)]) ∧
  returned (one_static [PMut strt] (eid 4 0) w) = Some (Some [IVal (le 16 2000)]).
Proof. rdone. Qed.
Definition w_lookup : list op := [spawn_with [(u32t, u32v 10); (u64t, u64v 12)]].
Example world_entity_archetype_lookup : wplays w_lookup = true ∧ where_is (wplay w_lookup) (eid 0 0) = Some (1, 0).
Proof. rdone. Qed.
Definition w_add : list op := [spawn_with [(u32t, u32v 1)]; OAdd (eid 0 0) u64t (u64v 2)].
Example world_add_component : wplays w_add = true ∧ let w := wplay w_add in
  length (w_archs w) = 3 ∧ where_is w (eid 0 0) = Some (2, 0) ∧
  row_count w 0 = Some 2 ∧ col_lens w 0 = Some [] ∧
  row_count w 1 = Some 0 ∧ col_lens w 1 = Some [Some 0] ∧
  row_count w 2 = Some 1 ∧ col_lens w 2 = Some [Some 1; Some 1] ∧
  returned (all_static [PRef u32t; PRef u64t] 2 w) = Some [Some [IVal (u32v 1); IVal (u64v 2)]; None].
Proof. rdone. Qed.
Definition w_add_spawn : list op := w_add ++ [spawn_with [(u32t, u32v 3); (u64t, u64v 4)]].
Example world_add_component_then_spawn : wplays w_add_spawn = true ∧ let w := wplay w_add_spawn in
  length (w_archs w) = 3 ∧
  row_count w 0 = Some 2 ∧ col_lens w 0 = Some [] ∧
  row_count w 1 = Some 0 ∧ col_lens w 1 = Some [Some 0] ∧
  a_entities <$> w_archs w !! 2 = Some [eid 0 0; eid 3 0] ∧ col_lens w 2 = Some [Some 2; Some 2] ∧
  where_is w (eid 0 0) = Some (2, 0) ∧ where_is w (eid 3 0) = Some (2, 1) ∧
  returned (all_static [PRef u32t; PRef u64t] 3 w) =
    Some [Some [IVal (u32v 1); IVal (u64v 2)]; Some [IVal (u32v 3); IVal (u64v 4)]; None].
Proof. rdone. Qed.
Definition w_two : list op := [spawn_with [(structA, le 4 1)]; spawn_with [(structA, le 4 1)]].
Definition w_two1 : list op := w_two ++ [OAdd (eid 0 0) structB (le 4 2)].
Definition w_two2 : list op := w_two1 ++ [OAdd (eid 2 0) structB (le 4 2)].
Example world_add_two : wplays w_two2 = true ∧
  let e1 := eid 0 0 in let e2 := eid 2 0 in
  (let w := wplay w_two in
   row_count w 0 = Some 1 ∧ col_lens w 0 = Some [] ∧ a_entities <$> w_archs w !! 1 = Some [e1; e2] ∧
   where_is w e1 = Some (1, 0) ∧ where_is w e2 = Some (1, 1)) ∧
  (let w := wplay w_two1 in
   row_count w 0 = Some 2 ∧ a_entities <$> w_archs w !! 1 = Some [e2] ∧ a_entities <$> w_archs w !! 2 = Some [e1] ∧
   where_is w e1 = Some (2, 0) ∧ where_is w e2 = Some (1, 0)) ∧
  (let w := wplay w_two2 in
   row_count w 0 = Some 2 ∧ row_count w 1 = Some 0 ∧ a_entities <$> w_archs w !! 2 = Some [e1; e2] ∧
   where_is w e1 = Some (2, 0) ∧ where_is w e2 = Some (2, 1)).
Proof. rdone. Qed.
(** Ten entities: 0, 2, ..., 10 (1 is the id of the type A). *)
Definition ten : list ecsid := eid 0 0 :: ((λ n, eid (N.of_nat n) 0) <$> seq 2 9).
Definition w_multiple : list op :=
  replicate 10 (spawn_with [(structA, le 4 1)]) ++ ((λ e, OAdd e structB (le 4 1)) <$> ten) ++ ((λ e, ORemove e structB) <$> ten).
Definition results (l : list op) : option (list res) := (λ x, x.1.*1) <$> play (SWorld <$> l) sess_new.
Definition returns (r : res) : bool := match r with ROk _ => true | _ => false end.
Example world_add_multiple : forallb returns <$> results w_multiple = Some true ∧
  omap (λ r, match r with ROk (SRet (RId e)) => Some e | _ => None end) (default [] (results w_multiple)) = ten.
Proof. rdone. Qed.
Definition w_despawn : list op :=
  [spawn_with [(u32t, u32v 10)]; spawn_with [(u32t, u32v 12)]; spawn_with [(u32t, u32v 14)]; ODespawn (eid 0 0)].
Example world_despawn_meta_update : last <$> results w_despawn = Some (Some (ROk (SRet (RBool true)))) ∧
  let w := wplay w_despawn in
  alive_ w (eid 0 0) = Some false ∧ where_is w (eid 0 0) = None ∧ alive_ w (eid 2 0) = Some true ∧ alive_ w (eid 3 0) = Some true ∧
  returned (one_static [PMut u32t] (eid 2 0) w) = Some (Some [IVal (u32v 12)]) ∧
  returned (one_static [PMut u32t] (eid 3 0) w) = Some (Some [IVal (u32v 14)]).
Proof. rdone. Qed.
Definition first_id (o : op) : option res := results [o] ≫= head.
Example world_spawn : first_id (spawn_ [BBuild]) = Some (ROk (SRet (RId (eid 0 0)))).
Proof. rdone. Qed.
Example world_spawn_with_capacity : first_id (OSpawn (Some 32) cm_unit [BBuild] BDrop) = Some (ROk (SRet (RId (eid 0 0)))).
Proof. rdone. Qed.
Example world_spawn_with_capacity_zero : first_id (OSpawn (Some 0) cm_unit [BBuild] BDrop) = Some (ROk (SRet (RId (eid 0 0)))).
Proof. rdone. Qed.

(** ** arche_tape/src/tests/query.rs *)
Definition q_three : list op :=
  [spawn_with [(u32t, u32v 10); (u64t, u64v 12)]; spawn_with [(u32t, u32v 15); (u64t, u64v 14)]; spawn_with [(u32t, u32v 20); (u64t, u64v 16)]].
Definition q_six : list op := q_three ++
  [spawn_with [(u32t, u32v 11); (u64t, u64v 12); (u128t, u128v 99)]; spawn_with [(u32t, u32v 16); (u64t, u64v 14); (u128t, u128v 99)];
   spawn_with [(u32t, u32v 21); (u64t, u64v 16); (u128t, u128v 99)]].
Definition pair_items : list (option (list item)) :=
  [Some [IVal (u32v 10); IVal (u64v 12)]; Some [IVal (u32v 15); IVal (u64v 14)]; Some [IVal (u32v 20); IVal (u64v 16)]; None].
Definition single_items (l : list N) : list (option (list item)) := ((λ n, Some [IVal (u32v n)]) <$> l) ++ [None].
Example query_for_each_mut : wplays q_three = true ∧ returned (all_static [PMut u32t; PRef u64t] 4 (wplay q_three)) = Some pair_items.
Proof. rdone. Qed.
Example query_for_each_iterator : returned (all_static [PMut u32t; PRef u64t] 4 (wplay q_three)) = Some pair_items.
Proof. rdone. Qed.
Example query_for_each_subset_iterator : returned (all_static [PMut u32t] 4 (wplay q_three)) = Some (single_items [10; 15; 20]%N).
Proof. rdone. Qed.
Example query_for_each_multi_archetype_iterator : wplays q_six = true ∧
  returned (all_static [PMut u32t] 7 (wplay q_six)) = Some (single_items [10; 15; 20; 11; 16; 21]%N).
Proof. rdone. Qed.
Example query_query_param_in_func : returned (all_static [PRef u32t; PRef u64t] 2 (wplay [spawn_with [(u32t, u32v 10); (u64t, u64v 12)]])) =
  Some [Some [IVal (u32v 10); IVal (u64v 12)]; None].
Proof. rdone. Qed.
Example query_entity_query : returned (all_static [PEcsIds; PRef u32t; PRef u64t] 2 (wplay [spawn_with [(u32t, u32v 1); (u64t, u64v 12)]])) =
  Some [Some [IEnt (eid 0 0); IVal (u32v 1); IVal (u64v 12)]; None].
Proof. rdone. Qed.
Definition q_get : list op :=
  [spawn_with [(u32t, u32v 41); (u64t, u64v 9)]; spawn_with [(u32t, u32v 8)]; spawn_with [(u64t, u64v 12)];
   spawn_with [(u32t, u32v 1); (u64t, u64v 128); (u128t, u128v 28)]].
Example query_query_get : results q_get = Some ((λ e, ROk (SRet (RId e))) <$> [eid 0 0; eid 3 0; eid 4 0; eid 5 0]) ∧
  let get e := returned (one_static [PMut u32t] e (wplay q_get)) in
  get (eid 0 0) = Some (Some [IVal (u32v 41)]) ∧ get (eid 3 0) = Some (Some [IVal (u32v 8)]) ∧
  get (eid 4 0) = Some None ∧ get (eid 5 0) = Some (Some [IVal (u32v 1)]).
Proof. rdone. Qed.
Example query_non_present_component_query :
  returned (all_static [PMut u32t] 1 world_new) = Some [None] ∧ returned (all_static [PRef u32t] 1 world_new) = Some [None].
Proof. rdone. Qed.

(** ** arche_tape/src/tests/dyn_query.rs *)
Definition d_comp (t : ty) : op := OSpawn None (cm_from_generic t) [BBuild] BDrop.
Definition d_spawn (vs : list (ecsid * value)) : op := spawn_ (((λ cv, BWithDynData cv.1 cv.2) <$> vs) ++ [BBuild]).
Definition d32 := eid 0 0. Definition d64 := eid 1 0. Definition d128 := eid 2 0.
Definition d_three : list op :=
  [d_comp u32t; d_comp u64t; d_spawn [(d32, u32v 10); (d64, u64v 12)]; d_spawn [(d32, u32v 15); (d64, u64v 14)]; d_spawn [(d32, u32v 20); (d64, u64v 16)]].
Definition d_six : list op :=
  [d_comp u32t; d_comp u64t; d_comp u128t; d_spawn [(d32, u32v 10); (d64, u64v 12)]; d_spawn [(d32, u32v 15); (d64, u64v 14)]; d_spawn [(d32, u32v 20); (d64, u64v 16)];
   d_spawn [(d32, u32v 11); (d64, u64v 12); (d128, u128v 99)]; d_spawn [(d32, u32v 16); (d64, u64v 14); (d128, u128v 99)];
   d_spawn [(d32, u32v 21); (d64, u64v 16); (d128, u128v 99)]].
Definition present (l : list (option (list item))) : list (option (list (option item))) := option_map (map Some) <$> l.
Example dyn_for_each_mut : wplays d_three = true ∧
  returned (all_dyn [(FMut d32, 4); (FImmut d64, 8)] 4 (wplay d_three)) = Some (present pair_items).
Proof. rdone. Qed.
Example dyn_for_each_subset_iterator : returned (all_dyn [(FMut d32, 4)] 4 (wplay d_three)) = Some (present (single_items [10; 15; 20]%N)).
Proof. rdone. Qed.
Example dyn_for_each_multi_archetype_iterator : wplays d_six = true ∧
  returned (all_dyn [(FMut d32, 4)] 7 (wplay d_six)) = Some (present (single_items [10; 15; 20; 11; 16; 21]%N)).
Proof. rdone. Qed.
Example dyn_query_param_in_func : let l := [spawn_ [BBuild]; spawn_ [BWithDyn (eid 0 0); BBuild]] in wplays l = true ∧
  returned (all_dyn [(FImmut (eid 0 0), 0)] 2 (wplay l)) = Some [Some [Some (IVal [])]; None].
Proof. rdone. Qed.
Example dyn_entity_query : let l := [d_comp u32t; d_comp u64t; d_spawn [(d32, u32v 1); (d64, u64v 12)]] in wplays l = true ∧
  last <$> results l = Some (Some (ROk (SRet (RId (eid 2 0))))) ∧
  returned (all_dyn [(FEcsId, 8); (FImmut d32, 4); (FImmut d64, 8)] 2 (wplay l)) =
    Some [Some [Some (IEnt (eid 2 0)); Some (IVal (u32v 1)); Some (IVal (u64v 12))]; None].
Proof. rdone. Qed.
Example dyn_non_present_component_query :
  returned (all_dyn [(FMut (eid 0 0), 0)] 1 world_new) = Some [None] ∧ returned (all_dyn [(FImmut (eid 0 0), 0)] 1 world_new) = Some [None].
Proof. rdone. Qed.

(** ** arche_tape/src/tests/entities.rs *)
Definition espawned (n : nat) : option (list ecsid * entities) :=
  nat_rect (λ _, option (list ecsid * entities)) (Some ([], entities_new))
    (λ _ r, '(es, s) ← r; match ents_spawn s with Done e s' _ => Some (es ++ [e], s') | _ => None end) n.
Example entities_spawn_one : espawned 1 = Some ([eid 0 0], Entities [(true, 0%N)] []).
Proof. rdone. Qed.
Example entities_spawn_multiple : espawned 2 = Some ([eid 0 0; eid 1 0], Entities (replicate 2 (true, 0%N)) []) ∧
  espawned 3 = Some ([eid 0 0; eid 1 0; eid 2 0], Entities (replicate 3 (true, 0%N)) []) ∧
  espawned 4 = Some ([eid 0 0; eid 1 0; eid 2 0; eid 3 0], Entities (replicate 4 (true, 0%N)) []).
Proof. rdone. Qed.
Definition ents_dead : entities := Entities [(false, 0%N)] [0].
Example entities_spawn_one_despawn_one : ents_despawn (eid 0 0) (Entities [(true, 0%N)] []) = Done true ents_dead [] ∧
  ents_is_alive ents_dead (eid 0 0) = Some false.
Proof. rdone. Qed.
Example entities_despawn_invalid : ents_is_alive entities_new (eid u32_max u32_max) = None.
Proof. rewrite /ents_is_alive. change (generations entities_new) with (@nil (bool * N)). by rewrite lookup_nil. Qed.
Definition ents_reused : entities := Entities [(true, 1%N)] [].
Example entities_reuse_despawned : ents_spawn ents_dead = Done (eid 0 1) ents_reused [] ∧
  ents_is_alive ents_reused (eid 0 0) = Some false ∧ ents_is_alive ents_reused (eid 0 1) = Some true.
Proof. rdone. Qed.
Example entities_double_despawn : ents_despawn (eid 0 0) ents_dead = Done false ents_dead [] ∧
  ents_is_alive ents_dead (eid 0 0) = Some false ∧ returned (ents_spawn ents_dead) = Some (eid 0 1).
Proof. rdone. Qed.
Example entities_reuse_despawn2 :
  let s2 := Entities [(true, 0%N); (true, 0%N)] [] in let s3 := Entities [(false, 0%N); (true, 0%N)] [0] in
  let s4 := Entities [(true, 1%N); (true, 0%N)] [] in
  espawned 2 = Some ([eid 0 0; eid 1 0], s2) ∧ ents_is_alive s2 (eid 0 0) = Some true ∧ ents_is_alive s2 (eid 1 0) = Some true ∧
  ents_despawn (eid 0 0) s2 = Done true s3 [] ∧ ents_is_alive s3 (eid 0 0) = Some false ∧ ents_is_alive s3 (eid 1 0) = Some true ∧
  ents_spawn s3 = Done (eid 0 1) s4 [] ∧ ents_is_alive s4 (eid 0 0) = Some false ∧ ents_is_alive s4 (eid 1 0) = Some true ∧
  ents_is_alive s4 (eid 0 1) = Some true.
Proof. rdone. Qed.
Example entities_generation_wraps : let s' := Entities [(true, 0%N)] [] in
  ents_spawn (Entities [(false, u32_max)] [0]) = Done (eid 0 0) s' [] ∧ ents_is_alive s' (eid 0 0) = Some true.
Proof. rdone. Qed.
Example entities_build_with_zst : let l := [spawn_with [(zero, [])]] in wplays l = true ∧ alive_ (wplay l) (eid 0 0) = Some true.
Proof. rdone. Qed.

(** ** arche_tape/src/tests/bitsetsss.rs *)
Definition key : ecsid := eid 0 0. Definition key2 : ecsid := eid 1 0.
Definition bits0 : option bitsets := bs_insert_bitvec [] 0.
Definition at_key (bs : option bitsets) : option bitvec := bs ≫= λ bs, bs_get_bitvec bs key.
Definition setb (c : ecsid) (i : nat) (b : bool) (bs : option bitsets) : option bitsets := bs ≫= λ bs, bs_set_bit bs c i b.
Definition pushb (c : ecsid) (b : bool) (bs : option bitsets) : option bitsets := bs ≫= λ bs, bs_push_bit bs c b.
Definition getb (i : nat) (bs : option bitsets) : option (option bool) := at_key bs ≫= λ b, bv_get_bit b i.
Example bitsets_insert_one : bv_data <$> at_key bits0 = Some [].
Proof. rdone. Qed.
Example bitsets_set_bit : at_key (setb key 3 true (setb key 0 true bits0)) = Some (Bitvec [9%N] 4).
Proof. rdone. Qed.
Example bitsets_set_bit_far : at_key (setb key 64 true bits0) = Some (Bitvec [0%N; 1%N] 65).
Proof. rdone. Qed.
Example bitsets_get_bit : getb 3 (setb key 3 true bits0) = Some (Some true).
Proof. rdone. Qed.
Example bitsets_bitset_iterator :
  let bs := default [] (setb key2 3 true (setb key2 2 true (setb key 2 true (setb key 1 true bits0) ≫= λ bs, bs_insert_bitvec bs 1))) in
  let data c := from_option bv_data [] (bs_get_bitvec bs c) in
  fst <$> bi_run 2 (bi_new [(data key, id); (data key2, id)] 4) = Some [Some 2; None].
Proof. rdone. Qed.
Example bitsets_empty_push_bit : let bs := pushb key true bits0 in getb 0 bs = Some (Some true) ∧ getb 1 bs = Some None.
Proof. rdone. Qed.
Example bitsets_push_bit : let bs := pushb key true (setb key 3 true bits0) in getb 4 bs = Some (Some true) ∧ getb 5 bs = Some None.
Proof. rdone. Qed.
Example bitsets_push_bit_segmented : let bs := pushb key true (setb key 63 false bits0) in getb 64 bs = Some (Some true) ∧ getb 65 bs = Some None.
Proof. rdone. Qed.

(** ** arche_tape/src/tests/bitset_iterator.rs *)
Definition asked (n : nat) (its : list (list N * (N → N))) (len : N) : option (list (option nat)) := fst <$> bi_run n (bi_new its len).
Definition all_bits : N := 2 ^ 64 - 1.
Example iterator_empty_bitset : asked 1 [([], id)] 0 = Some [None].
Proof. rdone. Qed.
Example iterator_single_bitset : asked 4 [([11%N], id)] 64 = Some [Some 0; Some 1; Some 3; None].
Proof. rdone. Qed.
Example iterator_gapped_bitset : asked 3 [([0; 5]%N, id)] 128 = Some [Some 64; Some 66; None].
Proof. rdone. Qed.
Example iterator_triple_bitset : asked 3 [([171%N], id); ([110%N], id); ([230%N], id)] 64 = Some [Some 1; Some 5; None].
Proof. rdone. Qed.
Example iterator_map_bitset : asked 4 [([171%N], id); ([118%N], word_not)] 64 = Some [Some 0; Some 3; Some 7; None].
Proof. rdone. Qed.
Example iterator_all_ones : asked 65 [([all_bits], id)] 64 = Some ((Some <$> seq 0 64) ++ [None]).
Proof. rdone. Qed.
Example iterator_bit_length : asked 2 [([5%N], id)] 2 = Some [Some 0; None].
Proof. rdone. Qed.
Example iterator_long_bit_length : asked 65 [([0%N; all_bits], id)] 128 = Some ((Some <$> seq 64 64) ++ [None]).
Proof. rdone. Qed.
Example iterator_incorrect_bit_length : asked 3 [([5%N], id)] 2000 = Some [Some 0; Some 2; None].
Proof. rdone. Qed.
Example iterator_returns_none_continuously_incorrect_bit_length : asked 11 [([5%N], id)] 2000 = Some ([Some 0; Some 2] ++ replicate 9 None).
Proof. rdone. Qed.
Example iterator_returns_none_continuously_bit_length : asked 11 [([5%N], id)] 3 = Some ([Some 0; Some 2] ++ replicate 9 None).
Proof. rdone. Qed.
Example iterator_returns_none_continuously : asked 73 [([all_bits], id)] 64 = Some ((Some <$> seq 0 64) ++ replicate 9 None).
Proof. rdone. Qed.

(** ** untyped_vec/src/lib.rs:379-647 *)
Definition vec_of (t : ty) : uvec := uv_new (TypeInfo (UVec.layout_of t) (Some (DropOf t))).
(** [struct Wrap(u32, *mut bool)]: the pointer, the number, padding.  [dropped] becomes true
    when the destructor of the value with that pointer runs. *)
Definition wrap_t : ty := Ty 109 16 8.
Definition wrap (flag n : N) : value := le 8 flag ++ le 4 n ++ replicate 4 None.
Definition pushed (v : uvec) (x : value) : uvec := match uv_push_raw x v with Done _ v' _ => v' | _ => v end.
Definition measures (v : uvec) : nat * nat * bool * layout :=
  (uv_cap v, uv_len v, match uv_data v with Dangling => true | _ => false end, ti_layout (uv_ti v)).
Definition after {S A} (m : M S A) (s : S) : option S := match m s with Done _ s' _ => Some s' | _ => None end.
Definition events {S A} (o : outcome S A) : option (list event) := match o with Done _ _ ev => Some ev | _ => None end.
Example vec_create : measures (vec_of u32t) = (0, 0, true, Layout 4 4).
Proof. rdone. Qed.
Example vec_grow : measures <$> after uv_realloc (vec_of u32t) = Some (16, 0, false, Layout 4 4) ∧
  measures <$> after (do* uv_realloc in uv_realloc) (vec_of u32t) = Some (32, 0, false, Layout 4 4).
Proof. rdone. Qed.
Example vec_push_raw : measures <$> after (uv_push_raw (u32v 10)) (vec_of u32t) = Some (16, 4, false, Layout 4 4).
Proof. rdone. Qed.
Definition ntens (n : nat) : uvec := Nat.iter n (λ v, pushed v (u32v 10)) (vec_of u32t).
Example vec_push_raw_realloc : (λ n, (uv_len (ntens n), uv_cap (ntens n))) <$> [1; 2; 3; 4; 5] = [(4, 16); (8, 16); (12, 16); (16, 16); (20, 32)] ∧
  returned (uv_as_slice u32t (ntens 5)) = Some (replicate 5 (u32v 10)).
Proof. rdone. Qed.
Example vec_as_slice : returned (uv_as_slice u32t (ntens 1)) = Some [u32v 10].
Proof. rdone. Qed.
Example vec_pop : returned (uv_pop (ntens 1)) = Some true ∧ uv_len <$> after uv_pop (ntens 1) = Some 0 ∧
  (after uv_pop (ntens 1) ≫= λ v, returned (uv_pop v)) = Some false ∧ uv_len <$> after (do* uv_pop in uv_pop) (ntens 1) = Some 0.
Proof. rdone. Qed.
Definition wrapped1 : uvec := pushed (vec_of wrap_t) (wrap 1 10).
Definition wrapped2 : uvec := pushed wrapped1 (wrap 2 12).
Example vec_pop_drop_impl : returned (uv_pop wrapped1) = Some true ∧ events (uv_pop wrapped1) = Some [EvDrop (DropOf wrap_t) (wrap 1 10)] ∧
  uv_len <$> after uv_pop wrapped1 = Some 0.
Proof. rdone. Qed.
Example vec_drop_impl : events (uv_drop wrapped1) = Some [EvDrop (DropOf wrap_t) (wrap 1 10)].
Proof. rdone. Qed.
Example vec_move_element_to_other_vec : events (uv_swap_move 0 (wrapped1, vec_of wrap_t)) = Some [] ∧
  (λ p : uvec * uvec, (uv_len p.1, uv_len p.2, uv_cap p.2, returned (uv_as_slice wrap_t p.2))) <$> after (uv_swap_move 0) (wrapped1, vec_of wrap_t) =
    Some (0, 16, 64, Some [wrap 1 10]).
Proof. rdone. Qed.
Example vec_move_element_to_other_vec_2 : events (uv_swap_move 1 (wrapped2, vec_of wrap_t)) = Some [] ∧
  (λ p : uvec * uvec, (uv_len p.1, uv_cap p.1, returned (uv_as_slice wrap_t p.1), uv_len p.2, uv_cap p.2, returned (uv_as_slice wrap_t p.2))) <$>
    after (uv_swap_move 1) (wrapped2, vec_of wrap_t) = Some (16, 64, Some [wrap 1 10], 16, 64, Some [wrap 2 12]).
Proof. rdone. Qed.
Example vec_remove : events (uv_swap_remove 0 wrapped1) = Some [EvDrop (DropOf wrap_t) (wrap 1 10)] ∧ uv_len <$> after (uv_swap_remove 0) wrapped1 = Some 0.
Proof. rdone. Qed.
