{
 "claims": [
  {
   "property": "C01",
   "status": "proved",
   "theorems": [
    "C01_spawn_fresh",
    "C01_spawn_succeeds"
   ],
   "note": "Entities allocator; all histories of spawn/despawn."
  },
  {
   "property": "C02",
   "status": "proved",
   "theorems": [
    "C02_dead_stays_dead",
    "C02_no_early_reuse"
   ],
   "note": "All histories; bound 2^32 handouts of the slot."
  },
  {
   "property": "C03",
   "status": "proved",
   "theorems": [
    "C03_wraparound_resurrects"
   ],
   "note": "Holds for every live id of every reachable allocator state."
  },
  {
   "property": "C04",
   "status": "proved",
   "theorems": [
    "C04_despawn"
   ],
   "note": "All reachable worlds, all well-formed ids."
  },
  {
   "property": "C05",
   "status": "proved",
   "theorems": [
    "C05_spawn",
    "C05_build_exact"
   ],
   "note": "All builder programs with at most one build; also says what happens on every panic."
  },
  {
   "property": "C06",
   "status": "proved",
   "theorems": [
    "C06_add_dynamic",
    "C06_add_typed",
    "C06_add_dataless"
   ],
   "note": "The three ways of adding; also says what happens on every panic."
  },
  {
   "property": "C07",
   "status": "proved",
   "theorems": [
    "C07_remove_dynamic",
    "C07_remove_typed"
   ],
   "note": ""
  },
  {
   "property": "C08",
   "status": "proved",
   "theorems": [
    "C08_add_remove_dynamic",
    "C08_add_remove_typed"
   ],
   "note": ""
  },
  {
   "property": "C09",
   "status": "proved",
   "theorems": [
    "C09_add_order_dynamic",
    "C09_add_order_typed"
   ],
   "note": ""
  },
  {
   "property": "C10",
   "status": "proved",
   "theorems": [
    "C10_rows",
    "C10_no_fetches",
    "C10_no_fetches_refuted"
   ],
   "note": "Every reachable session. The side condition (no leftover lock) holds whenever no call panicked (C14_no_left_over). Without fetches nothing is yielded."
  },
  {
   "property": "C11",
   "status": "proved",
   "theorems": [
    "C11_rows"
   ],
   "note": "Every reachable session; types not in use: C14."
  },
  {
   "property": "C12",
   "status": "proved",
   "theorems": [
    "C12_get"
   ],
   "note": "Every reachable session and id."
  },
  {
   "property": "C13",
   "status": "proved",
   "theorems": [
    "C13_columns"
   ],
   "note": "Every reachable session."
  },
  {
   "property": "C14",
   "status": "proved",
   "theorems": [
    "C14_dynamic",
    "C14_static",
    "C14_dynamic_any",
    "C14_static_any",
    "C14_no_left_over",
    "C14_after_panic_refuted"
   ],
   "note": "Proved for histories in which no call panicked; after a caught panic a panic of the iteration is possible (refuted by an execution) and nothing worse."
  },
  {
   "property": "C15",
   "status": "proved",
   "theorems": [
    "C15_bitset_iterator_fused",
    "C15_dynamic",
    "C15_static",
    "C15_columns"
   ],
   "note": "BitsetIterator, and the three query iterators in every reachable session."
  },
  {
   "property": "C16",
   "status": "proved",
   "theorems": [
    "C16_bitset_iterator_exact"
   ],
   "note": "All word lists, mapping functions usize->usize, bit lengths, call counts."
  },
  {
   "property": "C17",
   "status": "proved",
   "theorems": [
    "C17_bitvec_is_bool_list"
   ],
   "note": "All set/push sequences."
  },
  {
   "property": "C18",
   "status": "proved",
   "theorems": [
    "C18_table_frame",
    "C18_other_components_untouched",
    "C18_table_is_lists"
   ],
   "note": "All write sequences."
  },
  {
   "property": "C19",
   "status": "proved",
   "theorems": [
    "C19_eq_is_componentwise"
   ],
   "note": "All ids with u32 fields."
  },
  {
   "property": "C20",
   "status": "proved",
   "theorems": [
    "C20_consistent"
   ],
   "note": "Invariant of all reachable sessions."
  },
  {
   "property": "C21",
   "status": "proved",
   "theorems": [
    "C21_distinct_archetypes"
   ],
   "note": "Invariant of all reachable sessions."
  },
  {
   "property": "C22",
   "status": "proved",
   "theorems": [
    "C22_cache_is_map",
    "C22_cache_transparent"
   ],
   "note": "The cache as a map, and its entries against the search, in all reachable sessions."
  },
  {
   "property": "C23",
   "status": "proved",
   "theorems": [
    "C23_push_start_window",
    "C23_history"
   ],
   "note": "All element types, capacities >= 1 and push sequences."
  },
  {
   "property": "C24",
   "status": "proved",
   "theorems": [
    "C24_pop_refuted",
    "C24_pop_never_correct"
   ],
   "note": "The expected claim is false of the code: refuted by a concrete vector and, in general, for every non-empty vector."
  },
  {
   "property": "C25",
   "status": "proved",
   "theorems": [
    "C25_vec_is_sequence",
    "C25_out_of_range_rejected",
    "C25_other_layouts_rejected"
   ],
   "note": "All layouts including size 0, all histories over two vectors."
  },
  {
   "property": "C26",
   "status": "proved",
   "theorems": [
    "C26_no_undefined_behaviour"
   ],
   "note": "All histories, also with rejected calls."
  },
  {
   "property": "C27",
   "status": "proved",
   "theorems": [
    "C27_pop_empty",
    "C27_pop_empty_refuted"
   ],
   "note": "Every history; the expected claim holds for sized elements and is refuted for zero-sized ones."
  },
  {
   "property": "C28",
   "status": "proved",
   "theorems": [
    "C28_as_slice",
    "C28_as_slice_other",
    "C28_as_slice_zst_refuted",
    "C28_as_slice_unallocated_refuted"
   ],
   "note": "Every history; full characterisation, the expected claim is refuted for zero-sized elements and for vectors that never held anything."
  },
  {
   "property": "C29",
   "status": "proved",
   "theorems": [
    "C29_drop_each_once",
    "C29_drop_zst_refuted"
   ],
   "note": "Every history; the expected claim holds for sized elements and is refuted for zero-sized ones."
  },
  {
   "property": "C30",
   "status": "proved",
   "theorems": [
    "C30_ledger",
    "C30_world_drop",
    "C30_each_once",
    "C30_build_twice_refuted"
   ],
   "note": "Every history of legal and tame calls, caught panics included. Exact conservation of values and destructor calls; exceptions (zero-sized values at the end, overwritten values, values of a duplicate-component panic) are part of the statement. Building twice drops twice."
  },
  {
   "property": "C31",
   "status": "proved",
   "theorems": [
    "C31_no_leak_refuted",
    "C31_unbuilt_leaks"
   ],
   "note": "The expected claim is refuted; the leak is proved for every unbuilt builder."
  },
  {
   "property": "C32",
   "status": "proved",
   "theorems": [
    "C32_build_twice_refuted",
    "C32_always"
   ],
   "note": "The expected claim is refuted by a reachable world; C32_always says what the second build and the despawn after it do in every reachable world."
  },
  {
   "property": "C33",
   "status": "proved",
   "theorems": [
    "C33_duplicates_rejected"
   ],
   "note": ""
  },
  {
   "property": "C34",
   "status": "proved",
   "theorems": [
    "C34_panic_leaves_consistent",
    "C34_all_panics_refuted",
    "C34_torn"
   ],
   "note": "Proved for every panic but the one for which it is refuted; C34_torn says exactly what that one leaves: everything that was there, plus one row of an existing archetype whose columns received as many values as the builder had of their component."
  },
  {
   "property": "C35",
   "status": "proved",
   "theorems": [
    "C35_refused_calls_change_nothing"
   ],
   "note": ""
  },
  {
   "property": "C36",
   "status": "proved",
   "theorems": [
    "C36_types_stable",
    "C36_types_injective",
    "C36_register"
   ],
   "note": ""
  },
  {
   "property": "C37",
   "status": "proved",
   "theorems": [
    "C37_added_type_is_had",
    "C37_all_adds_refuted"
   ],
   "note": ""
  },
  {
   "property": "C38",
   "status": "proved",
   "theorems": [
    "C38_has_component",
    "C38_get_agrees"
   ],
   "note": "Against the stored components and against StaticQuery::get. For an id that was never handed out get panics; has_component does so too, unless the type is unregistered."
  },
  {
   "property": "C39",
   "status": "proved",
   "theorems": [
    "C39_component_in_use_stays",
    "C39_removed_everywhere_refuted"
   ],
   "note": ""
  },
  {
   "property": "C40",
   "status": "proved",
   "theorems": [
    "C40_open_dynamic",
    "C40_open_static",
    "C40_dynamic_succeeds",
    "C40_static_succeeds",
    "C40_never_panics_refuted",
    "C40_panic_harmless_refuted"
   ],
   "note": "The expected claim is refuted; when creation succeeds, panics or blocks is characterised."
  },
  {
   "property": "C41",
   "status": "proved",
   "theorems": [
    "C41_exclusive",
    "C41_locks",
    "C40_open_dynamic",
    "C40_open_static"
   ],
   "note": "Every reachable session, also with leaked and unwound queries."
  },
  {
   "property": "C42",
   "status": "proved",
   "theorems": [
    "C42_drop_releases",
    "C42_leaked",
    "C42_poisoned",
    "C42_readers"
   ],
   "note": "Every reachable session."
  },
  {
   "property": "C43",
   "status": "proved",
   "theorems": [
    "C43_apart",
    "C43_in_bounds",
    "C43_aligned",
    "C43_row_shows",
    "C43_odd_layouts_refuted"
   ],
   "note": "Rows of all open queries together. Alignment needs a size that is a multiple of the alignment; refuted otherwise."
  },
  {
   "property": "C44",
   "status": "proved",
   "theorems": [
    "C44_zero_sized_refuted",
    "C44_always"
   ],
   "note": "The expected claim is refuted by a reachable session; C44_always says that every access to a row of every such query is undefined and that nothing else is."
  },
  {
   "property": "C45",
   "status": "proved",
   "theorems": [
    "C45_write",
    "C45_store",
    "C45_read"
   ],
   "note": "Writes through get_component_mut_dynamic and through pointers handed out by open queries."
  },
  {
   "property": "C46",
   "status": "proved",
   "theorems": [
    "C45_write",
    "C46_none_when_absent_refuted"
   ],
   "note": ""
  },
  {
   "property": "C47",
   "status": "proved",
   "theorems": [
    "C47_call",
    "C47_history",
    "C47_kept"
   ],
   "note": "Every reachable session, every usable buffer contents and capacity, every history; nothing is claimed once an allocation exceeds isize::MAX (RCapacity). That the buffer is never overflowed and is freed with its own layout is part of C48 (both would be UB of the model)."
  },
  {
   "property": "C48",
   "status": "proved",
   "theorems": [
    "C48_never_undefined"
   ],
   "note": "Every reachable session (tame calls: each builder built at most once, static queries without zero-sized types of alignment above 1, see C44)."
  },
  {
   "property": "C49",
   "status": "proved",
   "theorems": [
    "C49_search_exact"
   ],
   "note": ""
  },
  {
   "property": "C50",
   "status": "proved",
   "theorems": [
    "C50_index_twice"
   ],
   "note": "All slices and index pairs."
  },
  {
   "property": "C51",
   "status": "proved",
   "theorems": [
    "C51_persistence"
   ],
   "note": "All histories of sessions."
  },
  {
   "property": "C52",
   "status": "proved",
   "theorems": [
    "C52_call",
    "C52_history",
    "C52_refused",
    "C52_vec"
   ],
   "note": "Every reachable session and every history of legal and tame calls."
  },
  {
   "property": "C53",
   "status": "proved",
   "theorems": [
    "C53_faithful",
    "C53_history",
    "C53_call",
    "C53_drop",
    "C53_drop_all"
   ],
   "note": "Every history of legal and tame calls. Blocks are told apart by layout; the buffers of the std collections (Vec, HashMap) are not modelled."
  },
  {
   "property": "C54",
   "status": "proved",
   "theorems": [
    "C54_columns",
    "C54_values",
    "C54_types",
    "C54_plain",
    "C54_stable",
    "C54_from_size_align",
    "C54_layouts"
   ],
   "note": "Every reachable session and every history of legal and tame calls."
  },
  {
   "property": "C55",
   "status": "proved",
   "theorems": [
    "C55_sessions",
    "C55_history",
    "C55_no_left_over",
    "C55_plain",
    "C55_defined",
    "C55_start",
    "C55_start_columns",
    "C55_rows",
    "C55_cols",
    "C55_refs",
    "C55_next",
    "C55_shows",
    "C55_bounds",
    "C55_apart",
    "C55_store"
   ],
   "note": "Every history with iterators in flight. C55_rows, C55_cols and C55_refs have the side conditions of C10, C13 and C11 (nothing left over from a panic, types in use); C55_next has none."
  },
  {
   "property": "C56",
   "status": "proved",
   "theorems": [
    "C56_vec_pop",
    "C56_vec_swap_remove",
    "C56_vec_drop",
    "C56_despawn",
    "C56_despawn_again",
    "C56_remove",
    "C56_remove_typed",
    "C56_owed",
    "C56_world_drop",
    "C56_once_despawn",
    "C56_once_remove",
    "C56_despawn_bystander_refuted",
    "C56_despawn_alias_refuted",
    "C56_remove_dropped_refuted"
   ],
   "note": "Every reachable world; one call cut short, then the drop of the world. Histories that go on after a cut-short call: C58. A destructor that panics while unwinding from another panic ends the process."
  },
  {
   "property": "C57",
   "status": "proved",
   "theorems": [
    "C57_counted",
    "C57_is_alive_panics",
    "C57_generation",
    "C57_reuse",
    "C57_stays_dead",
    "C57_dense"
   ],
   "note": "Every history of legal and tame calls from World::new()."
  },
  {
   "property": "C58",
   "status": "proved",
   "theorems": [
    "C58_defined",
    "C58_once",
    "C58_drop",
    "C58_pointers",
    "C58_columns",
    "C58_types",
    "C58_distinct",
    "C58_lives",
    "C58_spawn",
    "C58_query_refuted",
    "C58_query_plain_refuted"
   ],
   "note": "Every history of legal and tame calls on a world (no queries), with any panic caught, unless a destructor panics while the stack unwinds from another panic (that ends the process). That queries are defined afterwards is refuted."
  },
  {
   "property": "C59",
   "status": "proved",
   "theorems": [
    "C59_value",
    "C59_agrees",
    "C59_key",
    "C59_bytes",
    "C59_last_only",
    "C59_combined_refuted"
   ],
   "note": "Every id, hasher state and byte order. That TypeId hashes as one u64 is std's business and taken as given."
  },
  {
   "property": "C60",
   "status": "proved",
   "theorems": [
    "C60_display",
    "C60_debug",
    "C60_parts",
    "C60_display_distinct",
    "C60_debug_distinct"
   ],
   "note": "Every id; std's formatting of {:#010X} and of derived Debug is modelled for {} and {:?} without further flags."
  },
  {
   "property": "C61",
   "status": "proved",
   "theorems": [
    "C61_cases",
    "C61_calls",
    "C61_unregistered",
    "C61_get",
    "C61_builder"
   ],
   "note": "For all worlds, not only reachable ones."
  },
  {
   "property": "C62",
   "status": "proved",
   "theorems": [
    "C62_history",
    "C62_exhausted",
    "C62_spawn",
    "C62_reached"
   ],
   "note": "Every history of legal and tame calls from World::new(); C62_reached is an existence proof by induction on the number of calls."
  },
  {
   "property": "C63",
   "status": "proved",
   "theorems": [
    "C63_spawn_macro"
   ],
   "note": "Every reachable world with room for one more archetype. After RCapacity (out of address space) nothing is claimed."
  },
  {
   "property": "C64",
   "status": "proved",
   "theorems": [
    "C64_archetypes",
    "C64_tame",
    "C64_runs"
   ],
   "note": "Every history from World::new(). C64_runs turns the tameness hypothesis of the other theorems into a condition on arguments for histories of at most 2^32 - 2 calls."
  },
  {
   "property": "C65",
   "status": "proved",
   "theorems": [
    "C65_lookups",
    "C65_rounds",
    "C65_playground",
    "C65_main"
   ],
   "note": "The world is new; n entities, m rounds. The address space is the limit byte_limit of C52. Zero-sized types of alignment above one are excluded, see C44."
  },
  {
   "property": "C66",
   "status": "proved",
   "theorems": [
    "C66_for_each",
    "C66_nothing",
    "C66_run",
    "C66_runs"
   ],
   "note": "The body is a function from the items seen to the values written through its mutable references; it may not panic or touch the world otherwise (the borrow checker forbids it). Types registered but in no archetype are excluded, see C44."
  },
  {
   "property": "C67",
   "status": "proved",
   "theorems": [
    "C67_for_each",
    "C67_nothing",
    "C67_run",
    "C67_runs"
   ],
   "note": "Casting a pointer needs a layout a type of Rust can have, and not one of size 0 and alignment above 1 (C44). Components once known but in no archetype are excluded, see C14."
  },
  {
   "property": "C68",
   "status": "proved",
   "theorems": [
    "C68_made",
    "C68_only",
    "C68_rounds"
   ],
   "note": "The rounds need room: 2^60 bytes for all values, fewer than 2^32 - 1 archetypes, and an id for the type if it is not registered yet. C68_made and C68_only are about calls that do not panic."
  },
  {
   "property": "C69",
   "status": "proved",
   "theorems": [
    "C69_spawns",
    "C69_add_remove",
    "C69_add_remove_10000"
   ],
   "note": "Room is needed: 2^32 ids counting one per entity and type named, 2^60 bytes for all values, fewer than 2^32 - 1 archetypes. The static benches that iterate are in C70; those that get are covered by C65 from the point on where the world is filled."
  },
  {
   "property": "C70",
   "status": "proved",
   "theorems": [
    "C70_iter_bench",
    "C70_iter_10000"
   ],
   "note": "The body is a function as in C66. Room is needed as in C69. The loop needs fuel: for every fuel above some bound the model gives the same answer."
  },
  {
   "property": "C71",
   "status": "proved",
   "theorems": [
    "C71_spawns",
    "C71_dyn_bench"
   ],
   "note": "The body is a function as in C67, and the components fetched are castable as there. Room is needed as in C69. The loop needs fuel: for every fuel above some bound the model gives the same answer."
  },
  {
   "property": "C72",
   "status": "proved",
   "theorems": [
    "C72_lookups",
    "C72_gets",
    "C72_adding",
    "C72_get_bench",
    "C72_padded_get_bench",
    "C72_padded_get_10000"
   ],
   "note": "No zero-sized type with an alignment above 1 is asked for (see C44). Room is needed as in C69, with two archetypes per entity for padded_get."
  },
  {
   "property": "C73",
   "status": "proved",
   "theorems": [
    "C73_kinds",
    "C73_world",
    "C73_insert_bench",
    "C73_frag_insert"
   ],
   "note": "Room is needed as in C69."
  },
  {
   "property": "C74",
   "status": "proved",
   "theorems": [
    "C74_rounds",
    "C74_stale_id_refuted"
   ],
   "note": "The entity is stored, is no component, and its index is that of no registered type; the second theorem refutes, for every world, that a despawned id never names an entity again."
  }
 ]
}