{"id": "C01", "title": "A spawned id is alive and distinct from every other live id", "statement": "Whenever a spawn succeeds, the EcsId it returns is alive immediately afterwards, was not alive immediately before, and differs (under ==) from every id that was alive before; liveness of every other id is unchanged.", "quantifier": "every reachable entity allocator state, i.e. every finite history of spawn/despawn with arbitrary ids", "why_tests_cant": "Tests try a handful of spawn/despawn orders; the claim ranges over all histories and all 2^64 id bit patterns.", "anchors": ["arche_tape/src/entities.rs: Entities::spawn", "arche_tape/src/entities.rs: Entities::is_alive", "arche_tape/src/world.rs: World::spawn"]}
{"id": "C02", "title": "A dead id never comes back to life before its slot is reused 2^32 times", "statement": "After a successful despawn(id), is_alive(id) stays false for every later history in which the slot of id is handed out again fewer than 2^32 times; hence spawn never returns an id that was returned earlier, up to that bound.", "quantifier": "every history of spawns and despawns of any length", "why_tests_cant": "The bound is 2^32 respawns of one slot; no test can run that, let alone all interleavings.", "anchors": ["arche_tape/src/entities.rs: Entities::spawn (wrapping_add)", "arche_tape/src/entities.rs: Entities::despawn"]}
{"id": "C03", "title": "Generation wrap-around does resurrect a stale id", "statement": "The unbounded version of C02 is false: after exactly 2^32 despawn/spawn cycles on one slot, an id despawned long ago tests alive again and names a different entity.", "quantifier": "a family of histories of length 2*2^32; stated for every starting id", "why_tests_cant": "Would need 2^33 operations; only an inductive argument settles it.", "anchors": ["arche_tape/src/entities.rs: Entities::spawn (wrapping_add)"]}
{"id": "C04", "title": "Despawn kills exactly the named entity", "statement": "despawn(e) on a live entity that is not in use as a component returns true, makes e dead, and leaves liveness, components and component values of every other entity exactly as they were; despawn of a dead id returns false and changes nothing.", "quantifier": "every reachable world, every EcsId", "why_tests_cant": "Rows are swap-removed from several parallel vectors and another entity's bookkeeping is patched; correctness depends on arbitrary prior layout.", "anchors": ["arche_tape/src/world.rs: World::despawn", "arche_tape/src/world.rs: Archetype::despawn", "arche_tape/src/entities.rs: Entities::despawn"]}
{"id": "C05", "title": "A built entity has exactly the components it was built with", "statement": "After spawn().with(..)...build() succeeds, looking up each given component on the new entity yields exactly the bytes that were passed for it, looking up any other component finds nothing, and every other entity's components are unchanged, regardless of the order in which components were given and of whether a matching storage already existed.", "quantifier": "every reachable world, every list of distinct components with values of matching size", "why_tests_cant": "Depends on which archetypes already exist, on byte offsets in the builder buffer and on sorting; infinitely many layouts.", "anchors": ["arche_tape/src/entity_builder.rs: EntityBuilder::with_dynamic_with_data, build, create_archetype", "arche_tape/src/world.rs: World::find_archetype_dynamic"]}
{"id": "C06", "title": "Adding a component sets exactly that component", "statement": "If add_component succeeds for a live entity e without component c (c live), then afterwards e has c with exactly the given bytes, every other component of e keeps its bytes, and every other entity keeps exactly its components and bytes. If the typed call panics because the entity is dead or no id is left for the type, the value passed is destroyed once; on every other panic it is leaked.", "quantifier": "every reachable world, every entity, every component id, every value", "why_tests_cant": "The entity is moved between archetypes found via cache, bitset search or creation, and another entity is swapped into its row; tests see few layouts.", "anchors": ["arche_tape/src/world.rs: World::add_component, add_component_dynamic, add_component_dynamic_with_data", "untyped_vec/src/lib.rs: swap_move_element_to_other_vec"]}
{"id": "C07", "title": "Removing a component removes exactly that component", "statement": "If remove_component succeeds for a live entity e having c, then afterwards e does not have c, keeps every other component with its bytes, the removed value is dropped exactly once, and every other entity keeps exactly its components and bytes.", "quantifier": "every reachable world, every entity, every component id", "why_tests_cant": "Same layout dependence as C06.", "anchors": ["arche_tape/src/world.rs: World::remove_component, remove_component_dynamic"]}
{"id": "C08", "title": "Add then remove is the identity on observable component data", "statement": "Adding a component and then removing it again leaves every entity with the same components and the same bytes as before both calls, and drops exactly the added value.", "quantifier": "every reachable world, entity, component, value", "why_tests_cant": "The two calls relocate rows and may create archetypes; observational equality must hold for every layout.", "anchors": ["arche_tape/src/world.rs: add_component_dynamic_with_data, remove_component_dynamic"]}
{"id": "C09", "title": "The order of adding two components does not matter", "statement": "Adding c1 then c2 to an entity and adding c2 then c1 produce worlds in which every entity has the same components with the same bytes.", "quantifier": "every reachable world, every entity, every pair of distinct components and values", "why_tests_cant": "Different archetypes are traversed/created on the two paths; only a proof covers all worlds.", "anchors": ["arche_tape/src/world.rs: add_component_dynamic_with_data", "arche_tape/src/world.rs: find_archetype_dynamic_plus_id"]}
{"id": "C10", "title": "Dynamic query iteration visits every matching entity exactly once with the right data", "statement": "Iterating query_dynamic over a non-empty list of fetches yields one row per stored entity that has all of the fetched components, no other rows and no duplicates; each pointer of a row dereferences to that entity's id or to that entity's bytes for the fetched component. A query without fetches yields nothing (the expected empty row per entity is refuted).", "quantifier": "every reachable session, every open dynamic query, unless a lock was left over by a caught panic (C14)", "why_tests_cant": "Involves bitset intersection, all archetypes, and pointer arithmetic; must hold for any number of archetypes, rows and fetches.", "anchors": ["arche_tape/src/dyn_query.rs: DynQuery::iter, DynQueryIter::next, IntraArchetypeIter::next, FetchType::make_create_ptr_fn", "arche_tape/src/world.rs: World::query_archetypes", "arche_tape/src/bitset_iterator.rs: BitsetIterator::next"]}
{"id": "C11", "title": "Static query iteration visits every matching entity exactly once with the right data", "statement": "Same as C10 for World::query::<(..)>().iter() when the asked types are in use: every stored entity having all component types appears exactly once, and the references are aligned, of the right size and point to its own values.", "quantifier": "every reachable world, every tuple of parameters", "why_tests_cant": "Same as C10.", "anchors": ["arche_tape/src/static_query.rs: StaticQuery::iter, StaticQueryIter::next, IntraArchetypeIter::next, QueryParam"]}
{"id": "C12", "title": "Query::get agrees with the entity's components", "statement": "StaticQuery::get(e) returns Some exactly when e is alive and has all the component types, and then the references point to e's own id and bytes.", "quantifier": "every reachable world, tuple of parameters and live-or-dead id in range", "why_tests_cant": "Ranges over all worlds and ids.", "anchors": ["arche_tape/src/static_query.rs: StaticQuery::get"]}
{"id": "C13", "title": "Column iteration presents the same rows as row iteration", "statement": "Concatenating the columns yielded by DynQuery::column_iter (pointer, length) archetype by archetype gives exactly the rows, in the same order, as DynQuery::iter.", "quantifier": "every reachable world and fetch list", "why_tests_cant": "Ranges over all layouts.", "anchors": ["arche_tape/src/dyn_query.rs: DynQuery::column_iter, DynQueryColumnIter::next"]}
{"id": "C14", "title": "Queries mentioning an unknown component yield nothing", "statement": "If a query mentions a component id/type that no archetype stores, iteration yields no rows and (static) get returns None, without panicking. Proved for histories in which no call on the world panicked. After a caught panic the iteration may panic (refuted by an execution: build with a duplicated component leaves a lock behind), and does nothing worse.", "quantifier": "every session reachable without panicking calls (and, in the weaker form, every reachable session), every open query with at least one component not in use", "why_tests_cant": "Ranges over all worlds.", "anchors": ["arche_tape/src/dyn_query.rs: DynQuery::new (incomplete)", "arche_tape/src/static_query.rs: StaticQuery::new, iter"]}
{"id": "C15", "title": "Iterators stay exhausted", "statement": "Once BitsetIterator::next (and every query iterator built on it) returned None, all further calls return None.", "quantifier": "every bitset list, mapping functions, bit length and number of calls", "why_tests_cant": "The existing tests call next ten times on four literals; the code uses a hack to remain exhausted.", "anchors": ["arche_tape/src/bitset_iterator.rs: BitsetIterator::next", "arche_tape/src/dyn_query.rs: DynQueryIter::next", "arche_tape/src/static_query.rs: StaticQueryIter::next"]}
{"id": "C16", "title": "BitsetIterator enumerates exactly the common set bits in increasing order", "statement": "For any non-empty list of (word slice, mapping function) pairs and any bit_length, the iterator yields, in increasing order and exactly once, precisely the indices i < bit_length, inside the shortest slice, for which every mapped word has bit i set.", "quantifier": "all word lists, all 64-bit words, all mapping functions, all bit lengths", "why_tests_cant": "2^64 words and unbounded lists.", "anchors": ["arche_tape/src/bitset_iterator.rs: BitsetIterator::new, next"]}
{"id": "C17", "title": "Bit vectors behave as arrays of booleans", "statement": "set_bit(i,b) followed by get_bit(j) gives b for j=i, the previous bit for any other previously valid j, false for positions skipped by growing and None beyond the new length; push_bit appends.", "quantifier": "all bit vectors reachable by set/push, all indices", "why_tests_cant": "Unbounded indices and words.", "anchors": ["arche_tape/src/bitset_iterator.rs: Bitvec::set_bit, get_bit, push_bit", "arche_tape/src/bitset_iterator.rs: Bitsetsss::set_bit, push_bit"]}
{"id": "C18", "title": "Setting the bit of one component never disturbs another component", "statement": "In the per-component bitset table, setting a bit for one component index leaves every bit of every other component index unchanged.", "quantifier": "all tables, all component ids, all indices", "why_tests_cant": "Unbounded table growth.", "anchors": ["arche_tape/src/bitset_iterator.rs: Bitsetsss::set_bit, insert_bitvec"]}
{"id": "C19", "title": "EcsId equality and order are those of (generation, index)", "statement": "Two EcsIds are == iff generation and index agree, as_u64 is injective, and the derived order is the numeric order of as_u64, so == , hash and Ord are mutually consistent.", "quantifier": "all pairs of u32 generations and indices", "why_tests_cant": "2^128 pairs.", "anchors": ["arche_tape/src/entities.rs: EcsId::as_u64, PartialEq, Ord, Hash"]}
{"id": "C20", "title": "Each live entity occupies exactly one row", "statement": "In every reachable world (each builder built at most once) every built live entity occurs in exactly one row of exactly one archetype, its recorded location is that row, dead entities occur in none, and all parallel columns of an archetype have the same length as its entity list.", "quantifier": "every history of API calls", "why_tests_cant": "Inductive invariant over unbounded histories.", "anchors": ["arche_tape/src/world.rs: Archetype, EntityMeta, World", "arche_tape/src/entity_builder.rs: build"]}
{"id": "C21", "title": "No two archetypes have the same component set", "statement": "In every reachable world distinct archetypes have distinct component sets, so an entity's component set determines its archetype.", "quantifier": "every history of API calls", "why_tests_cant": "Depends on three different lookup routines plus a cache all agreeing.", "anchors": ["arche_tape/src/world.rs: find_archetype_dynamic, find_archetype_dynamic_plus_id, find_archetype_dynamic_minus_id, AddRemoveCache"]}
{"id": "C22", "title": "The transition cache is transparent", "statement": "The archetype chosen via the add/remove cache is always the one the bitset search would choose: the cache never changes which archetype an entity moves to.", "quantifier": "every history of API calls", "why_tests_cant": "Cache eviction and sharing of one cache for adds and removes interleave arbitrarily.", "anchors": ["arche_tape/src/world.rs: AddRemoveCache::lookup_id, insert_id", "arche_tape/src/array_vec.rs: ArrayVec::push_start"]}
{"id": "C23", "title": "The add/remove cache front is a bounded most-recent-first window", "statement": "Pushing to the front of the fixed-capacity vector keeps at most CACHE_SIZE entries, puts the new one first, keeps the relative order of the others, drops (once) exactly the evicted last one, and never touches memory outside the array.", "quantifier": "all capacities >= 1 and all push sequences", "why_tests_cant": "Unbounded push sequences.", "anchors": ["arche_tape/src/array_vec.rs: ArrayVec::push_start, push, get, as_slice"]}
{"id": "C24", "title": "ArrayVec::pop does not return the last element", "statement": "One expects pop on a non-empty ArrayVec to return the most recently pushed element. It never does: it reads the slot one past the last element, which is out of bounds when the array is full and otherwise uninitialised or stale.", "quantifier": "all array vectors", "why_tests_cant": "No test calls pop.", "anchors": ["arche_tape/src/array_vec.rs: ArrayVec::pop"]}
{"id": "C25", "title": "UntypedVec behaves as a sequence of fixed-size values", "statement": "For values of any size (including zero) any sequence of push_raw, swap_remove, pop and swap_move_element_to_other_vec yields the same element sequence as the corresponding list operations; len() and get_raw agree with that sequence; indexes out of range and moves to a vector of another layout are rejected.", "quantifier": "all element sizes, all operation sequences", "why_tests_cant": "Byte offsets and reallocations for all sizes and lengths.", "anchors": ["untyped_vec/src/lib.rs: push_raw, pop, swap_remove, swap_move_element_to_other_vec, get_raw, len"]}
{"id": "C26", "title": "UntypedVec never touches memory outside its allocation", "statement": "Every read, write, swap and offset performed by UntypedVec stays within the live allocation, and realloc/dealloc are always called with the layout of the current allocation.", "quantifier": "all element sizes, all operation sequences", "why_tests_cant": "Out-of-bounds accesses need not crash a test.", "anchors": ["untyped_vec/src/lib.rs: realloc, push_raw, pop, swap_remove, swap_move_element_to_other_vec, drop"]}
{"id": "C27", "title": "UntypedVec::pop on an empty vector does nothing and returns false", "statement": "pop() on an empty vector returns false and drops nothing. Holds for non-zero sizes; refuted for zero-sized elements, where it returns true and runs the destructor on a value that does not exist.", "quantifier": "all element types", "why_tests_cant": "The only test uses u32.", "anchors": ["untyped_vec/src/lib.rs: UntypedVec::pop"]}
{"id": "C28", "title": "UntypedVec::as_slice returns the stored elements", "statement": "as_slice::<T>() returns exactly the pushed elements. Holds for sized elements if something was ever put into the vector or the alignment is 1; refuted for zero-sized T (always panics: remainder by zero) and for a sized vector of alignment > 1 that never held anything (misaligned dangling pointer). A type of another size or alignment is refused.", "quantifier": "all element types, all vectors", "why_tests_cant": "Tests only use u32 with at least one element.", "anchors": ["untyped_vec/src/lib.rs: as_slice, as_slice_mut"]}
{"id": "C29", "title": "Dropping an UntypedVec drops each element exactly once", "statement": "Dropping the vector runs the destructor exactly once on every element still stored and frees the allocation. Holds for sized elements; refuted for zero-sized elements with destructors, which are never dropped.", "quantifier": "all element types and lengths", "why_tests_cant": "Ranges over all sizes and lengths.", "anchors": ["untyped_vec/src/lib.rs: Drop for UntypedVec"]}
{"id": "C30", "title": "Component values are dropped exactly once", "statement": "Over any history (each builder built at most once) the values held at the end, dropped, or lost are, as multisets, the values held at the start plus those the world took over; a value is lost only by being overwritten through a pointer or, if zero-sized, in the duplicate-component panic of build; the destructors run are exactly those of the dropped values and of the values add_component::<T> refused before taking them over. Dropping the world runs the destructor of each stored sized value once. So from World::new to the drop of the world each accepted value is dropped exactly once, except zero-sized values still stored at the end. Building a builder twice makes a value be dropped twice.", "quantifier": "every history of API calls", "why_tests_cant": "Ownership accounting over unbounded histories and swaps.", "anchors": ["arche_tape/src/world.rs: despawn, remove_component_dynamic, add_component_dynamic_with_data", "untyped_vec/src/lib.rs: pop, swap_remove, Drop"]}
{"id": "C31", "title": "Values given to a builder that is not built are leaked", "statement": "One expects values passed to with() to be either stored or dropped. Instead, whenever build() is not called, every value is leaked: nothing is stored and no destructor runs.", "quantifier": "every world, every builder program", "why_tests_cant": "Leaks are invisible to tests without drop counters.", "anchors": ["arche_tape/src/entity_builder.rs: Drop for EntityBuilder, with"]}
{"id": "C32", "title": "Calling build() twice corrupts the world", "statement": "build() takes &mut self; one expects calling it again not to corrupt the world. It does: there is a reachable world in which after two builds the entity has two rows, and despawning it leaves a row of a dead entity behind. It is so always: compared to the same calls with one build, the second build adds one row for the entity and changes nothing else - a bitwise copy of its row if an archetype for its components existed before the spawn, and otherwise a row without values in archetype 0; despawning the entity removes just that row, leaving the first one as a row of a dead entity, and the values of a copied row, destroyed by the despawn, are destroyed again when the world is dropped.", "quantifier": "every reachable world, every builder program that ends with two build calls and is otherwise accepted", "why_tests_cant": "No test calls build twice.", "anchors": ["arche_tape/src/entity_builder.rs: EntityBuilder::build"]}
{"id": "C33", "title": "Duplicate components in a builder are always rejected", "statement": "Building with the same component given twice always panics, whatever archetypes already exist.", "quantifier": "every reachable world, every component list with a repetition", "why_tests_cant": "The check lives in two different assertions depending on existing archetypes.", "anchors": ["arche_tape/src/entity_builder.rs: build (length assertion), create_archetype (lookup assertion)", "arche_tape/src/world.rs: find_archetype_dynamic"]}
{"id": "C34", "title": "A panicking call leaves the world consistent", "statement": "If a world operation panics and the panic is caught, the world still satisfies its consistency guarantees (C20,C21) and entities other than those named keep their data. Proved for every panic except the duplicate-component assertion in build() on an existing archetype, for which it is refuted: the columns are left with different lengths. What that panic leaves is said exactly (C34_torn): only a spawn can cause it, nothing is destroyed, everything that was in the world is still there, the new entity has a row in an existing archetype, and each column of that archetype holds one extra value for each time its component was given to the builder.", "quantifier": "every reachable world, every operation, every panic site", "why_tests_cant": "Requires examining each partial state at each panic point.", "anchors": ["arche_tape/src/entity_builder.rs: build", "arche_tape/src/world.rs: all assert!/unwrap/todo! sites"]}
{"id": "C35", "title": "Rejected calls change nothing observable", "statement": "despawn of a component in use, adding a component already present, removing one that is absent, operations on a dead or unknown id, and add_component_dynamic with a sized component either return or panic without changing any entity's liveness, components or bytes, and without running a destructor, except that add_component::<T> on a dead entity destroys the value it was given.", "quantifier": "every reachable world, every argument", "why_tests_cant": "Ranges over all worlds.", "anchors": ["arche_tape/src/world.rs: despawn, add_component_dynamic, add_component_dynamic_with_data, remove_component_dynamic"]}
{"id": "C36", "title": "Type registration is stable and injective", "statement": "get_or_create_type_id_ecsid::<T> returns the same id for T for ever after, different types have different ids (until 2^32 reuses of a slot), and a newly registered id is a live entity whose component layout is that of T.", "quantifier": "every history, every pair of types", "why_tests_cant": "Unbounded histories.", "anchors": ["arche_tape/src/world.rs: get_or_create_type_id_ecsid"]}
{"id": "C37", "title": "add_component::<T> makes has_component::<T> true exactly when the id of T is alive", "statement": "After add_component::<T>(e, v) returns, has_component::<T>(e) is true whenever the id of T is alive. The unconditional version is false: when the (unused) id of T was despawned the call returns, silently leaks the value and has_component stays false.", "quantifier": "every reachable world, entity, type and value", "why_tests_cant": "Needs a history that despawns a type's id.", "anchors": ["arche_tape/src/world.rs: add_component, add_component_dynamic_with_data, get_or_create_type_id_ecsid"]}
{"id": "C38", "title": "has_component agrees with query and lookup", "statement": "has_component::<T>(e) is true exactly when e is alive and StaticQuery<(&T,)>::get(e) finds a value.", "quantifier": "every reachable world, type and id", "why_tests_cant": "Ranges over all worlds.", "anchors": ["arche_tape/src/world.rs: has_component", "arche_tape/src/static_query.rs: get"]}
{"id": "C39", "title": "An entity used as a component cannot be despawned", "statement": "The documentation of despawn says the component is automatically removed from all entities. It is not: once any archetype mentions the id - even one with no rows left - despawn panics (todo!) and the world is unchanged.", "quantifier": "every reachable world, every id in use as a component", "why_tests_cant": "The only test returns early.", "anchors": ["arche_tape/src/world.rs: World::despawn"]}
{"id": "C40", "title": "Creating a query never panics", "statement": "World::query and World::query_dynamic construct a query without panicking. Refuted for a type that is registered but not yet stored in any archetype (HashMap index panic), and that panic can poison the locks of other components; proved for dynamic queries, and for static ones when every registered type asked for is in use. In general: creation succeeds, blocks exactly on conflicting access, or panics for one of these two reasons.", "quantifier": "every reachable world, every parameter tuple, no conflicting guards held", "why_tests_cant": "Needs the registered-but-unused state.", "anchors": ["arche_tape/src/static_query.rs: StaticQuery::new", "arche_tape/src/dyn_query.rs: DynQuery::new, iter"]}
{"id": "C41", "title": "Write access is exclusive", "statement": "At any time, if some live query holds mutable access to a component then no other live query holds any access to it, and no single query ever holds it mutably together with another access; conflicting construction never succeeds (it blocks). Distinct components never conflict. Every component with a column has a lock.", "quantifier": "every sequence of opening, dropping, leaking and unwinding queries", "why_tests_cant": "All interleavings of guard acquisition and release.", "anchors": ["arche_tape/src/dyn_query.rs: DynQuery::new", "arche_tape/src/static_query.rs: StaticQuery::new", "arche_tape/src/lib.rs: EitherGuard", "arche_tape/src/world.rs: lock_lookup, locks"]}
{"id": "C42", "title": "Dropping a query releases exactly what it acquired", "statement": "Constructing and then dropping a query restores the lock state, so any query that could be created before can be created again. A query that is forgotten instead keeps its locks for ever: no later conflicting query succeeds. A query dropped by a panic of its user poisons what it had locked for writing - no later query asking for one of these components succeeds - and nothing else.", "quantifier": "every reachable lock state and query", "why_tests_cant": "All interleavings.", "anchors": ["arche_tape/src/lib.rs: EitherGuard", "arche_tape/src/dyn_query.rs: DynQuery::new"]}
{"id": "C43", "title": "Pointers yielded by a query are pairwise disjoint for mutable fetches", "statement": "Across the whole iterations of all open queries, the memory range of a mutable fetch overlaps no other range handed out; all ranges lie inside one allocation, and are aligned for the component if it is sized and its size is a multiple of its alignment (refuted otherwise).", "quantifier": "every reachable world, every query", "why_tests_cant": "Aliasing and alignment are not observable in tests.", "anchors": ["arche_tape/src/dyn_query.rs: DynQueryIter", "arche_tape/src/static_query.rs: StaticQueryIter", "untyped_vec/src/lib.rs: as_mut_ptr"]}
{"id": "C44", "title": "References to zero-sized components are aligned", "statement": "Queries hand out aligned references. Refuted for zero-sized types with alignment > 1: the storage pointer is the dangling address 1. Every static query naming such a type makes a misaligned reference (undefined behaviour) the first time its iterator reaches a row and whenever get is called with an entity that has the components; for other entities get returns None, and without matching entities the iterator just ends.", "quantifier": "all reachable sessions, parameter lists with such a type, entities, numbers of next calls", "why_tests_cant": "Misaligned zero-sized references do not crash tests.", "anchors": ["untyped_vec/src/lib.rs: new_from_raw (NonNull::dangling)", "arche_tape/src/static_query.rs: cast_ptr"]}
{"id": "C45", "title": "Writing through a query changes only the written component", "statement": "Writing bytes through a pointer obtained for (entity, component) changes that component of that entity to those bytes and changes no other component of any entity.", "quantifier": "every reachable world, entity, component, bytes", "why_tests_cant": "Aliasing over all layouts.", "anchors": ["arche_tape/src/world.rs: get_component_mut_dynamic", "arche_tape/src/dyn_query.rs: DynQueryIter", "untyped_vec/src/lib.rs: get_mut_raw"]}
{"id": "C46", "title": "get_component_mut_dynamic panics for an absent component", "statement": "It returns the entity's component pointer when present, None when the entity or the component id is dead (or the entity was never built), and - instead of the expected None - panics for a live entity without the live component.", "quantifier": "every reachable world and ids", "why_tests_cant": "Ranges over all worlds.", "anchors": ["arche_tape/src/world.rs: get_component_mut_dynamic"]}
{"id": "C47", "title": "Builder capacity and buffer reuse are invisible", "statement": "spawn_with_capacity(n) and spawn() (with a fresh or a recycled builder buffer) lead to worlds with identical entities, components and bytes; no byte of an earlier builder's data ever shows up in a later entity; the buffer never overflows and is freed with the layout it was allocated with.", "quantifier": "every reachable world, capacity, builder program", "why_tests_cant": "Buffer contents persist between builders in all histories.", "anchors": ["arche_tape/src/entity_builder.rs: new, with_capacity, new_from_world_cache, realloc, Drop", "arche_tape/src/world.rs: entity_builder_reuse, Drop for World"]}
{"id": "C48", "title": "No reachable execution has undefined behaviour in the storage layer", "statement": "For every history of safe API calls (each builder built at most once, no caught duplicate-component panic) no operation reads or writes outside an allocation, frees with a wrong layout or runs past the end of a column.", "quantifier": "every history of API calls", "why_tests_cant": "UB need not manifest.", "anchors": ["arche_tape/src/world.rs: all", "arche_tape/src/entity_builder.rs: all", "untyped_vec/src/lib.rs: all"]}
{"id": "C49", "title": "Archetype search finds the exact component set", "statement": "Searching for an archetype by component list returns the archetype whose component set is exactly that set if one exists and reports none otherwise, whatever the order of the list.", "quantifier": "every reachable world, every duplicate-free list of live component ids", "why_tests_cant": "Bitset words, lengths and archetype counts are unbounded.", "anchors": ["arche_tape/src/world.rs: find_archetype_dynamic, find_archetype_dynamic_plus_id, find_archetype_dynamic_minus_id"]}
{"id": "C50", "title": "index_twice_mut yields two distinct elements", "statement": "For two different in-range indices it returns exactly the two elements at these positions in argument order; equal or out-of-range indices panic.", "quantifier": "all slices and index pairs", "why_tests_cant": "Unbounded.", "anchors": ["arche_tape/src/lib.rs: utils::index_twice_mut"]}
{"id": "C51", "title": "Components persist through everything that does not concern them", "statement": "Through any history of calls - panicking ones, opened, used and closed queries, spawns, adds, removes and despawns included - that does not despawn e, e stays stored; a component value of e stays exactly as it was unless a call removes that component from e or writes through a query pointer or to it; and a component e does not have does not appear unless a call adds it to e.", "quantifier": "every reachable session, every history of any length, every entity and component", "why_tests_cant": "An entity's row is moved around by operations on other entities; all interleavings matter.", "anchors": ["arche_tape/src/world.rs: all", "arche_tape/src/entity_builder.rs: build", "untyped_vec/src/lib.rs: swap_remove, swap_move_element_to_other_vec"]}
{"id": "C52", "title": "No allocation is refused while little memory is used", "statement": "As long as the component values held by the world plus the values (and the builder capacity) passed to a call take at most 2^60 bytes, the call never panics because an allocation would exceed the address space - neither a column nor a builder buffer is ever asked to grow beyond isize::MAX; the same holds in terms of all values passed in the whole history. A capacity beyond isize::MAX asked for explicitly is refused when no buffer is kept.", "quantifier": "every reachable session, every legal call; every history of any length", "why_tests_cant": "Columns double their capacity; the sizes at which this could overflow cannot be allocated in a test.", "anchors": ["untyped_vec/src/lib.rs: realloc", "arche_tape/src/entity_builder.rs: with_capacity, realloc, with_dynamic_with_data"]}
{"id": "C53", "title": "Memory is neither leaked nor released twice", "statement": "After every history the blocks obtained from the allocator and not yet returned are exactly those the world points to (one per column with a buffer, plus the kept builder buffer) and at most one builder buffer for every builder leaked with mem::forget; every block is returned or resized with the layout it was obtained with, no block is returned twice, no block of size zero or beyond isize::MAX is requested - in calls that return and in calls that panic; dropping the world returns every block but the buffers of leaked builders.", "quantifier": "every history of calls of any length, caught panics and queries included; every legal call after it; the final drop", "why_tests_cant": "Leaks and double frees need not manifest in a test, and depend on every interleaving of growth, moves between archetypes, builder reuse and unwinding.", "anchors": ["untyped_vec/src/lib.rs: realloc, swap_move_element_to_other_vec, Drop", "arche_tape/src/entity_builder.rs: new, with_capacity, realloc, with_dynamic_with_data, build, create_archetype, Drop", "arche_tape/src/world.rs: add_component_with_data, remove_component_dynamic, Drop for World"]}
{"id": "C54", "title": "Component layouts and destructors are recorded right and never change", "statement": "Every column of every archetype has exactly the element layout and destructor recorded for its component; every stored value has the recorded size; for a Rust type, however it came to be registered, the recorded layout and destructor are those of the type; a plainly spawned entity is a component without data; and what is recorded for an entity stays the same through any history until that entity is despawned. ComponentMeta::from_size_align gives the layout asked for, without destructor, exactly if the alignment is a power of two and the rounded size is at most isize::MAX, and panics otherwise.", "quantifier": "every reachable session, every history of any length, every size and alignment", "why_tests_cant": "The metadata table is indexed by slot and slots are reused; a wrong destructor or layout need not show in a test.", "anchors": ["arche_tape/src/world.rs: ComponentMeta, set_entity_meta, get_or_create_type_id_ecsid, Archetype::from_archetype_with, from_archetype_without", "arche_tape/src/entity_builder.rs: create_archetype"]}
{"id": "C55", "title": "Iterators kept across other calls stay right", "statement": "Iterators of different queries may be advanced in any interleaving, with queries being opened and dropped, calls on the shared world being made and values being written through pointers already handed out in between. Whatever happened since iter() or column_iter() was called, the answers so far are the first rows (columns, items) over exactly the entities the query wants in the world as it is now, and next() returns the next of them with the current values, or panics only where an iteration started now would. All pointers handed out by all iterators stay inside live allocations, each row shows what one entity has now, what is handed out for writing overlaps nothing else handed out, and a write through it sets that component of that entity and nothing else. No interleaving is undefined behaviour; only opening a query can block.", "quantifier": "every history of any length of calls, starts, next()s, ends and writes of any number of iterators, caught panics included", "why_tests_cant": "The number of interleavings is unbounded, and a dangling or aliasing pointer need not show.", "anchors": ["arche_tape/src/dyn_query.rs: iter, column_iter, DynQueryIter::next, DynQueryColumnIter::next, Drop", "arche_tape/src/static_query.rs: iter, StaticQueryIter::next, get, borrow_lock", "arche_tape/src/world.rs: query_archetypes, has_component, is_alive"]}
{"id": "C56", "title": "A destructor that panics", "statement": "Destructors are arbitrary code and may panic. pop and swap_remove on a column leave it as if the destructor had returned; dropping a column stops at the first panic. despawn and remove_component(_dynamic) either do what they do with well-behaved destructors, or stop at the first one that panics: the destructor calls made are those up to it, every entity alive stays alive, the calls still owed are exactly those not yet made, and only the entity itself and the one in the last row of its archetype may show other components than before. No value is destroyed twice, not even when the world is dropped afterwards with further panics; a panic during that drop costs at most the rest of one column, a second one aborts. After a cut-short remove_component every entity is still in its row. The entity's other values then lie in the columns of another archetype, one past its rows, its old columns are one value short, and all other archetypes fit. After a cut-short despawn the columns up to the one where it stopped fit the rows that remain and hold the right values; the later columns are untouched, one value too long. After a cut-short despawn the entity is alive for ever: every further despawn of it panics and changes nothing. Refuted: that such a despawn leaves other entities alone, that the half-despawned entity gives no access to values of others, that no query shows a destroyed value after a cut-short remove_component.", "quantifier": "every reachable world, every legal call, every choice of which destructor panics on which value", "why_tests_cant": "Which destructor panics on which value in which row is an unbounded choice; tests use well-behaved destructors.", "anchors": ["untyped_vec/src/lib.rs: pop, swap_remove, Drop", "arche_tape/src/world.rs: Archetype::despawn, despawn, remove_component, remove_component_dynamic"]}
{"id": "C57", "title": "Ids over the whole life of a world", "statement": "Over any history of calls, for each index: World::is_alive panics exactly for ids whose index was never handed out; the generation of a live id is the number of times its index was handed out before, modulo 2^32; an id that ceased to be alive stays dead until its index was handed out 2^32 more times; an index is handed out for the first time only when all smaller indexes belong to live ids. One call hands out any index at most once, whether it returns or panics.", "quantifier": "every history of calls of any length on a world, caught panics included (types registered on the way use ids too)", "why_tests_cant": "Stale ids can be kept for ever; the number of histories is unbounded and the wrap-around is out of reach.", "anchors": ["arche_tape/src/entities.rs: spawn, despawn, is_alive", "arche_tape/src/world.rs: spawn, despawn, is_alive, get_or_create_type_id_ecsid", "arche_tape/src/entity_builder.rs: build"]}
{"id": "C58", "title": "Going on after caught panics", "statement": "A caller may catch any panic and go on using the world: panics of destructors, of assertions that leave columns of different lengths behind, of refused allocations. From then on: no call on the world is undefined behaviour or a deadlock; no value is ever destroyed twice, neither by the calls nor by the drop of the world (with further panics in it); get_component_mut hands out only pointers to bytes of the component's type, to values not yet destroyed; every column keeps the layout and destructor of its component, types keep theirs, no two archetypes get the same set of components; entities die only by a despawn that returns, new entities get new ids. Refuted: that queries are defined in such worlds - after a caught assertion failure in build (the same type passed to `with` twice), or after a panicking destructor in remove_component, a static query can run past the end of a column's memory.", "quantifier": "every history of legal calls on a world of any length, any panics caught, every choice of which destructor panics on which value", "why_tests_cant": "Which panics happen where, and what is done with the damaged world, is an unbounded choice; tests stop at the first panic.", "anchors": ["arche_tape/src/world.rs: all calls of World", "arche_tape/src/entity_builder.rs: with, with_dynamic, build, Drop", "untyped_vec/src/lib.rs: push_raw, swap_remove, swap_move, pop, Drop", "arche_tape/src/static_query.rs: StaticQuery::iter"]}
{"id": "C59", "title": "Ids hash to themselves", "statement": "Hashing an EcsId (or any u64 key) with TypeIdHasher never panics and gives the id as a u64, whatever was hashed before and whatever the byte order of the target; so two ids have the same hash exactly if they are equal, as HashMap requires. Writing bytes panics exactly if there are not eight of them; otherwise the hash consists of these bytes. Of a key made of several ids only the last one counts; that such keys hash differently is refuted.", "quantifier": "every id, every state of the hasher, both byte orders, every byte string", "why_tests_cant": "2^64 ids and arbitrary byte strings; tests only exercise small indexes through the map.", "anchors": ["arche_tape/src/lib.rs: TypeIdHasher, TypeIdHasherBuilder", "arche_tape/src/entities.rs: Hash for EcsId, as_u64"]}
{"id": "C60", "title": "The printed form of an id", "statement": "{} and {:?} print an id as its generation and its index in that order, each as 0x and exactly eight upper case hexadecimal digits; the same for generations and indexes alone. Different ids are printed differently.", "quantifier": "every id", "why_tests_cant": "2^64 ids.", "anchors": ["arche_tape/src/entities.rs: Debug and Display for EcsIdGen, EcsIdIndex, EcsId"]}
{"id": "C61", "title": "The first dead or unknown id decides what a call does", "statement": "Every id lives, was despawned, or was never given out. A call on a world looks at the entity first and then, if it is given one, at the component. The first id that does not live decides: one that was never given out makes the call panic; a despawned one makes despawn, is_alive, has_component and get_component_mut answer no, makes add_component_dynamic_with_data and remove_component_dynamic return without doing anything, and makes add_component, add_component_dynamic and remove_component panic. The world is exactly as before, no type is registered, and nothing is destroyed but the value passed to add_component. has_component with a type that is not registered does not look at the entity at all. StaticQuery::get gives nothing for a despawned entity and panics for one never given out; the builder panics on both.", "quantifier": "every world, every call, all ids", "why_tests_cant": "Tests use one dead id with one call; the order of the checks shows only when two ids are bad at the same time.", "anchors": ["arche_tape/src/world.rs: is_alive, despawn, add_component, remove_component, has_component, add_component_dynamic, get_entity_meta, add_component_dynamic_with_data, remove_component_dynamic, get_component_mut_dynamic", "arche_tape/src/entity_builder.rs: with_dynamic, with_dynamic_with_data", "arche_tape/src/static_query.rs: get"]}
{"id": "C62", "title": "Ids run out only when 2^32 entities live", "statement": "Spawning an entity or registering a type panics for lack of ids only if every one of the 2^32 indexes belongs to a living entity. So no call of a history is refused for lack of ids as long as the calls of the history, this one included, ask for at most 2^32 ids in all (one for an entity, one for each type passed). In a world where all 2^32 entities live every spawn panics and no component of any entity changes. Such a world is reached by 2^32 spawns, each of which returns an id.", "quantifier": "every history of calls of any length, caught panics included; every reachable world", "why_tests_cant": "No test creates 2^32 entities, and that nothing is lost on the way shows only over long histories.", "anchors": ["arche_tape/src/entities.rs: spawn, despawn", "arche_tape/src/world.rs: spawn, get_or_create_type_id_ecsid, add_component, remove_component", "arche_tape/src/entity_builder.rs: with"]}
{"id": "C63", "title": "spawn! makes an entity with exactly the components given", "statement": "spawn!(&mut world, c1, ..., cn) returns the id of a new entity that has the components c1, ..., cn with these values and no others; no other entity gains, loses or changes a component, no type but those of the arguments is registered, and the only other entities that come to life are those of the arguments' types that were unknown before. It panics only for one of these reasons: out of address space; all 2^32 indexes are in use; two arguments have the same type; the entity that stands for one of the types was despawned. In the last three cases all entities that lived before live on with the same components.", "quantifier": "every reachable world, any number of arguments of any types and values", "why_tests_cant": "Tests use a few fixed tuples of components in small worlds.", "anchors": ["arche_tape/src/lib.rs: spawn!", "arche_tape/src/world.rs: spawn", "arche_tape/src/entity_builder.rs: with, build"]}
{"id": "C64", "title": "The limits on archetypes and ids are out of reach of 2^32 - 2 calls", "statement": "A history makes at most one archetype per call besides the empty one. In the first 2^32 - 2 calls the u32 search of archetypes cannot fail, and the id of a registered type is never given out a second time, whatever is despawned, dead ids included. So all that is proved of reachable worlds holds after any 2^32 - 2 calls, if each builder is built at most once and no static query asks for a zero-sized type of alignment above one.", "quantifier": "every history of at most 2^32 - 2 legal calls, caught panics included", "why_tests_cant": "Tests make a handful of calls; that nothing goes wrong earlier is a statement about all histories.", "anchors": ["arche_tape/src/world.rs: spawn, despawn, add_component, remove_component, get_or_create_type_id_ecsid, find_archetype_dynamic", "arche_tape/src/entities.rs: spawn, despawn", "arche_tape/src/entity_builder.rs: build"]}
{"id": "C65", "title": "The playground program runs to its end", "statement": "The program of the playground crate, with any number of entities n up to 2^31 whose values fit in memory and any number of rounds, does not panic, deadlock or run into undefined behaviour: every unwrap of q.get finds a component, every query gets its locks. In general such a loop of lookups goes on to its end exactly if each entity has the components asked for. The n ids are distinct and alive, they and no other entities have the component, with the value given, each round has opened one query and none is left open, and dropping the world drops each of the n values once.", "quantifier": "every number of entities and rounds, every component type that is not zero-sized with alignment above one, every value; in particular 10000 and 1000000 with an f32", "why_tests_cant": "The program runs with one choice of numbers; nothing it computes is checked.", "anchors": ["playground/src/main.rs: main", "arche_tape/src/world.rs: query", "arche_tape/src/lib.rs: spawn!", "arche_tape/src/static_query.rs: get, drop"]}
{"id": "C66", "title": "for_each over a query updates every matching entity once", "statement": "query::<Ps>().iter().for_each(body) calls the body exactly once for every entity with the components asked for. What the body sees is what the entity had before the loop, and after the loop exactly the values the body wrote through its mutable references have changed: those of the entity it was called for, and of no other, even if two entities have equal values. No entity lives, dies, gains or loses a component, no type is registered. Over a query with an unregistered type the body is not called. Opening the query, looping and dropping it can be repeated any number of times without a panic or deadlock.", "quantifier": "every reachable state, every list of parameter types in use without a mutable type asked for twice, every function from what is seen to what is written, every number of repetitions", "why_tests_cant": "Tests and benches loop over a few entities with one body and compare at most single values.", "anchors": ["arche_tape/src/static_query.rs: iter, StaticQueryIter::next", "arche_tape/src/world.rs: query", "benches/bench_static.rs: run"]}
{"id": "C67", "title": "for_each over a dynamic query updates every matching entity once", "statement": "query_dynamic(fetches).iter().for_each(body) calls the body exactly once for every entity with the components fetched. The pointers it is given can be cast to references and read; what is read is what the entity had before the loop. After the loop exactly the values the body wrote through the pointers of FetchType::Mut have changed, those of the entity it was called for. Over a query fetching nothing, or a component that no entity ever had, the body is not called. Opening the query, looping and dropping it can be repeated any number of times without a panic or deadlock.", "quantifier": "every reachable state, every list of fetches of components in use without a mutable one fetched twice, every function from what is seen to what is written, every number of repetitions", "why_tests_cant": "The benches loop over one or two components with one body and check nothing.", "anchors": ["arche_tape/src/dyn_query.rs: iter, DynQueryIter::next", "arche_tape/src/world.rs: query_dynamic", "benches/bench_dynamic.rs: run"]}
{"id": "C68", "title": "Archetypes are made only when needed, so adding and removing over and over settles", "statement": "Giving an entity a component, or taking one away, makes an archetype only if there is none for the component set the entity then has, and then it makes exactly that one. No other call makes an archetype, except that spawning makes that of the new entity if it is missing and that the first type or entity without components makes the empty one; none is ever removed. So the loop of the add_remove benches - add a component to all of some entities, then remove it from all of them - can be repeated any number of times: it never panics, each round destroys the value exactly once per entity and nothing else, all components are as before, at most one archetype per entity is made in the first round and none in any later one.", "quantifier": "every reachable world and call; every list of distinct live entities without the component, of any component sets, every type and value that fits in memory, any number of rounds", "why_tests_cant": "A benchmark repeats the loop and checks nothing; that no archetype leaks shows only over arbitrarily many repetitions.", "anchors": ["arche_tape/src/world.rs: add_component, add_component_dynamic, add_component_dynamic_with_data, remove_component, remove_component_dynamic, find_archetype_dynamic_plus_id, find_archetype_dynamic_minus_id", "benches/bench_static.rs: add_remove, padded_add_remove, wide_add_remove"]}
{"id": "C69", "title": "Spawning many entities in a row, and the add_remove benches as whole programs", "statement": "A loop of spawn! calls, each with its own components, runs to its end: the ids are distinct and new, each entity has exactly the components given to its spawn!, all other components are as before, and besides the new entities only those of types named for the first time came to life. The add_remove benches - such a loop in an empty world, then any number of calls of run - run to their end, destroy the added value once per entity and round, leave each entity with the components it was spawned with, and dropping the world then destroys each of these once.", "quantifier": "every history, every list of component lists that name no type twice and no despawned type, every number of entities and rounds that ids and memory allow; in particular the 10000 entities of the benches", "why_tests_cant": "The benches run one size each and check nothing.", "anchors": ["arche_tape/src/lib.rs: spawn!", "arche_tape/src/world.rs: spawn, add_component, remove_component, drop", "arche_tape/src/entity_builder.rs: with, build", "benches/bench_static.rs: Benchmark::new, add_remove, padded_add_remove, wide_add_remove"]}
{"id": "C70", "title": "The iterating benches as whole programs, looping over static queries", "statement": "Spawning any list of entities, each with its own components, into a new world and then running world.query::<Ps>().iter().for_each(body) any number of times runs to its end: no call panics, deadlocks or is undefined. At the end the entities have exactly the components they were spawned with, the values being those that applying the body once per run to what the entity itself had yields; entities that lack a type asked for have their old values; nothing else exists but the entities of the types. Dropping the world destroys each of these final values once.", "quantifier": "every list of component lists, every list of parameter types named by some entity, without a mutable type asked for twice, every body, any number of runs; in particular the 10000 entities of simple_iter and simple_large_iter, and frag_iter with its 26 archetypes", "why_tests_cant": "The benches run one size and body each and check nothing.", "anchors": ["arche_tape/src/lib.rs: spawn!", "arche_tape/src/world.rs: spawn, query, drop", "arche_tape/src/static_query.rs: iter, StaticQueryIter::next", "benches/bench_static.rs: frag_iter_20_padding_20, frag_iter_2000, frag_iter_200, frag_iter_20, simple_iter, simple_large_iter"]}
{"id": "C71", "title": "The dynamic benches as whole programs", "statement": "Spawning entities one after the other, with any component metas and with dynamic components given by id and value, runs to its end from any state: the ids are distinct and new, each entity has exactly the components given to it and the meta given for it, and nothing else changes. Making components in a new world, spawning entities with these and then running query_dynamic(..).iter().for_each(body) any number of times also runs to its end: the live entities are the components and the entities made, the components keep their metas, each entity has what applying the body once per run to its own components yields, and dropping the world destroys exactly these values with the destructors of the metas.", "quantifier": "every history with no query open, every list of metas and of component lists without duplicates whose values have the recorded sizes; for the benches every list of fetches without a mutable component asked for twice, every body that writes values of the right size, any number of runs", "why_tests_cant": "The benches run one size and body each and check nothing.", "anchors": ["arche_tape/src/world.rs: spawn, spawn_with_component_meta, query_dynamic, drop", "arche_tape/src/entity_builder.rs: with_dynamic_with_data, build", "arche_tape/src/dyn_query.rs: iter, DynamicQueryIter::next", "benches/bench_dynamic.rs: frag_iter_20_padding_20, frag_iter_2000, frag_iter_200, frag_iter_20, simple_iter, simple_large_iter"]}
{"id": "C72", "title": "The get benches as whole programs, looking every entity up in a query", "statement": "Making a query, looking up entities that match and dropping the query panics nowhere, shows for each lookup exactly what the entity has, and leaves the world as it was. With a query open, the lookups of a list of entities panic exactly if one of them lacks a component asked for, at the first such. Spawning entities and adding one more component to each panics nowhere and drops nothing: each entity has what it was spawned with and what was added, and nothing else changes. So the benches get and padded_get run to their end, every run shows for every entity the components it was given, in the order of the entities, and dropping the world then destroys exactly these values.", "quantifier": "every history with no query open, every list of entities that match, with repetitions; for the benches every non-empty list of component lists without a type twice that have all types asked for, every list of parameters without a mutable type asked for twice, any number of runs; in particular the 10000 entities of padded_get", "why_tests_cant": "The benches run one size each and hand what they see to a black box.", "anchors": ["arche_tape/src/static_query.rs: get", "arche_tape/src/world.rs: query, spawn, add_component, drop", "arche_tape/src/lib.rs: spawn!", "benches/bench_static.rs: get, padded_get"]}
{"id": "C73", "title": "The insert benches as whole programs, and which archetypes spawning makes", "statement": "Spawning one entity after the other makes an archetype only for the set of types of one of the entities, or the empty one, and afterwards each of these sets has its archetype. In a new world there are then exactly as many archetypes as there are different sets of types among the entities, the empty set counted in, whatever the order and number of the spawns and the order in which types are named. The benches simple_insert and frag_insert, which fill a new world and drop it, run to their end however often they are called, and each call destroys exactly the values it made.", "quantifier": "every history with no query open, every list of component lists that name no type twice, any number of runs; in particular up to 10000 entities with common components and one of any number of markers, as frag_insert with its 26", "why_tests_cant": "The benches check nothing; that no archetype is made twice depends on all earlier spawns.", "anchors": ["arche_tape/src/world.rs: spawn, find_archetype_dynamic, drop", "arche_tape/src/entity_builder.rs: with, build", "arche_tape/src/lib.rs: spawn!", "benches/bench_static.rs: simple_insert, frag_insert"]}
{"id": "C74", "title": "Recycling one index of a world: rounds of despawn and spawn, and the return of a stale id", "statement": "Despawning an entity and spawning one without components in turn always works in every world: no call panics, for lack of ids or otherwise, the new entity always has the index of the one despawned and the next generation modulo 2^32, no archetype is made, and no other entity, component or type changes. Hence after 2^32 such rounds the id despawned first is alive again and names an entity that has none of its components: that a despawned id never names an entity again holds of no world.", "quantifier": "every history with no query open, every stored entity that is no component and whose index is that of no registered type, any number of rounds", "why_tests_cant": "2^32 rounds are beyond a test, and no count of rounds tested says that the next one works.", "anchors": ["arche_tape/src/world.rs: spawn, despawn, is_alive", "arche_tape/src/entities.rs: spawn, despawn, is_alive", "arche_tape/src/entity_builder.rs: build"]}
