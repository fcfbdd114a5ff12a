# Formal model of EllenNyan/Ellecs in Rocq (Coq 8.16.1)

## 1. Approach

The code is a single-threaded archetypal ECS (`World` is neither `Send` nor `Sync`: it
holds `UnsafeCell<UntypedVec>` and raw pointers and there is no `unsafe impl`), so every
`&mut World` call is atomic and the whole behaviour is a deterministic state machine.
The model is an executable Gallina re-reading of the Rust source, function by function.

* **Outcome monad.** `M S A := S -> outcome S A`, where an outcome is
  `Done value state events`, `Panicked reason state events` (the state *at the panic
  point, after unwinding drops*, because `catch_unwind` makes it observable), `Deadlock`
  (a lock that can never be granted) or `UB` (memory outside an allocation, wrong layout
  in realloc/dealloc, misaligned reference, missing initialisation).  `events` are the
  destructor calls (`EvDrop fn bytes`).
* **Memory** is modelled at byte level: a cell is `option byte` (`None` = uninitialised);
  an allocation is a list of cells plus the alignment it was allocated with.
* **Histories** are lists of API operations run from `World::new()`; a history continues
  after a caught panic.

## 2. What is modelled (files in rocq/theories)

The model:

| file | Rust | contents |
|---|---|---|
| Base.v | - | outcome monad, ids, constants |
| Entities.v | entities.rs | EcsId, Entities |
| IdText.v | entities.rs 6-50, lib.rs 55-77 | hashing and printing of ids (C59, C60) |
| Bitset.v | bitset_iterator.rs | BitsetIterator, Bitvec, Bitsetsss |
| ArrayVec.v | array_vec.rs, world.rs 28-61 | ArrayVec, AddRemoveCache |
| UVec.v | untyped_vec/src/lib.rs | UntypedVec (byte level) |
| World.v | world.rs, entity_builder.rs, lib.rs utils | Archetype, World, EntityBuilder |
| Query.v | dyn_query.rs, static_query.rs | locks, DynQuery, StaticQuery and their iterators |
| History.v | - | API calls, their legality, sessions (a world and its open queries), executions |
| Macro.v | lib.rs 5-15 | the macro `spawn!` (C63) |
| Playground.v | playground/src/main.rs | the program, for any number of entities and rounds (C65) |
| ForEach.v | std's `Iterator::for_each` over StaticQueryIter, `run` in benches/bench_static.rs | loops over static queries (C66) |
| ForEachDyn.v | the same over DynQueryIter, `run` in benches/bench_dynamic.rs | loops over dynamic queries, reading and writing through the pointers (C67) |
| AddRounds.v | `run` of the add_remove benches in benches/bench_static.rs | adding and removing a component over and over (C68) |
| Benches.v | `Benchmark::new` in benches/bench_static.rs, and the add_remove benches | the loops of `spawn!`, followed by AddRounds.v (C69); the vector of ids is a list |
| DynBench.v | the benches of benches/bench_dynamic.rs, `new` and `run` | loops of `spawn_with_component_meta`/`spawn` with `with_dynamic_with_data`, followed by ForEachDyn.v's runs (C71) |
| GetBench.v | modules get and padded_get of benches/bench_static.rs, `new` and `run` | loops of `spawn!` and `add_component`; a query, and its `get` for each entity (C72) |
| InsertBench.v | modules simple_insert and frag_insert of benches/bench_static.rs, `run` | Benches.v's loop of `spawn!` in a new world, which is then dropped (C73) |
| IterBench.v | the iterating benches of benches/bench_static.rs, `new` and `run` | Benches.v's loop of `spawn!`, followed by ForEach.v's runs (C70) |
| Flight.v | dyn_query.rs 54-109, static_query.rs 13-23, 149-178 | sessions in which iterators live across other calls, advanced one `next` at a time (C55) |
| DropPanic.v | the functions that call destructors, once more | the same functions with destructors that may panic (C56) |
| MemLog.v | the functions that allocate, once more | copies of the model's functions that also record the calls made to the allocator (C53) |

The specification vocabularies.  They look at the state, not at the functions of the model, with
these exceptions: whether an entity lives is what `is_alive` says (C01-C03 are about its core,
`ents_is_alive`); what is recorded for an entity is what `get_entity_meta` returns; memory is
read with `mem_read`; well-formed layouts are those `Layout::from_size_align` accepts, spelled out
by C54_layouts; pointers yielded by queries are dereferenced with `deref_ent`/`deref_val`.

| file | used by |
|---|---|
| SpecSmall.v, SpecUVec.v | entities, bit sets, ArrayVec, UntypedVec |
| SpecWorld.v | calls on the world: what an entity holds, what a call changes or refuses |
| SpecQuery.v | what queries yield, locks, aliasing |
| SpecLedger.v | conservation of values and destructor calls (C30) |
| SpecReuse.v | equality up to the builder buffer (C47) |
| SpecTwice.v | rows and their values by position (C32) |
| SpecOrder.v | answers to dead and unknown ids (C61) |
| SpecFull.v | worlds without a free index, ids a call may ask for (C62) |
| SpecMacro.v | what `spawn!` is for (C63) |
| SpecShort.v | executions without conditions on the state (C64) |
| SpecLimit.v | bytes held and passed (C52) |
| SpecFlight.v | pointers in the hands of the caller while iterators live (C55) |
| SpecDropPanic.v | destructor calls made and still owed, worlds left by a call cut short (C56) |
| SpecRough.v | histories that go on after every panic that can be caught (C58) |
| SpecLocks.v | what a call that opens a query asks for (C42) |
| SpecIdText.v | hash of a key, reading back printed digits (C59, C60) |
| SpecIds.v | calls in which an id comes to life (C57) |
| SpecMemory.v | live blocks of an allocator, blocks a world points to (C53) |

The theorems, each file with the properties only, and their non-vacuity witnesses:

| theorems | witnesses |
|---|---|
| PropsEntities.v, PropsBitset.v, PropsArrayVec.v | ExamplesSmall.v |
| PropsUVec.v | ExamplesUVec.v |
| PropsWorld.v | ExamplesWorld.v |
| PropsQuery.v | ExamplesQuery.v |
| PropsLife.v | ExamplesLife.v |
| PropsReuse.v | ExamplesReuse.v |
| PropsLimit.v | ExamplesLimit.v |
| PropsMemory.v | ExamplesMemory.v |
| PropsMeta.v | ExamplesMeta.v |
| PropsFlight.v | ExamplesFlight.v |
| PropsDropPanic.v | ExamplesDropPanic.v |
| PropsRough.v | ExamplesRough.v |
| PropsIds.v | ExamplesIds.v |
| PropsIdText.v | ExamplesIdText.v |
| PropsTwice.v | ExamplesTwice.v |
| PropsOrder.v | ExamplesOrder.v |
| PropsFull.v | ExamplesFull.v |
| PropsMacro.v | ExamplesMacro.v |
| PropsShort.v | ExamplesShort.v |
| PropsPlayground.v | ExamplesPlayground.v |
| PropsForEach.v | ExamplesForEach.v |
| PropsForEachDyn.v | ExamplesForEachDyn.v |
| PropsAddRounds.v | ExamplesAddRounds.v |
| PropsBenches.v | ExamplesBenches.v |
| PropsIterBench.v | ExamplesIterBench.v |
| PropsDynBench.v | ExamplesDynBench.v |
| PropsGetBench.v | ExamplesGetBench.v |
| PropsInsertBench.v | ExamplesInsertBench.v |
| PropsRecycle.v | ExamplesRecycle.v |
| PropsLocks.v | ExamplesLocks.v |

ExamplesRepo.v runs the repository's own unit tests on the model: one Example for each `#[test]` of
arche_tape/src/tests and untyped_vec/src/lib.rs, with the assertions of the test as its statement.

Proof*.v hold the lemmas.  ProofWInv.v defines the invariant `winv` of the world, ProofSession.v
that of sessions (`sinv`) with its preservation by every legal call.  ProofRefuted.v,
ProofRefutedQuery.v, ProofDropPanicRefuted.v and ProofRoughRefuted.v hold the witnesses of the `_refuted` theorems.

## 3. Plan per property

C01-C03 `Entities` state machine; invariant by induction over operations, ghost counter of
slot reuses; C03 by induction on the number of cycles (not by computation).
C04-C09, C20-C22, C35, C49 `World` state machine; a global invariant `winv` preserved by
every operation, plus per-operation characterisation of the observable map
(entity, component) -> bytes.
C10-C15, C38, C43-C46 query iterators as state machines, run for any number of `next` calls.
C16-C19 pure functions on lists of 64-bit words / pairs of u32.
C23-C24 fixed array with explicit uninitialised slots.
C25-C29 byte-level refinement of `list (list cell)`.
C30-C34 event accounting (permutations of multisets of values); refutations by evaluation.
For C32_always (ProofTwice.v) the second `build` is run from the invariant after the first one.
For C34_torn (ProofTorn.v) the post-condition of `build` keeps how far each column is overrun.
C36-C37, C39-C40 world state machine; refutations by evaluation.
C41-C42 lock bookkeeping state machine over arbitrary sequences of open/drop/forget/unwind.
C47 relational: every function is blind to the kept buffer (ProofBlind.v), and `build` equals
a version that gets its components as a list (ProofReuse.v).
C48 UB-freedom as part of the preservation of `winv` and `sinv`.
C50 pure list function.  C51 frame property of histories.
C52 a bound on the bytes in columns and builder, carried through every function (`quiet`,
ProofQuiet.v), and the ledger of C30 for the version about histories.
C53 separation-logic style: each function's recorded allocator calls turn the blocks it starts
with into those it ends with, whatever other blocks are live (`tr`, ProofMemory.v).  That the
recording copies in MemLog.v do what the model does is proved (C53_faithful); that they record
an entry wherever the code calls the allocator is a matter of reading (`alloc_t`, `realloc_t`,
`dealloc_t`), but a missing entry for a block that outlives its call would contradict C53_history.
C54 part of `winv`; stability from the frame property of every call (`sframe`, ProofInfo.v).
C55 nothing that can happen while a query is open changes the shape of the world (`shape`,
ProofShape.v: all but bytes and locks), and iterators do the same in worlds of the same shape
(`alike`); so the iterator is always where an iteration started now would have got to.
C56 the copies in DropPanic.v are compared with the model: the part before the destructor calls
makes none (`mute`, ProofMute.v), so the two agree up to the first destructor that panics.
C57 every call moves each slot of the entity table by at most one step (`slot_step`, ProofIds.v);
the count of births follows the generation of the slot.
C58 an invariant weaker than `winv` (`rinv`, ProofRoughInv.v): it says nothing about the lengths of
columns and entity lists and where entities are, so it also holds half-way through a call.  Along
with it goes an account of destructor calls (`acct`): those made and still owed never exceed those
owed before plus those for the values passed.
C59-C60 pure functions on bytes and strings; base 256 and base 16 by induction on the digits.
C61 unfolding each call for an arbitrary world.
C62 a call issues at most as many ids as it asks for, and slots of the entity table come either from
the list of despawned ones or from its end (`issuing`, ProofFull.v); C62_reached by induction on the
number of spawns, not by computation.
C63 C05 for the calls the macro expands to, and a frame property of the type table: only the types
given are registered (`tw`, ProofMacro.v).
C64 each call adds at most one archetype (`step_inv1`, ProofStep.v); the generation of a registered
id is below the number of births of its index (C57), so nothing wraps around in a short history.
C65 induction on the number of entities, with C63, C52, C62 and C64 for each spawn; then on the number
of rounds, with C40, C12 and C42 for each.
C66 invariant over the loop: entities already visited have their new values, the others their old
ones (`amid`, ProofForEach.v); the cursor's course is that of C12; then induction on the runs.
C67 as C66, with C43 for reading through the pointers (`read_ptrs_run`, ProofForEachDyn.v).
C68: the specification of adding and removing says which archetype is made (`adds_one`, ProofAddRemove.v; `moves_made`, `step_made`, ProofAddRounds.v); the rounds are an induction over an invariant that counts the entities which may still need an archetype (`ar`).
C69: induction over the list of spawns, each step by the specification of `spawn!` (`macro_view`, C63) with the bounds on ids, bytes and archetypes taken from the history (`spawn_all_run`, ProofBenches.v); the benches then follow from C68 and from what dropping a world does (`drop_flat`).
C70: C69 for the spawns, C66 for the runs; that one run turns a table of entities and components into the table with the body applied is `tabulates_step` (ProofIterBench.v), then induction on the runs.
C71: as C70, with C20's view of a builder for the spawns (`dyn_spawn_one`, ProofDynBench.v), C67 for the runs, and that the runs keep the shape of the world for the metas.
C72: the view of a lookup (`open_get`, ProofRows.v) for each entity; that making and dropping a query leaves the world as it was (`opens_released`); for padded_get, the view of adding (`add_typed_view`, ProofWorld.v) put after C69's view of `spawn!` (`adds_to`, ProofGetBench.v), by induction on the entities.
C73: induction over the spawns with C68's account of the archetypes a call makes; the count is a bijection between archetypes and sets of types, by C21's `distinct_sets` (`count_kinds`, ProofInsertBench.v).
C74: one round from C04's and C05's views of the two calls, with the id read off `Entities::spawn` (the free list is a stack); no archetype is made, by C68's account; then induction on the number of rounds (ProofRecycle.v).  The converse bound is C57_stays_dead.

## 4. Trusted base

* Coq 8.16.1's kernel, and `vm_compute` for the refutation witnesses and examples.
* `Print Assumptions` is run under each property theorem; all say "Closed under the global
  context".  No axiom is used, neither of the standard library nor of std++.  (The checker
  lists the `Under_rel` module items of ssreflect when it reports on whole libraries; they
  come with Coq and no theorem depends on them.)
* The reading of the Rust source recorded in the citations, the simplifications listed at
  each definition, and those of sections 5 and 6.

## 5. Conditions under which theorems about executions hold

Executions (`steps`, History.v) consist of *legal* and *tame* calls.

*Legal* is what the type system or the documented contract of an `unsafe` function gives:
values have the size of their component, layouts are valid, `&mut World` calls happen while
no query is open, a pointer written through was fetched mutably.  The flight of a query in
Flight.v stands for the mutable borrow of the query: it lasts as long as the iterator or one of
the pointers it handed out is used, and any other use of the query ends it.

*Tame* excludes situations that are described by theorems of their own:
* 2^32 - 2 or more archetypes (the search of archetypes works with `u32`);
* a builder built twice (C30_build_twice_refuted, C32; C32_always covers exactly the programs whose two
  `build` calls come last, and the despawn right after; later calls on such a world are not covered);
* an id of a registered type about to come back after 2^32 despawns of its slot (C03);
* a static query for a zero-sized type of alignment above 1 (C44).

The first and the third cannot happen in the first 2^32 - 2 calls (C64); what remains are conditions
on the arguments of the call.

A caught panic does not end an execution, with two exceptions: `RCapacity` (an allocation
above `isize::MAX` or a size doubling to it) and `RColumnLength` (the assertion of `build` after
a duplicate component was pushed, which leaves a corrupted world behind; C34_torn says which).  C52 says that
`RCapacity` cannot happen while at most 2^60 bytes are in use.  The histories of C58 (`rough`,
SpecRough.v) go on after these two and after panicking destructors as well; they consist of calls on
the world only, since queries in such worlds can be undefined (C58_query_refuted,
C58_query_plain_refuted).

## 6. Not modelled, or simplified

* failure of the allocator (`handle_alloc_error` aborts), integer overflow in `size * 4` for
  components larger than 2^62 bytes, capacity hints of `Vec`/`HashMap`;
* std's `HashMap` itself: a map is a `gmap`, correct because `Hash` and `Eq` of its keys agree and
  hashing never panics (C19, C59);  the bytes of `TypeId`s: `TypeId` hashes as one u64;
* destructors that panic, except in the functions of DropPanic.v (C56, C58); a destructor that
  panics while unwinding from another panic ends the process, and the history with it;
* destructors that re-enter the world;
* threads: `World` holds `UnsafeCell`s and raw pointers and has no `unsafe impl` of `Send` or `Sync`,
  so that a world is used by one thread at a time;
* the borrow checker: exclusivity of `&mut World` and lifetimes of guards are taken as given;
* pointer provenance and identity of allocations: an allocation is owned by value; C53 tells
  blocks apart by size and alignment only;
* a builder whose call panics is dropped by the unwinding; catching the panic inside the
  closure and going on with the builder is not modelled;
* `Formatter` flags other than those of plain `{}` and `{:?}`, the macro of
  static_query.rs, which only expands to the modelled trait implementations;
* `benches`: the bodies of the loops over queries are arbitrary functions (C66, C67), components are values of any types, and benchmarks.rs, which only hands each bench to criterion, is not modelled; in the get benches, neither is the drop of the query by unwinding, which happens only if a lookup panics (C72).

## 7. Tests against wrong programs (seeded/LOG.jsonl)

Each line is one edit of a model definition, made in a scratch copy that was then rebuilt with
`make -k`.  How to read the fields:

* `first_lemma_failed` and `property_theorems_no_longer_checked` are read off the build.  Proofs
  build on each other, so the second number is mostly about dependencies, not about coverage.
* `theorems_failed` lists those of the lost theorems whose *statement* is false of the edited
  program.  This was judged by reading the statements; the negations were not proved.  Where it
  is empty, only a helper lemma failed, and `note` says whether the edit is harmless or the
  statements have a gap.
* `judged_false_but_not_seen_failing`: judged false, but the script did not see the theorem fail.
* `theorems_tightened` is what was changed in reply; a theorem added that way had not been run
  against the edit at that time unless a later line says so.
