# frozen_map: formal model and proofs (Rocq / Coq 8.16.1)

Source under study: `/repo` (crate `frozen-collections-core`, plus the macro entry points).
Nothing in `/repo` is built or executed; the model is a hand transcription of the source text.

## 1. Layout

Model (computable functions only, every definition cites file and lines of `/repo`):

| file (`rocq/theories/`) | content |
|---|---|
| `Base.v` | outcome type (value, panic, undefined behaviour, out of fuel), overflow profiles, machine integers, checked and unchecked slicing, sorting |
| `HashCodeAnalyzer.v`, `IntKeyAnalyzer.v`, `SliceKeyAnalyzer.v` | the three analyzers |
| `UsizeAnalyzer.v` | the hash code analyzer again with machine words |
| `HashTable.v`, `Maps.v` | the shared table and the seven specialized maps |
| `MapObjects.v` | the whole interface of each specialized map as an object: writes, `get_many_mut`, `index`, `==`, running a history |
| `FrozenMap.v` | the map facade |
| `Iterators.v`, `IteratorUse.v` | map and set iterators; programs with iterators and their clones |
| `SetOps.v` | the `Set`/`SetOps` traits, the four lazy set operations, relations, operators |
| `Sets.v`, `SetObjects.v`, `FrozenSet.v` | specialized sets, their `Set` implementations, set facade |
| `History.v` | operation sequences on a `FrozenMap` |
| `MacroModel.v`, `MacroParse.v` | the decisions taken by `frozen_map!`, the code it emits, the parser of its arguments |
| `Constructors.v`, `SpecializedConstructors.v` | the public constructors (`From`, `FromIterator`, `new`) |
| `DebugModel.v` | `Debug` implementations |
| `LookupCost.v`, `AnalysisCost.v`, `SliceCost.v` | counts of comparisons, table checks and hash computations |
| `ManyMut.v` | the result array of `get_many_mut`, slot by slot |
| `SetRunning.v` | the set operations over operands with arbitrary iterators |
| `Naming.v` | the tests of the key type by name in the two constructors |
| `Borrows.v` | the references made by `get`, `get_mut` and `get_many_mut`, with the aliasing rules |
| `MapBorrows.v` | the references made by the specialized maps, by `get_key_value` and by iterators |
| `LenModel.v` | the implementations of `Len` |
| `Volatile.v`, `VolatileSets.v` | FrozenMap, FrozenSet and the set operations with `Eq`, `Hash` and hashers that have state and may panic |
| `Cloning.v` | the derived `Clone` implementations of FrozenMap and FrozenSet |
| `SpecialClone.v` | the derived `Clone` implementations of the specialized maps and sets |
| `StdSets.v` | the implementations of `Set` for the standard `HashSet` and `BTreeSet`, which are modelled by their documented behaviour |
| `ProjectTests.v` | inputs and expectations of the project's unit tests and example, with the random number generator they use |
| `DocExamples.v` | inputs and expectations of the examples in the doc comments |
| `Walks.v` | `iter`, `keys`, `values`, `into_iter` and `hasher` of the specialized maps and sets |
| `MacroEmit.v` | the code emitted by `frozen_map!`, token by token, and the declarations it refers to |
| `EmitRun.v` | a whole call of frozen_map!, from tokens to tokens; compiling and running a generated block |
| `Benchmarks.v` | the five programs of benches/frozen_map.rs, and the answers of a standard HashMap |
| `VolatileRange.v` | IntegerRangeMap and IntegerRangeSet with arithmetic, order and `Borrow` that have state and may panic |
| `VolatileMaps.v`, `SpecialSets.v` | the specialized maps and sets with `Eq`, `Hash`, `Borrow`, `Len`, `SliceHash`, `AsPrimitive` and hashers that have state and may panic |

Specification (independent of the model's helpers): `Spec.v`, `IterSpec.v`, `HistorySpec.v`,
`ObjectSpec.v`, `SizeSpec.v`, `FloatSpec.v` import no model file; `MapSpec.v` and `SetSpec.v` use only the model's types
(`res`, `key`, `hasher`, `set_impl`), the key equality and the length function. `CostSpec.v`,
`ParseSpec.v` (on the token type), `ExprSpec.v` (on the four operators), `RunSpec.v`, `CallSpec.v`,
`VolatileSetSpec.v`, `VolatileMapSpec.v`, `BorrowSpec.v`, `NamingSpec.v`, `SetCallSpec.v`, `CloneSpec.v`, `EffectSpec.v`, `SpecialCallSpec.v`, `SpecialSetSpec.v`, `RangeSpec.v`, `IteratorUseSpec.v`, `MapBorrowSpec.v`, `LenSpec.v`, `SpecialCloneSpec.v`, `LawfulCloneSpec.v` `StdSetSpec.v`, `CollisionSpec.v`, `WalkSpec.v`, `WrittenSpec.v`, `RepeatedSpec.v`, `PlaceSpec.v` and `EmitSpec.v` (a reader for the generated code) cover comparison counts, macro arguments, set expressions, operands with arbitrary iterators,
calls of the caller's code, questions put to operands, uses of references, names of types, calls made by set operations, copies, code with side effects, and iterators as lists of items to come.

Proofs: `BaseLemmas`, `EqbLists`, `*Proofs`, `FrozenMapBuild`, `FrozenMapFacts`, `BuildSound` (lemmas);
`MapTheorems`, `ComponentTheorems`, `SetTheorems`, `TypeSafety`, `HistoryProofs`, `MapObjectProofs`,
`MapObjectEq`, `SetObjectProofs`, `IntWrapProofs`, `MacroProofs`, `MacroParseProofs`, `HugeMap`, `TableSizeProofs`,
`LookupCostProofs`, `TotalCost`, `DebugProofs`, `SetAlgebra`, `FrozenSetAlgebra`, `SetExpressions`, `ConstructorProofs`,
`IterationOrder`, `Determinism`, `SetDeterminism`, `HistorySafety`, `SetSafety`, `SetRunningProofs`, `AnalysisCostProofs`,
`SliceCostProofs`, `ManyMutProofs`, `VolatileSafety`, `VolatilePanics`, `VolatileMapProofs`, `VolatileSetTheorems`, `CallTheorems`, `SetCallProofs`, `CloneProofs`, `EffectProofs`, `SpecialCallProofs`, `RangeProofs`, `SpecialSetProofs`, `IteratorUseProofs`, `BorrowProofs`, `MapBorrowProofs`, `LenProofs`, `SpecialCloneProofs`, `LawfulCloneProofs`, `StdSetProofs`, `ProjectTestProofs`, `DocExampleProofs`, `WalkProofs`, `MacroEmitProofs`, `BenchmarkProofs`, `EmitRunProofs`, `RepeatedProofs`, `RepeatedCallProofs`, `PlaceProofs`, `RepeatedEqProofs`, `RepeatedSpecialEq`, `FilledProofs`, `NamingProofs`, `Refutations` (final statements).
`Examples.v` has concrete, computed instances that meet the hypotheses of each theorem.
`Properties.v` collects the property theorems (`exact lemma`), each followed by `Print Assumptions`.

## 2. Modelling decisions

* **Outcomes.** Every fallible function returns `res A`: `Ok a`, `Panic reason`, `UB` (undefined
  behaviour: unchecked slice out of range, key reinterpreted at the wrong type) or `OutOfFuel`.
  `OutOfFuel` only exists for the two loops whose termination is not structural; theorems show it never occurs.
* **Overflow profile.** `Checked` (overflow panics: debug builds) and `Wrapping` (release builds).
  All theorems hold for both unless they say otherwise. `usize` is 64 bits.
* **Numbers.** Machine integers are `Z` with an explicit type descriptor (width, signedness);
  list positions are `nat`. Hash codes are arbitrary `Z`.
* **References** into the entry table are modelled as the position of the entry they point into.
  "Writing through `&mut V`" replaces the value at that position.
  Two mutable references alias iff the positions coincide.
* **Hashers** are arbitrary functions to `Z`; `Eq` is an arbitrary boolean function with the
  equivalence laws as hypotheses where they are needed. `Borrow` is a function `K -> Q`.
* **`sort_unstable_by`** is an arbitrary function that returns a sorted permutation
  (field of the `env` record plus hypothesis `env_ok`; inhabited by insertion sort in `Examples.v`).
  The stable `sort_by_key` is insertion sort.
* **Type tests by name** (`type_name::<K>() == "u32"`): keys live in the sum type
  `key := KU32 z | KStr bytes | KOther o`; a map has a `kind`. `transmute` is a partial function
  that yields `UB` on the wrong constructor.
* **f64** arithmetic (`n * 0.05`, `sqrt`) is modelled exactly, as round-to-nearest-even on 53-bit
  significands in integer arithmetic.
* Std `HashSet`/`HashMap` used inside the analyzers are association lists / membership lists.

* **Undefined behaviour** is recorded for four causes: an unchecked slice access out of bounds
  (`OutOfBounds`), a key reinterpreted at the wrong type (`WrongType`), uninitialized memory
  assumed to be initialized (`Uninitialized`, only possible in `get_many_mut`) and a breach of the aliasing rules
  (`Aliasing`, only in `Borrows.v`).
  `get_many_mut` is modelled twice: on lists (Maps.v) and with its index loops and its
  `MaybeUninit` array as memory cells (ManyMut.v); C64 proves both equal.
  In both a reference is the position of the entry it points into, and the `transmute` of `&V` to `&mut V` is the
  identity; what is proved is that the returned references never alias. `Borrows.v` models the references with tags and
  permissions: the rules are those of Stacked Borrows for the one allocation that holds the entries, with one memory cell per key
  and value; a slice iterator borrows each element from the slice; `transmute` keeps the tag (no retagging).
* **`type_name`** is assumed to be `"u32"` and `"alloc::string::String"` for exactly those types, except in `Naming.v` (C75),
  where another type may have one of these names.
* **The size analysis** (`HashCodeAnalyzer.v`) computes with unbounded integers. `UsizeAnalyzer.v` repeats it with
  overflow-aware `usize` arithmetic; C19 proves that both agree for fewer than 2^60 codes.
* **An iterator in progress** inside a lazy set operation is the list of items it has still to yield.
* **Foreign code with state** (C71 to C73, and C76 for the specialized maps, where it includes `Borrow`, `Len`, `SliceHash` and `AsPrimitive`): calls of `==`, `hash` and the hasher's methods are functions from a state `W` to an optional
  answer (`None`: a panic) and a new state, run in the order of the source. The foreign code itself has no undefined
  behaviour. That `get_many_mut` may hand out aliasing references under such equalities is recorded by C12, and the breach of the aliasing rules by C74, not here.
* **`Clone`** is derived for all maps and sets: `Cloning.v` and `SpecialClone.v` clone the fields in the order of declaration, as the language defines
  it, a boxed slice element by element. Clones of integers and of `String` are exact; those of other keys, of values
  and of hashers are foreign code with state. For an entry type `(K, V)` that is `Copy`, std may copy the bytes of a boxed slice without
  calling `clone`; the statements about calls of `clone` therefore concern entry types that are not `Copy`, and the
  statements about lawful copies cover `Copy` types with the copying functions being the identity.
* **`Debug`** output is the sequence of calls made on `debug_map`/`debug_list`; their text rendering is std's.
* **Cost** of a lookup is the number of `==` calls on keys, counted by a separate function next to each `get`.
* **`IntoIterator`** arguments are a `next` function with a state; `Vec::from_iter` calls it until `None`.
  `RandomState::new()` is an arbitrary hasher.
* **Std sets** (`HashSet`, `BTreeSet`) taking part in the set algebra are any sets that satisfy `lawful_set`; C88 shows that the documented behaviour of the standard types (`StdSets.v`) does. The code of the standard library is not modelled.
* **The macro's parser** works on a token list in which commas and colons are marked; `syn`'s parsers for
  types and expressions are parameters that consume a prefix of it.
* **`Len`, `SliceHash`, `Borrow`**: length functions, byte lists and a function `K -> Q`. C85 supplies the length functions of
  the types of the standard library; their `==` is taken to mean what `LenSpec.v` says. `Q` is implicitly `Sized` in the code, so
  that of the standard library only `Box`, `Rc`, `Arc` and `Cow` have another borrowed form than themselves; the theorems hold for any `Q`.

Not modelled: allocation failure, drop/unwinding, concurrency (there is none),
how rustc reads types and expressions of the caller in generated code, documentation, benchmarks, performance.
`macros/frozen_set.rs` is an unexported copy of `macros/frozen_map.rs`; its model is the same function.
Strings are byte lists; UTF-8 validity is irrelevant because all code works on bytes.

## 3. Properties

For a property the code violates, the exact boundary is proved together with a `_refuted`
theorem giving a concrete witness.

| id | model | proof idea |
|---|---|---|
| C01 | `fm_new`, `fm_get` | case split on representation; each map refines "find in permutation of payload" through the hash table grouping invariant |
| C02 | all accessors | common "position of first match in slot" lemma |
| C03 | `fm_iter` etc. | the table stores a permutation of the payload |
| C04 | `fm_new` kind other | analyzer returns size >= 1, all slot writes in range |
| C05 | `fm_new` kind u32 | 32-bit arithmetic bounds; sortedness of insertion sort |
| C06 | `fm_new` kind string | exact case analysis of `analyze_slice_keys` against a declarative spec of "distinctive" |
| C07 | `rsm_from_vec` | inverted range is always rejected by the unchecked slice |
| C08 | `lsm_from_vec` | guard analysis |
| C09 | duplicates | first-match semantics; witness `[0,0,2,3]` for u32 |
| C10 | `get_mut` + write | positions |
| C11 | `get_many_mut` | equal positions imply equal keys by transitivity |
| C12 | `get_many_mut` | witness with a non-transitive Eq |
| C13 | `index`, `index_mut` | direct |
| C14 | `fm_eq` | counting argument (pigeonhole on distinct keys) |
| C15, C16 | `ht_new`, `ht_get_hash_info` | grouping invariant for an arbitrary build hash and an arbitrary code; for C15 only that slots stay in range, which survives wrapped i32 counters since a wrapped non-negative counter is never larger than the true one |
| C17, C18 | `analyze_hash_codes` | loop invariant over candidate sizes |
| C19 | prime search loops, `analyze_hash_codes_w` | Euclid's theorem gives the fuel; a prime just above 2^62 (proved by Proth's criterion) stops the search before overflow |
| C20 | `is_prime` | trial division; the rounded f64 sqrt is never below a factor's bound |
| C21 | `analyze_int_keys` | pigeonhole on intervals |
| C22 | `irm_from_vec`, `irm_get` | sorted distinct consecutive list has key = min + position |
| C23 | `analyze_lengths` | counting |
| C24 | `analyze_subslices` | search loop characterisation |
| C25 | `acceptable_duplicates` | integer model of f64 multiplication |
| C26 | map `Iter` | state machine over index |
| C27 | set `Iter` | idem; refutation for `count` |
| C28-C31 | `Union`, `Intersection`, ... as state machines | induction on the underlying iterators; NoDup counting |
| C32 | `is_subset` ... | pigeonhole |
| C33 | `fs_eq`, `set_eq` | pigeonhole |
| C34 | `fs_new`, `fs_contains` | as C01 |
| C35 | operators | collect of iterators |
| C36 | `frozen_map_macro` decisions composed with run-time constructors | hasher independence of the range bound |
| C37 | default | direct |
| C38 | `run` of operation lists | simulation |
| C39 | `transmute_*` | no `UB` for keys of the map's kind |
| C40 | `ht_new` | exact outcome as a function of n, S, profile |
| C41 | `sm_get`, `cm_get`, `im_get`, `lm_get` with `Borrow` | grouping invariant of the table |
| C42 | `fm_new` with wrapping counters | a slot of exactly 2^32 entries is recorded as empty |
| C43 | `analyze_int_keys` in both profiles | modular arithmetic, pigeonhole |
| C44 | `map_object` of each specialized map, `mo_run` | simulation against `object_run`; each map "searches" its entries |
| C45 | `mo_eq` | counting argument as in C14 |
| C46 | `*_as_set` | each set searches its items, hence satisfies `lawful_set` |
| C47 | `analyze_hash_codes` | the loop against `SizeSpec`; the prime table checked by the verified primality test |
| C48 | `run` of operation lists | C38 for both maps and permutation invariance of the abstract map |
| C49 | `*_get_cost` beside each `get` | the probe visits the entries of one slot; their number is bounded by the collisions |
| C50 | `*_fmt`, `iter_fmt` | direct; iterator state machines; witness for the shape |
| C51 | the lazy set operations | distinct lists with the same members have the same length |
| C52 | `fm_iter` | `fill` pops the sorted stack, so entries are stored in reverse slot order |
| C53 | `fs_as_set` with the set algebra | `frozen_set_lawful` composed with C28-C32, C35 |
| C54 | `*_next` of the set operations | iterator state machines against list filters |
| C55 | `Constructors.v` | induction over `yields` |
| C56 | `Constructors.v` with `it_next`, `*_next` | C14, C26, C48, C53 composed; witness by evaluation |
| C57 | `parse_map`, `frozen_map_call` of `MacroParse.v` | induction over the entries, over the fuel |
| C58 | `frozen_map_macro` with `start_*` | C36 composed with C44 |
| C59 | `fm_get_cost` | cost of a stored key = its position among the entries of its slot; double counting |
| C60 | `frozen_map_macro` | direct |
| C61 | `bitor`, `bitand`, `bitxor`, `set_sub` on any `set_impl`; the order of an intermediate HashSet and refreezing it are left open (`arranged`) | induction over the expression from C28–C30, C35 |
| C62 | `SpecializedConstructors.v` | collecting an iterator gives the items it yields |
| C63 | `frozen_set_call` | the parser meets a comma or the end where a colon must be |
| C64 | `get_many_mut_in_memory` | invariant: the cells before the index are initialized; equality with the list version |
| C65 | `analyze_hash_codes_steps` | counters erase to the analysis; the candidate sizes are counted by bounding the primes in each span of the table |
| C66 | `run` of HistorySpec operations | invariant: slots in range, keys unchanged, values supplied or written; no assumption on equality, hashing or size |
| C67 | analyze_slice_keys with counters for windows and hashed keys | equals the analysis; induction over window lengths; right windows of two or more elements panic on the first key, which ends the search for keys of different lengths |
| C68 | the set operations with the iterators of the operands as arbitrary state machines | simulation between such an iterator and the list of items still to come; instance: the index-based Iter of the library |
| C69 | fs_new under two environments and hashers; the set operations | the items are a permutation of those supplied; every operation respects permutations of the items |
| C70 | `fs_running`: a FrozenSet with its iterator; the set operations of SetRunning.v | a built set is safe to look up under any equality and hash (as C66); the operations only depend on the answers of `contains` (generalisation of the proofs of C28 to C33 and C68) |
| C71 | `Volatile.v`: construction, lookups, writes and `==` of FrozenMap as computations over a state that `Eq`, `Hash` and the hasher may read and change, with panics | the built map is safe to look up whatever the codes were (as C66); each call is then followed through its foreign calls; if answers depend on the question only, the functions agree with those of FrozenMap.v and History.v whatever the side effects (`same`, `regular_agrees`, `regular_equality`) |
| C72 | the functions of `Volatile.v` run with a conduct that behaves like any given one and records the calls (`recording`, CallSpec.v) | recording changes nothing (`echo_*`); the record is followed through each function (`logs`) |
| C73 | `VolatileSets.v`: FrozenSet and the set operations over a foreign state, the iterators keeping their positions through a panic | operands that take down each question and answer (`noted`); a call of `next` is followed question by question (`one_call`), calls are joined (`sifts_*`); taking notes changes nothing (`echoed`); if answers depend on the question only, the functions agree with SetRunning.v and FrozenSet.v whatever the side effects (`plays`) |
| C74 | `Borrows.v`: grants per memory cell, the borrows made by the loops of `get` and `get_mut`, the loop of `get_many_mut` | every stack ends in the grant of the box (`heap_ok`); shared searches only add shared grants (`only_reads`), so their tags never permit a write; a mutable search leaves its grant on top |
| C75 | `fm_new_by_name`, `fs_new_by_name` with the function from types to names as a parameter | case analysis on the two tests; the first key is transmuted at the wrong type |
| C76 | `VolatileMaps.v`: the five maps on a HashTable and ScanningMap as one type (`special`) with the code of the caller as a record of stateful functions | the built table is safe to look up whatever the codes were (`sp_built`); each call then ends in an answer or an expected panic (`replies`); if answers depend on the question only, the functions agree with Maps.v whatever the side effects (`agrees`), for slice maps except where Maps.v has undefined behaviour |
| C77 | the functions of `VolatileSets.v` run with the recording conduct of C72 | the notes of C73 and the record of C72 are taken at the same time; an invariant relating them is preserved by `contains` and hence by every operation (`keeps_*`); dropping the notes changes nothing (`records_change_nothing`) |
| C78 | `Cloning.v`: the derived `clone` of maps and sets, field by field, with the `clone` of keys, values and hashers as stateful functions that may panic | two runs of the same code with related states (`alike`) show that recording changes nothing; induction over the entries gives the copies (`clone_entries_logs`); a clone has the slots of the original and as many entries, so it is safe to look up (`same_frame_safe`); with unvarying answers it is a pure copy (`copied_map`) |
| C79 | `Volatile.v`, `VolatileSets.v`, `VolatileMaps.v` with code of the caller whose answers depend on the question only (`EffectSpec.v`) | FrozenMap, FrozenSet: `regular_agrees` and the theorems on the functional model (C38, C14, C34). Specialized maps: the table is in order for the codes answered (`lawful_build`), a lookup finds the first equal key (`lawful_find`), and the map object of C44 whose lookups are searches is simulated step by step (`sp_step_same`) |
| C80 | the functions of `VolatileMaps.v` run with code of the caller that takes down questions and answers (`witness`, SpecialCallSpec.v) | the record is followed through each function together with the unrecorded run (`traces`); the slots of the table are described by the codes answered (`finish_holds`), and a slot is the block of entries with congruent codes (`candidates_block`); writes keep that (`stored_writes`) |
| C81 | `SpecialSets.v`: a specialized set is a map of `VolatileMaps.v` without values, and an operand of the set operations of `VolatileSets.v`; one type `BH` stands for the hashers of both operands (for different types: their sum) | the theorem behind C77 (`joint_operations`) holds for any two operands whose `contains` appends a described list of calls to the record; `special_construction_stored` supplies the description for each kind of set.  Lawful code: `serves` is what the operations need of an operand in every state; all notes are then honest, and the results are those of the set operations of `SetOps.v` on plain lists |
| C82 | `VolatileRange.v`: `integers W K Q` holds the foreign operations, each a state transformer that may panic; the standard sort is a program (`sorting`) that asks for comparisons and ends with a list or a panic, given for every element type (`sorter`).  `sorter_ok` assumes that it permutes, compares only elements, and sorts by integers; nothing about stability or the number of comparisons | recorded runs as in C80 (`traces`); the sort by induction on the program; histories as in C76; lawful integers: results do not depend on the state (`same`, `gives`), lookups then are `find_pos` on an interval and the history simulation of C79 applies; sets: `operand` packages what `joint_operations` needs, so that range sets and other specialized sets can be combined |
| C83 | `IteratorUse.v`: pools of iterators, one per `Clone`; `IteratorUseSpec.v`: an iterator as items delivered and items to come | simulation between every iterator and its pair of lists, for programs of any length |
| C84 | `MapBorrows.v`: the lookups of the specialized maps, the borrows made by `get_key_value` and `Iter` | the invariant of C74 for any search that stays within the entries; references and iterators in use are shared grants, which later shared accesses keep |
| C85 | `LenModel.v`: `len` of each type with an implementation, by recursion on the type | by induction on the type; for sets and maps both inclusions and the pigeonhole principle; then C44 and C46 for LengthMap and LengthSet with keys that are values of a type (`sized`) |
| C86 | `SpecialClone.v`: the derived `clone` of the seven maps and sets, field by field, with the `clone` of keys, values and hashers as stateful functions that may panic | recording changes nothing (`notes_*`); a clone has the outline of the original (`same_outline`), so that the safety invariant of C76 passes to it, and by induction to everything a caller can have; with unvarying answers the clone is a twin whose lookups go through the same positions (`twin`), which keeps the invariant of C79 |
| C87 | nothing new: `FrozenMap` and `FrozenSet` with stateful foreign code (C72, C79) and their `clone` (C78); `LawfulCloneSpec.v` says which maps a caller with lawful code can have | invariant `in_use`: lookups find the first entry with the key (`finds`), the keys are distinct and typed; kept by clones because these answer every lookup alike (`finds_copied`) and by calls because writes move nothing (`finds_write`); then the simulation of C45/C61 |
| C88 | `StdSets.v`: a HashSet is a list that may be rearranged after each change and is searched by hash code and `==`; a BTreeSet is a list kept in ascending order | induction over the changes; `held` says independently which values should be present; then C14, C28–C35 |
| C89 | nothing new: the slice analyzer; `CollisionSpec.v` says when two hashers make the same pairs of windows collide (`collide_alike`) | the analyzer uses codes only to count distinct ones, so equal collisions give an equal result (`analysis_sees_collisions`); the conditions of C06 depend on collisions only and not on order |
| C90 | `ProjectTests.v`: inputs of the unit tests of the analyzers, the maps, the facades and the macro, and the generator `StdRng` (ChaCha12) that the hash code test seeds | the expectations are proved for every hasher that separates the windows involved (C89 reduces it to one injective hasher, then `vm_compute`) and every random state where the test uses one |
| C91 | `DocExamples.v`: payloads, calls and announced answers of the examples in the doc comments | the String examples meet the conditions of C06 whatever the hasher (`fine_untroubled`); then C38, C55, C34, C46, and C28–C31 with C88 |
| C92 | `Walks.v`: the iterators handed out by the specialized maps and sets, before and after writes through references | `ht_new` permutes (`ht_new_perm`); writes keep keys and order (`walks`, `changed_keeps`); order by the lemmas of `IterationOrder.v`: `cm_order`, `im_order`, `lm_order`, `lsm_order`, `irm_from_vec_sorted` |
| C93 | `MacroEmit.v`: `quote!` as lists of tokens; types and expressions of the caller are single tokens | `EmitSpec.v` reads the tokens back into a statement and compares it with what the expansion of `MacroModel.v` means; induction over the entries, cases over map types |
| C94 | `Benchmarks.v`: payload, query and announced representation of each benchmark; a HashMap as the last entry for each key | get and totality from C01–C06 (duplicates for "Green"); the string analysis is computed, for the windows with `analysis_sees_collisions` |
| C95 | `EmitRun.v`: parser (C57) and emission (C93) in sequence; `compiles` checks the block against the declarations, `execute_*` calls the constructors of `Maps.v` by name | `WrittenSpec.v` for the text of a call; the block read back executes as the expansion of C58, then C36 and C58 |
| C96 | the maps of `MapObjects.v` and `History.v` with payloads in which keys repeat | `RepeatedSpec.v`: a sequence of entries, operations go to the first with the key; simulation with equal observations, from the lookup lemmas (which never needed distinct keys); for the macro the analysis of repeated keys |
| C97 | `irm_from_vec` and `irm_object` (`MapObjects.v`), `fm_new` and `run` with u32 keys | `PlaceSpec.v`: a list of entries whose operations go to a place computed from the key; simulation with equal observations; stability of the sort; pigeonhole for the keys never given; case analysis of the spread, which wraps to a negative number if it does not fit |
| C98 | `is_subset`, `is_superset`, `set_eq` (`SetOps.v`), `fs_as_set`, `fm_eq` with payloads in which keys repeat | both sides of each comparison in terms of members and numbers of items; pigeonhole for symmetry; FrozenMap by the arrangement of C96; counterexamples to reflexivity and symmetry |

The expectations of the project's tests are therefore a check of the transcription as well as a result.
`StdRng` belongs to the crate `rand`, whose source is not available here; its transcription is written from general knowledge of
the algorithm, and the model obtains the 1000 slots and 359 collisions that the test expects. The test case with 8,000,000
random codes is not proved; a C program with the same algorithms, not part of this development, obtained the expected numbers.

## 4. Trusted base

* Coq's kernel. `vm_compute` is used in `Examples.v`, in `ProjectTestProofs.v`, `DocExampleProofs.v` and in refutations.
* The transcription of the Rust source into Gallina (sections 1 and 2).

## 5. Print Assumptions

Every theorem of `Properties.v` is "Closed under the global context": no axioms at all.
`coqchk -o` over the whole development lists only axioms of modules that the standard library loads
(`Coq.ssr.ssrunder.Under_rel.*`, pulled in by `lia`); no theorem depends on them.
