{"id": "C01", "title": "FrozenMap lookup is exact", "statement": "If a FrozenMap is built from entries whose keys are pairwise different, then get(k) returns Some(v) exactly when some supplied entry (k', v) has k' == k, and None exactly when no supplied key equals k. This holds whichever internal representation the constructor selects. It holds for u32, String and every other key type with a lawful Eq/Hash.", "quantifier": "every key type class (u32, String, other), every payload with distinct keys (of any size with overflow checks, of fewer than 2^32 entries without), every lawful hasher, every outcome of the unstable sort, both overflow-check profiles, every queried key", "why_tests_cant": "The representation depends on payload size, key shape and hash values; the defect space is the product of all payloads and all hash functions, tests fix a handful of both.", "anchors": ["frozen-collections-core/src/facades/frozen_map.rs: FrozenMap::new, FrozenMap::get", "frozen-collections-core/src/specialized_maps/hash_table.rs: HashTable::new, get_hash_info"]}
{"id": "C02", "title": "get, get_key_value, contains_key and get_mut agree", "statement": "On any FrozenMap built from any payload (duplicates allowed) get_key_value(k) is Some exactly when get(k) is Some, returns a stored key equal to k together with the same value, contains_key(k) is true exactly when get(k) is Some, and get_mut(k) refers to the very entry whose value get(k) returns. For u32 keys held in the contiguous-range representation the key equality part needs distinct keys.", "quantifier": "every built map, every key", "why_tests_cant": "There are eleven representations times four accessor functions, each written separately; agreement must hold for all contents.", "anchors": ["frozen-collections-core/src/facades/frozen_map.rs: get, get_key_value, get_mut, contains_key", "frozen-collections-core/src/specialized_maps/*.rs: get, get_key_value, get_mut, contains_key"]}
{"id": "C03", "title": "Nothing lost, nothing invented by construction", "statement": "The (key, value) pairs visited by iter() of a built FrozenMap are a permutation of the supplied payload, keys() and values() are its first and second projections in the same order, len() is the payload length and is_empty() says whether it is zero.", "quantifier": "every payload (duplicates allowed), every key type class, every hasher for which construction returns", "why_tests_cant": "Construction hashes, sorts and regroups entries; a single dropped or duplicated entry shows only for particular hash collisions.", "anchors": ["frozen-collections-core/src/facades/frozen_map.rs: iter, keys, values, len, is_empty", "frozen-collections-core/src/specialized_maps/hash_table.rs: HashTable::new"]}
{"id": "C04", "title": "Construction succeeds for ordinary (non-u32, non-String) keys", "statement": "Building a FrozenMap from any payload of fewer than 2^31 entries whose key type is neither u32 nor String never panics, never has undefined behaviour and always terminates, whatever the hash function returns.", "quantifier": "every payload with fewer than 2^31 entries, every hash function (even inconsistent with Eq), both overflow profiles", "why_tests_cant": "Depends on all hash code vectors; bad modulus, slot index or capacity overflow only occur for some.", "anchors": ["frozen-collections-core/src/facades/frozen_map.rs: new, new_common_map", "frozen-collections-core/src/specialized_maps/common_map.rs: from_vec_with_hasher", "frozen-collections-core/src/analyzers/hash_code_analyzer.rs"]}
{"id": "C05", "title": "Construction succeeds for u32 keys", "statement": "Building a FrozenMap from any payload of fewer than 2^31 entries with u32 keys never panics, never has undefined behaviour and terminates; when the keys are distinct and consecutive it uses the direct-index representation and otherwise a hashed one.", "quantifier": "every payload of u32 keys with fewer than 2^31 entries, both overflow profiles", "why_tests_cant": "The min/max/count arithmetic and the range assertion must be right for every multiset of 32-bit keys.", "anchors": ["frozen-collections-core/src/facades/frozen_map.rs: new_u32_map", "frozen-collections-core/src/analyzers/int_key_analyzer.rs: analyze_int_keys", "frozen-collections-core/src/specialized_maps/integer_range_map.rs: from_vec"]}
{"id": "C06", "title": "Exactly which String payloads can be built", "statement": "Building a FrozenMap from String keys (fewer than 2^31 entries) succeeds for every payload except the following, where it fails: at least 4 entries; either more than 255 entries or some byte length shared by more than 3 keys; keys not all of the same byte length; shortest key non-empty; no single-byte left-aligned position is distinctive enough; and then either some single-byte right-aligned position is distinctive enough (the constructor executes undefined behaviour), or none is, the shortest key has at least 2 bytes and no two-byte left-aligned window is distinctive enough (the constructor panics). 'Distinctive enough' means at most floor(n/20) repeated hash values over the n keys. Hence the claim 'construction of a String map never panics and never has undefined behaviour' is false.", "quantifier": "every String payload, every hasher, both overflow profiles", "why_tests_cant": "The failing payloads are characterised by a property of all windows under all hash functions; the existing unit tests of the analyzer stop before the failing call.", "anchors": ["frozen-collections-core/src/facades/frozen_map.rs: new_string_map", "frozen-collections-core/src/analyzers/slice_key_analyzer.rs: analyze_slice_keys, is_sufficiently_unique", "frozen-collections-core/src/specialized_maps/right_slice_map.rs: from_vec_with_hasher"]}
{"id": "C07", "title": "The right-aligned representation is never safely usable with a forward range", "statement": "Creating a right-slice map (or set) from a non-empty payload in which some key is at least as long as the end of a non-empty forward range a..b (a<b) never yields a usable map: it performs an out-of-bounds unchecked slice or panics. With a reversed or empty range a..b, b<=a, and all keys at least a bytes long it is a correct map.", "quantifier": "every payload, every range, every hasher, both profiles", "why_tests_cant": "Undefined behaviour may appear to work in a test run; safety must hold for all keys and ranges.", "anchors": ["frozen-collections-core/src/specialized_maps/right_slice_map.rs: from_vec_with_hasher, get_hash_info", "frozen-collections-core/src/traits/slice_hash.rs: SliceHash for String"]}
{"id": "C08", "title": "The left-aligned representation is correct when keys cover the range", "statement": "A left-slice map built with a forward range a..b from distinct keys all at least b bytes long answers every lookup exactly, including lookups with keys shorter than b. If some key is shorter than b construction performs an out-of-bounds unchecked slice, so the public constructor is not safe for all arguments.", "quantifier": "every payload, every range, every hasher, every queried key of any length", "why_tests_cant": "Requires reasoning over all key lengths relative to the range.", "anchors": ["frozen-collections-core/src/specialized_maps/left_slice_map.rs: from_vec_with_hasher, get_hash_info, get"]}
{"id": "C09", "title": "Behaviour with duplicate keys", "statement": "With duplicate keys in the payload, a FrozenMap over non-u32 keys (and every hashed or scanning map) returns for k some value supplied for a key equal to k, and None exactly when no supplied key equals k. For u32 keys this fails: a payload with duplicates can make get and contains_key report a key that was never supplied. It still holds for u32 payloads unless the key spread equals the number of entries minus one.", "quantifier": "every payload including duplicates, every queried key", "why_tests_cant": "Only particular duplicate patterns trigger the phantom key.", "anchors": ["frozen-collections-core/src/facades/frozen_map.rs: new, get", "frozen-collections-core/src/specialized_maps/integer_range_map.rs: from_vec, get", "frozen-collections-core/src/analyzers/int_key_analyzer.rs"]}
{"id": "C10", "title": "Writing through get_mut", "statement": "After writing w through the reference returned by get_mut(k), get(k) returns w, get of every key not equal to k is unchanged, and the key sequence, len and iteration order are unchanged.", "quantifier": "every built map, every key, every written value", "why_tests_cant": "A wrong entry offset in any representation would corrupt a neighbouring entry for some layouts only.", "anchors": ["frozen-collections-core/src/facades/frozen_map.rs: get_mut", "frozen-collections-core/src/specialized_maps/*.rs: get_mut"]}
{"id": "C11", "title": "get_many_mut never aliases", "statement": "get_many_mut(keys) returns None exactly when two of the requested keys are equal or some requested key is missing; otherwise it returns, in order, references to the values get would return for each key, and no two of the returned references designate the same value. This holds for every payload, duplicates included, provided Eq is an equivalence relation.", "quantifier": "every built map, every array of requested keys of any length", "why_tests_cant": "Aliasing mutable references are undefined behaviour regardless of what a test observes; must hold for all key arrays.", "anchors": ["frozen-collections-core/src/facades/frozen_map.rs: get_many_mut", "frozen-collections-core/src/specialized_maps/*.rs: get_many_mut"]}
{"id": "C12", "title": "Ill-behaved Eq breaks get_many_mut soundness", "statement": "If the key type's Eq is not an equivalence relation, get_many_mut can hand out two mutable references to the same value, contrary to the documented promise that such logic errors never cause undefined behaviour.", "quantifier": "existence over all boolean equality functions", "why_tests_cant": "A universal safety promise; refutation needs an adversarial Eq.", "anchors": ["frozen-collections-core/src/facades/frozen_map.rs: FrozenMap docs, get_many_mut", "frozen-collections-core/src/specialized_maps/scanning_map.rs: get_many_mut"]}
{"id": "C13", "title": "Indexing panics exactly on missing keys", "statement": "map[k] and the mutable form return the value get/get_mut would return, and panic exactly when get(k) is None.", "quantifier": "every built map, every key", "why_tests_cant": "Universally quantified over contents and keys.", "anchors": ["frozen-collections-core/src/facades/frozen_map.rs: Index, IndexMut", "frozen-collections-core/src/specialized_maps/*.rs: Index, IndexMut"]}
{"id": "C14", "title": "Map equality is extensional", "statement": "For maps built from payloads with distinct keys and a lawful value equality, a == b is true exactly when both have the same number of entries and every key maps to equal values in both; it is reflexive, symmetric and transitive, and does not depend on payload order, representation or hasher. With duplicate keys symmetry fails.", "quantifier": "every pair of built maps", "why_tests_cant": "Symmetry and transitivity are relations between all maps; code only checks one direction.", "anchors": ["frozen-collections-core/src/facades/frozen_map.rs: PartialEq for FrozenMap"]}
{"id": "C15", "title": "Memory safety under arbitrary hash functions", "statement": "Lookups in hashed maps never read outside the entry table whatever hash codes the (possibly inconsistent, non-deterministic) Hash implementation produces at analysis, build and lookup time.", "quantifier": "all triples of hash functions used at analysis, build and lookup time, all payloads and keys", "why_tests_cant": "The lookup uses unchecked indexing, so a single bad slot is undefined behaviour that tests may miss.", "anchors": ["frozen-collections-core/src/specialized_maps/hash_table.rs: get_hash_info", "frozen-collections-core/src/specialized_maps/common_map.rs: get", "frozen-collections-core/src/specialized_maps/integer_map.rs: get", "frozen-collections-core/src/specialized_maps/length_map.rs: get"]}
{"id": "C16", "title": "Lookups examine only colliding entries", "statement": "In a hashed map the entries compared during a lookup are exactly the stored entries whose hash code is congruent to the key's hash code modulo the number of slots; different slots are disjoint and together cover all entries.", "quantifier": "every payload, every hash function, every slot count, every key", "why_tests_cant": "Quantifies over all layouts produced by the grouping loop.", "anchors": ["frozen-collections-core/src/specialized_maps/hash_table.rs: HashTable::new, get_hash_info"]}
{"id": "C17", "title": "Hash table size selection is sound", "statement": "For any non-empty list of hash codes the recommended table size is between the input length minus the tolerated collisions and the documented multiple (16, 10 or 3) of the input length, the reported collision count is exactly the number of codes minus the number of distinct residues modulo that size, and either the size is the input length or the collisions are within the tolerated rate (none below 128 codes, at most 5 per full hundred otherwise). For an empty list it is 0. It never panics.", "quantifier": "every list of 64-bit hash codes of any length", "why_tests_cant": "The search has early exits and a shrinking tolerance; only exhaustive reasoning covers all code vectors.", "anchors": ["frozen-collections-core/src/analyzers/hash_code_analyzer.rs: analyze_hash_codes"]}
{"id": "C18", "title": "Small inputs get the smallest perfect table", "statement": "For fewer than 8 hash codes the recommended size is the smallest size between n and 16n with no collisions whenever one exists, and n otherwise.", "quantifier": "every list of fewer than 8 arbitrary 64-bit codes", "why_tests_cant": "Codes range over 2^64 values each.", "anchors": ["frozen-collections-core/src/analyzers/hash_code_analyzer.rs: analyze_hash_codes"]}
{"id": "C19", "title": "The table size search terminates", "statement": "analyze_hash_codes terminates for inputs of every size, including the very large ones that search for successive primes, and for fewer than 2^60 codes no machine word overflows on the way.", "quantifier": "every input length", "why_tests_cant": "Termination of an unbounded search loop over all lengths (needs infinitely many primes).", "anchors": ["frozen-collections-core/src/analyzers/hash_code_analyzer.rs: analyze_hash_codes, is_prime"]}
{"id": "C20", "title": "Primality test is right where it is used", "statement": "For odd candidates greater than 5 and below 2^64 the primality test used while sizing tables returns true exactly for primes.", "quantifier": "every odd number in (5, 2^64)", "why_tests_cant": "Floating-point square root bound has to be right for 2^63 inputs.", "anchors": ["frozen-collections-core/src/analyzers/hash_code_analyzer.rs: is_prime"]}
{"id": "C21", "title": "Integer range detection", "statement": "For distinct integer keys whose spread and count fit the key type, range detection reports 'range' exactly when the keys are consecutive integers (in any order) and the list is non-empty. With duplicates it can report 'range' for keys with gaps. For signed types whose spread exceeds the type it overflows: it panics with overflow checks.", "quantifier": "every list of keys of every primitive integer type, both overflow profiles", "why_tests_cant": "All key multisets of all widths, including extremes.", "anchors": ["frozen-collections-core/src/analyzers/int_key_analyzer.rs: analyze_int_keys"]}
{"id": "C22", "title": "Range map constructor contract", "statement": "Building a range map from a non-empty payload of distinct keys (spread within the key type and usize) succeeds exactly when the keys are consecutive integers, and panics otherwise as documented; lookups are then exact for every key of the type. With duplicates the documented panic does not always happen. An empty range map panics on lookup of 0.", "quantifier": "every payload, every integer type, every queried key", "why_tests_cant": "All key multisets of all widths.", "anchors": ["frozen-collections-core/src/specialized_maps/integer_range_map.rs: from_vec, get, get_mut, get_key_value"]}
{"id": "C23", "title": "Length-based representation chosen exactly when useful", "statement": "Slice keys are looked up by length exactly when there are at most 255 of them and no length occurs more than 3 times.", "quantifier": "every list of slices", "why_tests_cant": "All length multisets.", "anchors": ["frozen-collections-core/src/analyzers/slice_key_analyzer.rs: analyze_lengths"]}
{"id": "C24", "title": "Subslice selection is in range, distinctive and shortest", "statement": "When the analyzer proposes a left or right window (index, len) every key is at least index+len long, 1 <= len <= 16, the number of repeated window hashes is at most floor(n/20), and for a left window no shorter left window and no earlier left window of the same length was distinctive enough. If all keys have one length the window is a left one and shorter than that length; if not, a left window has length 1, or length 2 when no right byte is distinctive, and a right window has length 1 and is the first distinctive right byte when no left byte is. When the analyzer proposes no window then either all keys have one length and no left window of 1 to 16 elements shorter than the keys is distinctive, or the keys differ in length, one is at most one element long, and no left or right byte is distinctive.", "quantifier": "every list of slices, every hasher", "why_tests_cant": "All key sets and hash functions.", "anchors": ["frozen-collections-core/src/analyzers/slice_key_analyzer.rs: analyze_subslices, is_sufficiently_unique"]}
{"id": "C25", "title": "Duplicate tolerance equals 5 percent rounded down", "statement": "The floating-point expression used for the tolerated number of duplicate windows equals floor(n/20) for every n below 2^52.", "quantifier": "every n below 2^52", "why_tests_cant": "Floating point rounding at every n.", "anchors": ["frozen-collections-core/src/analyzers/slice_key_analyzer.rs: analyze_subslices (acceptable_duplicates)"]}
{"id": "C26", "title": "Map iterators are exact-size and fused", "statement": "iter(), keys() and values() yield each entry once in table order, report at every point the exact number of remaining items through len, size_hint and count, and keep returning None after the end; keys().fold and values().fold visit the same items.", "quantifier": "every entry list, every number of items already consumed", "why_tests_cant": "Every prefix length of every list.", "anchors": ["frozen-collections-core/src/specialized_maps/iterators.rs: Iter, Keys, Values"]}
{"id": "C27", "title": "Set iterators", "statement": "A set's iter() yields each item once, len and size_hint are exact at every point and it is fused. count() is exact only on a fresh iterator: after k items were consumed from n it returns n-2k, or overflows when 2k>n.", "quantifier": "every entry list, every number of items already consumed, both overflow profiles", "why_tests_cant": "Every prefix length of every list.", "anchors": ["frozen-collections-core/src/specialized_sets/iterators.rs: Iter, IntoIter"]}
{"id": "C28", "title": "Union", "statement": "For lawful sets with distinct elements, union yields each element that is in either set exactly once and nothing else.", "quantifier": "every pair of sets of any implementation (including std HashSet and BTreeSet) with any sizes", "why_tests_cant": "Two size-dependent code paths over all pairs of sets.", "anchors": ["frozen-collections-core/src/specialized_sets/iterators.rs: Union", "frozen-collections-core/src/specialized_sets/set.rs: union"]}
{"id": "C29", "title": "Intersection", "statement": "For lawful sets with distinct elements, intersection yields each element that is in both sets exactly once and nothing else.", "quantifier": "every pair of sets", "why_tests_cant": "Two size-dependent code paths over all pairs of sets.", "anchors": ["frozen-collections-core/src/specialized_sets/iterators.rs: Intersection", "frozen-collections-core/src/specialized_sets/set.rs: intersection"]}
{"id": "C30", "title": "Difference and symmetric difference", "statement": "For lawful sets with distinct elements, difference yields exactly the elements of the first set not in the second, and symmetric difference exactly those in one but not both, each once.", "quantifier": "every pair of sets", "why_tests_cant": "All pairs of sets.", "anchors": ["frozen-collections-core/src/specialized_sets/iterators.rs: Difference, SymmetricDifference", "frozen-collections-core/src/specialized_sets/set.rs"]}
{"id": "C31", "title": "Size hints of set operations", "statement": "At any point the number of items still to come from difference, symmetric difference and intersection iterators lies within size_hint. For union this is true of a fresh iterator, but after items were consumed the lower bound can exceed the number of remaining items.", "quantifier": "every pair of sets, every number of items already consumed", "why_tests_cant": "Every point of every iteration.", "anchors": ["frozen-collections-core/src/specialized_sets/iterators.rs: size_hint"]}
{"id": "C32", "title": "Subset, superset, disjoint", "statement": "For lawful sets with distinct elements is_subset, is_superset and is_disjoint return true exactly when the mathematical relation holds. With duplicate elements is_subset can wrongly return false; is_disjoint stays right.", "quantifier": "every pair of sets", "why_tests_cant": "All pairs of sets, size-dependent shortcuts.", "anchors": ["frozen-collections-core/src/specialized_sets/set_ops.rs: is_disjoint, is_subset, is_superset", "frozen-collections-core/src/specialized_sets/set.rs"]}
{"id": "C33", "title": "Set equality is extensional", "statement": "For sets with distinct elements, a == b (FrozenSet with FrozenSet, specialized set with any set) is true exactly when both contain the same elements; it is reflexive, symmetric and transitive.", "quantifier": "every pair/triple of sets", "why_tests_cant": "Only one inclusion and the sizes are compared.", "anchors": ["frozen-collections-core/src/facades/frozen_set.rs: PartialEq for FrozenSet", "frozen-collections-core/src/specialized_sets/*.rs: PartialEq"]}
{"id": "C34", "title": "FrozenSet membership is exact", "statement": "If construction of a FrozenSet returns, contains(x) is true exactly when x was supplied, get(x) returns a supplied element equal to x, iter() visits a permutation of the supplied items and len() counts them (distinct u32 items assumed for the range representation).", "quantifier": "every payload, element type class, hasher and queried value", "why_tests_cant": "Same product of representations, payloads and hashers as for maps.", "anchors": ["frozen-collections-core/src/facades/frozen_set.rs: new, contains, get, iter, len"]}
{"id": "C35", "title": "Set operators", "statement": "The operators |, &, ^ and - on frozen or specialized sets produce a collection containing exactly the union, intersection, symmetric difference and difference.", "quantifier": "every pair of sets", "why_tests_cant": "All pairs of sets.", "anchors": ["frozen-collections-core/src/facades/frozen_set.rs: BitOr, BitAnd, BitXor, Sub", "frozen-collections-core/src/specialized_sets/*.rs: BitOr, BitAnd, BitXor, Sub"]}
{"id": "C36", "title": "Macro picks a fitting representation", "statement": "For every list of distinct literal keys given to frozen_map!, integer keys lead to exactly one of: the macro itself panics (count or spread of the keys overflows the key type while the compiler has overflow checks), the emitted code does not compile (three or more consecutive integers, because the range map is emitted with one generic argument too many), or a map with exact lookups. String keys lead to exactly one of: the macro panics, the emitted code has undefined behaviour at run time (right-aligned window chosen), or a map with exact lookups. All other key types always give a map with exact lookups. The representation chosen at compile time with one random hasher is valid with every run-time hasher.", "quantifier": "every literal key list, every pair of compile-time and run-time hashers", "why_tests_cant": "The compile-time hasher is random and different from the run-time one; tests see one random draw.", "anchors": ["frozen-collections-core/src/macros/frozen_map.rs: frozen_map_macro"]}
{"id": "C37", "title": "Default is empty", "statement": "FrozenMap::default() and FrozenSet::default() are empty and find nothing.", "quantifier": "every key", "why_tests_cant": "Universally quantified over keys.", "anchors": ["frozen-collections-core/src/facades/frozen_map.rs: Default", "frozen-collections-core/src/facades/frozen_set.rs: Default"]}
{"id": "C38", "title": "Histories refine an abstract map", "statement": "Any finite sequence of get, get_key_value, contains_key, index, len, iter, and writes through get_mut, index_mut and get_many_mut on a built FrozenMap with distinct keys gives the same observable results as an abstract finite map with a fixed key set (iteration up to order).", "quantifier": "every finite history of operations, every payload with distinct keys, every hasher", "why_tests_cant": "Unbounded histories.", "anchors": ["frozen-collections-core/src/facades/frozen_map.rs: FrozenMap"]}
{"id": "C39", "title": "Reinterpretation of keys never mixes types", "statement": "The constructor and accessors of FrozenMap and FrozenSet reinterpret keys as u32 or String only when the key type is u32, respectively String; no accessor ever reinterprets a key as a different type.", "quantifier": "every key type class, payload and accessor call", "why_tests_cant": "A wrong reinterpretation is undefined behaviour regardless of test results.", "anchors": ["frozen-collections-core/src/facades/frozen_map.rs: new, get, get_key_value, get_mut, iter", "frozen-collections-core/src/facades/frozen_set.rs: new, contains, get, iter"]}
{"id": "C40", "title": "Capacity limits", "statement": "A hashed map whose index type S can hold m entries is built from a non-empty payload of n < 2^31 entries when n <= m and panics with the capacity message when n > m. With S = u128 every non-empty payload panics. With overflow checks on, 2^31 or more entries always panic even though S = usize is documented to allow usize::MAX.", "quantifier": "every n, every index type, both profiles", "why_tests_cant": "Payloads of 2^31 entries are impractical in tests; boundaries at each width.", "anchors": ["frozen-collections-core/src/specialized_maps/hash_table.rs: HashTable::new", "frozen-collections-core/src/specialized_sets/common_set.rs: capacity docs"]}
{"id": "C41", "title": "Specialized maps are exact", "statement": "ScanningMap, CommonMap, IntegerMap and LengthMap built directly from distinct keys answer get exactly: Some(v) for a key equal to a supplied one, None otherwise, also for queries of a borrowed type; construction succeeds whenever the index type can count the entries.", "quantifier": "every payload of distinct keys, every lawful hasher, every index type that fits, every borrowed query", "why_tests_cant": "Unbounded payloads and hash functions; the choice of table size depends on every hash code.", "anchors": ["frozen-collections-core/src/specialized_maps/scanning_map.rs", "frozen-collections-core/src/specialized_maps/common_map.rs", "frozen-collections-core/src/specialized_maps/integer_map.rs", "frozen-collections-core/src/specialized_maps/length_map.rs"]}
{"id": "C42", "title": "Huge maps built without overflow checks lose entries", "statement": "It is false that a built map always finds its keys: there are 2^32 distinct keys with equal hash codes for which, without overflow checks, construction succeeds, len() is 2^32, and get returns None for every key.", "quantifier": "existence, for every outcome of the unstable sort", "why_tests_cant": "Needs 2^32 entries in a release build.", "anchors": ["frozen-collections-core/src/specialized_maps/hash_table.rs: HashTable::new"]}
{"id": "C43", "title": "Integer range detection on the whole domain", "statement": "For distinct keys of any primitive integer type, with no bound on spread or count: without overflow checks the analysis reports 'range' exactly for non-empty consecutive keys that do not fill the whole type; with overflow checks it panics exactly when the number of keys or the difference of two keys exceeds the maximum of the type and otherwise reports 'range' exactly for non-empty consecutive keys.", "quantifier": "every integer type, every list of distinct keys, both overflow profiles", "why_tests_cant": "Wrap-around happens only near the limits of each type, which tests of ordinary keys never reach.", "anchors": ["frozen-collections-core/src/analyzers/int_key_analyzer.rs: analyze_int_keys"]}
{"id": "C44", "title": "Specialized maps: histories refine an abstract map", "statement": "Any finite sequence of get, get_key_value, contains_key, index, len, is_empty, iter, and writes through get_mut, index_mut and get_many_mut on each specialized map (Scanning, Common, Integer, IntegerRange, Length, LeftSlice, RightSlice), with queries of a borrowed type where the map allows it, gives the same observable results as an abstract finite map with a fixed key set (iteration up to order). Maps are built from distinct keys meeting the constructor's documented conditions; RightSlice needs the reversed range.", "quantifier": "every payload, every history, every lawful hasher and index type", "why_tests_cant": "Unbounded histories on seven separate implementations of the same interface.", "anchors": ["frozen-collections-core/src/specialized_maps/*.rs: get, get_key_value, get_mut, get_many_mut, contains_key, Index, IndexMut, iter, len"]}
{"id": "C45", "title": "Specialized maps: equality is extensional", "statement": "== between two maps of the same specialized type built from distinct keys (with different hashers, or different slice ranges) is true exactly when they hold the same keys with equal values.", "quantifier": "every pair of payloads, hashers and ranges", "why_tests_cant": "All pairs of maps; hashers differ between the two operands.", "anchors": ["frozen-collections-core/src/specialized_maps/*.rs: PartialEq"]}
{"id": "C46", "title": "Specialized sets are exact and lawful", "statement": "Each specialized set (Scanning, Common, Integer, IntegerRange, Length, LeftSlice, RightSlice) holds a permutation of the supplied items, reports their number, answers get and contains exactly (also for borrowed queries; duplicates allowed except in a range set), and its Set implementation satisfies the assumptions of the set algebra, so unions, intersections, relations and equality with any other set are right.", "quantifier": "every payload meeting the constructor's conditions, every lawful hasher, index type, query", "why_tests_cant": "Unbounded payloads; seven separate implementations.", "anchors": ["frozen-collections-core/src/specialized_sets/*.rs: get, contains, iter, Len, Set"]}
{"id": "C47", "title": "Which table sizes are tried and chosen", "statement": "For n > 0 hash codes (n < 2^60) the size analysis tries n first and then an ascending list of sizes between n minus the tolerated collisions and the size limit: every size if n < 8; otherwise primes from 131 on, at most 25% apart up to 7199369; beyond that at most seven sizes at least n/3 apart. It returns the first size with no more collisions than tolerated at its position and, unless it is the first, fewer than with n slots; if there is none it returns n. For exactly eight codes the returned size is always 8, however many collide.", "quantifier": "every list of up to 2^60 arbitrary codes", "why_tests_cant": "The outcome depends on every code and on the position of each size in the list; large inputs need more than 7 million codes.", "anchors": ["frozen-collections-core/src/analyzers/hash_code_analyzer.rs: analyze_hash_codes, PRIMES"]}
{"id": "C48", "title": "Observations of a FrozenMap depend only on its content", "statement": "Two FrozenMaps built from the same distinct entries in any two orders, with any two lawful hashers, with or without overflow checks and with any two correct unstable sorts, answer every finite history of operations (get, get_key_value, contains_key, index, len, is_empty, iter, writes through get_mut, index_mut, get_many_mut) alike, iteration up to order.", "quantifier": "every payload and permutation of it, every pair of lawful hashers and environments, every history", "why_tests_cant": "Quantifies over pairs of hashers and all permutations of all payloads.", "anchors": ["frozen-collections-core/src/facades/frozen_map.rs: FrozenMap::new and all accessors"]}
{"id": "C49", "title": "Number of key comparisons in a lookup", "statement": "FrozenMap::get makes at most as many == calls as there are entries whose code falls into the slot of the queried key, hence at most one more than the collisions reported by the size analysis; an unsuccessful lookup makes exactly that many; a u32 range map makes none; maps of fewer than four entries compare with each entry at most once. With 4 to 7 ordinary keys, if some size between n and 16n separates all hash codes, every lookup needs at most one comparison. The latter is false for 8 keys: 8 distinct u32 keys that a table of 9 slots separates are all put into one slot, and a lookup makes 8 comparisons.", "quantifier": "every payload, hasher, key and environment", "why_tests_cant": "The number of comparisons is not visible in the results; depends on all codes.", "anchors": ["frozen-collections-core/src/specialized_maps/hash_table.rs: HashTable::find", "frozen-collections-core/src/analyzers/hash_code_analyzer.rs: analyze_hash_codes", "frozen-collections-core/src/specialized_maps/scanning_map.rs: get", "frozen-collections-core/src/specialized_maps/integer_range_map.rs: get"]}
{"id": "C50", "title": "Debug output", "statement": "A FrozenMap prints as a map of exactly its entries in iteration order. Iterators print exactly the items still to come as a list; the set operations print exactly their items. Each specialized map prints as a map of exactly the entries it was built from. A CommonSet prints as a list of exactly its items; every other specialized set prints as a map from exactly its items to (). It is false that equal sets print alike up to order: a ScanningSet and a CommonSet of the same items compare equal and print differently.", "quantifier": "every payload, hasher, environment; every point of iteration", "why_tests_cant": "All contents and all points of iteration; the shape depends on the chosen representation.", "anchors": ["frozen-collections-core/src/facades/frozen_map.rs: Debug", "frozen-collections-core/src/specialized_maps/*.rs: Debug", "frozen-collections-core/src/specialized_sets/*.rs: Debug", "frozen-collections-core/src/specialized_maps/iterators.rs: Debug", "frozen-collections-core/src/specialized_sets/iterators.rs: Debug"]}
{"id": "C51", "title": "Laws relating the set operations", "statement": "For sets without duplicate items the items yielded satisfy |A or B| + |A and B| = |A| + |B|, |A - B| + |A and B| = |A|, |A xor B| = |A - B| + |B - A|, |A xor B| + |A and B| = |A or B|. Swapping the operands of union, intersection and symmetric difference yields the same members in the same number. is_disjoint holds exactly when the intersection yields nothing, is_subset exactly when A - B yields nothing, is_superset exactly when B - A yields nothing.", "quantifier": "every pair of lawful sets without duplicates", "why_tests_cant": "All pairs of sets; each operation has its own iteration strategy depending on which set is larger.", "anchors": ["frozen-collections-core/src/specialized_sets/set.rs: Set", "frozen-collections-core/src/specialized_sets/set_ops.rs", "frozen-collections-core/src/specialized_sets/iterators.rs"]}
{"id": "C52", "title": "Iteration order of a FrozenMap", "statement": "A map of fewer than four entries iterates in the order of the payload. A map of at least four consecutive distinct u32 keys iterates in ascending key order. Any other map iterates by descending slot (code modulo table size), where codes are the integers themselves, hashes, lengths or hashes of a window.", "quantifier": "every payload, hasher and environment", "why_tests_cant": "The order is a consequence of the layout of the table for all payloads and sorts.", "anchors": ["frozen-collections-core/src/facades/frozen_map.rs: FrozenMap::iter", "frozen-collections-core/src/specialized_maps/hash_table.rs: HashTable::new", "frozen-collections-core/src/specialized_maps/integer_range_map.rs: from_vec"]}
{"id": "C53", "title": "The set algebra of FrozenSets", "statement": "For two FrozenSets built from items without duplicates (with any hashers, so with any internal representations) union, intersection, difference and symmetric difference yield exactly the members the names say, each once, each being one of the items supplied; |, &, - and ^ return sets of exactly those members; is_subset, is_superset and is_disjoint answer accordingly, all in terms of the items the sets were built from and without panic or undefined behaviour.", "quantifier": "every pair of item lists of one element type, hashers and environments", "why_tests_cant": "All pairs of sets and all pairs of the eleven representations.", "anchors": ["frozen-collections-core/src/facades/frozen_set.rs: BitOr, BitAnd, BitXor, Sub, Set", "frozen-collections-core/src/specialized_sets/set.rs: Set", "frozen-collections-core/src/specialized_sets/set_ops.rs", "frozen-collections-core/src/specialized_sets/iterators.rs"]}
{"id": "C54", "title": "Order of the set operations", "statement": "union yields the items of the larger set (the second if equally large) followed by the items of the other not in it; intersection yields the items of the smaller set (the second if equally large) that are in the other; difference yields the items of the first set not in the second; symmetric_difference yields those of the first then those of the second. Each in the iteration order of its set, also if the sets contain duplicates.", "quantifier": "every pair of lawful sets", "why_tests_cant": "All pairs of sets; the order and the origin of the items depend on the sizes.", "anchors": ["frozen-collections-core/src/specialized_sets/iterators.rs: Union, Intersection, Difference, SymmetricDifference"]}
{"id": "C55", "title": "Public constructors", "statement": "from_vec, from_vec_with_hasher, from, with_hasher, from_iter and from_iter_with_hasher of FrozenMap and FrozenSet given the same entries in the same order and the same hash builder build the same collection.", "quantifier": "every payload, hash builder and iterator yielding the payload", "why_tests_cant": "All payloads and iterators.", "anchors": ["frozen-collections-core/src/facades/frozen_map.rs: from_vec, from_vec_with_hasher, from, with_hasher, from_iter, from_iter_with_hasher", "frozen-collections-core/src/facades/frozen_set.rs: from_vec, from_vec_with_hasher, from, with_hasher, from_iter, from_iter_with_hasher"]}
{"id": "C56", "title": "Collecting from an iterator of a collection", "statement": "A FrozenMap collected from the cloned entries of a FrozenMap with distinct keys compares equal to it in both directions and answers every history of operations alike, whatever the hash builders; for keys other than String collecting always succeeds. It is false that it always succeeds for String keys: with another hash builder constructing the copy may panic. A FrozenSet collected from a set operation on two FrozenSets contains exactly the members of that operation, each once; for items other than String collecting it always succeeds.", "quantifier": "every payload, hash builders, representation, history; every pair of sets", "why_tests_cant": "All payloads and hash builders; the copy may use another representation than the original.", "anchors": ["frozen-collections-core/src/facades/frozen_map.rs: FrozenMap::from_iter_with_hasher, iter", "frozen-collections-core/src/facades/frozen_set.rs: FrozenSet::from_iter_with_hasher", "frozen-collections-core/src/specialized_maps/iterators.rs: Iter", "frozen-collections-core/src/specialized_sets/iterators.rs"]}
{"id": "C57", "title": "Arguments of the frozen_map macro", "statement": "A call frozen_map!(T, k1: v1, ..., kn: vn) with or without a comma at the end is understood as exactly those entries in that order. Conversely a call is accepted only if its tokens are a type, a comma and entries key : value each followed by at most one comma, with nothing left over; every other call is a compile error (also frozen_map!(T) without the comma), and the parser always terminates.", "quantifier": "every token sequence, every parser for types and expressions that consumes at least one token per expression", "why_tests_cant": "All token sequences.", "anchors": ["frozen-collections-core/src/macros/frozen_map.rs: impl Parse for Map, frozen_map_macro"]}
{"id": "C58", "title": "Maps generated by frozen_map!", "statement": "If a call of frozen_map! with distinct literal keys expands, the generated map answers every history of operations as the association list written in the call, with any hasher at run time. The exceptions: at least three consecutive integer keys that do not fill their type (the generated code does not compile) and string keys for which construction is undefined behaviour (C06).", "quantifier": "every list of distinct literals, key type, hasher and history", "why_tests_cant": "The macro analyses the keys at compile time with another hasher than the map uses at run time; all literals and histories.", "anchors": ["frozen-collections-core/src/macros/frozen_map.rs: frozen_map_macro", "frozen-collections-core/src/specialized_maps/*.rs"]}
{"id": "C59", "title": "Number of comparisons needed to find the stored keys", "statement": "Looking up every stored key of a FrozenMap with distinct keys once takes (n + sum over the keys of the number of keys in the same slot) / 2 comparisons in total; the keys found with a single comparison are as many as n minus the collisions of the chosen table size; unless the table has exactly n slots they are at least 95 per cent of the keys. A map of fewer than four entries needs i comparisons for its i-th key, a range of u32 keys none.", "quantifier": "every payload with distinct keys, hasher, environment and representation", "why_tests_cant": "Counts of comparisons are not observable; all payloads.", "anchors": ["frozen-collections-core/src/specialized_maps/hash_table.rs: HashTable::new, find", "frozen-collections-core/src/analyzers/hash_code_analyzer.rs: analyze_hash_codes", "frozen-collections-core/src/facades/frozen_map.rs: FrozenMap::get"]}
{"id": "C60", "title": "Literals in frozen_map!", "statement": "With fewer than three entries frozen_map! never inspects its keys. With three or more entries and an integer type every key must be a literal representable in the type, and with type &str every key must be a string literal: otherwise expansion panics at compile time. For every other type the keys may be arbitrary expressions and a CommonMap is generated.", "quantifier": "every list of keys and every type", "why_tests_cant": "All key lists.", "anchors": ["frozen-collections-core/src/macros/frozen_map.rs: frozen_map_macro, process_int_keys, process_string_keys"]}
{"id": "C61", "title": "Compound set expressions", "statement": "Any nesting of |, &, ^ and - over FrozenSets and other lawful sets without duplicates can be worked out without failure, whatever order the intermediate HashSets iterate in and whether or not they are frozen again in between. The result has no duplicates, only items of the given sets, and contains exactly the values the expression denotes in set theory; ==, is_subset, is_superset and is_disjoint between two results decide how the denoted sets relate. Hence the laws of Boolean algebra (commutativity, associativity, distributivity, De Morgan, absorption) hold up to ==.", "quantifier": "every expression over any sets, every order of the intermediate sets", "why_tests_cant": "All expressions, items and iteration orders.", "anchors": ["frozen-collections-core/src/facades/frozen_set.rs: BitOr, BitAnd, BitXor, Sub, PartialEq", "frozen-collections-core/src/specialized_sets/iterators.rs: Union, Intersection, Difference, SymmetricDifference", "frozen-collections-core/src/specialized_sets/set.rs"]}
{"id": "C62", "title": "Constructors of the specialized collections", "statement": "Every public constructor of a specialized map or set (from, from_iter, with_hasher, from_iter_with_hasher, and the variants using RandomState) builds exactly the collection, or panics or misbehaves exactly, as from_vec does on the items its argument yields, in that order. LengthMap::from and LengthMap::from_iter are fixed to the index type u8 and panic for more than 255 entries, whatever their keys.", "quantifier": "every payload, iterator, hasher and slice range", "why_tests_cant": "All payloads and iterators.", "anchors": ["frozen-collections-core/src/specialized_maps/*.rs: From, FromIterator, with_hasher, from_iter_with_hasher", "frozen-collections-core/src/specialized_sets/*.rs: From, FromIterator, with_hasher, from_iter_with_hasher"]}
{"id": "C63", "title": "The unfinished frozen_set macro", "statement": "frozen_set_macro rejects every call written like a set, T, x1, ..., xn with at least one item: it accepts only key : value entries, for which it expands to the same map as frozen_map!.", "quantifier": "every type, every non-empty list of items, every parser for types and expressions that reads back what was written", "why_tests_cant": "All calls.", "anchors": ["frozen-collections-core/src/macros/frozen_set.rs: frozen_set_macro"]}
{"id": "C64", "title": "get_many_mut never reads uninitialized memory", "statement": "get_many_mut fills a MaybeUninit array through unchecked writes and then assumes it initialized. No write is out of bounds and every element is initialized when the array is returned, provided only that get itself does not fail, whatever Eq does. The result is Some exactly when no two requested keys compare equal and every one is found, and holds the references found in the order of the keys.", "quantifier": "every number of keys, every equality, every get", "why_tests_cant": "Uninitialized reads need not be visible when they happen.", "anchors": ["frozen-collections-core/src/specialized_maps/*.rs: get_many_mut", "frozen-collections-core/src/facades/frozen_map.rs: get_many_mut"]}
{"id": "C65", "title": "Work done by the hash code analysis", "statement": "For n hash codes analyze_hash_codes tries at most 15n+2 table sizes when n < 8, at most 16 when n < 1000 and at most 8 otherwise, and does at most n slot computations per size. If a table of exactly n slots has acceptably few collisions it is chosen after a single pass over the codes.", "quantifier": "every list of fewer than 2^60 hash codes", "why_tests_cant": "All lists of hash codes.", "anchors": ["frozen-collections-core/src/analyzers/hash_code_analyzer.rs: analyze_hash_codes"]}
{"id": "C66", "title": "No history of calls goes wrong", "statement": "Once a FrozenMap has been built, no sequence of calls on it (get, get_key_value, contains_key, indexing, len, is_empty, iteration, and writes through get_mut, index_mut and get_many_mut) causes undefined behaviour, an arithmetic panic or a failed cast, whatever the number of entries and even if the equality and hash of the key type obey no law. Only indexing panics. The number of entries and the set of keys never change, and every value seen was supplied at construction or written by an earlier call. (Breaches of the aliasing rules by get_many_mut are the subject of C12 and C74 and do not count here.)", "quantifier": "every payload of keys of one type, every build profile, every equality and hash function, every history", "why_tests_cant": "Histories, sizes beyond 2^32 and misbehaving Eq and Hash cannot be enumerated.", "anchors": ["frozen-collections-core/src/facades/frozen_map.rs: get, get_key_value, get_mut, get_many_mut, contains_key, len, is_empty, iter, Index, IndexMut", "frozen-collections-core/src/specialized_maps/hash_table.rs: new, get_hash_info"]}
{"id": "C67", "title": "Work done by the slice key analysis", "statement": "analyze_slice_keys examines no window at all when the key lengths suffice. If all keys have the same length m it examines at most m(m+1)/2 windows (at most 16m-120 for m >= 16), and exactly that many if it gives up on keys longer than 16. If the lengths differ it examines at most 3 times the length of the shortest key, and gives up, for a longest key over 16, only if the shortest key has at most one element. For each window it hashes each key at most once.", "quantifier": "every list of keys, every hash function of windows", "why_tests_cant": "All key lists.", "anchors": ["frozen-collections-core/src/analyzers/slice_key_analyzer.rs: analyze_slice_keys, analyze_subslices, is_sufficiently_unique"]}
{"id": "C68", "title": "The set operations on any iterators", "statement": "union, intersection, difference, symmetric_difference, is_disjoint, is_subset, is_superset and == depend on the iterators of their operands only through the items these yield. For operands whose iterators yield their items and then None for ever, as those of every set of this library do, the operations yield the predicted sequences and then None for ever, however often next is called; every internal loop ends.", "quantifier": "every two implementations of Set with any type of iterator, every number of calls of next", "why_tests_cant": "All implementations of Set and all call counts.", "anchors": ["frozen-collections-core/src/specialized_sets/iterators.rs: Union, Intersection, Difference, SymmetricDifference, Iter", "frozen-collections-core/src/specialized_sets/set_ops.rs", "frozen-collections-core/src/specialized_sets/set.rs: Set"]}
{"id": "C69", "title": "A set does not show how it was built", "statement": "Two FrozenSets built from the same distinct items in any order, with any hashers, with or without overflow checks and under any unstable sort give the same answers to len, is_empty, contains and get and the same items up to order. Combined with any other set, as left or right operand, they give the same answers to ==, is_subset, is_superset and is_disjoint, and the same items up to order for union, intersection, difference, symmetric_difference and the operators.", "quantifier": "every list of distinct items and every permutation of it, every pair of hashers, profiles and sorts, every other set", "why_tests_cant": "All orders, hashers and operands.", "anchors": ["frozen-collections-core/src/facades/frozen_set.rs: FrozenSet", "frozen-collections-core/src/specialized_sets/iterators.rs", "frozen-collections-core/src/specialized_sets/set_ops.rs"]}
{"id": "C70", "title": "No use of a set goes wrong", "statement": "Once two FrozenSets have been built, len, contains, get, iteration, ==, is_subset, is_superset, is_disjoint, union, intersection, difference and symmetric_difference on them end without undefined behaviour or panic, whatever the number of items and even if the equality and hash of the item type obey no law. contains always agrees with get. Every item yielded or returned is one supplied at construction. union yields all items of the larger set (the second if equal in size), each as often as it was supplied, then the items of the other for which contains of the larger says no; intersection yields the items of the smaller that the larger says it contains; the other operations likewise follow the answers of contains exactly.", "quantifier": "every two payloads of items of one type, every build profile, every equality and hash function", "why_tests_cant": "Sizes beyond 2^32 and misbehaving Eq and Hash cannot be enumerated.", "anchors": ["frozen-collections-core/src/facades/frozen_set.rs: contains, get, iter, eq", "frozen-collections-core/src/specialized_sets/iterators.rs: Union, Intersection, Difference, SymmetricDifference", "frozen-collections-core/src/specialized_sets/set_ops.rs"]}
{"id": "C71", "title": "No use of a map goes wrong, however equality and hashing behave", "statement": "The equality and hash of the key type and the hasher may read and change state, so that their answers differ from call to call, and may panic. Building a FrozenMap then ends in a map or in a panic, except that for String keys it is undefined behaviour if the analysis settles on a window counted from the right end. With fewer than 2^31 entries it panics only if foreign code does, or, for String keys of different lengths, because the analysis reads beyond the end of a key. Once a map has been built, every call on it (get, get_key_value, contains_key, indexing, len, is_empty, iteration, and writes through get_mut, index_mut and get_many_mut) ends without undefined behaviour, arithmetic panic or failed cast; it ends in a panic only if foreign code panics, or if indexing finds nothing. Also after such panics the number of entries and the keys are the same as ever, and every value seen was supplied at construction or written by an earlier call. == between maps ends, and is true only of maps of the same size. (That two references returned by get_many_mut may alias is the subject of C12, and that the aliasing rules forbid writing through them that of C74; neither counts as undefined behaviour here.)", "quantifier": "every payload of keys of one type, every build profile, every stateful conduct of Eq, Hash and BuildHasher including panics, every history", "why_tests_cant": "Keys with interior mutability, random hashers and panicking comparisons cannot be enumerated.", "anchors": ["frozen-collections-core/src/facades/frozen_map.rs: new, get, get_key_value, get_mut, get_many_mut, contains_key, len, is_empty, iter, Index, IndexMut, PartialEq", "frozen-collections-core/src/specialized_maps/hash_table.rs: new, get_hash_info", "frozen-collections-core/src/analyzers/slice_key_analyzer.rs"]}
{"id": "C72", "title": "Which calls of the caller's code a map makes", "statement": "Building a FrozenMap never compares two keys. It calls no code of the caller for fewer than four entries or u32 keys. For keys that are neither u32 nor String it hashes all keys once in the order given and then all keys once more, nothing else; if a hash panics, the calls are the beginning of that sequence. For String keys it first hashes only windows of 1 to 16 consecutive bytes of the keys, at most n*w of them, where w is the number of windows of the common length of the keys, or 3 times the length of the shortest key if the lengths differ; then nothing, or all keys twice, or one and the same window of all keys twice. A lookup (get, get_key_value, get_mut, contains_key, indexing) asks for one hash at most - exactly one for keys that are neither u32 nor String in a map of at least four entries, of the key in question - and then compares the key, on the left, with consecutive entries, ending at the entry it returns. get_many_mut first compares each key, on the right, with those before it, in order, up to an equal pair; if there is none, it looks the keys up in order, up to the first that is missing: with N keys that makes at most N hashes and N(N-1)/2 + N*n comparisons. == asks nothing for maps of different size; else it looks up the keys of the left map in the right one, in the order of iteration, up to the first that is missing or has another value: n hashes and n*n comparisons of keys at most.", "quantifier": "every payload, every stateful and possibly panicking conduct of Eq, Hash and BuildHasher, every key looked up", "why_tests_cant": "Tests can count calls for some keys only; the claim is about the whole sequence of calls for all keys.", "anchors": ["frozen-collections-core/src/facades/frozen_map.rs: new, get, get_key_value, get_mut, get_many_mut, contains_key, Index, PartialEq", "frozen-collections-core/src/specialized_maps/common_map.rs: from_vec, get", "frozen-collections-core/src/specialized_maps/left_slice_map.rs: from_vec, get", "frozen-collections-core/src/specialized_maps/hash_table.rs: new", "frozen-collections-core/src/analyzers/slice_key_analyzer.rs"]}
{"id": "C73", "title": "No use of a set goes wrong, however equality and hashing behave", "statement": "The equality and hash of the item type and the hasher may have state, so that contains answers differently from call to call, and may panic; a panic may be caught and the iterator used further. Building a FrozenSet then ends in a set holding the items supplied or in a panic, except that for String items it may be undefined behaviour if the analysis settles on a window counted from the right end. On sets that have been built, len and iteration involve no foreign code; get and contains return an item supplied, or nothing, or pass on a panic of the foreign code. Every call of next on a union, intersection, difference or symmetric_difference ends. These operations ask contains once for each item in the order of iteration - the items of the first about the second set for difference, of the smaller about the larger for union (after yielding all items of the larger without asking) and intersection, of both about the other for symmetric_difference - and never further than needed for the call of next in hand. An item is yielded if and only if its answer is the one wanted; a panic loses exactly the item asked about; after the last question next returns None for ever. is_disjoint, is_subset, is_superset and == ask in the same way and stop at the first unwanted answer or panic.", "quantifier": "every two payloads of items of one type, every build profile, every stateful and possibly panicking conduct of Eq, Hash and BuildHasher, every number of calls of next with any change of the foreign state in between; the operations also for any two implementations of Set", "why_tests_cant": "Changing answers, panics in the middle of an iteration and resumed iterators cannot be enumerated.", "anchors": ["frozen-collections-core/src/facades/frozen_set.rs: new, contains, get, iter, eq", "frozen-collections-core/src/specialized_sets/iterators.rs: Union, Intersection, Difference, SymmetricDifference", "frozen-collections-core/src/specialized_sets/set_ops.rs"]}
{"id": "C74", "title": "References into a map obey the aliasing rules", "statement": "Under the aliasing rules of Rust (Stacked Borrows: a write needs a reference derived from the owner by mutable borrows only, and ends all references made since) every program that calls get and get_mut on a FrozenMap and uses the references as the borrow checker permits is free of undefined behaviour: references returned by any number of calls of get may be kept and read in any order, and the reference returned by get_mut may be read and written any number of times; they refer to the value of the entry found. The same is false of get_many_mut: it makes its mutable references from the shared ones returned by get (transmute). They refer to the right values and may be read, but for every map and all keys, a write through any reference it returns is undefined behaviour.", "quantifier": "every map, every sequence of calls of get and get_mut and of accesses through the references returned, every array of keys", "why_tests_cant": "Compilers rarely exploit the breach, so tests see the expected values; and reading through the references is harmless.", "anchors": ["frozen-collections-core/src/facades/frozen_map.rs: get, get_mut, get_many_mut", "frozen-collections-core/src/specialized_maps/common_map.rs: get, get_mut, get_many_mut", "frozen-collections-core/src/specialized_maps/scanning_map.rs: get, get_mut", "frozen-collections-core/src/specialized_maps/integer_range_map.rs: get, get_mut"]}
{"id": "C75", "title": "Key types are told apart by name only", "statement": "FrozenMap and FrozenSet recognise u32 and String by comparing std::any::type_name, which the compiler does not promise to be different for different types. If the key type is u32 or String, or its name is neither 'u32' nor 'alloc::string::String', or there are fewer than four entries, the representation chosen is the one for the type of the keys. In the remaining case - at least four keys of another type with one of these two names, such as the type String in module string of a crate called alloc - building the map or set reinterprets the keys at the wrong type: it always has undefined behaviour.", "quantifier": "every assignment of names to types, every payload, every hasher, both profiles", "why_tests_cant": "A test crate has the names that it has; the claim is about every assignment of names.", "anchors": ["frozen-collections-core/src/facades/frozen_map.rs: new", "frozen-collections-core/src/facades/frozen_set.rs: new"]}
{"id": "C76", "title": "No use of a specialized map goes wrong, however the caller's code behaves", "statement": "The key type, the borrowed form keys are asked for in, and the hasher of a ScanningMap, CommonMap, LengthMap, IntegerMap, LeftSliceMap or RightSliceMap come with implementations of Eq, Hash, Borrow, Len, SliceHash, AsPrimitive and BuildHasher, which may read and change state, so that their answers differ from call to call, and may panic. Building such a map from any entries, for any range, never has undefined behaviour and gives a map holding exactly these entries or panics; if the entries fit the slot type, it panics only if foreign code does, or if a subtraction of a RightSliceMap overflows. Once built, every call on the map ends without undefined behaviour or failed cast; it panics only if foreign code does, or if indexing finds nothing, or in a RightSliceMap if a subtraction overflows. Also after such panics the number of entries and the keys stay the same, and every value seen was supplied at construction or written by an earlier call. == ends and is true only of maps of the same size. This presupposes that the implementation of SliceHash itself has no undefined behaviour, which is not so for those of String and [u8] in this library: hash, a safe public function, is undefined behaviour exactly for ranges that do not lie within the key.", "quantifier": "every payload, range, slot type, build profile, every stateful conduct of all trait implementations including panics, every history of calls", "why_tests_cant": "Trait implementations that lie or panic cannot be enumerated.", "anchors": ["frozen-collections-core/src/specialized_maps/common_map.rs", "frozen-collections-core/src/specialized_maps/length_map.rs", "frozen-collections-core/src/specialized_maps/integer_map.rs", "frozen-collections-core/src/specialized_maps/left_slice_map.rs", "frozen-collections-core/src/specialized_maps/right_slice_map.rs", "frozen-collections-core/src/specialized_maps/scanning_map.rs", "frozen-collections-core/src/specialized_maps/hash_table.rs", "frozen-collections-core/src/traits/slice_hash.rs: SliceHash"]}
{"id": "C77", "title": "Which calls of the caller's code sets and set operations make", "statement": "Building a FrozenSet makes exactly the calls of Eq, Hash and BuildHasher, in the same order, that building a FrozenMap with the same keys makes. contains and get ask for one hash at most, with the hasher of that set, and then compare the item in question, on the left, with consecutive items of the set, ending at the item found. union, intersection, difference, symmetric_difference, is_disjoint, is_subset, is_superset and == make no calls of foreign code other than those of the questions to contains that C73 lists, in that order, each with the hasher of the set asked. For sets of n and m items all calls of next together hash at most min(n,m) items for union and intersection, n for difference and n+m for symmetric_difference, and compare at most n*m times (2nm for symmetric_difference); is_disjoint at most n hashes and n*m comparisons; is_subset and is_superset the same, or none if the sizes rule it out; == at most n hashes and n*n comparisons, or none if the sizes differ.", "quantifier": "every two payloads of items of one type, every two hashers, every build profile, every stateful and possibly panicking conduct of Eq, Hash and BuildHasher, every number of calls of next with any change of the foreign state in between", "why_tests_cant": "Tests can count calls for some sets only; the claim is about the whole sequence of calls for all sets and conducts.", "anchors": ["frozen-collections-core/src/facades/frozen_set.rs: new, contains, get, iter, eq", "frozen-collections-core/src/specialized_sets/iterators.rs: Union, Intersection, Difference, SymmetricDifference", "frozen-collections-core/src/specialized_sets/set_ops.rs", "frozen-collections-core/src/specialized_sets/common_set.rs: get, contains"]}
{"id": "C78", "title": "Clones of maps and sets", "statement": "Cloning a FrozenMap calls the clone of each key that is neither u32 nor String and of each value exactly once, in iteration order, the key of an entry before its value, and then the clone of the hasher exactly once if the map holds one (never for u32 keys or fewer than four entries, always for at least four keys of other types than u32 and String); it calls nothing else. Either all calls succeed and the clone has the entries answered, in the same order, and the hasher answered; or the first call that panics ends it. So also if clone answers differently from call to call or with unrelated keys, and also for a clone of a clone or after values were replaced: using the result never has undefined behaviour, every value seen is one of its own or was written later, and lookups hash with the hasher answered. If clone answers with equal keys and with a hasher that hashes alike, each lookup in the clone finds the entry at the same position as in the original, without any law on Hash; and if values are cloned to equal ones, keys are distinct and hashes lawful, clone and original are equal. It is false that a clone finds what the original finds if the hasher it was given hashes otherwise. The same copies are made, without values, by the clone of a FrozenSet, and it too can be used without undefined behaviour.", "quantifier": "every map or set obtained by construction, cloning and calls of its methods, every stateful and possibly panicking conduct of Clone, Eq, Hash and BuildHasher", "why_tests_cant": "Implementations of Clone that lie, panic or depend on state cannot be enumerated, nor can chains of clones.", "anchors": ["frozen-collections-core/src/facades/frozen_map.rs: MapTypes, FrozenMap (derive Clone)", "frozen-collections-core/src/facades/frozen_set.rs: SetTypes, FrozenSet (derive Clone)", "frozen-collections-core/src/specialized_maps/hash_table.rs: HashTable", "frozen-collections-core/src/specialized_maps/common_map.rs: CommonMap", "frozen-collections-core/src/specialized_maps/left_slice_map.rs: LeftSliceMap", "frozen-collections-core/src/specialized_maps/integer_range_map.rs: IntegerRangeMap", "frozen-collections-core/src/specialized_sets/common_set.rs: CommonSet"]}
{"id": "C79", "title": "Side effects of lawful code change nothing", "statement": "Let the caller's implementations of Eq, Hash and BuildHasher, and for the specialized maps also Borrow, Len, SliceHash and AsPrimitive, read and change state as they like (counting calls, filling caches, logging), as long as they do not panic, each answer depends on the question only, and the answers obey the usual laws (equality is an equivalence, equal keys and a key and its borrowed form have the same hash, length or integer; for a slice map all keys reach as far as the range). Then every history of calls on a FrozenMap, ScanningMap, CommonMap, LengthMap, IntegerMap, LeftSliceMap or RightSliceMap with distinct keys, including writes, sees what the same calls on an association list with these entries would see, up to iteration order; == is true exactly of maps with the same keys and equal values; and a FrozenSet contains exactly the items it was built from.", "quantifier": "every payload of distinct keys, slot type and range, build profile, every stateful but question-determined conduct of all trait implementations, every starting state, every history of calls", "why_tests_cant": "Side effects of trait implementations cannot be enumerated.", "anchors": ["frozen-collections-core/src/facades/frozen_map.rs: new, get, get_key_value, contains_key, get_mut, get_many_mut, index, eq", "frozen-collections-core/src/facades/frozen_set.rs: new, contains, get", "frozen-collections-core/src/specialized_maps/common_map.rs", "frozen-collections-core/src/specialized_maps/length_map.rs", "frozen-collections-core/src/specialized_maps/integer_map.rs", "frozen-collections-core/src/specialized_maps/left_slice_map.rs", "frozen-collections-core/src/specialized_maps/right_slice_map.rs", "frozen-collections-core/src/specialized_maps/scanning_map.rs", "frozen-collections-core/src/specialized_maps/hash_table.rs"]}
{"id": "C80", "title": "Which calls of the caller's code a specialized map makes, and that its results are determined by the answers", "statement": "For ScanningMap, CommonMap, LengthMap, IntegerMap, LeftSliceMap and RightSliceMap, however Eq, Borrow, Hash, Len, AsPrimitive and SliceHash behave: ScanningMap is built without any call. The others ask for the codes of all keys in the order given, for the analysis, and then for the codes of all keys once more, for the table; the first call that panics, or the first subtraction of RightSliceMap that overflows, ends the construction with that panic, and nothing else does. A code is one hash, one length, one conversion, one slice hash over start..end, or for RightSliceMap two lengths l, l' and a slice hash over l-start..l'-end; the analysis by slices asks for the length first and takes 0 for keys shorter than end; so does a query, with end for LeftSliceMap and start for RightSliceMap. get, get_key_value, get_mut, contains_key and indexing ask for the code of the key in question and then compare it, on the left, with the borrowed form of exactly those keys whose code in the table is congruent to it modulo the number of slots, in the order of iteration, up to the first answer true, which gives the result; ScanningMap compares with all keys. get_many_mut first compares the keys with each other, each with those before it, up to an equal pair, and then looks them up one after the other up to the first that is missing. == looks up the entries of the left map in the right one and compares the values, up to the first difference. All this remains true after writes through references to values.", "quantifier": "every payload that fits the index type, every stateful and possibly panicking implementation of the traits, every sequence of writes, every query", "why_tests_cant": "Tests run with some well-behaved key types; here each answer may be arbitrary and the claim is about the complete sequence of calls.", "anchors": ["frozen-collections-core/src/specialized_maps/scanning_map.rs: from_vec, get, get_many_mut", "frozen-collections-core/src/specialized_maps/common_map.rs: from_vec, get, get_key_value, get_mut, get_many_mut, PartialEq", "frozen-collections-core/src/specialized_maps/length_map.rs: from_vec, get", "frozen-collections-core/src/specialized_maps/integer_map.rs: from_vec, get", "frozen-collections-core/src/specialized_maps/left_slice_map.rs: from_vec, get_hash_info", "frozen-collections-core/src/specialized_maps/right_slice_map.rs: from_vec, get_hash_info", "frozen-collections-core/src/specialized_maps/hash_table.rs: new, get_hash_info"]}
{"id": "C81", "title": "Specialized sets and set operations with any code of the caller", "statement": "For ScanningSet, CommonSet, LengthSet, IntegerSet, LeftSliceSet and RightSliceSet, however Eq, Borrow, Hash, Len, AsPrimitive and SliceHash behave (C76): construction never has undefined behaviour and gives a set holding exactly the items supplied, or panics as described in C76; get returns one of these items or nothing, contains says whether get returns an item, len is the number of items, and iteration returns each item once, whatever happens in between. For two such sets of any kinds, union, intersection, difference, symmetric_difference, is_disjoint, is_subset, is_superset and == ask exactly the questions to contains that C73 lists for the sizes of the two sets, each question makes exactly the calls that C80 lists for a lookup, no other calls of foreign code are made, and the answers determine the results. If the answers depend on the question only and are lawful (C79), whatever the side effects, then get returns an item equal to the one asked for exactly if one was supplied, and for any two sets (of these kinds or FrozenSets) the four iterators return the items of the mathematical operation, in the order of the operands, and is_disjoint, is_subset, is_superset and == decide the mathematical relations (the last three for sets without duplicates).", "quantifier": "every two payloads, index types, ranges, every stateful and possibly panicking implementation of the traits, every number of calls of next with any change of the foreign state in between", "why_tests_cant": "Tests run with some well-behaved item types and pairs of kinds; here each answer may be arbitrary.", "anchors": ["frozen-collections-core/src/specialized_sets/scanning_set.rs", "frozen-collections-core/src/specialized_sets/common_set.rs", "frozen-collections-core/src/specialized_sets/length_set.rs", "frozen-collections-core/src/specialized_sets/integer_set.rs", "frozen-collections-core/src/specialized_sets/left_slice_set.rs", "frozen-collections-core/src/specialized_sets/right_slice_set.rs", "frozen-collections-core/src/specialized_sets/iterators.rs: Union, Intersection, Difference, SymmetricDifference", "frozen-collections-core/src/specialized_sets/set_ops.rs"]}
{"id": "C82", "title": "The range map and set with integers of the caller", "statement": "For IntegerRangeMap and IntegerRangeSet over any key type with its own PrimInt (zero, <, -, to_usize), and a borrowed form with its own Borrow, >=, <=, -, to_usize and ==, however these behave: building an empty one asks for zero twice. Otherwise the keys are compared with each other by <, then the greatest minus the least key, in the order the sort has given, is computed and converted to usize, and the construction succeeds, with the entries in that order, exactly if the result is one less than the number of entries; it panics if one of these calls panics, if there is no usize, if the number differs, or if the standard sort itself panics. get, get_key_value, get_mut, contains_key and indexing ask for the borrowed least key, compare q >= it, ask for the borrowed greatest key, compare q <= it, ask for the borrowed least key again, subtract it from q and convert to usize, up to the first call that panics or answers no; the result is the entry at that position, a panic if the position is not below the number of entries, or nothing. get_many_mut and == make the calls that C80 lists, with these lookups. None of this has undefined behaviour, also after panics that were caught; every entry returned was supplied or written. Iteration and len ask nothing. In the set operations such a set may be combined with any specialized set: exactly the questions of C73 are asked and each makes the calls of a lookup. If the keys behave as the integers of a type from lo to hi, whatever their side effects and whichever of several equal borrowed forms they answer with, then for keys that are, in some order, consecutive integers the construction succeeds, iteration is in increasing order, and every history of calls sees what the same calls on an association list would see; == is true exactly for the same keys and equal values; distinct keys that are not consecutive are refused; and the set operations compute the mathematical results. An empty map panics with an index out of bounds when asked for 0 and has no other key.", "quantifier": "every payload, every stateful and possibly panicking implementation of the arithmetic and order, every sort that only compares and rearranges the elements, sorts when the answers are those of integers, and may panic otherwise; every history, every query", "why_tests_cant": "Tests use the built-in integer types; user types with PrimInt can answer anything.", "anchors": ["frozen-collections-core/src/specialized_maps/integer_range_map.rs: from_vec, get, get_mut, get_many_mut, get_key_value, contains_key, Index, IndexMut, PartialEq", "frozen-collections-core/src/specialized_sets/integer_range_set.rs", "frozen-collections-core/src/specialized_sets/iterators.rs: Union, Intersection, Difference, SymmetricDifference", "frozen-collections-core/src/specialized_sets/set_ops.rs"]}
{"id": "C83", "title": "Programs with iterators and their clones", "statement": "Take an iterator of a map (entries, keys, values), of a set (borrowing or consuming), or of a union, intersection, difference or symmetric difference of two lawful sets, and any program that advances it, clones it, advances and clones the clones, and asks any of them for len, size_hint, count, fold or Debug output, in any order. Each of them behaves as a list of items still to come of its own: clones start with the items their original still has and do not influence each other, next removes the first item and returns None for ever at the end, fold and Debug pass through exactly the items left, len and size_hint of maps and sets are exactly their number. There is one exception: count of a borrowing set iterator returns the number of items left minus the number of items delivered, and panics (or wraps around) when this is negative. The set operations have no len and their size_hint is the same all the time; they deliver the items of the operation, each once.", "quantifier": "every map and set content, every two lawful sets, build profile, every program of any length over any number of clones, every folding function", "why_tests_cant": "The interleavings of calls on an iterator and its clones cannot be enumerated.", "anchors": ["frozen-collections-core/src/specialized_maps/iterators.rs: Iter, Keys, Values (Clone, Iterator, ExactSizeIterator, Debug)", "frozen-collections-core/src/specialized_sets/iterators.rs: Iter, IntoIter, Union, Intersection, Difference, SymmetricDifference (Clone, Iterator, Debug)"]}
{"id": "C84", "title": "References into the specialized maps, references from get_key_value and from iterators", "statement": "Take a FrozenMap or any of the seven specialized maps, whatever it contains and whatever equality and hashing answer, as long as the lookups it is asked for come to an end without panic or undefined behaviour. A program may share the map: call get and get_key_value, make iterators, advance and clone them, keep everything they return and read through all of these references in any order; then drop all that, call get_mut and write and read through the reference it returns; and so on, any number of times. It never breaks the aliasing rules of Rust; get and get_mut refer to the value, and get_key_value to the key and the value, of the entry found, and each iterator and each clone refer to key and value of one entry after the other from where it stands. After any such program, the references returned by get_many_mut refer to the right values and may be read, but a write through any of them, for which they are meant, is undefined behaviour.", "quantifier": "every map of each kind, every equality, hash, length and Borrow, every sequence of phases with any number of calls and reads", "why_tests_cant": "Aliasing violations are not visible in test results; each interleaving of calls and accesses is a case of its own.", "anchors": ["frozen-collections-core/src/specialized_maps/scanning_map.rs: get, get_mut, get_key_value, get_many_mut", "frozen-collections-core/src/specialized_maps/common_map.rs: get, get_mut, get_key_value, get_many_mut", "frozen-collections-core/src/specialized_maps/integer_map.rs: get", "frozen-collections-core/src/specialized_maps/integer_range_map.rs: get, get_mut, get_key_value, get_many_mut", "frozen-collections-core/src/specialized_maps/length_map.rs: get", "frozen-collections-core/src/specialized_maps/left_slice_map.rs: get", "frozen-collections-core/src/specialized_maps/right_slice_map.rs: get", "frozen-collections-core/src/specialized_maps/iterators.rs: Iter", "frozen-collections-core/src/facades/frozen_map.rs: get, get_key_value, get_mut, get_many_mut, iter"]}
{"id": "C85", "title": "Lengths of the types of the standard library, as keys of LengthMap and items of LengthSet", "statement": "Every implementation of Len in this library (String, str, CString, CStr, OsString, OsStr, slices, Vec, VecDeque, LinkedList, BinaryHeap, HashSet, HashMap, BTreeSet, BTreeMap, and Box, Rc, Arc of such, any number of times) returns the number of bytes (without the final zero of a C string), items or pairs the value contains, and is_empty says whether it is zero. Values that are equal have the same len: also two HashSets or HashMaps that keep their items in different orders, and a pointer and what it points to. Therefore a LengthMap or LengthSet with keys of any of these types works: with distinct keys, every history of calls, also with keys in a Box, Rc or Arc asked for by what they point to, sees what the same calls on an association list would see; the set contains exactly the items supplied.", "quantifier": "every such type of any nesting, every content, every lawful equality of the items, every payload that fits the index type, every history", "why_tests_cant": "The types, nestings and contents are infinitely many; tests use strings.", "anchors": ["frozen-collections-core/src/traits/len.rs: Len and its implementations", "frozen-collections-core/src/specialized_maps/length_map.rs", "frozen-collections-core/src/specialized_sets/length_set.rs"]}
{"id": "C86", "title": "Clones of the specialized maps and sets", "statement": "Cloning any of the seven specialized maps calls the clone of each key and of each value exactly once, in iteration order, the key of an entry before its value, and afterwards the clone of the hasher exactly once if the map has one (CommonMap, LeftSliceMap, RightSliceMap); IntegerRangeMap first clones its least and its greatest key. Cloning a specialized set does the same without values. Nothing else of the caller is called. Either all calls succeed and the clone consists of the answers, in the same order; or the first call that panics ends it. Whatever clone, equality, hash, length and the other code of the caller answer, now and later, a map that was built, cloned, used and cloned again any number of times never causes undefined behaviour, every entry it returns is one of its entries or was written, and the only panics are those of the caller, of an index that is not found or out of range, and the overflow of RightSliceMap; likewise for == and for lookups and iteration of the sets. If the code of the caller is lawful and clones of keys and hashers are equal to the originals, clone never panics, the clone has the cloned entries in the same order, it and all its clones answer every history of calls as an association list with its entries would, and, if clones of values are equal too, compares equal to the original in both directions. Any two such maps, however cloned and changed, are == exactly if they have the same keys with equal values. Likewise the clone of a specialized set contains the clones of the items in the same order, contains and get of it and of its clones find exactly these, the set operations compute the mathematical results on them, and the clone is == to the original in both directions.", "quantifier": "every map and set of each kind reachable by construction, clones and calls, every stateful and possibly panicking Clone, Eq, Hash, BuildHasher, Len, Borrow, integer conversion and arithmetic of the caller, every history", "why_tests_cant": "Implementations of Clone that lie, panic or depend on state cannot be enumerated, nor can chains of clones and calls.", "anchors": ["frozen-collections-core/src/specialized_maps/scanning_map.rs: Clone", "frozen-collections-core/src/specialized_maps/common_map.rs: Clone", "frozen-collections-core/src/specialized_maps/length_map.rs: Clone", "frozen-collections-core/src/specialized_maps/integer_map.rs: Clone", "frozen-collections-core/src/specialized_maps/integer_range_map.rs: Clone", "frozen-collections-core/src/specialized_maps/left_slice_map.rs: Clone", "frozen-collections-core/src/specialized_maps/right_slice_map.rs: Clone", "frozen-collections-core/src/specialized_maps/hash_table.rs: Clone", "frozen-collections-core/src/specialized_sets/scanning_set.rs: Clone", "frozen-collections-core/src/specialized_sets/common_set.rs: Clone", "frozen-collections-core/src/specialized_sets/integer_range_set.rs: Clone"]}
{"id": "C87", "title": "Clones of FrozenMap and FrozenSet with lawful code of the caller", "statement": "Take any FrozenMap that was built from distinct keys with a lawful hasher, or is a clone of such a map, or of such a map that was changed by calls, and so on, where the code of the caller may have side effects but answers lawfully, and clone copies keys to equal ones and hashers to ones that hash alike. Every history of calls on the map sees what the same calls on an association list with its entries would see. clone never panics, and its result has the copies of the entries in the same order. Any two such maps of one key type are == exactly if they have the same keys with equal values; if clone copies values to equal ones, then a map and its clone are == in both directions, also when it was changed or is itself a clone. Likewise for a FrozenSet, its clones and their clones, also with duplicate items (except u32): get finds an equal item exactly if there is one, contains, len and iteration are right, so that the set operations compute the results of C81, clone gives a set of the copies in the same order, and the clone is == to the original in both directions.", "quantifier": "every key kind, equality, lawful hasher, payload, every sequence of clones and calls, every stateful Eq, Hash, Clone with lawful answers", "why_tests_cant": "Chains of clones and calls cannot be enumerated; tests clone a new map of integers once.", "anchors": ["frozen-collections-core/src/facades/frozen_map.rs: Clone, PartialEq", "frozen-collections-core/src/facades/frozen_set.rs: Clone, PartialEq", "frozen-collections-core/src/specialized_maps/hash_table.rs: Clone", "frozen-collections-core/src/specialized_maps/common_map.rs: Clone", "frozen-collections-core/src/specialized_maps/left_slice_map.rs: Clone"]}
{"id": "C88", "title": "HashSet and BTreeSet as operands of the set operations", "statement": "A standard HashSet, whatever order it iterates in and whenever that order changes, and a standard BTreeSet, after any sequence of insert, remove and clear, implement Set correctly: they have no duplicates, len counts the items, contains is true exactly for the values whose last change was an insertion; the BTreeSet iterates in ascending order. Therefore the theorems on all set operations apply to them. In particular, for a FrozenSet of distinct items and such a set, ==, is_subset, is_superset and is_disjoint (the last three with either of them on the left) decide how the supplied items and the values held relate, and |, &, ^, - return exactly the values of the mathematical operation, each once.", "quantifier": "every key kind, equality, lawful hasher, total order, items, sequence of changes, iteration order", "why_tests_cant": "Contents, sequences of changes and iteration orders are infinitely many.", "anchors": ["frozen-collections-core/src/specialized_sets/set.rs: Set for HashSet, Set for BTreeSet", "frozen-collections-core/src/traits/len.rs: Len for HashSet, BTreeSet", "frozen-collections-core/src/facades/frozen_set.rs: PartialEq, BitOr, BitAnd, BitXor, Sub", "frozen-collections-core/src/specialized_sets/set_ops.rs"]}
{"id": "C89", "title": "The analysis of string keys sees the hasher only through collisions", "statement": "Which representation analyze_slice_keys recommends for given keys, and with which window, depends on the hasher only through the question which windows of 1 to 16 consecutive elements of the keys have equal hash codes: for two hash functions under which the same pairs of windows collide, the results (including a panic) are the same. In particular all hashers that separate the windows of the keys lead to the same result, so that the choice is not affected by the random state. Likewise for the facades: how the construction of a FrozenMap or FrozenSet from String keys ends (it returns, panics or executes undefined behaviour) is the same for two hashers under which the same windows of the keys collide, for keys in any order, for values of any types, and for maps and sets alike.", "quantifier": "every list of keys, every element type, every pair of hash functions that collide on the same windows", "why_tests_cant": "There are infinitely many hash functions and keys; a test sees one random state per run.", "anchors": ["frozen-collections-core/src/analyzers/slice_key_analyzer.rs: analyze_slice_keys, analyze_subslices, is_sufficiently_unique"]}
{"id": "C90", "title": "The project's own tests", "statement": "The assertions of the 34 unit tests of the project and of its example program hold of the model, for every random state where the tests use RandomState, for every order in which a HashMap yields its entries, and for all sizes where the tests try a few: the nine cases of the slice analysis (for every hasher that separates the windows of the keys); the analysis of 0, 2 and 1000 random hash codes drawn from StdRng seeded with 42 (the latter: 1000 slots, 359 collisions), and n slots without collision for the codes 0..n; the four cases of the integer analysis; the tests of CommonMap, IntegerMap, LengthMap, ScanningMap and IntegerRangeMap, including the Debug texts; len, is_empty, get, contains and iteration of FrozenSet for the numbers 0..n; FrozenMap<u32, _> for the keys 0, s, .., (n-1)s in any order; Debug of a FrozenMap iterator before and after a step; the calls of frozen_map! in the tests (a LengthMap) and in the example (a LeftSliceMap of the third byte, which returns every value). Not covered: the analysis of 8,000,000 random codes.", "quantifier": "every random state, build profile, platform table growth, size up to 2^31 and iteration order", "why_tests_cant": "The tests see one random state and one order per run, and a few sizes. The theorems also check the model against expectations that were confirmed by running the code.", "anchors": ["frozen-collections-core/src/analyzers/hash_code_analyzer.rs: analyze_hash_codes_test", "frozen-collections-core/src/analyzers/int_key_analyzer.rs: tests", "frozen-collections-core/src/analyzers/slice_key_analyzer.rs: analyze_string_keys_test", "frozen-collections-core/src/specialized_maps/common_map.rs: tests", "frozen-collections-core/src/specialized_maps/integer_map.rs: tests", "frozen-collections-core/src/specialized_maps/length_map.rs: tests", "frozen-collections-core/src/specialized_maps/scanning_map.rs: tests", "frozen-collections-core/src/specialized_maps/integer_range_map.rs: range_map_test", "frozen-collections-core/src/facades/frozen_map_tests.rs", "frozen-collections-core/src/facades/frozen_set_tests.rs", "frozen-collections-core/src/macros/frozen_map.rs: basic", "frozen-collections-core/src/macros/frozen_set.rs: basic", "examples/frozen_map.rs"]}
{"id": "C91", "title": "The examples in the documentation", "statement": "All code examples in the doc comments of FrozenMap, FrozenSet, Set and CommonSet do what the text announces, for every random state, build profile and order of the unstable sort: no construction panics (with any of the constructors, also for the String keys, where construction can panic or execute undefined behaviour for other keys), every asserted answer of get, get_key_value, get_mut, get_many_mut, contains_key, contains, len, is_empty and indexing is the one returned, iter, keys and values visit exactly the supplied entries, the two references returned by get_many_mut are distinct and refer to 1807 and 1800, and the union, symmetric difference, difference and intersection of the FrozenSet of 1, 2, 3 and the HashSet built from 4, 2, 3, 4 consist of 1, 2, 3, 4; of 1, 4; of 1; and of 2, 3, each value once.", "quantifier": "every random state, build profile, platform table growth, outcome of unstable sorting and iteration order of the HashSet", "why_tests_cant": "A doc test sees one random state and one order per run, and does not check what it prints.", "anchors": ["frozen-collections-core/src/facades/frozen_map.rs: doc comments", "frozen-collections-core/src/facades/frozen_set.rs: doc comments", "frozen-collections-core/src/specialized_sets/set.rs: doc comments", "frozen-collections-core/src/specialized_sets/common_set.rs: doc comments"]}
{"id": "C92", "title": "Walking over the specialized maps and sets", "statement": "For each of the seven specialized maps, built from any list of entries, iter, keys and values visit one and the same rearrangement of the supplied entries, each entry once, and keys and values show the components of the entries shown by iter; this holds whatever Eq and Hash do and also for duplicate keys. After assignments through references to values, iter and values show the values assigned last, in the same order, and keys shows the same keys. The order is: that of the input for ScanningMap; ascending keys for IntegerRangeMap; and descending slot (hash code, integer as u64, length or hash of the window, modulo the number of slots found by the analysis of these codes) for CommonMap, IntegerMap, LengthMap and LeftSliceMap. hasher() returns the hasher given to the constructor, also after assignments. Likewise for the seven sets: iter (also as into_iter of a reference to the set) and the consuming into_iter visit the same rearrangement of the items, each once, in ascending order for IntegerRangeSet and in the order of the input for ScanningSet, and hasher() returns the hasher of the constructor.", "quantifier": "every specialized map and set, list of entries of fewer than 2^64 elements, hash function, equality, sequence of assignments, build profile and outcome of unstable sorting", "why_tests_cant": "Entries, hash functions and sequences of assignments are infinitely many; no test of the project iterates over a specialized map after an assignment.", "anchors": ["frozen-collections-core/src/specialized_maps/scanning_map.rs: iter, keys, values", "frozen-collections-core/src/specialized_maps/common_map.rs: iter, keys, values, hasher", "frozen-collections-core/src/specialized_maps/integer_map.rs: iter, keys, values", "frozen-collections-core/src/specialized_maps/integer_range_map.rs: iter, keys, values", "frozen-collections-core/src/specialized_maps/length_map.rs: iter, keys, values", "frozen-collections-core/src/specialized_maps/left_slice_map.rs: iter, keys, values, hasher", "frozen-collections-core/src/specialized_maps/right_slice_map.rs: iter, keys, values, hasher", "frozen-collections-core/src/specialized_sets/common_set.rs: iter, into_iter, hasher"]}
{"id": "C93", "title": "The code emitted by frozen_map!", "statement": "For every type and list of entries for which the expansion of frozen_map! does not panic, the tokens emitted are one block that binds m to a call of from_vec of a type of ::frozen_collections::specialized_maps and returns m. Its first argument is a vec! of all entries in the order written, each value verbatim and each key verbatim, except that with key type &str and three or more entries each key is wrapped in String::from. With fewer than three entries the type is ScanningMap without annotation; otherwise the annotation names the same type as the call, with the key type given (String for &str), _ and the integer type u8, u16 or usize that the expansion calls for, and for LeftSliceMap and RightSliceMap also RandomState; these two, and no others, get a range as second argument, the one computed by the analysis. The block agrees with the declarations of the library (number of generic arguments, arguments of from_vec) unless the type is IntegerRangeMap: that declares two generic parameters and is given three arguments. If the expansion panics, so does the emission, and only then.", "quantifier": "every type, list of entries, interpretation of the keys as literals, hash function and build profile", "why_tests_cant": "The project's tests expand one call of the macro and do not look at the tokens; a range of integers is never tried.", "anchors": ["frozen-collections-core/src/macros/frozen_map.rs: Entry::to_tokens, frozen_map_macro", "frozen-collections-core/src/macros/frozen_set.rs: frozen_set_macro", "frozen-collections-core/src/specialized_maps/*.rs: declarations and from_vec"]}
{"id": "C94", "title": "The benchmarks measure what their names say", "statement": "Each of the five programs in benches/frozen_map.rs builds its FrozenMap without a panic, gets from it the value the HashMap beside it gives, and keeps as many entries as it was given (six in string_keys_length, although \"Green\" is given twice). u32_keys is kept by number, u32_keys_range by offset, i32_keys by hash and string_keys_length by length, whatever the random state. string_keys_subslice is kept by its last byte if different windows of the keys have different hash codes.", "quantifier": "for every random state, hash table layout and arithmetic mode", "why_tests_cant": "A benchmark asserts nothing; which representation it measures is not observable, and depends on the random state.", "anchors": ["benches/frozen_map.rs:7-147", "frozen-collections-core/src/facades/frozen_map.rs:212-306"]}
{"id": "C95", "title": "From a written call of frozen_map! to the running map", "statement": "Take a call of frozen_map! written as a type, a comma and entries separated by commas (with or without one at the end), whose keys have distinct values. With an integer type and literals of that type: the macro panics (overflow, only if the compiler checks for it and the keys are too many or too wide for their type), or the tokens it emits form a block that rustc rejects (three or more consecutive keys that do not fill the type), or running the block builds a map that answers every history of operations as the association list of the entries. With &str and string literals: the macro panics, or running the block is undefined behaviour, each in exactly the cases of C06 with the hasher of the macro, or the map answers every history as the association list. With any other type the macro never panics and the map always answers as the association list. All this holds for every random state at run time. Any other argument is a syntax error, unless it consists of a type, a comma and entries each followed by at most one comma; then the tokens emitted are those for these entries.", "quantifier": "for every list of entries, text, parser that reads the text back, compile-time hasher and profile, run-time hasher, profile and history", "why_tests_cant": "A test can expand single calls; macro expansion, compilation and execution cannot be tried for all calls, hashers and histories.", "anchors": ["frozen-collections-core/src/macros/frozen_map.rs:32-199", "frozen-collections-macros/src/lib.rs:7-11"]}
{"id": "C96", "title": "Maps with repeated keys", "statement": "Give the same key several times to ScanningMap, CommonMap, IntegerMap, LengthMap, LeftSliceMap, RightSliceMap (with a range it can use), or to a FrozenMap whose keys are not u32 keys as many as the integers from the least to the greatest. Construction succeeds as without repetitions, and there is one arrangement of all entries supplied such that every history of operations is answered exactly by it: iteration shows that arrangement, len counts all of it, every lookup and every write goes to the first entry with the key, and the other entries with that key are only seen when iterating. For ScanningMap the arrangement is the order given. The same holds for the maps that frozen_map! generates; the cases of panic, rejected code (three or more integer keys as many, counted with repetitions, as the integers from the least to the greatest; without overflow checks perhaps also keys too many or too wide for their type) and undefined behaviour are those for distinct keys.", "quantifier": "for every payload with any repetitions, lawful Eq and Hash, hasher, profile, unstable sort and history of operations; for the macro also for every written call", "why_tests_cant": "Which of the entries with the same key is found depends on an unstable sort and on the hasher; a test sees one outcome.", "anchors": ["frozen-collections-core/src/specialized_maps/hash_table.rs:48-95", "frozen-collections-core/src/specialized_maps/scanning_map.rs:25-60", "frozen-collections-core/src/macros/frozen_map.rs:65-199", "frozen-collections-core/src/facades/frozen_map.rs:212-306"]}
{"id": "C97", "title": "Range maps answer by place", "statement": "Build an IntegerRangeMap from any nonempty list of entries, keys repeated or not. If there are as many entries, counted with repetitions, as integers from the least to the greatest key, and this number less one is not above the greatest value of the key type, construction succeeds; otherwise it panics, also for keys too far apart for their type and without overflow checks. When it succeeds, the map keeps all entries sorted by key, equal keys in the order given, and every history of operations is answered by place: an operation on k goes to the entry number k - least, whatever the key of that entry is, and finds nothing if k lies outside. All keys given are found; some key never given is found exactly if some key was repeated. A FrozenMap of four or more u32 keys with as many entries as integers from the least to the greatest key answers in the same way, and so does an IntegerRangeSet: it contains exactly the integers from the least to the greatest item, given or not.", "quantifier": "for every nonempty payload with keys of their type, every integer type, profile and history of operations; for FrozenMap also for every hasher and unstable sort", "why_tests_cant": "Only finitely many payloads and histories can be tried, and the tests of the project use no repeated keys.", "anchors": ["frozen-collections-core/src/specialized_maps/integer_range_map.rs:28-137", "frozen-collections-core/src/facades/frozen_map.rs:227-242"]}
{"id": "C98", "title": "Comparing collections with repeated keys", "statement": "Let items or keys be repeated in any way. For any two sets, is_subset answers whether the first counts at most as many items as the second, with repetitions, and all its members are members of the second; == answers whether both count as many items and all members of the first are members of the second. So == of sets is reflexive and transitive, and if the set on the left has no repetitions then a == that holds also holds with the sides swapped and is exact; otherwise == need not be symmetric, although Eq is implemented. A FrozenSet with repetitions is such a set, unless its items are u32 and as many as the integers from the least to the greatest; then contains and get go by place as in C97. Two FrozenMaps, the second not of that kind, are equal exactly if they count as many entries and every entry of the first has the value that a lookup in the second finds; so a map is equal to itself exactly if entries with equal keys have equal values: with repeated keys == need not be reflexive, although Eq is implemented. A ScanningMap is compared in the same way, and CommonMap, IntegerMap, LengthMap, LeftSliceMap and RightSliceMap are equal to themselves in exactly the same cases. For two IntegerRangeMaps the value is the one at the place of the key in the second.", "quantifier": "for every pair of sets, and every pair of payloads with any repetitions, lawful Eq and Hash, hasher, profile and unstable sort", "why_tests_cant": "The tests of the project compare collections without repetitions; one outcome says nothing about other payloads and sorts.", "anchors": ["frozen-collections-core/src/specialized_sets/set_ops.rs:6-40", "frozen-collections-core/src/facades/frozen_map.rs:767-789", "frozen-collections-core/src/facades/frozen_set.rs:504-523"]}
