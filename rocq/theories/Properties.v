(** The proved properties.  Every statement refers to the model (the files without "Proofs",
    "Theorems" or "Spec" in their names) and to the specification vocabulary of Spec.v,
    MapSpec.v, IterSpec.v, SetSpec.v, HistorySpec.v, ObjectSpec.v, SizeSpec.v, CostSpec.v,
    ParseSpec.v, ExprSpec.v, FloatSpec.v, RunSpec.v, CallSpec.v, VolatileSetSpec.v, SetCallSpec.v, CloneSpec.v, EffectSpec.v, BorrowSpec.v and NamingSpec.v.  Each group ends with a concrete case
    in which the hypotheses hold.  /verif/MANIFEST.json lists the theorems per property. *)
From Coq Require Import List ZArith Bool Permutation Sorted Znumtheory.
From Coq Require String.
Import String.StringSyntax.
From Verif Require Import VolatileMaps VolatileMapSpec VolatileMapProofs Borrows BorrowSpec BorrowProofs VolatileSafety VolatilePanics CallTheorems VolatileSetTheorems SetCallProofs CloneProofs EffectProofs SpecialCallProofs SpecialSetProofs RangeProofs IteratorUseProofs MapBorrowProofs LenProofs SpecialCloneProofs LawfulCloneProofs StdSetProofs ProjectTestProofs DocExampleProofs WalkProofs MacroEmitProofs BenchmarkProofs EmitRunProofs RepeatedProofs RepeatedCallProofs PlaceProofs RepeatedEqProofs RepeatedSpecialEq FilledProofs.
From Verif Require Import Volatile VolatileSets VolatileSetSpec CallSpec SetCallSpec Cloning CloneSpec EffectSpec SpecialCallSpec SpecialSets SpecialSetSpec VolatileRange RangeSpec IteratorUse IteratorUseSpec MapBorrows MapBorrowSpec LenModel LenSpec SpecialClone SpecialCloneSpec LawfulCloneSpec StdSets StdSetSpec ProjectTests DocExamples CollisionSpec Walks WalkSpec Benchmarks MacroEmit EmitSpec EmitRun WrittenSpec RepeatedSpec PlaceSpec Spec MapSpec SetSpec IterSpec HistorySpec Base HashCodeAnalyzer IntKeyAnalyzer
  SliceKeyAnalyzer HashTable Maps FrozenMap FrozenMapFacts Iterators SetOps Sets FrozenSet History MacroModel
  MapTheorems TypeSafety ComponentTheorems SetTheorems Refutations HistoryProofs IntWrapProofs MacroProofs
  HugeMap UsizeAnalyzer SizeSpec TableSizeProofs ObjectSpec MapObjects SetObjects MapObjectProofs MapObjectEq SetObjectProofs
  Determinism LookupCost CostSpec LookupCostProofs TotalCost DebugModel DebugProofs SetAlgebra FrozenSetAlgebra ExprSpec SetExpressions Constructors ConstructorProofs SpecializedConstructors SpecializedConstructorProofs
  IterationOrder MacroParse ParseSpec MacroParseProofs ManyMut ManyMutProofs FloatSpec FloatProofs AnalysisCost AnalysisCostProofs SliceCost SliceCostProofs SetRunning RunSpec
  SetRunningProofs SetDeterminism HistorySafety SetSafety Naming NamingSpec NamingProofs Examples.
Import ListNotations.
Open Scope Z_scope.

(** ** C01: FrozenMap lookup is exact *)

Theorem C01_map_get_exact :
  forall (O V : Type) (eqbO : O -> O -> bool) (E : env) (kd : kind) (bh : hasher O)
         (payload : list (key O * V)) (m : map_types O V),
  env_ok E -> equivalence eqbO -> lawful_hash eqbO bh ->
  countable (prof E) (zlen payload) -> typed kd payload ->
  distinct (key_eqb eqbO) (map fst payload) ->
  fm_new E kd payload bh = Ok m ->
  forall k, has_kind kd k ->
  (exists r, fm_get eqbO E m k = Ok r) /\
  (forall v, fm_get eqbO E m k = Ok (Some v) <-> supplied (key_eqb eqbO) payload k v) /\
  (fm_get eqbO E m k = Ok None <-> not_supplied (key_eqb eqbO) payload k).
Proof. exact map_get_exact. Qed.
Print Assumptions C01_map_get_exact.

Example C01_case1 :
  Forall meets_hypotheses scenarios.
Proof. exact ex_hypotheses. Qed.

Example C01_case2 :
  map built_as scenarios =
    [Some 0; Some 1; Some 2; Some 3; Some 4; Some 5; Some 10; Some 6; Some 7; Some 1; Some 2]%nat.
Proof. exact ex_representations. Qed.

Example C01_case3 :
  Forall (fun sc =>
    answers sc (filter (fun k => negb (existsb (key_eqb mod_eqb k) (map fst (sc_payload sc)))) (absent_keys (sc_kind sc))) =
    Ok (map (fun e => Some (snd e)) (sc_payload sc),
        map (fun _ => None) (filter (fun k => negb (existsb (key_eqb mod_eqb k) (map fst (sc_payload sc)))) (absent_keys (sc_kind sc)))))
  scenarios.
Proof. exact ex_C01. Qed.

(** ** C02: the lookup methods agree *)

(** Duplicates allowed, no law assumed for Eq or Hash, any number of entries. *)
Theorem C02_map_lookups_agree :
  forall (O V : Type) (eqbO : O -> O -> bool) (E : env) (kd : kind) (bh : hasher O)
         (payload : list (key O * V)) (m : map_types O V),
  env_ok E -> typed kd payload ->
  fm_new E kd payload bh = Ok m ->
  forall k, has_kind kd k ->
  (fm_get eqbO E m k = Ok None /\ fm_get_key_value eqbO E m k = Ok None /\
   fm_contains_key eqbO E m k = Ok false /\ fm_get_mut eqbO E m k = Ok None) \/
  (exists i k' v, nth_error (fm_iter m) i = Some (k', v) /\
     fm_get eqbO E m k = Ok (Some v) /\ fm_get_key_value eqbO E m k = Ok (Some (k', v)) /\
     fm_contains_key eqbO E m k = Ok true /\ fm_get_mut eqbO E m k = Ok (Some i) /\
     (kd <> KindU32 \/ distinct (key_eqb eqbO) (map fst payload) \/ ~ full_span payload ->
      key_eqb eqbO k k' = true)).
Proof. exact map_lookups_agree. Qed.
Print Assumptions C02_map_lookups_agree.

Example C02_case :
  exists m, small_map = Ok m /\
  fm_get mod_eqb checked_env m (KOther 1042) = Ok (Some 420) /\
  fm_get_key_value mod_eqb checked_env m (KOther 1042) = Ok (Some (KOther 42, 420)) /\
  fm_contains_key mod_eqb checked_env m (KOther 1042) = Ok true /\
  (exists i, fm_get_mut mod_eqb checked_env m (KOther 1042) = Ok (Some i)) /\
  fm_get mod_eqb checked_env m (KOther 6) = Ok None /\
  fm_contains_key mod_eqb checked_env m (KOther 6) = Ok false.
Proof. exact ex_C02. Qed.

(** ** C03: content of a built map *)

Theorem C03_map_content :
  forall (O V : Type) (E : env) (kd : kind) (bh : hasher O)
         (payload : list (key O * V)) (m : map_types O V),
  env_ok E -> zlen payload < 2 ^ 64 -> fm_new E kd payload bh = Ok m ->
  exists es, Permutation payload es /\
    yields (it_next (prof E)) (fm_iter_new m) es /\
    yields (keys_next (prof E)) (fm_keys_new m) (map fst es) /\
    yields (values_next (prof E)) (fm_values_new m) (map snd es) /\
    fm_len m = zlen payload /\ (fm_is_empty m = true <-> payload = []).
Proof. exact map_content. Qed.
Print Assumptions C03_map_content.

Example C03_case :
  exists m, small_map = Ok m /\ fm_len m = 6 /\ fm_is_empty m = false /\
  map snd (fm_iter m) <> map snd (others [5; 17; 103; 998; 42; 7]).
Proof. exact ex_C03. Qed.

(** ** C04: construction with ordinary keys *)

Theorem C04_map_new_other_total :
  forall (O V : Type) (E : env) (bh : hasher O) (payload : list (key O * V)),
  env_ok E -> zlen payload < 2 ^ 31 ->
  exists m, fm_new E KindOther payload bh = Ok m.
Proof. exact map_new_other_total. Qed.
Print Assumptions C04_map_new_other_total.

Example C04_case :
  zlen (others (numbers 0 3 300)) < 2 ^ 31 /\ env_ok unstable_env /\
  exists m, fm_new unstable_env KindOther (others (numbers 0 3 300)) poor_hasher = Ok m /\ fm_len m = 300.
Proof. exact ex_C04. Qed.

(** ** C05: construction with u32 keys *)

Theorem C05_map_new_u32_total :
  forall (O V : Type) (E : env) (bh : hasher O) (payload : list (key O * V)),
  env_ok E -> zlen payload < 2 ^ 31 -> typed KindU32 payload ->
  exists m, fm_new E KindU32 payload bh = Ok m /\
    ((4 <= length payload)%nat -> NoDup (map (fun e => u32_of (fst e)) payload) ->
      (consecutive (map (fun e => u32_of (fst e)) payload) -> exists rm, m = MU32Range rm) /\
      (~ consecutive (map (fun e => u32_of (fst e)) payload) ->
        exists im, m = MU32Small im \/ m = MU32Large im)).
Proof. exact map_new_u32_total. Qed.
Print Assumptions C05_map_new_u32_total.

Example C05_case :
  let p := u32s [12; 10; 13; 11; 14] in
  typed KindU32 p /\ NoDup (map (fun e => u32_of (fst e)) p) /\ consecutive (map (fun e => u32_of (fst e)) p).
Proof. exact ex_C05. Qed.

(** ** C06: construction with String keys *)

Theorem C06_map_new_string_outcome :
  forall (O V : Type) (E : env) (bh : hasher O) (payload : list (key O * V)),
  env_ok E -> zlen payload < 2 ^ 31 -> typed KindString payload ->
  let h := hash_one_slice bh in
  (string_ub h (str_keys payload) /\ fm_new E KindString payload bh = UB OutOfBounds) \/
  (string_panic h (str_keys payload) /\ fm_new E KindString payload bh = Panic PIndexOutOfBounds) \/
  (~ string_ub h (str_keys payload) /\ ~ string_panic h (str_keys payload) /\
   exists m, fm_new E KindString payload bh = Ok m).
Proof. exact map_new_string_outcome. Qed.
Print Assumptions C06_map_new_string_outcome.

(** The same for FrozenSet, all key classes. *)
Theorem C06_set_new_total :
  forall (O : Type) (E : env) (kd : kind) (bh : hasher O) (items : list (key O)),
  env_ok E -> zlen items < 2 ^ 31 -> (forall x, In x items -> has_kind kd x) ->
  (kd <> KindString -> exists s, fs_new E kd items bh = Ok s) /\
  (kd = KindString ->
   let h := hash_one_slice bh in
   let keys := map str_of items in
   (string_ub h keys /\ fs_new E kd items bh = UB OutOfBounds) \/
   (string_panic h keys /\ fs_new E kd items bh = Panic PIndexOutOfBounds) \/
   (~ string_ub h keys /\ ~ string_panic h keys /\ exists s, fs_new E kd items bh = Ok s)).
Proof. exact set_new_total. Qed.
Print Assumptions C06_set_new_total.

(** "Building a FrozenMap from distinct String keys always works" is false. *)
Theorem C06_string_construction_ub_refuted :
  exists payload : list (key Z * Z),
    typed KindString payload /\ distinct (key_eqb Z.eqb) (map fst payload) /\
    forall (E : env) (bh : hasher Z), env_ok E ->
      (forall a b, hash_one_slice bh [a] = hash_one_slice bh [b] -> a = b) ->
      fm_new E KindString payload bh = UB OutOfBounds.
Proof. exact string_construction_ub_refuted. Qed.
Print Assumptions C06_string_construction_ub_refuted.

Theorem C06_string_construction_panic_refuted :
  exists payload : list (key Z * Z),
    typed KindString payload /\ distinct (key_eqb Z.eqb) (map fst payload) /\
    forall (E : env) (bh : hasher Z), env_ok E ->
      fm_new E KindString payload bh = Panic PIndexOutOfBounds.
Proof. exact string_construction_panic_refuted. Qed.
Print Assumptions C06_string_construction_panic_refuted.

Example C06_case :
  (exists m, fm_new checked_env KindString (strs lefts5) sample_hasher = Ok m /\ fm_len m = 5) /\
  fm_new checked_env KindString (string_payload ub_keys) sample_hasher = UB OutOfBounds /\
  fm_new checked_env KindString (string_payload panic_keys) sample_hasher = Panic PIndexOutOfBounds.
Proof. exact ex_C06. Qed.

(** ** C07: right-aligned slices *)

Theorem C07_right_slice_forward_unusable :
  forall (V BH : Type) (hw : BH -> list Z -> Z) (E : env) (S_ty : int_type)
         (payload : list (list Z * V)) (a b : Z) (bh : BH),
  payload <> [] -> 0 <= a < b -> b < 2 ^ 64 ->
  (forall e, In e payload -> zlen (fst e) < 2 ^ 64) ->
  (forall m, rsm_from_vec hw E S_ty payload a b bh <> Ok m) /\
  ((exists e, In e payload /\ b <= zlen (fst e)) ->
   rsm_from_vec hw E S_ty payload a b bh = UB OutOfBounds).
Proof. exact right_slice_forward_unusable. Qed.
Print Assumptions C07_right_slice_forward_unusable.

Theorem C07_right_slice_reversed_exact :
  forall (V BH : Type) (hw : BH -> list Z -> Z) (E : env) (S_ty : int_type)
         (payload : list (list Z * V)) (a b : Z) (bh : BH),
  env_ok E -> fits S_ty (zlen payload) -> 0 <= b <= a ->
  (forall e, In e payload -> a <= zlen (fst e) < 2 ^ 64) ->
  distinct bytes_eqb (map fst payload) ->
  exists m, rsm_from_vec hw E S_ty payload a b bh = Ok m /\
    Permutation payload (entries (slm_table m)) /\
    exact_get bytes_eqb (fun q => zlen q < 2 ^ 64) payload (rsm_get hw E m).
Proof. exact right_slice_reversed_exact. Qed.
Print Assumptions C07_right_slice_reversed_exact.

Example C07_case :
  fits u8 (zlen tails) /\ (forall e, In e tails -> 2 <= zlen (fst e) < 2 ^ 64) /\ distinct bytes_eqb (map fst tails) /\
  rsm_from_vec hash_write checked_env u8 tails 0 1 sample_hasher = UB OutOfBounds /\
  exists m, rsm_from_vec hash_write checked_env u8 tails 2 0 sample_hasher = Ok m /\
    rsm_get hash_write checked_env m [97;98;100] = Ok (Some 2) /\
    rsm_get hash_write checked_env m [97] = Ok None.
Proof. exact ex_C07. Qed.

(** ** C08: left-aligned slices *)

Theorem C08_left_slice_exact :
  forall (V BH : Type) (hw : BH -> list Z -> Z) (E : env) (S_ty : int_type)
         (payload : list (list Z * V)) (a b : Z) (bh : BH),
  env_ok E -> fits S_ty (zlen payload) -> 0 <= a <= b ->
  (forall e, In e payload -> b <= zlen (fst e)) ->
  distinct bytes_eqb (map fst payload) ->
  exists m, lsm_from_vec hw E S_ty payload a b bh = Ok m /\
    Permutation payload (entries (slm_table m)) /\
    exact_get bytes_eqb (fun _ => True) payload (lsm_get hw m).
Proof. exact left_slice_exact. Qed.
Print Assumptions C08_left_slice_exact.

Theorem C08_left_slice_short_key_ub :
  forall (V BH : Type) (hw : BH -> list Z -> Z) (E : env) (S_ty : int_type)
         (payload : list (list Z * V)) (a b : Z) (bh : BH),
  fits S_ty (zlen payload) -> 0 <= a ->
  (exists e, In e payload /\ zlen (fst e) < b) ->
  lsm_from_vec hw E S_ty payload a b bh = UB OutOfBounds.
Proof. exact left_slice_short_key_ub. Qed.
Print Assumptions C08_left_slice_short_key_ub.

Example C08_case :
  fits u8 (zlen tails) /\ (forall e, In e tails -> 3 <= zlen (fst e)) /\ distinct bytes_eqb (map fst tails) /\
  (exists m, lsm_from_vec hash_write checked_env u8 tails 1 3 sample_hasher = Ok m /\
    lsm_get hash_write m [120;98;101] = Ok (Some 3) /\ lsm_get hash_write m [98;101] = Ok None) /\
  lsm_from_vec hash_write checked_env u8 tails 2 4 sample_hasher = UB OutOfBounds.
Proof. exact ex_C08. Qed.

(** ** C09: duplicate keys *)

Theorem C09_map_get_duplicates :
  forall (O V : Type) (eqbO : O -> O -> bool) (E : env) (kd : kind) (bh : hasher O)
         (payload : list (key O * V)) (m : map_types O V),
  env_ok E -> equivalence eqbO -> lawful_hash eqbO bh ->
  countable (prof E) (zlen payload) -> typed kd payload ->
  (kd = KindU32 -> ~ full_span payload) ->
  fm_new E kd payload bh = Ok m ->
  forall k, has_kind kd k ->
  (exists r, fm_get eqbO E m k = Ok r) /\
  (forall v, fm_get eqbO E m k = Ok (Some v) -> supplied (key_eqb eqbO) payload k v) /\
  (fm_get eqbO E m k = Ok None <-> not_supplied (key_eqb eqbO) payload k).
Proof. exact map_get_duplicates. Qed.
Print Assumptions C09_map_get_duplicates.

Theorem C09_duplicate_u32_phantom_refuted :
  exists payload : list (key Z * Z), typed KindU32 payload /\
    forall (E : env) (bh : hasher Z), exists m k,
      fm_new E KindU32 payload bh = Ok m /\ has_kind KindU32 k /\
      not_supplied (key_eqb Z.eqb) payload k /\
      fm_contains_key Z.eqb E m k = Ok true /\ fm_get Z.eqb E m k <> Ok None.
Proof. exact duplicate_u32_phantom_refuted. Qed.
Print Assumptions C09_duplicate_u32_phantom_refuted.

Example C09_case :
  exists m,
  fm_new checked_env KindOther [(KOther 7, 1); (KOther 3, 2); (KOther 1007, 3); (KOther 4, 4); (KOther 5, 5)] sample_hasher = Ok m /\
  (fm_get mod_eqb checked_env m (KOther 7) = Ok (Some 1) \/ fm_get mod_eqb checked_env m (KOther 7) = Ok (Some 3)) /\
  fm_get mod_eqb checked_env m (KOther 8) = Ok None.
Proof. exact ex_C09. Qed.

(** ** C10: writes through get_mut *)

Theorem C10_map_write :
  forall (O V : Type) (eqbO : O -> O -> bool) (E : env) (kd : kind) (bh : hasher O)
         (payload : list (key O * V)) (m : map_types O V),
  env_ok E -> equivalence eqbO -> typed kd payload ->
  fm_new E kd payload bh = Ok m ->
  forall k i w, has_kind kd k -> fm_get_mut eqbO E m k = Ok (Some i) ->
  fm_get eqbO E (fm_write i w m) k = Ok (Some w) /\
  (forall k', has_kind kd k' -> key_eqb eqbO k k' = false ->
     fm_get eqbO E (fm_write i w m) k' = fm_get eqbO E m k') /\
  map fst (fm_iter (fm_write i w m)) = map fst (fm_iter m) /\
  fm_len (fm_write i w m) = fm_len m /\
  (forall j, j <> i -> nth_error (fm_iter (fm_write i w m)) j = nth_error (fm_iter m) j).
Proof. exact map_write. Qed.
Print Assumptions C10_map_write.

Example C10_case :
  exists m, small_map = Ok m /\
  exists i, fm_get_mut mod_eqb checked_env m (KOther 17) = Ok (Some i) /\
  fm_get mod_eqb checked_env m (KOther 17) = Ok (Some 170) /\
  fm_get mod_eqb checked_env (fm_write i 5 m) (KOther 17) = Ok (Some 5) /\
  fm_get mod_eqb checked_env (fm_write i 5 m) (KOther 42) = Ok (Some 420).
Proof. exact ex_C10. Qed.

(** ** C11: get_many_mut *)

Theorem C11_map_get_many_mut :
  forall (O V : Type) (eqbO : O -> O -> bool) (E : env) (kd : kind) (bh : hasher O)
         (payload : list (key O * V)) (m : map_types O V),
  env_ok E -> equivalence eqbO -> typed kd payload ->
  fm_new E kd payload bh = Ok m ->
  forall keys, (forall k, In k keys -> has_kind kd k) ->
  (fm_get_many_mut eqbO E m keys = Ok None /\
   (~ distinct (key_eqb eqbO) keys \/ exists k, In k keys /\ fm_get eqbO E m k = Ok None)) \/
  (exists ps, fm_get_many_mut eqbO E m keys = Ok (Some ps) /\
   distinct (key_eqb eqbO) keys /\ NoDup ps /\
   Forall2 (fun k p => fm_get_mut eqbO E m k = Ok (Some p) /\
              exists e, nth_error (fm_iter m) p = Some e /\ fm_get eqbO E m k = Ok (Some (snd e)))
     keys ps).
Proof. exact map_get_many_mut. Qed.
Print Assumptions C11_map_get_many_mut.

Example C11_case :
  exists m, small_map = Ok m /\
  (exists i j, fm_get_many_mut mod_eqb checked_env m [KOther 42; KOther 5] = Ok (Some [i; j]) /\ i <> j) /\
  fm_get_many_mut mod_eqb checked_env m [KOther 42; KOther 1042] = Ok None /\
  fm_get_many_mut mod_eqb checked_env m [KOther 42; KOther 6] = Ok None.
Proof. exact ex_C11. Qed.

(** ** C12: get_many_mut with an unlawful Eq *)

Theorem C12_get_many_mut_aliases_refuted :
  exists (eqbO : Z -> Z -> bool) (payload : list (key Z * Z)) (keys : list (key Z)),
    (forall a, eqbO a a = true) /\ (forall a b, eqbO a b = eqbO b a) /\
    distinct (key_eqb eqbO) (map fst payload) /\ distinct (key_eqb eqbO) keys /\
    forall (E : env) (bh : hasher Z), exists m p,
      fm_new E KindOther payload bh = Ok m /\
      fm_get_many_mut eqbO E m keys = Ok (Some [p; p]).
Proof. exact get_many_mut_aliases_refuted. Qed.
Print Assumptions C12_get_many_mut_aliases_refuted.

(** ** C13: indexing *)

Theorem C13_map_index :
  forall (O V : Type) (eqbO : O -> O -> bool) (E : env) (kd : kind) (bh : hasher O)
         (payload : list (key O * V)) (m : map_types O V),
  env_ok E -> typed kd payload ->
  fm_new E kd payload bh = Ok m ->
  forall k, has_kind kd k ->
  (forall v, fm_index eqbO E m k = Ok v <-> fm_get eqbO E m k = Ok (Some v)) /\
  (forall i, fm_index_mut eqbO E m k = Ok i <-> fm_get_mut eqbO E m k = Ok (Some i)) /\
  (fm_index eqbO E m k = Panic PUnwrapNone <-> fm_get eqbO E m k = Ok None) /\
  (fm_index_mut eqbO E m k = Panic PUnwrapNone <-> fm_get eqbO E m k = Ok None) /\
  ((exists v, fm_index eqbO E m k = Ok v) \/ fm_index eqbO E m k = Panic PUnwrapNone).
Proof. exact map_index. Qed.
Print Assumptions C13_map_index.

Example C13_case :
  exists m, small_map = Ok m /\
  fm_index mod_eqb checked_env m (KOther 103) = Ok 1030 /\
  fm_index mod_eqb checked_env m (KOther 104) = Panic PUnwrapNone.
Proof. exact ex_C13. Qed.

(** ** C14: map equality *)

Theorem C14_map_eq_extensional :
  forall (O V : Type) (eqbO : O -> O -> bool) (veq : V -> V -> bool) (E : env) (kd : kind)
         (bh1 bh2 : hasher O) (p1 p2 : list (key O * V)) (m1 m2 : map_types O V),
  env_ok E -> equivalence eqbO -> lawful_hash eqbO bh1 -> lawful_hash eqbO bh2 ->
  countable (prof E) (zlen p1) -> countable (prof E) (zlen p2) -> typed kd p1 -> typed kd p2 ->
  distinct (key_eqb eqbO) (map fst p1) -> distinct (key_eqb eqbO) (map fst p2) ->
  fm_new E kd p1 bh1 = Ok m1 -> fm_new E kd p2 bh2 = Ok m2 ->
  exists b, fm_eq eqbO E veq m1 m2 = Ok b /\ (b = true <-> same_map (key_eqb eqbO) veq p1 p2).
Proof. exact map_eq_extensional. Qed.
Print Assumptions C14_map_eq_extensional.

Theorem C14_map_eq_equivalence :
  forall (O V : Type) (eqbO : O -> O -> bool) (veq : V -> V -> bool) (E : env) (kd : kind)
         (bh1 bh2 bh3 : hasher O) (p1 p2 p3 : list (key O * V)) (m1 m2 m3 : map_types O V),
  env_ok E -> equivalence eqbO -> equivalence veq ->
  lawful_hash eqbO bh1 -> lawful_hash eqbO bh2 -> lawful_hash eqbO bh3 ->
  countable (prof E) (zlen p1) -> countable (prof E) (zlen p2) -> countable (prof E) (zlen p3) ->
  typed kd p1 -> typed kd p2 -> typed kd p3 ->
  distinct (key_eqb eqbO) (map fst p1) -> distinct (key_eqb eqbO) (map fst p2) ->
  distinct (key_eqb eqbO) (map fst p3) ->
  fm_new E kd p1 bh1 = Ok m1 -> fm_new E kd p2 bh2 = Ok m2 -> fm_new E kd p3 bh3 = Ok m3 ->
  fm_eq eqbO E veq m1 m1 = Ok true /\
  fm_eq eqbO E veq m1 m2 = fm_eq eqbO E veq m2 m1 /\
  (fm_eq eqbO E veq m1 m2 = Ok true -> fm_eq eqbO E veq m2 m3 = Ok true ->
   fm_eq eqbO E veq m1 m3 = Ok true) /\
  (Permutation p1 p2 -> fm_eq eqbO E veq m1 m2 = Ok true).
Proof. exact map_eq_equivalence. Qed.
Print Assumptions C14_map_eq_equivalence.

(** With duplicate keys equality is not symmetric. *)
Theorem C14_map_eq_not_symmetric_refuted :
  exists p1 p2 : list (key Z * Z), typed KindU32 p1 /\ typed KindU32 p2 /\
    forall (E : env) (bh : hasher Z), exists m1 m2,
      fm_new E KindU32 p1 bh = Ok m1 /\ fm_new E KindU32 p2 bh = Ok m2 /\
      fm_eq Z.eqb E Z.eqb m1 m2 = Ok true /\ fm_eq Z.eqb E Z.eqb m2 m1 = Ok false.
Proof. exact map_eq_not_symmetric_refuted. Qed.
Print Assumptions C14_map_eq_not_symmetric_refuted.

Example C14_case :
  exists m1, fm_new checked_env KindOther (others [5; 17; 103; 998; 42]) sample_hasher = Ok m1 /\
  exists m2, fm_new checked_env KindOther (rev (others [5; 17; 103; 998; 42])) poor_hasher = Ok m2 /\
  exists m3, fm_new checked_env KindOther (others [5; 17; 103; 998; 41]) poor_hasher = Ok m3 /\
  fm_eq mod_eqb checked_env Z.eqb m1 m2 = Ok true /\ fm_eq mod_eqb checked_env Z.eqb m1 m3 = Ok false.
Proof. exact ex_C14. Qed.

(** ** C15: memory safety under arbitrary hashing *)

Theorem C15_hash_table_memory_safe :
  forall (K V : Type) (E : env) (S_ty : int_type) (payload : list (K * V))
         (analysis_codes : list Z) (build_code : K -> Z) (a : Z * Z) (t : hash_table K V),
  env_ok E -> imin S_ty = 0 ->
  length analysis_codes = length payload ->
  analyze_hash_codes analysis_codes = Ok a ->
  ht_new E S_ty payload (fst a) (fun k => Ok (build_code k)) = Ok t ->
  forall (lookup_code : Z) (matches : K -> bool),
  exists r, (range <- ht_get_hash_info t lookup_code ;; ht_probe t range matches) = Ok r /\
    (forall i, r = Some i -> exists e, nth_error (entries t) i = Some e /\ matches (fst e) = true).
Proof. exact hash_table_memory_safe. Qed.
Print Assumptions C15_hash_table_memory_safe.

Theorem C15_common_map_memory_safe :
  forall (K V Q BH : Type) (eqb : Q -> Q -> bool) (borrow : K -> Q)
         (hash_key : BH -> K -> Z) (hash_query : BH -> Q -> Z)
         (E : env) (S_ty : int_type) (payload : list (K * V)) (bh : BH) (m : common_map K V BH),
  env_ok E -> imin S_ty = 0 ->
  cm_from_vec hash_key E S_ty payload bh = Ok m ->
  forall q, exists r, cm_get_mut eqb borrow hash_query m q = Ok r /\
    ((r = None /\ cm_get eqb borrow hash_query m q = Ok None /\
      cm_get_key_value eqb borrow hash_query m q = Ok None) \/
     exists i e, r = Some i /\ nth_error (entries (cm_table m)) i = Some e /\
      cm_get eqb borrow hash_query m q = Ok (Some (snd e)) /\
      cm_get_key_value eqb borrow hash_query m q = Ok (Some e) /\ In e payload /\
      eqb q (borrow (fst e)) = true).
Proof. exact common_map_memory_safe. Qed.
Print Assumptions C15_common_map_memory_safe.

Example C15_case :
  exists s c, analyze_hash_codes [1; 2; 3; 4; 5] = Ok (s, c) /\
  exists t, ht_new checked_env u8 five s (fun k => Ok (k * k)) = Ok t /\
  (range <- ht_get_hash_info t 12345678901234567 ;; ht_probe t range (fun k => k =? 20)) = Ok None /\
  (range <- ht_get_hash_info t 31 ;; ht_probe t range (fun k => k =? 31)) <> Ok None.
Proof. exact ex_C15. Qed.

(** ** C16: entries examined by a lookup *)

Theorem C16_lookup_range_exact :
  forall (K V : Type) (E : env) (S_ty : int_type) (payload : list (K * V)) (n : Z)
         (code_of : K -> Z) (t : hash_table K V),
  env_ok E -> imin S_ty = 0 -> 1 <= n -> countable (prof E) (zlen payload) -> payload <> [] ->
  ht_new E S_ty payload n (fun k => Ok (code_of k)) = Ok t ->
  Permutation payload (entries t) /\
  forall code, exists a b, ht_get_hash_info t code = Ok (a, b) /\
    0 <= a <= b /\ b <= zlen (entries t) /\
    forall i e, nth_error (entries t) i = Some e ->
      (a <= Z.of_nat i < b <-> code_of (fst e) mod n = code mod n).
Proof. exact lookup_range_exact. Qed.
Print Assumptions C16_lookup_range_exact.

Example C16_case :
  exists t, ht_new checked_env u8 five 3 (fun k => Ok k) = Ok t /\
  exists a b, ht_get_hash_info t 7 = Ok (a, b) /\ b - a = 4.
Proof. exact ex_C16. Qed.

(** ** C17: table size *)

Theorem C17_table_size_sound :
  forall codes : list Z, codes <> [] ->
  exists s c, analyze_hash_codes codes = Ok (s, c) /\
    1 <= s /\ zlen codes - tolerated (zlen codes) <= s <= size_limit (zlen codes) /\
    c = Z.of_nat (collisions s codes) /\
    (s = zlen codes \/ c <= tolerated (zlen codes)).
Proof. exact table_size_sound. Qed.
Print Assumptions C17_table_size_sound.

Theorem C17_table_size_empty :
  analyze_hash_codes [] = Ok (0, 0).
Proof. exact table_size_empty. Qed.
Print Assumptions C17_table_size_empty.

Example C17_case :
  numbers 5 7 40 <> [] /\
  exists s c, analyze_hash_codes (numbers 5 7 40) = Ok (s, c) /\ 38 <= s <= size_limit 40.
Proof. exact ex_C17. Qed.

(** ** C18: table size for few codes *)

Theorem C18_table_size_small :
  forall codes : list Z, codes <> [] -> zlen codes < 8 ->
  let n := zlen codes in
  exists s c, analyze_hash_codes codes = Ok (s, c) /\
    ((n <= s <= 16 * n /\ collisions s codes = 0%nat /\ c = 0 /\
      forall s', n <= s' < s -> collisions s' codes <> 0%nat) \/
     (s = n /\ c = Z.of_nat (collisions n codes) /\
      forall s', n <= s' <= 16 * n -> collisions s' codes <> 0%nat)).
Proof. exact table_size_small. Qed.
Print Assumptions C18_table_size_small.

Example C18_case :
  analyze_hash_codes [0; 5; 10; 15; 20] = Ok (6, 0) /\ analyze_hash_codes [7; 7; 7; 8; 9] = Ok (5, 2).
Proof. exact ex_C18. Qed.

(** ** C19: the size search terminates *)

Theorem C19_table_size_total :
  forall codes : list Z, exists r, analyze_hash_codes codes = Ok r.
Proof. exact table_size_total. Qed.
Print Assumptions C19_table_size_total.

(** The prime search inside it finds every successive candidate. *)
Theorem C19_candidate_list_total :
  forall n tol limit : Z, 0 <= tol <= n -> 0 <= limit ->
  exists l, candidate_sizes n (n - tol) limit = Ok (n :: l).
Proof. exact candidate_list_total. Qed.
Print Assumptions C19_candidate_list_total.

(** The overflow-aware version of the analysis. *)
Theorem C19_analysis_no_overflow :
  forall (pr : profile) (codes : list Z), zlen codes < 2 ^ 60 ->
  analyze_hash_codes_w pr codes = analyze_hash_codes codes.
Proof. exact analysis_no_overflow. Qed.
Print Assumptions C19_analysis_no_overflow.

Example C19_case1 :
  (exists r, analyze_hash_codes (numbers 0 7 200) = Ok r) /\
  exists l, candidate_sizes 200 (200 - 10) (size_limit 200) = Ok (200 :: l) /\ l <> [].
Proof. exact ex_C19. Qed.

Example C19_case2 :
  analyze_hash_codes_w Checked (numbers 0 200 200) = Ok (239, 0) /\ zlen (numbers 0 200 200) < 2 ^ 60.
Proof. exact ex_C19_w. Qed.

(** ** C20: primality test *)

Theorem C20_primality_test :
  forall candidate : Z, 5 < candidate < 2 ^ 64 -> Z.odd candidate = true ->
  exists b, is_prime candidate = Ok b /\ (b = true <-> prime candidate).
Proof. exact primality_test. Qed.
Print Assumptions C20_primality_test.

(** The modelled f64 square root is correctly rounded. *)
Theorem C20_float_sqrt :
  forall c, 0 < c ->
  exists c' r, nearest_even c c' /\ nearest_root (c' * 2 ^ 130) r /\ f64_sqrt c = r / 2 ^ 65.
Proof. exact float_sqrt. Qed.
Print Assumptions C20_float_sqrt.

Example C20_case :
  is_prime 10403 = Ok false /\ is_prime 10007 = Ok true /\ 10403 = 101 * 103.
Proof. exact ex_C20. Qed.

(** ** C21: integer range detection *)

Theorem C21_int_range_detection :
  forall (pr : profile) (ty : int_type) (keys : list Z),
  1 <= bits ty -> NoDup keys -> (forall k, In k keys -> imin ty <= k <= imax ty) ->
  (forall x y, In x keys -> In y keys -> x - y <= imax ty) -> zlen keys <= imax ty ->
  (keys <> [] /\ consecutive keys -> analyze_int_keys pr ty keys = Ok IntRange) /\
  (keys = [] \/ ~ consecutive keys -> analyze_int_keys pr ty keys = Ok IntNormal).
Proof. exact int_range_detection. Qed.
Print Assumptions C21_int_range_detection.

Theorem C21_int_range_overflow :
  forall (ty : int_type) (keys : list Z) (x y : Z),
  1 <= bits ty -> (forall k, In k keys -> imin ty <= k <= imax ty) ->
  In x keys -> In y keys -> imax ty < y - x -> zlen keys <= imax ty ->
  analyze_int_keys Checked ty keys = Panic POverflow.
Proof. exact int_range_overflow. Qed.
Print Assumptions C21_int_range_overflow.

Theorem C21_duplicate_range_detection_refuted :
  exists keys : list Z, (forall k, In k keys -> imin u32 <= k <= imax u32) /\ ~ consecutive keys /\
    forall pr, analyze_int_keys pr u32 keys = Ok IntRange.
Proof. exact duplicate_range_detection_refuted. Qed.
Print Assumptions C21_duplicate_range_detection_refuted.

Example C21_case :
  analyze_int_keys Checked i8 [-3; -1; -2; 0] = Ok IntRange /\ analyze_int_keys Checked i8 [-3; -1; -2; 1] = Ok IntNormal /\
  analyze_int_keys Checked i8 [-100; 100; 0] = Panic POverflow.
Proof. exact ex_C21. Qed.

(** ** C22: range map constructor *)

Theorem C22_range_map_contract :
  forall (V : Type) (pr : profile) (ty : int_type) (payload : list (Z * V)),
  1 <= bits ty -> payload <> [] -> NoDup (map fst payload) ->
  (forall x y, In x (map fst payload) -> In y (map fst payload) -> x - y <= imax ty /\ x - y < 2 ^ 64) ->
  (consecutive (map fst payload) ->
     exists m, irm_from_vec pr ty payload = Ok m /\ Permutation payload (irm_entries m) /\
       exact_get Z.eqb (fun _ => True) payload (irm_get pr ty m)) /\
  (~ consecutive (map fst payload) -> irm_from_vec pr ty payload = Panic PAssert).
Proof. exact range_map_contract. Qed.
Print Assumptions C22_range_map_contract.

Theorem C22_empty_range_map_panics :
  forall (V : Type) (pr : profile) (ty : int_type), 1 <= bits ty ->
  exists m : integer_range_map V, irm_from_vec pr ty [] = Ok m /\
    irm_get pr ty m 0 = Panic PIndexOutOfBounds /\
    forall k, k <> 0 -> irm_get pr ty m k = Ok None.
Proof. exact empty_range_map_panics. Qed.
Print Assumptions C22_empty_range_map_panics.

Theorem C22_duplicate_range_map_refuted :
  exists payload : list (Z * Z), ~ consecutive (map fst payload) /\
    forall pr, exists m, irm_from_vec pr u32 payload = Ok m /\ irm_get pr u32 m 1 = Ok (Some 8).
Proof. exact duplicate_range_map_refuted. Qed.
Print Assumptions C22_duplicate_range_map_refuted.

Example C22_case :
  (exists m, irm_from_vec Checked u16 [(7, 70); (5, 50); (6, 60)] = Ok m /\
     irm_get Checked u16 m 6 = Ok (Some 60) /\ irm_get Checked u16 m 4 = Ok None /\ irm_get Checked u16 m 8 = Ok None) /\
  irm_from_vec Checked u16 [(7, 70); (5, 50); (9, 60)] = Panic PAssert.
Proof. exact ex_C22. Qed.

(** ** C23: choice of the length representation *)

Theorem C23_length_representation :
  forall (T : Type) (h : list T -> Z) (keys : list (list T)),
  analyze_slice_keys h keys = Ok SliceLength <-> few_equal_lengths keys.
Proof. exact length_representation. Qed.
Print Assumptions C23_length_representation.

Example C23_case :
  analyze_slice_keys poly lengths5 = Ok SliceLength /\ analyze_slice_keys poly lefts5 <> Ok SliceLength.
Proof. exact ex_C23. Qed.

(** ** C24: choice of subslices *)

Theorem C24_subslice_choice :
  forall (T : Type) (h : list T -> Z) (keys : list (list T)),
  keys <> [] -> zlen keys < 2 ^ 52 -> (forall s, In s keys -> zlen s < 2 ^ 64) ->
  let uniform L := forall s, In s keys -> length s = L in
  forall r, analyze_slice_keys h keys = Ok r ->
  match r with
  | LeftHandSubslice i l =>
      0 <= i /\ 1 <= l <= 16 /\ (forall s, In s keys -> i + l <= zlen s) /\
      distinctive h (left_win (Z.to_nat i) (Z.to_nat l)) keys /\
      (forall i' l', (1 <= l' < Z.to_nat l \/ l' = Z.to_nat l /\ i' < Z.to_nat i)%nat ->
         (forall s, In s keys -> i' + l' <= length s)%nat -> ~ distinctive h (left_win i' l') keys) /\
      ((exists L, uniform L /\ (Z.to_nat l < L)%nat) \/
       (forall L, ~ uniform L) /\ (l = 1 \/ l = 2 /\ ~ some_right_byte h keys))
  | RightHandSubslice i l =>
      l = 1 /\ 0 <= i /\ (forall s, In s keys -> i + 1 <= zlen s) /\
      distinctive h (right_win (Z.to_nat i)) keys /\
      (forall i', (i' < Z.to_nat i)%nat -> ~ distinctive h (right_win i') keys) /\
      ~ some_left_window h 1 keys /\ (forall L, ~ uniform L)
  | SliceNormal =>
      (exists L, uniform L /\ forall l, (1 <= l <= 16)%nat -> (l < L)%nat -> ~ some_left_window h l keys) \/
      (forall L, ~ uniform L) /\ (exists s, In s keys /\ (length s <= 1)%nat) /\
      ~ some_left_window h 1 keys /\ ~ some_right_byte h keys
  | SliceLength => few_equal_lengths keys
  end.
Proof. exact subslice_choice. Qed.
Print Assumptions C24_subslice_choice.

Example C24_case :
  analyze_slice_keys poly lefts5 = Ok (LeftHandSubslice 1 1) /\
  analyze_slice_keys poly lefts300 = Ok (LeftHandSubslice 1 2) /\
  analyze_slice_keys poly ub_keys = Ok (RightHandSubslice 0 1) /\
  analyze_slice_keys (fun _ => 5) [[88;97]; [88;98]; [88;99]; [88;100]] = Ok SliceNormal.
Proof. exact ex_C24. Qed.

(** ** C25: five percent *)

Theorem C25_five_percent :
  forall n : Z, 0 <= n < 2 ^ 52 -> f64_five_percent n = n / 20.
Proof. exact five_percent. Qed.
Print Assumptions C25_five_percent.

(** The modelled conversion to f64 rounds to nearest, ties to even. *)
Theorem C25_float_rounding :
  forall n, 0 <= n -> nearest_even n (round53 n).
Proof. exact float_rounding. Qed.
Print Assumptions C25_float_rounding.

Example C25_case1 :
  f64_five_percent 1234567 = 61728 /\ f64_five_percent 39 = 1.
Proof. exact ex_C25. Qed.

Example C25_case2 :
  2 * Z.abs (20 * 7205759403792794 - 2 ^ 57) < 20 /\
  round53 (2 ^ 53 + 1) = 2 ^ 53 /\ round53 (2 ^ 53 + 3) = 2 ^ 53 + 4 /\
  f64_sqrt 15 = 3 /\ f64_sqrt (2 ^ 64 - 1) = 2 ^ 32.
Proof. exact ex_float. Qed.

(** ** C26: map iterators *)

Theorem C26_map_iterators_exact :
  forall (K V : Type) (pr : profile) (entries : list (K * V)) (n : nat),
  zlen entries < 2 ^ 64 ->
  let left := zlen entries - Z.min (Z.of_nat n) (zlen entries) in
  (exists it, calls (it_next pr) n (it_new entries) = Ok (results n entries, it) /\
     yields (it_next pr) it (skipn n entries) /\
     it_len pr it = Ok left /\ it_size_hint pr it = Ok (left, Some left) /\ it_count pr it = Ok left) /\
  (exists it, calls (keys_next pr) n (keys_new entries) = Ok (results n (map fst entries), it) /\
     yields (keys_next pr) it (skipn n (map fst entries)) /\
     it_len pr it = Ok left /\ it_size_hint pr it = Ok (left, Some left) /\ it_count pr it = Ok left /\
     forall (B : Type) (f : B -> K -> B) init,
       keys_fold pr f init it = Ok (fold_left f (skipn n (map fst entries)) init)) /\
  (exists it, calls (values_next pr) n (values_new entries) = Ok (results n (map snd entries), it) /\
     yields (values_next pr) it (skipn n (map snd entries)) /\
     it_len pr it = Ok left /\ it_size_hint pr it = Ok (left, Some left) /\ it_count pr it = Ok left /\
     forall (B : Type) (f : B -> V -> B) init,
       values_fold pr f init it = Ok (fold_left f (skipn n (map snd entries)) init)).
Proof. exact map_iterators_exact. Qed.
Print Assumptions C26_map_iterators_exact.

Example C26_case :
  exists its, calls (keys_next Checked) 2 (keys_new three) = Ok ([Some 1; Some 2], its) /\
  it_len Checked its = Ok 1 /\ keys_fold Checked (fun a k => a + k) 100 its = Ok 103 /\
  (exists r, calls (values_next Checked) 5 (values_new three) = Ok ([Some 10; Some 20; Some 30; None; None], r)).
Proof. exact ex_C26. Qed.

(** ** C27: set iterators *)

Theorem C27_set_iterators_exact :
  forall (T : Type) (pr : profile) (entries : list (T * unit)) (n : nat),
  zlen entries < 2 ^ 64 ->
  let k := Z.min (Z.of_nat n) (zlen entries) in
  exists it, calls (keys_next pr) n (it_new entries) = Ok (results n (map fst entries), it) /\
    yields (keys_next pr) it (skipn n (map fst entries)) /\
    it_len pr it = Ok (zlen entries - k) /\
    it_size_hint pr it = Ok (zlen entries - k, Some (zlen entries - k)) /\
    (2 * k <= zlen entries -> set_it_count pr it = Ok (zlen entries - 2 * k)) /\
    (zlen entries < 2 * k -> set_it_count pr it =
       match pr with Checked => Panic POverflow | Wrapping => Ok (zlen entries - 2 * k + 2 ^ 64) end).
Proof. exact set_iterators_exact. Qed.
Print Assumptions C27_set_iterators_exact.

Theorem C27_into_iter_is_exact :
  forall (T : Type) (entries : list (T * unit)) (n : nat),
  calls into_iter_next n (into_iter_new entries) = Ok (results n (map fst entries), skipn n entries) /\
  yields into_iter_next (skipn n entries) (skipn n (map fst entries)) /\
  into_iter_len (skipn n entries) = Z.of_nat (length entries - n) /\
  into_iter_size_hint (skipn n entries) = (Z.of_nat (length entries - n), Some (Z.of_nat (length entries - n))) /\
  into_iter_count (skipn n entries) = Z.of_nat (length entries - n).
Proof. exact into_iter_is_exact. Qed.
Print Assumptions C27_into_iter_is_exact.

Theorem C27_set_count_refuted :
  exists entries : list (Z * unit), forall pr, exists os it,
    calls (keys_next pr) 1 (it_new entries) = Ok (os, it) /\
    yields (keys_next pr) it [2] /\ set_it_count pr it = Ok 0.
Proof. exact set_count_refuted. Qed.
Print Assumptions C27_set_count_refuted.

Example C27_case :
  exists it, calls (keys_next Checked) 1 (it_new (with_unit [1; 2; 3])) = Ok ([Some 1], it) /\
  it_len Checked it = Ok 2 /\ set_it_count Checked it = Ok 1 /\
  calls into_iter_next 2 (into_iter_new (with_unit [1; 2; 3])) = Ok ([Some 1; Some 2], with_unit [3]).
Proof. exact ex_C27. Qed.

(** ** C28: union *)

Theorem C28_union_exact :
  forall (T : Type) (eqb : T -> T -> bool) (D : T -> Prop),
  forall s1 s2 : set_impl T,
  equivalence eqb -> lawful_set eqb D s1 -> lawful_set eqb D s2 ->
  distinct eqb (s_items s1) -> distinct eqb (s_items s2) ->
  exists L, yields (union_next s1 s2) (pair_new s1 s2) L /\ distinct eqb L /\
    (forall x, In x L -> In x (s_items s1) \/ In x (s_items s2)) /\
    (forall x, member eqb L x <-> member eqb (s_items s1) x \/ member eqb (s_items s2) x).
Proof. intros T eqb D. exact (@union_exact T eqb D). Qed.
Print Assumptions C28_union_exact.

Example C28_case1 :
  Forall (fun s => lawful_set mod_eqb (fun _ => True) s /\ distinct mod_eqb (s_items s)) sample_sets.
Proof. exact sample_sets_ok. Qed.

Example C28_case2 :
  items_of (union_next set_a set_b) (pair_new set_a set_b) =
  Ok [Some 1; Some 2; Some 3; Some 4; Some 5; None].
Proof. exact ex_C28. Qed.

(** ** C29: intersection *)

Theorem C29_intersection_exact :
  forall (T : Type) (eqb : T -> T -> bool) (D : T -> Prop),
  forall s1 s2 : set_impl T,
  equivalence eqb -> lawful_set eqb D s1 -> lawful_set eqb D s2 ->
  distinct eqb (s_items s1) -> distinct eqb (s_items s2) ->
  exists L, yields (intersection_next s1 s2) (pair_new s1 s2) L /\ distinct eqb L /\
    (forall x, In x L -> In x (s_items s1) \/ In x (s_items s2)) /\
    (forall x, member eqb L x <-> member eqb (s_items s1) x /\ member eqb (s_items s2) x).
Proof. intros T eqb D. exact (@intersection_exact T eqb D). Qed.
Print Assumptions C29_intersection_exact.

Example C29_case :
  items_of (intersection_next set_a set_b) (pair_new set_a set_b) = Ok [Some 3; Some 1004; None; None; None; None].
Proof. exact ex_C29. Qed.

(** ** C30: difference and symmetric difference *)

Theorem C30_difference_exact :
  forall (T : Type) (eqb : T -> T -> bool) (D : T -> Prop),
  forall s1 s2 : set_impl T,
  equivalence eqb -> lawful_set eqb D s1 -> lawful_set eqb D s2 ->
  distinct eqb (s_items s1) ->
  exists L, yields (difference_next s1 s2) (difference_new s1 s2) L /\ distinct eqb L /\
    (forall x, In x L -> In x (s_items s1)) /\
    (forall x, member eqb L x <-> member eqb (s_items s1) x /\ ~ member eqb (s_items s2) x).
Proof. intros T eqb D. exact (@difference_exact T eqb D). Qed.
Print Assumptions C30_difference_exact.

Theorem C30_symmetric_difference_exact :
  forall (T : Type) (eqb : T -> T -> bool) (D : T -> Prop),
  forall s1 s2 : set_impl T,
  equivalence eqb -> lawful_set eqb D s1 -> lawful_set eqb D s2 ->
  distinct eqb (s_items s1) -> distinct eqb (s_items s2) ->
  exists L, yields (symmetric_difference_next s1 s2) (pair_new s1 s2) L /\ distinct eqb L /\
    (forall x, In x L -> In x (s_items s1) \/ In x (s_items s2)) /\
    (forall x, member eqb L x <->
       (member eqb (s_items s1) x /\ ~ member eqb (s_items s2) x) \/
       (member eqb (s_items s2) x /\ ~ member eqb (s_items s1) x)).
Proof. intros T eqb D. exact (@symmetric_difference_exact T eqb D). Qed.
Print Assumptions C30_symmetric_difference_exact.

Example C30_case :
  items_of (difference_next set_a set_b) (difference_new set_a set_b) = Ok [Some 1; Some 2; None; None; None; None] /\
  items_of (symmetric_difference_next set_a set_b) (pair_new set_a set_b) = Ok [Some 1; Some 2; Some 5; None; None; None].
Proof. exact ex_C30. Qed.

(** ** C31: size hints of set operations *)

Theorem C31_size_hints_hold :
  forall (T : Type) (eqb : T -> T -> bool) (D : T -> Prop),
  forall s1 s2 : set_impl T,
  equivalence eqb -> lawful_set eqb D s1 -> lawful_set eqb D s2 ->
  forall n : nat,
  (exists os st L, calls (difference_next s1 s2) n (difference_new s1 s2) = Ok (os, st) /\
     yields (difference_next s1 s2) st L /\ within (zlen L) (difference_size_hint s1 s2)) /\
  (exists os st L, calls (symmetric_difference_next s1 s2) n (pair_new s1 s2) = Ok (os, st) /\
     yields (symmetric_difference_next s1 s2) st L /\ within (zlen L) (symmetric_difference_size_hint s1 s2)) /\
  (exists os st L, calls (intersection_next s1 s2) n (pair_new s1 s2) = Ok (os, st) /\
     yields (intersection_next s1 s2) st L /\ within (zlen L) (intersection_size_hint s1 s2)) /\
  (exists L, yields (union_next s1 s2) (pair_new s1 s2) L /\ within (zlen L) (union_size_hint s1 s2)).
Proof. intros T eqb D. exact (@size_hints_hold T eqb D). Qed.
Print Assumptions C31_size_hints_hold.

Theorem C31_union_size_hint_refuted :
  exists s1 s2 : set_impl Z,
    lawful_set Z.eqb (fun _ => True) s1 /\ lawful_set Z.eqb (fun _ => True) s2 /\
    distinct Z.eqb (s_items s1) /\ distinct Z.eqb (s_items s2) /\
    exists os st, calls (union_next s1 s2) 1 (pair_new s1 s2) = Ok (os, st) /\
      yields (union_next s1 s2) st [] /\ ~ within 0 (union_size_hint s1 s2).
Proof. exact union_size_hint_refuted. Qed.
Print Assumptions C31_union_size_hint_refuted.

Example C31_case :
  within 5 (union_size_hint set_a set_b) /\ within 2 (intersection_size_hint set_a set_b) /\
  within 2 (difference_size_hint set_a set_b) /\ within 3 (symmetric_difference_size_hint set_a set_b) /\
  ~ within 8 (union_size_hint set_a set_b).
Proof. exact ex_C31. Qed.

(** ** C32: subset, superset, disjoint *)

Theorem C32_set_relations :
  forall (T : Type) (eqb : T -> T -> bool) (D : T -> Prop),
  forall s1 s2 : set_impl T,
  equivalence eqb -> lawful_set eqb D s1 -> lawful_set eqb D s2 ->
  (distinct eqb (s_items s1) ->
   exists b, is_subset s1 s2 = Ok b /\
     (b = true <-> forall x, member eqb (s_items s1) x -> member eqb (s_items s2) x)) /\
  (distinct eqb (s_items s2) ->
   exists b, is_superset s1 s2 = Ok b /\
     (b = true <-> forall x, member eqb (s_items s2) x -> member eqb (s_items s1) x)) /\
  (exists b, is_disjoint s1 s2 = Ok b /\
     (b = true <-> forall x, ~ (member eqb (s_items s1) x /\ member eqb (s_items s2) x))).
Proof. intros T eqb D. exact (@set_relations T eqb D). Qed.
Print Assumptions C32_set_relations.

Theorem C32_subset_duplicates_refuted :
  exists i1 i2 : list (key Z),
    (forall x, member (key_eqb Z.eqb) i1 x <-> member (key_eqb Z.eqb) i2 x) /\
    forall (E : env) (bh : hasher Z), exists s1 s2,
      fs_new E KindU32 i1 bh = Ok s1 /\ fs_new E KindU32 i2 bh = Ok s2 /\
      is_subset (fs_as_set Z.eqb E s1) (fs_as_set Z.eqb E s2) = Ok false /\
      fs_eq Z.eqb E s1 s2 = Ok false.
Proof. exact subset_duplicates_refuted. Qed.
Print Assumptions C32_subset_duplicates_refuted.

Example C32_case :
  is_subset set_c set_a = Ok true /\ is_subset set_b set_a = Ok false /\ is_superset set_a set_c = Ok true /\
  is_disjoint set_b set_c = Ok true /\ is_disjoint set_a set_b = Ok false.
Proof. exact ex_C32. Qed.

(** ** C33: set equality *)

Theorem C33_set_eq_extensional :
  forall (T : Type) (eqb : T -> T -> bool) (D : T -> Prop),
  forall s1 s2 : set_impl T,
  equivalence eqb -> lawful_set eqb D s1 -> lawful_set eqb D s2 ->
  distinct eqb (s_items s1) -> distinct eqb (s_items s2) ->
  exists b, set_eq s1 s2 = Ok b /\
    (b = true <-> forall x, member eqb (s_items s1) x <-> member eqb (s_items s2) x).
Proof. intros T eqb D. exact (@set_eq_extensional T eqb D). Qed.
Print Assumptions C33_set_eq_extensional.

Theorem C33_set_eq_equivalence :
  forall (T : Type) (eqb : T -> T -> bool) (D : T -> Prop),
  forall s1 s2 s3 : set_impl T,
  equivalence eqb -> lawful_set eqb D s1 -> lawful_set eqb D s2 -> lawful_set eqb D s3 ->
  distinct eqb (s_items s1) -> distinct eqb (s_items s2) -> distinct eqb (s_items s3) ->
  set_eq s1 s1 = Ok true /\ set_eq s1 s2 = set_eq s2 s1 /\
  (set_eq s1 s2 = Ok true -> set_eq s2 s3 = Ok true -> set_eq s1 s3 = Ok true).
Proof. intros T eqb D. exact (@set_eq_equivalence T eqb D). Qed.
Print Assumptions C33_set_eq_equivalence.

Theorem C33_frozen_set_eq_extensional :
  forall (O : Type) (eqbO : O -> O -> bool) (E : env) (kd : kind) (bh1 bh2 : hasher O)
         (items1 items2 : list (key O)) (s1 s2 : set_types O),
  env_ok E -> equivalence eqbO -> lawful_hash eqbO bh1 -> lawful_hash eqbO bh2 ->
  countable (prof E) (zlen items1) -> countable (prof E) (zlen items2) ->
  (forall x, In x items1 -> has_kind kd x) -> (forall x, In x items2 -> has_kind kd x) ->
  distinct (key_eqb eqbO) items1 -> distinct (key_eqb eqbO) items2 ->
  fs_new E kd items1 bh1 = Ok s1 -> fs_new E kd items2 bh2 = Ok s2 ->
  fs_eq eqbO E s1 s2 = fs_eq eqbO E s2 s1 /\
  exists b, fs_eq eqbO E s1 s2 = Ok b /\
    (b = true <-> forall x, member (key_eqb eqbO) items1 x <-> member (key_eqb eqbO) items2 x).
Proof. exact frozen_set_eq_extensional. Qed.
Print Assumptions C33_frozen_set_eq_extensional.

Example C33_case :
  set_eq set_c (hash_set_of mod_eqb [1001; 2]) = Ok true /\ set_eq set_c (hash_set_of mod_eqb [1; 3]) = Ok false.
Proof. exact ex_C33. Qed.

(** ** C34: FrozenSet membership *)

Theorem C34_frozen_set_exact :
  forall (O : Type) (eqbO : O -> O -> bool) (E : env) (kd : kind) (bh : hasher O)
         (items : list (key O)) (s : set_types O),
  env_ok E -> equivalence eqbO -> lawful_hash eqbO bh -> countable (prof E) (zlen items) ->
  zlen items < 2 ^ 64 -> (forall x, In x items -> has_kind kd x) ->
  (kd = KindU32 -> distinct (key_eqb eqbO) items) ->
  fs_new E kd items bh = Ok s ->
  Permutation items (fs_items s) /\
  yields (keys_next (prof E)) (it_new (with_unit (fs_items s))) (fs_items s) /\
  fs_len s = zlen items /\ (fs_is_empty s = true <-> items = []) /\
  forall x, has_kind kd x ->
    (member (key_eqb eqbO) items x /\ fs_contains eqbO E s x = Ok true /\
     exists y, fs_get eqbO E s x = Ok (Some y) /\ In y items /\ key_eqb eqbO x y = true) \/
    (~ member (key_eqb eqbO) items x /\ fs_contains eqbO E s x = Ok false /\
     fs_get eqbO E s x = Ok None).
Proof. exact frozen_set_exact. Qed.
Print Assumptions C34_frozen_set_exact.

(** A FrozenSet satisfies the hypotheses of C28 to C35. *)
Theorem C34_frozen_set_lawful :
  forall (O : Type) (eqbO : O -> O -> bool) (E : env) (kd : kind) (bh : hasher O)
         (items : list (key O)) (s : set_types O),
  env_ok E -> equivalence eqbO -> lawful_hash eqbO bh -> countable (prof E) (zlen items) ->
  (forall x, In x items -> has_kind kd x) -> (kd = KindU32 -> distinct (key_eqb eqbO) items) ->
  fs_new E kd items bh = Ok s ->
  lawful_set (key_eqb eqbO) (has_kind kd) (fs_as_set eqbO E s) /\
  (distinct (key_eqb eqbO) items -> distinct (key_eqb eqbO) (s_items (fs_as_set eqbO E s))).
Proof. exact frozen_set_lawful. Qed.
Print Assumptions C34_frozen_set_lawful.

Example C34_case :
  Forall (fun sc => set_answers sc =
    Ok (zlen (snd sc), map (fun _ => true) (snd sc),
        map (fun _ => false) (filter (fun k => negb (existsb (key_eqb mod_eqb k) (snd sc))) (absent_keys (snd (fst (fst sc))))))) set_scenarios.
Proof. exact ex_C34. Qed.

(** ** C35: set operators *)

Theorem C35_set_operators :
  forall (T : Type) (eqb : T -> T -> bool) (D : T -> Prop),
  forall s1 s2 : set_impl T,
  equivalence eqb -> lawful_set eqb D s1 -> lawful_set eqb D s2 ->
  let m1 := member eqb (s_items s1) in
  let m2 := member eqb (s_items s2) in
  (exists s, bitor eqb s1 s2 = Ok s /\ lawful_set eqb (fun _ => True) s /\ distinct eqb (s_items s) /\
     forall x, member eqb (s_items s) x <-> m1 x \/ m2 x) /\
  (exists s, bitand eqb s1 s2 = Ok s /\ lawful_set eqb (fun _ => True) s /\ distinct eqb (s_items s) /\
     forall x, member eqb (s_items s) x <-> m1 x /\ m2 x) /\
  (exists s, bitxor eqb s1 s2 = Ok s /\ lawful_set eqb (fun _ => True) s /\ distinct eqb (s_items s) /\
     forall x, member eqb (s_items s) x <-> (m1 x /\ ~ m2 x) \/ (m2 x /\ ~ m1 x)) /\
  (exists s, set_sub eqb s1 s2 = Ok s /\ lawful_set eqb (fun _ => True) s /\ distinct eqb (s_items s) /\
     forall x, member eqb (s_items s) x <-> m1 x /\ ~ m2 x).
Proof. intros T eqb D. exact (@set_operators T eqb D). Qed.
Print Assumptions C35_set_operators.

Example C35_case :
  (s <- bitor mod_eqb set_a set_b ;; Ok (zlen (s_items s))) = Ok 5 /\
  (s <- bitand mod_eqb set_a set_b ;; Ok (zlen (s_items s))) = Ok 2 /\
  (s <- bitxor mod_eqb set_a set_b ;; Ok (s_items s)) = Ok [1; 2; 5] /\
  (s <- set_sub mod_eqb set_a set_b ;; Ok (s_items s)) = Ok [1; 2].
Proof. exact ex_C35. Qed.

(** ** C36: the frozen_map macro *)

Theorem C36_macro_int :
  forall (O V : Type) (pr : profile) (h : list Z -> Z) (ty : int_type) (payload : list (Z * V)),
  1 <= bits ty -> (forall k, In k (map fst payload) -> imin ty <= k <= imax ty) ->
  NoDup (map fst payload) -> zlen payload < 2 ^ 31 ->
  let keys := map fst payload in
  let expanded := frozen_map_macro pr h (TInt ty) (map (fun e => @LInt O (fst e)) payload) in
  (3 <= zlen keys /\ pr = Checked /\ too_wide ty keys /\ expanded = Panic POverflow) \/
  (3 <= zlen keys /\ (pr = Wrapping \/ ~ too_wide ty keys) /\ consecutive keys /\ zlen keys < 2 ^ bits ty /\
     exists x, expanded = Ok x /\ forall E, run_int E ty x payload = None) \/
  ((zlen keys < 3 \/ (pr = Wrapping \/ ~ too_wide ty keys) /\ (~ consecutive keys \/ zlen keys = 2 ^ bits ty)) /\
     exists x, expanded = Ok x /\ forall E, env_ok E ->
       exists get, run_int E ty x payload = Some (Ok get) /\ exact_get Z.eqb (fun _ => True) payload get).
Proof. exact macro_int. Qed.
Print Assumptions C36_macro_int.

Theorem C36_macro_str :
  forall (O V : Type) (pr : profile) (h : list Z -> Z) (payload : list (list Z * V)),
  (forall s, In s (map fst payload) -> zlen s < 2 ^ 64) ->
  distinct bytes_eqb (map fst payload) -> zlen payload < 2 ^ 31 ->
  let keys := map fst payload in
  let expanded := frozen_map_macro pr h TStr (map (fun e => @LStr O (fst e)) payload) in
  (~ string_ub h keys /\ ~ string_panic h keys /\
     exists x, expanded = Ok x /\
       forall (BH : Type) (hash_string hash_write : BH -> list Z -> Z) (E : env) (bh : BH), env_ok E ->
       exists get, run_str hash_string hash_write E bh x payload = Some (Ok get) /\
         exact_get bytes_eqb (fun _ => True) payload get) \/
  (string_ub h keys /\
     exists x, expanded = Ok x /\
       forall (BH : Type) (hash_string hash_write : BH -> list Z -> Z) (E : env) (bh : BH),
       run_str hash_string hash_write E bh x payload = Some (UB OutOfBounds)) \/
  (string_panic h keys /\ expanded = Panic PIndexOutOfBounds).
Proof. exact macro_str. Qed.
Print Assumptions C36_macro_str.

Theorem C36_macro_other :
  forall (O V : Type) (eqbO : O -> O -> bool) (pr : profile) (h : list Z -> Z) (payload : list (O * V)),
  equivalence eqbO -> distinct eqbO (map fst payload) -> zlen payload < 2 ^ 31 ->
  exists x, frozen_map_macro pr h TOther (map (fun e => LExpr (fst e)) payload) = Ok x /\
    forall (BH : Type) (hash : BH -> O -> Z) (E : env) (bh : BH), env_ok E ->
    (forall a b, eqbO a b = true -> hash bh a = hash bh b) ->
    exists get, run_other eqbO hash E bh x payload = Some (Ok get) /\
      exact_get eqbO (fun _ => True) payload get.
Proof. exact macro_other. Qed.
Print Assumptions C36_macro_other.

Theorem C36_macro_range_refuted :
  exists keys : list Z, NoDup keys /\ (forall k, In k keys -> 0 <= k <= 255) /\
    forall (pr : profile) (h : list Z -> Z), exists x,
      frozen_map_macro pr h (TInt u8) (map (@LInt unit) keys) = Ok x /\
      forall E, run_int E u8 x (map (fun k => (k, tt)) keys) = None.
Proof. exact macro_range_refuted. Qed.
Print Assumptions C36_macro_range_refuted.

Theorem C36_macro_panic_refuted :
  exists keys : list Z, NoDup keys /\ (forall k, In k keys -> -128 <= k <= 127) /\
    forall h : list Z -> Z,
      frozen_map_macro Checked h (TInt i8) (map (@LInt unit) keys) = Panic POverflow.
Proof. exact macro_panic_refuted. Qed.
Print Assumptions C36_macro_panic_refuted.

Example C36_case1 :
  frozen_map_macro Checked poly (TInt u8) (map (@LInt Z) [4; 8; 15; 16; 23; 42]) = Ok (XPlain NIntegerMap u8) /\
  frozen_map_macro Checked poly (TInt u8) (map (@LInt Z) [1; 2; 3; 4; 5]) = Ok (XPlain NIntegerRangeMap u8) /\
  frozen_map_macro Checked poly (TInt u64) (map (@LInt Z) [1; 1000]) = Ok XScanning /\
  frozen_map_macro Checked poly TStr (map (@LStr Z) lefts5) = Ok (XRanged NLeftSliceMap u8 1 2) /\
  frozen_map_macro Checked poly TStr (map (@LStr Z) ub_keys) = Ok (XRanged NRightSliceMap u8 0 1) /\
  frozen_map_macro Checked poly TStr (map (@LStr Z) panic_keys) = Panic PIndexOutOfBounds /\
  frozen_map_macro Checked poly TOther (map (@LExpr Z) [1; 2; 3; 4]) = Ok (XPlain NCommonMap u8).
Proof. exact ex_C36. Qed.

Example C36_case2 :
  (match run_int checked_env u8 (XPlain NIntegerMap u8) five with
   | Some (Ok get) => map get [31; 32] | _ => [] end) = [Ok (Some 3); Ok None] /\
  (match run_str hash_write hash_write checked_env sample_hasher (XRanged NLeftSliceMap u8 1 3) tails with
   | Some (Ok get) => map get [[97;98;99]; [98]] | _ => [] end) = [Ok (Some 1); Ok None].
Proof. exact ex_C36_run. Qed.

(** ** C37: default values *)

Theorem C37_map_default_empty :
  forall (O V : Type) (eqbO : O -> O -> bool) (E : env),
  let m := fm_default (O:=O) (V:=V) in
  fm_len m = 0 /\ fm_is_empty m = true /\ yields (it_next (prof E)) (fm_iter_new m) [] /\
  forall k, fm_get eqbO E m k = Ok None /\ fm_get_key_value eqbO E m k = Ok None /\
            fm_contains_key eqbO E m k = Ok false /\ fm_get_mut eqbO E m k = Ok None.
Proof. exact map_default_empty. Qed.
Print Assumptions C37_map_default_empty.

Theorem C37_set_default_empty :
  forall (O : Type) (eqbO : O -> O -> bool) (E : env),
  let s := fs_default (O:=O) in
  fs_len s = 0 /\ fs_is_empty s = true /\ yields (keys_next (prof E)) (it_new (with_unit (fs_items s))) [] /\
  forall x, fs_contains eqbO E s x = Ok false /\ fs_get eqbO E s x = Ok None.
Proof. exact set_default_empty. Qed.
Print Assumptions C37_set_default_empty.

(** ** C38: histories *)

Theorem C38_history_refinement :
  forall (O V : Type) (eqbO : O -> O -> bool) (E : env) (kd : kind) (bh : hasher O)
         (payload : list (key O * V)) (m : map_types O V) (history : list (op (key O) V)),
  env_ok E -> equivalence eqbO -> lawful_hash eqbO bh ->
  countable (prof E) (zlen payload) -> zlen payload < 2 ^ 64 -> typed kd payload ->
  distinct (key_eqb eqbO) (map fst payload) ->
  fm_new E kd payload bh = Ok m ->
  (forall o k, In o history -> In k (op_keys o) -> has_kind kd k) ->
  Forall2 same_obs (run eqbO E m history) (abstract_run (key_eqb eqbO) payload history).
Proof. exact history_refinement. Qed.
Print Assumptions C38_history_refinement.

Example C38_case :
  exists m, small_map = Ok m /\
  run mod_eqb checked_env m sample_history =
    [SawNumber 6; SawValue (Some 170); SawBool true; SawValue (Some 9); SawPanic; SawBool true;
     SawBool true; SawEntry (Some (KOther 5, 2)); SawBool false; SawBool true; SawBool false] /\
  (forall o k, In o sample_history -> In k (op_keys o) -> has_kind KindOther k).
Proof. exact ex_C38. Qed.

(** ** C39: reinterpretation of keys *)

Theorem C39_map_no_type_confusion :
  forall (O V : Type) (eqbO : O -> O -> bool) (E : env) (kd : kind) (bh : hasher O)
         (payload : list (key O * V)),
  typed kd payload ->
  fm_new E kd payload bh <> UB WrongType /\
  forall m, fm_new E kd payload bh = Ok m ->
    (forall k, has_kind kd k ->
      fm_get eqbO E m k <> UB WrongType /\ fm_get_key_value eqbO E m k <> UB WrongType /\
      fm_get_mut eqbO E m k <> UB WrongType /\ fm_contains_key eqbO E m k <> UB WrongType /\
      fm_index eqbO E m k <> UB WrongType /\ fm_index_mut eqbO E m k <> UB WrongType) /\
    (forall keys, (forall k, In k keys -> has_kind kd k) ->
      fm_get_many_mut eqbO E m keys <> UB WrongType).
Proof. exact map_no_type_confusion. Qed.
Print Assumptions C39_map_no_type_confusion.

Theorem C39_set_no_type_confusion :
  forall (O : Type) (eqbO : O -> O -> bool) (E : env) (kd : kind) (bh : hasher O) (items : list (key O)),
  (forall x, In x items -> has_kind kd x) ->
  fs_new E kd items bh <> UB WrongType /\
  forall s, fs_new E kd items bh = Ok s -> forall x, has_kind kd x ->
    fs_get eqbO E s x <> UB WrongType /\ fs_contains eqbO E s x <> UB WrongType.
Proof. exact set_no_type_confusion. Qed.
Print Assumptions C39_set_no_type_confusion.

Example C39_case :
  fm_new checked_env KindU32 (others [1; 2; 3; 4]) sample_hasher = UB WrongType /\
  (exists m, fm_new checked_env KindU32 (u32s [4; 8; 15; 16]) sample_hasher = Ok m /\
     fm_get mod_eqb checked_env m (KOther 4) = UB WrongType).
Proof. exact ex_C39. Qed.

(** ** C40: capacity limits *)

Theorem C40_capacity_sufficient :
  forall (K V BH : Type) (hash_key : BH -> K -> Z) (E : env) (S_ty : int_type)
         (payload : list (K * V)) (bh : BH) (ints : list (Z * V)) (len : K -> Z),
  env_ok E -> fits S_ty (zlen payload) -> fits S_ty (zlen ints) ->
  (exists m, cm_from_vec hash_key E S_ty payload bh = Ok m) /\
  (exists m, lm_from_vec len E S_ty payload = Ok m) /\
  (exists m, im_from_vec E S_ty ints = Ok m).
Proof. exact capacity_sufficient. Qed.
Print Assumptions C40_capacity_sufficient.

Theorem C40_capacity_exceeded :
  forall (K V BH : Type) (hash_key : BH -> K -> Z) (E : env) (S_ty : int_type)
         (payload : list (K * V)) (bh : BH) (ints : list (Z * V)) (len : K -> Z),
  0 <= imax S_ty < 2 ^ 64 -> imax S_ty < zlen payload -> imax S_ty < zlen ints ->
  cm_from_vec hash_key E S_ty payload bh = Panic PCapacity /\
  lm_from_vec len E S_ty payload = Panic PCapacity /\
  im_from_vec E S_ty ints = Panic PCapacity.
Proof. exact capacity_exceeded. Qed.
Print Assumptions C40_capacity_exceeded.

Theorem C40_wide_index_panics :
  forall (K V BH : Type) (hash_key : BH -> K -> Z) (E : env)
         (payload : list (K * V)) (bh : BH) (ints : list (Z * V)) (len : K -> Z),
  payload <> [] -> ints <> [] ->
  cm_from_vec hash_key E u128 payload bh = Panic PUnwrapNone /\
  lm_from_vec len E u128 payload = Panic PUnwrapNone /\
  im_from_vec E u128 ints = Panic PUnwrapNone.
Proof. exact wide_index_panics. Qed.
Print Assumptions C40_wide_index_panics.

Theorem C40_checked_size_limit :
  forall (K V BH : Type) (hash_key : BH -> K -> Z) (hw : BH -> list Z -> Z) (E : env) (S_ty : int_type)
         (payload : list (K * V)) (bh : BH) (ints : list (Z * V)) (strs : list (list Z * V)) (len : K -> Z) (a b : Z),
  env_ok E -> prof E = Checked ->
  2 ^ 31 <= zlen payload -> 2 ^ 31 <= zlen ints -> 2 ^ 31 <= zlen strs ->
  (forall m, cm_from_vec hash_key E S_ty payload bh <> Ok m) /\
  (forall m, lm_from_vec len E S_ty payload <> Ok m) /\
  (forall m, im_from_vec E S_ty ints <> Ok m) /\
  (forall m, lsm_from_vec hw E S_ty strs a b bh <> Ok m) /\
  (forall m, rsm_from_vec hw E S_ty strs a b bh <> Ok m).
Proof. exact checked_size_limit. Qed.
Print Assumptions C40_checked_size_limit.

Theorem C40_left_slice_capacity_exceeded :
  forall (V BH : Type) (hw : BH -> list Z -> Z) (E : env) (S_ty : int_type)
         (payload : list (list Z * V)) (a b : Z) (bh : BH),
  0 <= imax S_ty < 2 ^ 64 -> imax S_ty < zlen payload -> 0 <= a <= b ->
  lsm_from_vec hw E S_ty payload a b bh = Panic PCapacity.
Proof. exact left_slice_capacity_exceeded. Qed.
Print Assumptions C40_left_slice_capacity_exceeded.

Example C40_case :
  fits u8 (zlen (numbers 0 1 255)) /\ imax u8 < zlen (numbers 0 1 256) /\
  im_from_vec checked_env u8 (map (fun k => (k, k)) (numbers 0 1 256)) = Panic PCapacity /\
  im_from_vec checked_env u128 three = Panic PUnwrapNone.
Proof. exact ex_C40. Qed.

(** ** C41: specialized maps are exact *)

Theorem C41_scanning_map_exact :
  forall (K V Q : Type) (eqb : Q -> Q -> bool) (borrow : K -> Q) (payload : list (K * V)),
  equivalence eqb -> distinct eqb (map (fun e => borrow (fst e)) payload) ->
  exact_get eqb (fun _ => True) (map (fun e => (borrow (fst e), snd e)) payload)
    (sm_get eqb borrow (sm_from_vec payload)).
Proof. exact scanning_map_exact. Qed.
Print Assumptions C41_scanning_map_exact.

Theorem C41_common_map_exact :
  forall (K V Q BH : Type) (eqb : Q -> Q -> bool) (borrow : K -> Q)
         (hash_key : BH -> K -> Z) (hash_query : BH -> Q -> Z)
         (E : env) (S_ty : int_type) (payload : list (K * V)) (bh : BH),
  env_ok E -> fits S_ty (zlen payload) -> equivalence eqb ->
  (forall k, hash_key bh k = hash_query bh (borrow k)) ->
  (forall a b, eqb a b = true -> hash_query bh a = hash_query bh b) ->
  distinct eqb (map (fun e => borrow (fst e)) payload) ->
  exists m, cm_from_vec hash_key E S_ty payload bh = Ok m /\
    Permutation payload (entries (cm_table m)) /\
    exact_get eqb (fun _ => True) (map (fun e => (borrow (fst e), snd e)) payload)
      (cm_get eqb borrow hash_query m).
Proof. exact common_map_exact. Qed.
Print Assumptions C41_common_map_exact.

Theorem C41_integer_map_exact :
  forall (V : Type) (E : env) (S_ty : int_type) (payload : list (Z * V)),
  env_ok E -> fits S_ty (zlen payload) -> NoDup (map fst payload) ->
  exists m, im_from_vec E S_ty payload = Ok m /\
    Permutation payload (entries (im_table m)) /\
    exact_get Z.eqb (fun _ => True) payload (im_get m).
Proof. exact integer_map_exact. Qed.
Print Assumptions C41_integer_map_exact.

Theorem C41_length_map_exact :
  forall (K V Q : Type) (eqb : Q -> Q -> bool) (borrow : K -> Q) (len_key : K -> Z) (len_query : Q -> Z)
         (E : env) (S_ty : int_type) (payload : list (K * V)),
  env_ok E -> fits S_ty (zlen payload) -> equivalence eqb ->
  (forall k, len_key k = len_query (borrow k)) ->
  (forall a b, eqb a b = true -> len_query a = len_query b) ->
  distinct eqb (map (fun e => borrow (fst e)) payload) ->
  exists m, lm_from_vec len_key E S_ty payload = Ok m /\
    Permutation payload (entries (lm_table m)) /\
    exact_get eqb (fun _ => True) (map (fun e => (borrow (fst e), snd e)) payload)
      (lm_get eqb borrow len_query m).
Proof. exact length_map_exact. Qed.
Print Assumptions C41_length_map_exact.

Example C41_case :
  (exists m, im_from_vec checked_env u8 five = Ok m /\ im_get m 31 = Ok (Some 3) /\ im_get m 32 = Ok None) /\
  (exists m, lm_from_vec zlen checked_env u8 tails = Ok m /\
     lm_get bytes_eqb (fun k => k) zlen m [97;98;100] = Ok (Some 2) /\ lm_get bytes_eqb (fun k => k) zlen m [97] = Ok None) /\
  sm_get mod_eqb (fun k => k) (sm_from_vec three) 1002 = Ok (Some 20).
Proof. exact ex_C41. Qed.

(** ** C42: maps with 2^32 entries *)

Theorem C42_huge_map_loses_entries_refuted :
  exists (payload : list (key Z * Z)) (bh : hasher Z),
    zlen payload = 2 ^ 32 /\ typed KindOther payload /\ distinct (key_eqb Z.eqb) (map fst payload) /\
    lawful_hash Z.eqb bh /\
    forall E, env_ok E -> prof E = Wrapping ->
    exists m, fm_new E KindOther payload bh = Ok m /\ fm_len m = 2 ^ 32 /\
      forall k, has_kind KindOther k -> fm_get Z.eqb E m k = Ok None.
Proof. exact huge_map_loses_entries_refuted. Qed.
Print Assumptions C42_huge_map_loses_entries_refuted.

(** ** C43: integer range detection on the whole domain *)

Theorem C43_int_range_wrapping :
  forall (ty : int_type) (keys : list Z),
  1 <= bits ty -> NoDup keys -> (forall k, In k keys -> imin ty <= k <= imax ty) ->
  (keys <> [] /\ consecutive keys /\ zlen keys < 2 ^ bits ty -> analyze_int_keys Wrapping ty keys = Ok IntRange) /\
  (keys = [] \/ ~ consecutive keys \/ zlen keys = 2 ^ bits ty -> analyze_int_keys Wrapping ty keys = Ok IntNormal).
Proof. exact int_range_wrapping. Qed.
Print Assumptions C43_int_range_wrapping.

Theorem C43_int_range_checked :
  forall (ty : int_type) (keys : list Z),
  1 <= bits ty -> NoDup keys -> (forall k, In k keys -> imin ty <= k <= imax ty) ->
  (imax ty < zlen keys \/ (exists x y, In x keys /\ In y keys /\ imax ty < y - x)) /\
    analyze_int_keys Checked ty keys = Panic POverflow \/
  (zlen keys <= imax ty /\ forall x y, In x keys -> In y keys -> y - x <= imax ty) /\
    (keys <> [] /\ consecutive keys /\ analyze_int_keys Checked ty keys = Ok IntRange \/
     (keys = [] \/ ~ consecutive keys) /\ analyze_int_keys Checked ty keys = Ok IntNormal).
Proof. exact int_range_checked. Qed.
Print Assumptions C43_int_range_checked.

Example C43_case1 :
  analyze_int_keys Wrapping u8 (numbers 0 1 256) = Ok IntNormal /\ analyze_int_keys Checked u8 (numbers 0 1 256) = Panic POverflow /\
  analyze_int_keys Wrapping u8 (numbers 0 1 255) = Ok IntRange /\ analyze_int_keys Wrapping i8 [-128; 127] = Ok IntNormal /\
  analyze_int_keys Wrapping i8 (numbers (-128) 1 200) = Ok IntRange.
Proof. exact ex_C43. Qed.

Example C43_case2 :
  map imin [u8; u16; u32; u64; u128; usize; i8; i16; i32; i64; i128; isize] =
    [0; 0; 0; 0; 0; 0; -128; -32768; -2147483648; -9223372036854775808;
     -170141183460469231731687303715884105728; -9223372036854775808] /\
  map imax [u8; u16; u32; u64; u128; usize; i8; i16; i32; i64; i128; isize] =
    [255; 65535; 4294967295; 18446744073709551615; 340282366920938463463374607431768211455; 18446744073709551615;
     127; 32767; 2147483647; 9223372036854775807; 170141183460469231731687303715884105727; 9223372036854775807] /\
  map (wrap i8) [127; 128; 255; 256; -129; -1] = [127; -128; -1; 0; 127; -1] /\
  map (wrap u8) [255; 256; -1] = [255; 0; 255] /\
  arith Checked i16 32768 = Panic POverflow /\ arith Wrapping i16 32768 = Ok (-32768) /\
  arith Checked i16 32767 = Ok 32767 /\ to_usize (-1) = None /\ num_cast u16 65536 = None /\ num_cast u16 65535 = Some 65535.
Proof. exact ex_types. Qed.

(** ** C44: histories of specialized maps *)

Theorem C44_scanning_map_history :
  forall (K V Q : Type) (pr : profile) (eqb : Q -> Q -> bool) (borrow : K -> Q) (payload : list (K * V)),
  equivalence eqb -> zlen payload < 2 ^ 64 -> distinct eqb (map (fun e => borrow (fst e)) payload) ->
  forall history : list (op Q V),
  Forall2 same_obs (mo_run pr eqb (sm_object eqb borrow) (sm_from_vec payload) history)
                   (object_run eqb borrow payload history).
Proof. exact scanning_map_history. Qed.
Print Assumptions C44_scanning_map_history.

Theorem C44_common_map_history :
  forall (K V Q BH : Type) (eqb : Q -> Q -> bool) (borrow : K -> Q)
         (hash_key : BH -> K -> Z) (hash_query : BH -> Q -> Z)
         (E : env) (S_ty : int_type) (payload : list (K * V)) (bh : BH),
  env_ok E -> fits S_ty (zlen payload) -> equivalence eqb ->
  (forall k, hash_key bh k = hash_query bh (borrow k)) ->
  (forall a b, eqb a b = true -> hash_query bh a = hash_query bh b) ->
  distinct eqb (map (fun e => borrow (fst e)) payload) ->
  exists m, cm_from_vec hash_key E S_ty payload bh = Ok m /\
  forall history : list (op Q V),
  Forall2 same_obs (mo_run (prof E) eqb (cm_object eqb borrow hash_query) m history)
                   (object_run eqb borrow payload history).
Proof. exact common_map_history. Qed.
Print Assumptions C44_common_map_history.

Theorem C44_integer_map_history :
  forall (V : Type) (E : env) (S_ty : int_type) (payload : list (Z * V)),
  env_ok E -> fits S_ty (zlen payload) -> NoDup (map fst payload) ->
  exists m, im_from_vec E S_ty payload = Ok m /\
  forall history : list (op Z V),
  Forall2 same_obs (mo_run (prof E) Z.eqb im_object m history)
                   (object_run Z.eqb (fun k => k) payload history).
Proof. exact integer_map_history. Qed.
Print Assumptions C44_integer_map_history.

Theorem C44_range_map_history :
  forall (V : Type) (pr : profile) (ty : int_type) (payload : list (Z * V)),
  1 <= bits ty -> payload <> [] -> NoDup (map fst payload) -> zlen payload < 2 ^ 64 ->
  (forall x y, In x (map fst payload) -> In y (map fst payload) -> x - y <= imax ty) ->
  consecutive (map fst payload) ->
  exists m, irm_from_vec pr ty payload = Ok m /\
  forall history : list (op Z V),
  Forall2 same_obs (mo_run pr Z.eqb (irm_object pr ty) m history)
                   (object_run Z.eqb (fun k => k) payload history).
Proof. exact range_map_history. Qed.
Print Assumptions C44_range_map_history.

Theorem C44_length_map_history :
  forall (K V Q : Type) (eqb : Q -> Q -> bool) (borrow : K -> Q) (len_key : K -> Z) (len_query : Q -> Z)
         (E : env) (S_ty : int_type) (payload : list (K * V)),
  env_ok E -> fits S_ty (zlen payload) -> equivalence eqb ->
  (forall k, len_key k = len_query (borrow k)) ->
  (forall a b, eqb a b = true -> len_query a = len_query b) ->
  distinct eqb (map (fun e => borrow (fst e)) payload) ->
  exists m, lm_from_vec len_key E S_ty payload = Ok m /\
  forall history : list (op Q V),
  Forall2 same_obs (mo_run (prof E) eqb (lm_object eqb borrow len_query) m history)
                   (object_run eqb borrow payload history).
Proof. exact length_map_history. Qed.
Print Assumptions C44_length_map_history.

Theorem C44_left_slice_map_history :
  forall (V BH : Type) (hash_write : BH -> list Z -> Z) (E : env) (S_ty : int_type)
         (payload : list (list Z * V)) (a b : Z) (bh : BH),
  env_ok E -> fits S_ty (zlen payload) -> 0 <= a <= b ->
  (forall k, In k (map fst payload) -> b <= zlen k) -> NoDup (map fst payload) ->
  exists m, lsm_from_vec hash_write E S_ty payload a b bh = Ok m /\
  forall history : list (op (list Z) V),
  Forall2 same_obs (mo_run (prof E) bytes_eqb (lsm_object hash_write) m history)
                   (object_run bytes_eqb (fun k => k) payload history).
Proof. exact left_slice_map_history. Qed.
Print Assumptions C44_left_slice_map_history.

Theorem C44_right_slice_map_history :
  forall (V BH : Type) (hash_write : BH -> list Z -> Z) (E : env) (S_ty : int_type)
         (payload : list (list Z * V)) (a b : Z) (bh : BH),
  env_ok E -> fits S_ty (zlen payload) -> 0 <= b <= a ->
  (forall k, In k (map fst payload) -> a <= zlen k < 2 ^ 64) -> NoDup (map fst payload) ->
  exists m, rsm_from_vec hash_write E S_ty payload a b bh = Ok m /\
  forall history : list (op (list Z) V), queries (fun q => zlen q < 2 ^ 64) history ->
  Forall2 same_obs (mo_run (prof E) bytes_eqb (rsm_object hash_write E) m history)
                   (object_run bytes_eqb (fun k => k) payload history).
Proof. exact right_slice_map_history. Qed.
Print Assumptions C44_right_slice_map_history.

Example C44_case1 :
  fits u8 (zlen tagged) /\ distinct mod_eqb (map (fun e => fst (fst e)) tagged) /\
  (forall k, tagged_hash tt k = mod_hash tt (fst k)) /\
  (forall a b, mod_eqb a b = true -> mod_hash tt a = mod_hash tt b).
Proof. exact tagged_ok. Qed.

Example C44_case2 :
  object_run mod_eqb fst tagged tagged_history = tagged_results /\
  mo_run Checked mod_eqb (sm_object mod_eqb fst) (sm_from_vec tagged) tagged_history = tagged_results /\
  (exists m, cm_from_vec tagged_hash checked_env u8 tagged tt = Ok m /\
  mo_run Checked mod_eqb (cm_object mod_eqb fst mod_hash) m tagged_history = tagged_results) /\
  (exists m, irm_from_vec Checked u16 [(7, 70); (5, 50); (6, 60)] = Ok m /\
  mo_run Checked Z.eqb (irm_object Checked u16) m [OGet 6; OGetMut 6 1; OGet 6; OGet 8; OIter] =
       [SawValue (Some 60); SawBool true; SawValue (Some 1); SawValue None; SawItems [(5, 50); (6, 1); (7, 70)]]) /\
  (exists m, im_from_vec checked_env u8 five = Ok m /\
  mo_run Checked Z.eqb im_object m [OGetManyMut [(31, 8); (10, 9)]; OGet 31; OGet 10; OIndex 11] =
       [SawBool true; SawValue (Some 8); SawValue (Some 9); SawPanic]) /\
  (exists m, rsm_from_vec hash_write checked_env u8 tails 2 0 sample_hasher = Ok m /\
  mo_run Checked bytes_eqb (rsm_object hash_write checked_env) m [OGetMut [97;98;100] 9; OGet [97;98;100]; OGet [97]] =
       [SawBool true; SawValue (Some 9); SawValue None]).
Proof. exact ex_C44. Qed.

(** ** C45: equality of specialized maps *)

Theorem C45_scanning_map_eq :
  forall (K V : Type) (eqb : K -> K -> bool) (veq : V -> V -> bool) (p1 p2 : list (K * V)),
  equivalence eqb -> distinct eqb (map fst p1) -> distinct eqb (map fst p2) ->
  exists b, mo_eq veq (sm_object eqb (fun k => k)) (sm_from_vec p1) (sm_from_vec p2) = Ok b /\
    (b = true <-> same_map eqb veq p1 p2).
Proof. exact scanning_map_eq. Qed.
Print Assumptions C45_scanning_map_eq.

Theorem C45_common_map_eq :
  forall (K V BH : Type) (eqb : K -> K -> bool) (veq : V -> V -> bool) (hash : BH -> K -> Z)
         (E : env) (S_ty : int_type) (p1 p2 : list (K * V)) (bh1 bh2 : BH) (m1 m2 : common_map K V BH),
  env_ok E -> fits S_ty (zlen p1) -> fits S_ty (zlen p2) -> equivalence eqb ->
  (forall a b, eqb a b = true -> hash bh2 a = hash bh2 b) ->
  distinct eqb (map fst p1) -> distinct eqb (map fst p2) ->
  cm_from_vec hash E S_ty p1 bh1 = Ok m1 -> cm_from_vec hash E S_ty p2 bh2 = Ok m2 ->
  exists b, mo_eq veq (cm_object eqb (fun k => k) hash) m1 m2 = Ok b /\
    (b = true <-> same_map eqb veq p1 p2).
Proof. exact common_map_eq. Qed.
Print Assumptions C45_common_map_eq.

Theorem C45_integer_map_eq :
  forall (V : Type) (veq : V -> V -> bool) (E : env) (S_ty : int_type) (p1 p2 : list (Z * V))
         (m1 m2 : integer_map V),
  env_ok E -> fits S_ty (zlen p1) -> fits S_ty (zlen p2) ->
  NoDup (map fst p1) -> NoDup (map fst p2) ->
  im_from_vec E S_ty p1 = Ok m1 -> im_from_vec E S_ty p2 = Ok m2 ->
  exists b, mo_eq veq im_object m1 m2 = Ok b /\ (b = true <-> same_map Z.eqb veq p1 p2).
Proof. exact integer_map_eq. Qed.
Print Assumptions C45_integer_map_eq.

Theorem C45_range_map_eq :
  forall (V : Type) (veq : V -> V -> bool) (pr : profile) (ty : int_type) (p1 p2 : list (Z * V))
         (m1 m2 : integer_range_map V),
  1 <= bits ty -> zlen p1 < 2 ^ 64 -> zlen p2 < 2 ^ 64 -> NoDup (map fst p1) -> NoDup (map fst p2) ->
  (forall k, In k (map fst p1) -> imin ty <= k <= imax ty) ->
  (forall k, In k (map fst p2) -> imin ty <= k <= imax ty) ->
  irm_from_vec pr ty p1 = Ok m1 -> irm_from_vec pr ty p2 = Ok m2 ->
  exists b, mo_eq veq (irm_object pr ty) m1 m2 = Ok b /\ (b = true <-> same_map Z.eqb veq p1 p2).
Proof. exact range_map_eq. Qed.
Print Assumptions C45_range_map_eq.

Theorem C45_length_map_eq :
  forall (K V : Type) (eqb : K -> K -> bool) (veq : V -> V -> bool) (len : K -> Z)
         (E : env) (S_ty : int_type) (p1 p2 : list (K * V)) (m1 m2 : length_map K V),
  env_ok E -> fits S_ty (zlen p1) -> fits S_ty (zlen p2) -> equivalence eqb ->
  (forall a b, eqb a b = true -> len a = len b) ->
  distinct eqb (map fst p1) -> distinct eqb (map fst p2) ->
  lm_from_vec len E S_ty p1 = Ok m1 -> lm_from_vec len E S_ty p2 = Ok m2 ->
  exists b, mo_eq veq (lm_object eqb (fun k => k) len) m1 m2 = Ok b /\
    (b = true <-> same_map eqb veq p1 p2).
Proof. exact length_map_eq. Qed.
Print Assumptions C45_length_map_eq.

Theorem C45_left_slice_map_eq :
  forall (V BH : Type) (veq : V -> V -> bool) (hash_write : BH -> list Z -> Z) (E : env) (S_ty : int_type)
         (p1 p2 : list (list Z * V)) (a1 b1 a2 b2 : Z) (bh1 bh2 : BH) (m1 m2 : slice_map V BH),
  env_ok E -> fits S_ty (zlen p1) -> fits S_ty (zlen p2) -> 0 <= a1 <= b1 -> 0 <= a2 <= b2 ->
  (forall k, In k (map fst p1) -> b1 <= zlen k) -> (forall k, In k (map fst p2) -> b2 <= zlen k) ->
  NoDup (map fst p1) -> NoDup (map fst p2) ->
  lsm_from_vec hash_write E S_ty p1 a1 b1 bh1 = Ok m1 ->
  lsm_from_vec hash_write E S_ty p2 a2 b2 bh2 = Ok m2 ->
  exists b, mo_eq veq (lsm_object hash_write) m1 m2 = Ok b /\ (b = true <-> same_map bytes_eqb veq p1 p2).
Proof. exact left_slice_map_eq. Qed.
Print Assumptions C45_left_slice_map_eq.

Theorem C45_right_slice_map_eq :
  forall (V BH : Type) (veq : V -> V -> bool) (hash_write : BH -> list Z -> Z) (E : env) (S_ty : int_type)
         (p1 p2 : list (list Z * V)) (a1 b1 a2 b2 : Z) (bh1 bh2 : BH) (m1 m2 : slice_map V BH),
  env_ok E -> fits S_ty (zlen p1) -> fits S_ty (zlen p2) -> 0 <= b1 <= a1 -> 0 <= b2 <= a2 ->
  (forall k, In k (map fst p1) -> a1 <= zlen k < 2 ^ 64) ->
  (forall k, In k (map fst p2) -> a2 <= zlen k < 2 ^ 64) ->
  NoDup (map fst p1) -> NoDup (map fst p2) ->
  rsm_from_vec hash_write E S_ty p1 a1 b1 bh1 = Ok m1 ->
  rsm_from_vec hash_write E S_ty p2 a2 b2 bh2 = Ok m2 ->
  exists b, mo_eq veq (rsm_object hash_write E) m1 m2 = Ok b /\ (b = true <-> same_map bytes_eqb veq p1 p2).
Proof. exact right_slice_map_eq. Qed.
Print Assumptions C45_right_slice_map_eq.

Example C45_case :
  (exists m1, im_from_vec checked_env u8 five = Ok m1 /\ exists m2, im_from_vec checked_env u8 (rev five) = Ok m2 /\
  mo_eq Z.eqb im_object m1 m2 = Ok true) /\
  (exists m1, im_from_vec checked_env u8 five = Ok m1 /\
  exists m2, im_from_vec checked_env u8 [(10, 1); (20, 2); (31, 3); (40, 4); (52, 6)] = Ok m2 /\
  mo_eq Z.eqb im_object m1 m2 = Ok false) /\
  (exists m1, irm_from_vec Checked u16 three = Ok m1 /\ exists m2, irm_from_vec Checked u16 (rev three) = Ok m2 /\
  mo_eq Z.eqb (irm_object Checked u16) m1 m2 = Ok true) /\
  (exists m1, lsm_from_vec hash_write checked_env u8 tails 1 3 sample_hasher = Ok m1 /\
  exists m2, lsm_from_vec hash_write checked_env u8 (rev tails) 0 2 poor_hasher = Ok m2 /\
  mo_eq Z.eqb (lsm_object hash_write) m1 m2 = Ok true).
Proof. exact ex_C45. Qed.

(** ** C46: specialized sets *)

Theorem C46_scanning_set_exact :
  forall (T Q : Type) (eqb : Q -> Q -> bool) (borrow : T -> Q) (items : list T),
  let s := ss_from_vec items in
  ss_items s = items /\ ss_len s = zlen items /\
  exact_set eqb borrow (fun _ => True) items (ss_get eqb borrow s) (ss_contains eqb borrow s).
Proof. exact scanning_set_exact. Qed.
Print Assumptions C46_scanning_set_exact.

Theorem C46_scanning_set_lawful :
  forall (T : Type) (eqb : T -> T -> bool) (items : list T), equivalence eqb ->
  lawful_set eqb (fun _ => True) (ss_as_set eqb (ss_from_vec items)) /\
  (distinct eqb items -> distinct eqb (s_items (ss_as_set eqb (ss_from_vec items)))).
Proof. exact scanning_set_lawful. Qed.
Print Assumptions C46_scanning_set_lawful.

Theorem C46_common_set_exact :
  forall (T Q BH : Type) (eqb : Q -> Q -> bool) (borrow : T -> Q)
         (hash_key : BH -> T -> Z) (hash_query : BH -> Q -> Z)
         (E : env) (S_ty : int_type) (items : list T) (bh : BH),
  env_ok E -> fits S_ty (zlen items) -> equivalence eqb ->
  (forall k, hash_key bh k = hash_query bh (borrow k)) ->
  (forall a b, eqb a b = true -> hash_query bh a = hash_query bh b) ->
  exists s, cs_from_vec hash_key E S_ty items bh = Ok s /\
    Permutation items (cs_items s) /\ cs_len s = zlen items /\
    exact_set eqb borrow (fun _ => True) items (cs_get eqb borrow hash_query s) (cs_contains eqb borrow hash_query s).
Proof. exact common_set_exact. Qed.
Print Assumptions C46_common_set_exact.

Theorem C46_common_set_lawful :
  forall (T BH : Type) (eqb : T -> T -> bool) (hash : BH -> T -> Z) (E : env) (S_ty : int_type)
         (items : list T) (bh : BH) (s : common_set T BH),
  env_ok E -> fits S_ty (zlen items) -> equivalence eqb ->
  (forall a b, eqb a b = true -> hash bh a = hash bh b) ->
  cs_from_vec hash E S_ty items bh = Ok s ->
  lawful_set eqb (fun _ => True) (cs_as_set eqb hash s) /\
  (distinct eqb items -> distinct eqb (s_items (cs_as_set eqb hash s))).
Proof. exact common_set_lawful. Qed.
Print Assumptions C46_common_set_lawful.

Theorem C46_integer_set_exact :
  forall (E : env) (S_ty : int_type) (items : list Z),
  env_ok E -> fits S_ty (zlen items) ->
  exists s, is_from_vec E S_ty items = Ok s /\
    Permutation items (is_items s) /\ is_len s = zlen items /\
    exact_set Z.eqb (fun x => x) (fun _ => True) items (is_get s) (is_contains s).
Proof. exact integer_set_exact. Qed.
Print Assumptions C46_integer_set_exact.

Theorem C46_integer_set_lawful :
  forall (E : env) (S_ty : int_type) (items : list Z) (s : integer_set),
  env_ok E -> fits S_ty (zlen items) -> is_from_vec E S_ty items = Ok s ->
  lawful_set Z.eqb (fun _ => True) (is_as_set s) /\
  (NoDup items -> distinct Z.eqb (s_items (is_as_set s))).
Proof. exact integer_set_lawful. Qed.
Print Assumptions C46_integer_set_lawful.

Theorem C46_range_set_exact :
  forall (pr : profile) (ty : int_type) (items : list Z) (s : integer_range_set),
  1 <= bits ty -> items <> [] -> zlen items < 2 ^ 64 -> NoDup items ->
  (forall x, In x items -> imin ty <= x <= imax ty) ->
  irs_from_vec pr ty items = Ok s ->
  Permutation items (irs_items s) /\ irs_len s = zlen items /\
  exact_set Z.eqb (fun x => x) (fun _ => True) items (irs_get pr ty s) (irs_contains pr ty s).
Proof. exact range_set_exact. Qed.
Print Assumptions C46_range_set_exact.

Theorem C46_range_set_lawful :
  forall (pr : profile) (ty : int_type) (items : list Z) (s : integer_range_set),
  1 <= bits ty -> items <> [] -> zlen items < 2 ^ 64 -> NoDup items ->
  (forall x, In x items -> imin ty <= x <= imax ty) ->
  irs_from_vec pr ty items = Ok s ->
  lawful_set Z.eqb (fun _ => True) (irs_as_set pr ty s) /\ distinct Z.eqb (s_items (irs_as_set pr ty s)).
Proof. exact range_set_lawful. Qed.
Print Assumptions C46_range_set_lawful.

Theorem C46_length_set_exact :
  forall (T Q : Type) (eqb : Q -> Q -> bool) (borrow : T -> Q) (len_key : T -> Z) (len_query : Q -> Z)
         (E : env) (S_ty : int_type) (items : list T),
  env_ok E -> fits S_ty (zlen items) ->
  (forall k, len_key k = len_query (borrow k)) ->
  (forall a b, eqb a b = true -> len_query a = len_query b) ->
  exists s, ls_from_vec len_key E S_ty items = Ok s /\
    Permutation items (ls_items s) /\ Sets.ls_len s = zlen items /\
    exact_set eqb borrow (fun _ => True) items (ls_get eqb borrow len_query s) (Sets.ls_contains eqb borrow len_query s).
Proof. exact length_set_exact. Qed.
Print Assumptions C46_length_set_exact.

Theorem C46_length_set_lawful :
  forall (T : Type) (eqb : T -> T -> bool) (len : T -> Z) (E : env) (S_ty : int_type)
         (items : list T) (s : length_set T),
  env_ok E -> fits S_ty (zlen items) -> equivalence eqb ->
  (forall a b, eqb a b = true -> len a = len b) ->
  ls_from_vec len E S_ty items = Ok s ->
  lawful_set eqb (fun _ => True) (ls_as_set eqb len s) /\
  (distinct eqb items -> distinct eqb (s_items (ls_as_set eqb len s))).
Proof. exact length_set_lawful. Qed.
Print Assumptions C46_length_set_lawful.

Theorem C46_left_slice_set_exact :
  forall (BH : Type) (hash_write : BH -> list Z -> Z) (E : env) (S_ty : int_type)
         (items : list (list Z)) (a b : Z) (bh : BH),
  env_ok E -> fits S_ty (zlen items) -> 0 <= a <= b -> (forall x, In x items -> b <= zlen x) ->
  exists s, lss_from_vec hash_write E S_ty items a b bh = Ok s /\
    Permutation items (sls_items s) /\ sls_len s = zlen items /\
    exact_set bytes_eqb (fun x => x) (fun _ => True) items (lss_get hash_write s) (lss_contains hash_write s).
Proof. exact left_slice_set_exact. Qed.
Print Assumptions C46_left_slice_set_exact.

Theorem C46_left_slice_set_lawful :
  forall (BH : Type) (hash_write : BH -> list Z -> Z) (E : env) (S_ty : int_type)
         (items : list (list Z)) (a b : Z) (bh : BH) (s : slice_set BH),
  env_ok E -> fits S_ty (zlen items) -> 0 <= a <= b -> (forall x, In x items -> b <= zlen x) ->
  lss_from_vec hash_write E S_ty items a b bh = Ok s ->
  lawful_set bytes_eqb (fun _ => True) (lss_as_set hash_write s) /\
  (NoDup items -> distinct bytes_eqb (s_items (lss_as_set hash_write s))).
Proof. exact left_slice_set_lawful. Qed.
Print Assumptions C46_left_slice_set_lawful.

Theorem C46_right_slice_set_exact :
  forall (BH : Type) (hash_write : BH -> list Z -> Z) (E : env) (S_ty : int_type)
         (items : list (list Z)) (a b : Z) (bh : BH),
  env_ok E -> fits S_ty (zlen items) -> 0 <= b <= a -> (forall x, In x items -> a <= zlen x < 2 ^ 64) ->
  exists s, rss_from_vec hash_write E S_ty items a b bh = Ok s /\
    Permutation items (sls_items s) /\ sls_len s = zlen items /\
    exact_set bytes_eqb (fun x => x) (fun q => zlen q < 2 ^ 64) items (rss_get hash_write E s) (rss_contains hash_write E s).
Proof. exact right_slice_set_exact. Qed.
Print Assumptions C46_right_slice_set_exact.

Theorem C46_right_slice_set_lawful :
  forall (BH : Type) (hash_write : BH -> list Z -> Z) (E : env) (S_ty : int_type)
         (items : list (list Z)) (a b : Z) (bh : BH) (s : slice_set BH),
  env_ok E -> fits S_ty (zlen items) -> 0 <= b <= a -> (forall x, In x items -> a <= zlen x < 2 ^ 64) ->
  rss_from_vec hash_write E S_ty items a b bh = Ok s ->
  lawful_set bytes_eqb (fun q => zlen q < 2 ^ 64) (rss_as_set hash_write E s) /\
  (NoDup items -> distinct bytes_eqb (s_items (rss_as_set hash_write E s))).
Proof. exact right_slice_set_lawful. Qed.
Print Assumptions C46_right_slice_set_lawful.

Example C46_case :
  (exists s, cs_from_vec tagged_hash checked_env u8 (map fst tagged) tt = Ok s /\
  map (cs_get mod_eqb fst mod_hash s) [1017; 18] = [Ok (Some (17, 2)); Ok None] /\
  map (cs_contains mod_eqb fst mod_hash s) [1017; 18] = [Ok true; Ok false] /\ cs_len s = 4) /\
  (exists s, irs_from_vec Checked u16 [7; 5; 6] = Ok s /\
  map (irs_contains Checked u16 s) [4; 5; 6; 7; 8] = [Ok false; Ok true; Ok true; Ok true; Ok false]) /\
  (exists s, is_from_vec checked_env u8 [10; 20; 10; 40; 52] = Ok s /\
  map (is_contains s) [10; 20; 30] = [Ok true; Ok true; Ok false] /\ is_len s = 5) /\
  (exists s, ls_from_vec zlen checked_env u8 (map fst tails) = Ok s /\
  map (Sets.ls_contains bytes_eqb (fun x => x) zlen s) [[97;98;100]; [97]] = [Ok true; Ok false]) /\
  (exists s1, lss_from_vec hash_write checked_env u8 (map fst tails) 1 3 sample_hasher = Ok s1 /\
  exists s2, rss_from_vec hash_write checked_env u8 (map fst (firstn 2 tails)) 2 0 poor_hasher = Ok s2 /\
  is_subset (rss_as_set hash_write checked_env s2) (lss_as_set hash_write s1) = Ok true /\
  is_subset (lss_as_set hash_write s1) (rss_as_set hash_write checked_env s2) = Ok false).
Proof. exact ex_C46. Qed.

(** ** C47: choice of the table size *)

Theorem C47_table_size_choice :
  forall codes : list Z, codes <> [] -> zlen codes < 2 ^ 60 ->
  exists l s c, size_list (zlen codes) l /\ analyze_hash_codes codes = Ok (s, c) /\
  c = Z.of_nat (collisions s codes) /\ chosen codes (zlen codes :: l) s.
Proof. exact table_size_choice. Qed.
Print Assumptions C47_table_size_choice.

Theorem C47_table_size_eight :
  forall codes : list Z, zlen codes = 8 -> analyze_hash_codes codes = Ok (8, Z.of_nat (collisions 8 codes)).
Proof. exact table_size_eight. Qed.
Print Assumptions C47_table_size_eight.

Example C47_case :
  analyze_hash_codes (numbers 0 200 200) = Ok (239, 0) /\ collisions 200 (numbers 0 200 200) = 199%nat /\
  collisions 197 (numbers 0 200 200) = 3%nat /\
  zlen (numbers 0 8 8) = 8 /\ analyze_hash_codes (numbers 0 8 8) = Ok (8, 7).
Proof. exact ex_C47. Qed.

(** ** C48: observations do not depend on hasher, profile, sort or order *)

Theorem C48_observations_determined :
  forall (O V : Type) (eqbO : O -> O -> bool) (E1 E2 : env) (kd : kind) (bh1 bh2 : hasher O)
         (p1 p2 : list (key O * V)) (m1 m2 : map_types O V) (history : list (op (key O) V)),
  env_ok E1 -> env_ok E2 -> equivalence eqbO -> lawful_hash eqbO bh1 -> lawful_hash eqbO bh2 ->
  countable (prof E1) (zlen p1) -> countable (prof E2) (zlen p1) -> zlen p1 < 2 ^ 64 -> typed kd p1 ->
  distinct (key_eqb eqbO) (map fst p1) -> Permutation p1 p2 ->
  fm_new E1 kd p1 bh1 = Ok m1 -> fm_new E2 kd p2 bh2 = Ok m2 ->
  (forall o k, In o history -> In k (op_keys o) -> has_kind kd k) ->
  Forall2 same_obs (run eqbO E1 m1 history) (run eqbO E2 m2 history).
Proof. exact observations_determined. Qed.
Print Assumptions C48_observations_determined.

Example C48_case :
  lawful_hash mod_eqb sample_hasher /\ lawful_hash mod_eqb poor_hasher /\
  distinct (key_eqb mod_eqb) (map fst (others [5; 17; 103; 998; 42; 7])) /\
  (exists m1, fm_new checked_env KindOther (others [5; 17; 103; 998; 42; 7]) sample_hasher = Ok m1 /\
   exists m2, fm_new wrapping_env KindOther (rev (others [5; 17; 103; 998; 42; 7])) poor_hasher = Ok m2 /\
   map fst (fm_iter m1) <> map fst (fm_iter m2) /\
   run mod_eqb checked_env m1 sample_history = run mod_eqb wrapping_env m2 sample_history).
Proof. exact ex_C48. Qed.

(** ** C49: number of key comparisons in a lookup *)

Theorem C49_map_lookup_cost :
  forall (O V : Type) (eqbO : O -> O -> bool) (E : env) (kd : kind) (bh : hasher O)
         (payload : list (key O * V)) (m : map_types O V),
  env_ok E -> countable (prof E) (zlen payload) -> typed kd payload ->
  fm_new E kd payload bh = Ok m ->
  forall k, has_kind kd k ->
  exists c, fm_get_cost eqbO E m k = Ok c /\ 0 <= c <= zlen payload /\
    (zlen payload < 4 \/
     (kd = KindU32 /\ full_span payload /\ c = 0) \/
     exists code_of s col,
       let codes := map (fun e => code_of (fst e)) payload in
       code_choice kd bh code_of /\ analyze_hash_codes codes = Ok (s, col) /\
       (Z.to_nat c <= sharing s (code_of k) codes)%nat /\
       (sharing s (code_of k) codes <= 1 + collisions s codes)%nat /\
       (fm_get eqbO E m k = Ok None -> Z.to_nat c = sharing s (code_of k) codes)).
Proof. exact map_lookup_cost. Qed.
Print Assumptions C49_map_lookup_cost.

Theorem C49_small_map_one_comparison :
  forall (O V : Type) (eqbO : O -> O -> bool) (E : env) (bh : hasher O)
         (payload : list (key O * V)) (m : map_types O V) (size : Z),
  env_ok E -> 4 <= zlen payload < 8 ->
  zlen payload <= size <= 16 * zlen payload ->
  collisions size (map (fun e => hash_one bh (fst e)) payload) = 0%nat ->
  typed KindOther payload -> fm_new E KindOther payload bh = Ok m ->
  forall k, has_kind KindOther k ->
  exists c, fm_get_cost eqbO E m k = Ok c /\ 0 <= c <= 1.
Proof. exact small_map_one_comparison. Qed.
Print Assumptions C49_small_map_one_comparison.

(** "A perfect table size within the limit is found for small maps" is false for eight keys. *)
Theorem C49_eight_keys_refuted :
  exists (E : env) (payload : list (key unit * Z)) (bh : hasher unit) (m : map_types unit Z) (k : key unit),
  env_ok E /\ zlen payload = 8 /\ typed KindU32 payload /\
  NoDup (map (fun e => u32_of (fst e)) payload) /\
  collisions 9 (map (fun e => u32_of (fst e)) payload) = 0%nat /\
  fm_new E KindU32 payload bh = Ok m /\ has_kind KindU32 k /\
  fm_get_cost (fun _ _ => true) E m k = Ok 8.
Proof. exact eight_keys_refuted. Qed.
Print Assumptions C49_eight_keys_refuted.

Example C49_case :
  (exists m, fm_new checked_env KindOther (others [5; 17; 103; 998; 42; 7]) poor_hasher = Ok m /\
   map (fm_get_cost mod_eqb checked_env m) (map (@KOther Z) [42; 17; 5; 8; 103; 204]) =
     [Ok 2; Ok 3; Ok 4; Ok 4; Ok 1; Ok 0]) /\
  (exists m, fm_new checked_env KindOther (others [5; 17; 103; 998; 42; 7]) sample_hasher = Ok m /\
   map (fm_get_cost mod_eqb checked_env m) (map (@KOther Z) [42; 17; 5; 8; 103; 10]) =
     [Ok 1; Ok 1; Ok 1; Ok 1; Ok 1; Ok 0]) /\
  collisions 11 (map (fun e => hash_one sample_hasher (fst e)) (others [5; 17; 103; 998; 42; 7])) = 0%nat /\
  (exists m, fm_new checked_env KindU32 (u32s [12; 10; 13; 11; 14]) sample_hasher = Ok m /\
   fm_get_cost mod_eqb checked_env m (KU32 13) = Ok 0).
Proof. exact ex_C49. Qed.

(** ** C50: Debug output *)

Theorem C50_map_debug :
  forall (O V : Type) (E : env) (kd : kind) (bh : hasher O) (payload : list (key O * V)) (m : map_types O V),
  env_ok E -> zlen payload < 2 ^ 64 -> fm_new E kd payload bh = Ok m ->
  exists es, fm_fmt m = DMap es /\ Permutation payload es /\ yields (it_next (prof E)) (fm_iter_new m) es.
Proof. exact map_debug. Qed.
Print Assumptions C50_map_debug.

Theorem C50_specialized_map_debug :
  forall (K V BH : Type) (hash : BH -> K -> Z) (len : K -> Z) (hw : BH -> bytes -> Z) (E : env)
         (S_ty ty : int_type) (payload : list (K * V)) (ints : list (Z * V)) (strings : list (bytes * V))
         (a b : Z) (bh : BH),
  env_ok E ->
  sm_fmt (sm_from_vec payload) = DMap payload /\
  (forall m, cm_from_vec hash E S_ty payload bh = Ok m -> exists es, cm_fmt m = DMap es /\ Permutation payload es) /\
  (forall m, lm_from_vec len E S_ty payload = Ok m -> exists es, lm_fmt m = DMap es /\ Permutation payload es) /\
  (forall m, im_from_vec E S_ty ints = Ok m -> exists es, im_fmt m = DMap es /\ Permutation ints es) /\
  (forall m, irm_from_vec (prof E) ty ints = Ok m -> exists es, irm_fmt m = DMap es /\ Permutation ints es) /\
  (forall m, lsm_from_vec hw E S_ty strings a b bh = Ok m -> exists es, slm_fmt m = DMap es /\ Permutation strings es) /\
  (forall m, rsm_from_vec hw E S_ty strings a b bh = Ok m -> exists es, slm_fmt m = DMap es /\ Permutation strings es).
Proof. exact specialized_map_debug. Qed.
Print Assumptions C50_specialized_map_debug.

Theorem C50_set_debug :
  forall (T BH : Type) (hash : BH -> T -> Z) (len : T -> Z) (hw : BH -> bytes -> Z) (E : env)
         (S_ty ty : int_type) (items : list T) (ints : list Z) (strings : list bytes) (a b : Z) (bh : BH),
  env_ok E ->
  ss_fmt (ss_from_vec items) = DMap (map (fun x => (x, tt)) items) /\
  (forall s, cs_from_vec hash E S_ty items bh = Ok s -> exists l, cs_fmt s = DList l /\ Permutation items l) /\
  (forall s, ls_from_vec len E S_ty items = Ok s ->
     exists l, ls_fmt s = DMap (map (fun x => (x, tt)) l) /\ Permutation items l) /\
  (forall s, is_from_vec E S_ty ints = Ok s ->
     exists l, is_fmt s = DMap (map (fun x => (x, tt)) l) /\ Permutation ints l) /\
  (forall s, irs_from_vec (prof E) ty ints = Ok s ->
     exists l, irs_fmt s = DMap (map (fun x => (x, tt)) l) /\ Permutation ints l) /\
  (forall s, lss_from_vec hw E S_ty strings a b bh = Ok s ->
     exists l, sls_fmt s = DMap (map (fun x => (x, tt)) l) /\ Permutation strings l) /\
  (forall s, rss_from_vec hw E S_ty strings a b bh = Ok s ->
     exists l, sls_fmt s = DMap (map (fun x => (x, tt)) l) /\ Permutation strings l).
Proof. exact set_debug. Qed.
Print Assumptions C50_set_debug.

Theorem C50_iterators_debug :
  forall (K V : Type) (pr : profile) (entries : list (K * V)) (n fuel : nat),
  zlen entries < 2 ^ 64 -> (length entries < fuel)%nat ->
  (exists it, calls (it_next pr) n (it_new entries) = Ok (results n entries, it) /\
     iter_fmt (it_next pr) fuel it = Ok (DList (skipn n entries))) /\
  (exists it, calls (keys_next pr) n (keys_new entries) = Ok (results n (map fst entries), it) /\
     iter_fmt (keys_next pr) fuel it = Ok (DList (skipn n (map fst entries)))) /\
  (exists it, calls (values_next pr) n (values_new entries) = Ok (results n (map snd entries), it) /\
     iter_fmt (values_next pr) fuel it = Ok (DList (skipn n (map snd entries)))).
Proof. exact iterators_debug. Qed.
Print Assumptions C50_iterators_debug.

Theorem C50_set_operations_debug :
  forall (T : Type) (eqb : T -> T -> bool) (D : T -> Prop) (s1 s2 : set_impl T) (fuel : nat),
  equivalence eqb -> lawful_set eqb D s1 -> lawful_set eqb D s2 ->
  distinct eqb (s_items s1) -> distinct eqb (s_items s2) ->
  (length (s_items s1) + length (s_items s2) < fuel)%nat ->
  (exists L, iter_fmt (union_next s1 s2) fuel (pair_new s1 s2) = Ok (DList L) /\ distinct eqb L /\
     forall x, member eqb L x <-> member eqb (s_items s1) x \/ member eqb (s_items s2) x) /\
  (exists L, iter_fmt (intersection_next s1 s2) fuel (pair_new s1 s2) = Ok (DList L) /\ distinct eqb L /\
     forall x, member eqb L x <-> member eqb (s_items s1) x /\ member eqb (s_items s2) x) /\
  (exists L, iter_fmt (difference_next s1 s2) fuel (difference_new s1 s2) = Ok (DList L) /\ distinct eqb L /\
     forall x, member eqb L x <-> member eqb (s_items s1) x /\ ~ member eqb (s_items s2) x) /\
  (exists L, iter_fmt (symmetric_difference_next s1 s2) fuel (pair_new s1 s2) = Ok (DList L) /\ distinct eqb L /\
     forall x, member eqb L x <->
       (member eqb (s_items s1) x /\ ~ member eqb (s_items s2) x) \/
       (member eqb (s_items s2) x /\ ~ member eqb (s_items s1) x)).
Proof. exact set_operations_debug. Qed.
Print Assumptions C50_set_operations_debug.

(** "Equal sets print alike up to order" is false. *)
Theorem C50_set_debug_refuted :
  exists (E : env) (items : list Z) (s1 : scanning_set Z) (s2 : common_set Z unit),
  env_ok E /\ NoDup items /\ ss_from_vec items = s1 /\
  cs_from_vec (fun (_ : unit) x => x) E u8 items tt = Ok s2 /\
  set_eq (ss_as_set Z.eqb s1) (cs_as_set Z.eqb (fun _ x => x) s2) = Ok true /\
  forall show,
    plain_text show show_unit (ss_fmt s1) =
      text "{"%string ++ show 1 ++ text ": (), "%string ++ show 2 ++ text ": (), "%string ++ show 3 ++ text ": ()}"%string /\
    plain_text show show_unit (cs_fmt s2) =
      text "["%string ++ show 2 ++ text ", "%string ++ show 1 ++ text ", "%string ++ show 3 ++ text "]"%string /\
    plain_text show show_unit (ss_fmt s1) <> plain_text show show_unit (cs_fmt s2).
Proof. exact set_debug_refuted. Qed.
Print Assumptions C50_set_debug_refuted.

Example C50_case :
  (exists m, fm_new checked_env KindU32 (u32s [12; 10; 13; 11; 14]) sample_hasher = Ok m /\
   fm_fmt m = DMap (u32s [10; 11; 12; 13; 14])) /\
  (exists s, cs_from_vec (fun (_ : unit) x => x) checked_env u8 [7; 9; 8] tt = Ok s /\
   cs_fmt s = DList [8; 7; 9]) /\
  (exists s, is_from_vec checked_env u8 [7; 9; 8] = Ok s /\
   is_fmt s = DMap [(8, tt); (7, tt); (9, tt)]) /\
  iter_fmt (union_next set_a set_b) 8 (pair_new set_a set_b) = Ok (@DList Z unit [1; 2; 3; 4; 5]).
Proof. exact ex_C50. Qed.

(** ** C51: laws of the set operations *)

Theorem C51_set_operation_laws :
  forall (T : Type) (eqb : T -> T -> bool) (D : T -> Prop) (s1 s2 : set_impl T)
    (u i d d' sd u' i' sd' : list T),
  equivalence eqb -> lawful_set eqb D s1 -> lawful_set eqb D s2 ->
  distinct eqb (s_items s1) -> distinct eqb (s_items s2) ->
  yields (union_next s1 s2) (pair_new s1 s2) u ->
  yields (union_next s2 s1) (pair_new s2 s1) u' ->
  yields (intersection_next s1 s2) (pair_new s1 s2) i ->
  yields (intersection_next s2 s1) (pair_new s2 s1) i' ->
  yields (difference_next s1 s2) (difference_new s1 s2) d ->
  yields (difference_next s2 s1) (difference_new s2 s1) d' ->
  yields (symmetric_difference_next s1 s2) (pair_new s1 s2) sd ->
  yields (symmetric_difference_next s2 s1) (pair_new s2 s1) sd' ->
  zlen u + zlen i = s_len s1 + s_len s2 /\
  zlen d + zlen i = s_len s1 /\
  zlen sd = zlen d + zlen d' /\
  zlen sd + zlen i = zlen u /\
  (zlen u' = zlen u /\ forall x, member eqb u' x <-> member eqb u x) /\
  (zlen i' = zlen i /\ forall x, member eqb i' x <-> member eqb i x) /\
  (zlen sd' = zlen sd /\ forall x, member eqb sd' x <-> member eqb sd x) /\
  (is_disjoint s1 s2 = Ok true <-> i = []) /\
  (is_subset s1 s2 = Ok true <-> d = []) /\
  (is_superset s1 s2 = Ok true <-> d' = []).
Proof. exact set_operation_laws. Qed.
Print Assumptions C51_set_operation_laws.

Example C51_case1 :
  Forall (fun s => lawful_set mod_eqb (fun _ => True) s /\ distinct mod_eqb (s_items s)) sample_sets.
Proof. exact sample_sets_ok. Qed.

Example C51_case2 :
  items_of (union_next set_b set_a) (pair_new set_b set_a) = Ok [Some 1; Some 2; Some 3; Some 4; Some 5; None] /\
  items_of (intersection_next set_b set_a) (pair_new set_b set_a) = Ok [Some 3; Some 1004; None; None; None; None] /\
  items_of (difference_next set_b set_a) (difference_new set_b set_a) = Ok [Some 5; None; None; None; None; None] /\
  s_len set_a = 4 /\ s_len set_b = 3 /\
  items_of (difference_next set_c set_a) (difference_new set_c set_a) = Ok [None; None; None; None; None; None] /\
  is_subset set_c set_a = Ok true.
Proof. exact ex_C51. Qed.

(** ** C52: iteration order *)

Theorem C52_iteration_order :
  forall (O V : Type) (E : env) (kd : kind) (bh : hasher O) (payload : list (key O * V)) (m : map_types O V),
  env_ok E -> countable (prof E) (zlen payload) -> typed kd payload -> fm_new E kd payload bh = Ok m ->
  (zlen payload < 4 -> fm_iter m = payload) /\
  (4 <= zlen payload -> kd = KindU32 -> full_span payload -> zlen payload < 2 ^ 32 ->
   NoDup (map (fun e => u32_of (fst e)) payload) ->
   StronglySorted Z.lt (map (fun e => u32_of (fst e)) (fm_iter m))) /\
  (4 <= zlen payload -> ~ (kd = KindU32 /\ full_span payload) -> exists code_of s col,
     code_choice kd bh code_of /\
     analyze_hash_codes (map (fun e => code_of (fst e)) payload) = Ok (s, col) /\
     StronglySorted (fun e e' => code_of (fst e') mod s <= code_of (fst e) mod s) (fm_iter m)).
Proof. exact iteration_order. Qed.
Print Assumptions C52_iteration_order.

Example C52_case :
  (exists m, fm_new checked_env KindOther (others [3; 1; 2]) sample_hasher = Ok m /\
   fm_iter m = others [3; 1; 2]) /\
  (exists m, fm_new checked_env KindU32 (u32s [12; 10; 13; 11; 14]) sample_hasher = Ok m /\
   fm_iter m = u32s [10; 11; 12; 13; 14]) /\
  (exists m, fm_new checked_env KindU32 (u32s [4; 8; 15; 16; 23; 42]) sample_hasher = Ok m /\
   analyze_hash_codes [4; 8; 15; 16; 23; 42] = Ok (10, 0) /\
   fm_iter m = u32s [8; 16; 15; 4; 23; 42]).
Proof. exact ex_C52. Qed.

(** ** C53: set algebra of FrozenSets *)

Theorem C53_frozen_set_algebra :
  forall (O : Type) (eqbO : O -> O -> bool) (E : env) (kd : kind) (bh1 bh2 : hasher O)
         (items1 items2 : list (key O)) (s1 s2 : set_types O),
  env_ok E -> equivalence eqbO -> lawful_hash eqbO bh1 -> lawful_hash eqbO bh2 ->
  countable (prof E) (zlen items1) -> countable (prof E) (zlen items2) ->
  (forall x, In x items1 -> has_kind kd x) -> (forall x, In x items2 -> has_kind kd x) ->
  distinct (key_eqb eqbO) items1 -> distinct (key_eqb eqbO) items2 ->
  fs_new E kd items1 bh1 = Ok s1 -> fs_new E kd items2 bh2 = Ok s2 ->
  let a := fs_as_set eqbO E s1 in
  let b := fs_as_set eqbO E s2 in
  let is_set (P : key O -> Prop) (L : list (key O)) :=
    distinct (key_eqb eqbO) L /\ (forall x, In x L -> In x items1 \/ In x items2) /\
    (forall x, member (key_eqb eqbO) L x <-> P x) in
  let in1 := member (key_eqb eqbO) items1 in
  let in2 := member (key_eqb eqbO) items2 in
  let either x := in1 x \/ in2 x in
  let both x := in1 x /\ in2 x in
  let only1 x := in1 x /\ ~ in2 x in
  let one x := (in1 x /\ ~ in2 x) \/ (in2 x /\ ~ in1 x) in
  (exists L, yields (union_next a b) (pair_new a b) L /\ is_set either L) /\
  (exists L, yields (intersection_next a b) (pair_new a b) L /\ is_set both L) /\
  (exists L, yields (difference_next a b) (difference_new a b) L /\ is_set only1 L) /\
  (exists L, yields (symmetric_difference_next a b) (pair_new a b) L /\ is_set one L) /\
  (exists r, bitor (key_eqb eqbO) a b = Ok r /\ is_set either (s_items r)) /\
  (exists r, bitand (key_eqb eqbO) a b = Ok r /\ is_set both (s_items r)) /\
  (exists r, set_sub (key_eqb eqbO) a b = Ok r /\ is_set only1 (s_items r)) /\
  (exists r, bitxor (key_eqb eqbO) a b = Ok r /\ is_set one (s_items r)) /\
  (exists r, is_subset a b = Ok r /\ (r = true <-> forall x, in1 x -> in2 x)) /\
  (exists r, is_superset a b = Ok r /\ (r = true <-> forall x, in2 x -> in1 x)) /\
  (exists r, is_disjoint a b = Ok r /\ (r = true <-> forall x, ~ (in1 x /\ in2 x))).
Proof. exact frozen_set_algebra. Qed.
Print Assumptions C53_frozen_set_algebra.

Example C53_case :
  exists p, two_sets = Ok p /\
  let a := fs_as_set mod_eqb checked_env (fst p) in
  let b := fs_as_set mod_eqb checked_env (snd p) in
  (r <- bitor (key_eqb mod_eqb) a b ;; Ok (zlen (s_items r))) = Ok 7 /\
  (r <- bitand (key_eqb mod_eqb) a b ;; Ok (s_items r)) = Ok (map KU32 [12; 14]) /\
  (r <- set_sub (key_eqb mod_eqb) a b ;; Ok (s_items r)) = Ok (map KU32 [10; 11; 13]) /\
  (r <- bitxor (key_eqb mod_eqb) a b ;; Ok (zlen (s_items r))) = Ok 5 /\
  is_subset a b = Ok false /\ is_disjoint a b = Ok false.
Proof. exact ex_C53. Qed.

(** ** C54: order of the set operations *)

Theorem C54_set_operation_sequences :
  forall (T : Type) (eqb : T -> T -> bool) (D : T -> Prop) (s1 s2 : set_impl T),
  equivalence eqb -> lawful_set eqb D s1 -> lawful_set eqb D s2 ->
  let i1 := s_items s1 in
  let i2 := s_items s2 in
  let lacks l x := negb (existsb (eqb x) l) in
  let has l x := existsb (eqb x) l in
  yields (union_next s1 s2) (pair_new s1 s2)
    (if zlen i2 <? zlen i1 then i1 ++ filter (lacks i1) i2 else i2 ++ filter (lacks i2) i1) /\
  yields (intersection_next s1 s2) (pair_new s1 s2)
    (if zlen i1 <? zlen i2 then filter (has i2) i1 else filter (has i1) i2) /\
  yields (difference_next s1 s2) (difference_new s1 s2) (filter (lacks i2) i1) /\
  yields (symmetric_difference_next s1 s2) (pair_new s1 s2) (filter (lacks i2) i1 ++ filter (lacks i1) i2).
Proof. exact set_operation_sequences. Qed.
Print Assumptions C54_set_operation_sequences.

Example C54_case1 :
  Forall (fun s => lawful_set mod_eqb (fun _ => True) s /\ distinct mod_eqb (s_items s)) sample_sets.
Proof. exact sample_sets_ok. Qed.

Example C54_case2 :
  items_of (union_next set_c set_a) (pair_new set_c set_a) = Ok (map Some (s_items set_a) ++ [None; None]) /\
  items_of (intersection_next set_a set_b) (pair_new set_a set_b) = Ok [Some 3; Some 1004; None; None; None; None] /\
  items_of (union_next (hash_set_of mod_eqb [7; 7]) set_b) (pair_new (hash_set_of mod_eqb [7; 7]) set_b) =
    Ok (map Some (s_items set_b) ++ [Some 7; Some 7; None]).
Proof. exact ex_C54. Qed.

(** ** C55: public constructors *)

Theorem C55_map_constructors :
  forall (O V St : Type) (E : env) (kd : kind) (bh : hasher O) (payload : list (key O * V))
         (next : St -> res (option (key O * V) * St)) (iter : St) (fuel : nat),
  yields next iter payload -> (length payload < fuel)%nat ->
  let m := fm_new E kd payload bh in
  fm_from_vec_with_hasher E kd payload bh = m /\ fm_with_hasher E kd payload bh = m /\
  fm_from_iter_with_hasher E kd next fuel iter bh = m /\
  fm_from_vec E kd bh payload = m /\ fm_from E kd bh payload = m /\ fm_from_iter E kd bh next fuel iter = m.
Proof. exact map_constructors. Qed.
Print Assumptions C55_map_constructors.

Theorem C55_set_constructors :
  forall (O St : Type) (E : env) (kd : kind) (bh : hasher O) (payload : list (key O))
         (next : St -> res (option (key O) * St)) (iter : St) (fuel : nat),
  yields next iter payload -> (length payload < fuel)%nat ->
  let s := fs_new E kd payload bh in
  fs_from_vec_with_hasher E kd payload bh = s /\ fs_with_hasher E kd payload bh = s /\
  fs_from_iter_with_hasher E kd next fuel iter bh = s /\
  fs_from_vec E kd bh payload = s /\ fs_from E kd bh payload = s /\ fs_from_iter E kd bh next fuel iter = s.
Proof. exact set_constructors. Qed.
Print Assumptions C55_set_constructors.

Example C55_case :
  exists m, fm_from checked_env KindU32 sample_hasher (u32s [4; 8; 15; 16; 23; 42]) = Ok m /\
  fm_from_vec checked_env KindU32 sample_hasher (u32s [4; 8; 15; 16; 23; 42]) = Ok m /\
  yields list_next (u32s [4; 8; 15; 16; 23; 42]) (u32s [4; 8; 15; 16; 23; 42]) /\ fm_len m = 6.
Proof. exact ex_C55. Qed.

(** ** C56: collecting from an iterator of a collection *)

Theorem C56_map_round_trip :
  forall (O V : Type) (eqbO : O -> O -> bool) (veq : V -> V -> bool) (E : env) (kd : kind) (bh bh' : hasher O)
         (payload : list (key O * V)) (m : map_types O V) (fuel : nat),
  env_ok E -> equivalence eqbO -> equivalence veq -> lawful_hash eqbO bh -> lawful_hash eqbO bh' ->
  zlen payload < 2 ^ 31 -> typed kd payload -> distinct (key_eqb eqbO) (map fst payload) ->
  fm_new E kd payload bh = Ok m -> zlen payload < Z.of_nat fuel ->
  let copied := fm_from_iter_with_hasher E kd (it_next (prof E)) fuel (fm_iter_new m) bh' in
  (forall m', copied = Ok m' ->
     fm_eq eqbO E veq m m' = Ok true /\ fm_eq eqbO E veq m' m = Ok true /\
     forall history, (forall o k, In o history -> In k (op_keys o) -> has_kind kd k) ->
       Forall2 same_obs (run eqbO E m history) (run eqbO E m' history)) /\
  (kd <> KindString -> exists m', copied = Ok m').
Proof. exact map_round_trip. Qed.
Print Assumptions C56_map_round_trip.

(** "Copying a String map always succeeds" is false. *)
Theorem C56_map_round_trip_refuted :
  exists (E : env) (payload : list (key Z * Z)) (bh bh' : hasher Z) (m : map_types Z Z),
  env_ok E /\ typed KindString payload /\ distinct (key_eqb Z.eqb) (map fst payload) /\
  lawful_hash Z.eqb bh /\ lawful_hash Z.eqb bh' /\ fm_new E KindString payload bh = Ok m /\
  fm_from_iter_with_hasher E KindString (it_next (prof E)) 9 (fm_iter_new m) bh' = Panic PIndexOutOfBounds.
Proof. exact map_round_trip_refuted. Qed.
Print Assumptions C56_map_round_trip_refuted.

Theorem C56_set_from_operation :
  forall (O : Type) (eqbO : O -> O -> bool) (E : env) (kd : kind) (bh1 bh2 bh : hasher O)
         (items1 items2 : list (key O)) (s1 s2 : set_types O) (fuel : nat),
  env_ok E -> equivalence eqbO -> lawful_hash eqbO bh1 -> lawful_hash eqbO bh2 -> lawful_hash eqbO bh ->
  zlen items1 + zlen items2 < 2 ^ 31 ->
  (forall x, In x items1 -> has_kind kd x) -> (forall x, In x items2 -> has_kind kd x) ->
  distinct (key_eqb eqbO) items1 -> distinct (key_eqb eqbO) items2 ->
  fs_new E kd items1 bh1 = Ok s1 -> fs_new E kd items2 bh2 = Ok s2 -> zlen items1 + zlen items2 < Z.of_nat fuel ->
  let a := fs_as_set eqbO E s1 in
  let b := fs_as_set eqbO E s2 in
  let in1 := member (key_eqb eqbO) items1 in
  let in2 := member (key_eqb eqbO) items2 in
  let holds s (P : key O -> Prop) :=
    distinct (key_eqb eqbO) (fs_items s) /\ (forall x, member (key_eqb eqbO) (fs_items s) x <-> P x) /\
    forall x, has_kind kd x -> exists r, fs_contains eqbO E s x = Ok r /\ (r = true <-> P x) in
  let collected {St} (next : St -> res (option (key O) * St)) st (P : key O -> Prop) :=
    let result := fs_from_iter_with_hasher E kd next fuel st bh in
    (forall s, result = Ok s -> holds s P) /\ (kd <> KindString -> exists s, result = Ok s) in
  collected (union_next a b) (pair_new a b) (fun x => in1 x \/ in2 x) /\
  collected (intersection_next a b) (pair_new a b) (fun x => in1 x /\ in2 x) /\
  collected (difference_next a b) (difference_new a b) (fun x => in1 x /\ ~ in2 x) /\
  collected (symmetric_difference_next a b) (pair_new a b) (fun x => (in1 x /\ ~ in2 x) \/ (in2 x /\ ~ in1 x)).
Proof. exact set_from_operation. Qed.
Print Assumptions C56_set_from_operation.

Example C56_case :
  (exists m, fm_new checked_env KindString (strs lengths5) sample_hasher = Ok m /\
   exists m', fm_from_iter_with_hasher checked_env KindString (it_next Checked) 9 (fm_iter_new m) poor_hasher = Ok m' /\
   fm_eq mod_eqb checked_env Z.eqb m m' = Ok true) /\
  (exists p, two_sets = Ok p /\
   let a := fs_as_set mod_eqb checked_env (fst p) in
   let b := fs_as_set mod_eqb checked_env (snd p) in
   exists s, fs_from_iter_with_hasher checked_env KindU32 (symmetric_difference_next a b) 10 (pair_new a b) sample_hasher = Ok s /\
   fs_len s = 5 /\ fs_contains mod_eqb checked_env s (KU32 100) = Ok true /\
   fs_contains mod_eqb checked_env s (KU32 12) = Ok false).
Proof. exact ex_C56. Qed.

(** ** C57: arguments of the frozen_map macro *)

Theorem C57_macro_call_written :
  forall (T ty expr O : Type) (parse_type : list (token T) -> option (ty * list (token T)))
    (parse_expr : list (token T) -> option (expr * list (token T)))
    (classify : ty -> macro_type) (literal_of : expr -> literal O) (pr : profile) (h : list Z -> Z)
    (text : expr -> list (token T)) (type_text : list (token T)) (t : ty)
    (entries : list (expr * expr)) (trailing : bool),
  (forall rest, parse_type (type_text ++ Comma :: rest) = Some (t, Comma :: rest)) ->
  (forall e, text e <> []) ->
  (forall e rest, ends_here rest -> parse_expr (text e ++ rest) = Some (e, rest)) ->
  frozen_map_call parse_type parse_expr classify literal_of pr h
    (type_text ++ Comma :: entries_text text trailing entries) =
  Expanded (frozen_map_macro pr h (classify t) (map (fun e => literal_of (fst e)) entries)).
Proof. exact macro_call_written. Qed.
Print Assumptions C57_macro_call_written.

Theorem C57_macro_call_understood :
  forall (T ty expr O : Type) (parse_type : list (token T) -> option (ty * list (token T)))
    (parse_expr : list (token T) -> option (expr * list (token T)))
    (classify : ty -> macro_type) (literal_of : expr -> literal O) (pr : profile) (h : list Z -> Z)
    (args : list (token T)),
  (forall ts x rest, parse_expr ts = Some (x, rest) -> (length rest < length ts)%nat) ->
  let result := frozen_map_call parse_type parse_expr classify literal_of pr h args in
  let means t es := exists rest, parse_type args = Some (t, Comma :: rest) /\ reads_entries parse_expr rest es in
  (exists t es, means t es /\
     result = Expanded (frozen_map_macro pr h (classify t) (map (fun e => literal_of (fst e)) es))) \/
  ((forall t es, ~ means t es) /\ result = SyntaxError).
Proof. exact macro_call_understood. Qed.
Print Assumptions C57_macro_call_understood.

Example C57_case :
  (forall rest, sample_parse_type ([Tok 0] ++ Comma :: rest) = Some (TInt u8, Comma :: rest)) /\
  (forall e, sample_text e <> []) /\
  (forall e rest, ends_here rest -> sample_parse_expr (sample_text e ++ rest) = Some (e, rest)) /\
  (forall ts x rest, sample_parse_expr ts = Some (x, rest) -> (length rest < length ts)%nat) /\
  [Tok 0] ++ Comma :: entries_text sample_text true [((4, []), (1, [])); ((8, []), (2, [43; 3])); ((15, []), (0, []))] =
    [Tok 0; Comma; Tok 4; Colon; Tok 1; Comma; Tok 8; Colon; Tok 2; Tok 43; Tok 3; Comma; Tok 15; Colon; Tok 0; Comma] /\
  sample_call [Tok 0; Comma; Tok 4; Colon; Tok 1; Comma; Tok 8; Colon; Tok 2; Tok 43; Tok 3; Comma; Tok 15; Colon; Tok 0; Comma] =
    Expanded (Ok (XPlain NIntegerMap u8)) /\
  sample_call [Tok 0] = SyntaxError /\ sample_call [Tok 0; Comma] = Expanded (Ok XScanning) /\
  sample_call [Tok 0; Comma; Tok 4; Comma] = SyntaxError /\
  sample_call [Tok 0; Comma; Tok 4; Colon; Tok 1; Comma; Comma] = SyntaxError.
Proof. exact ex_C57. Qed.

(** ** C58: maps generated by frozen_map *)

Theorem C58_macro_int_history :
  forall (O V : Type) (pr : profile) (h : list Z -> Z) (ty : int_type) (payload : list (Z * V)) (x : expansion),
  1 <= bits ty -> (forall k, In k (map fst payload) -> imin ty <= k <= imax ty) ->
  NoDup (map fst payload) -> zlen payload < 2 ^ 31 ->
  frozen_map_macro pr h (TInt ty) (map (fun e => @LInt O (fst e)) payload) = Ok x ->
  forall E, env_ok E ->
  (start_int E ty x payload = None /\
     3 <= zlen payload < 2 ^ bits ty /\ consecutive (map fst payload)) \/
  ((zlen payload < 3 \/ ~ consecutive (map fst payload) \/ zlen payload = 2 ^ bits ty) /\
     exists runs, start_int E ty x payload = Some (Ok runs) /\
     forall history, Forall2 same_obs (runs history) (object_run Z.eqb (fun k => k) payload history)).
Proof. exact macro_int_history. Qed.
Print Assumptions C58_macro_int_history.

Theorem C58_macro_str_history :
  forall (O V : Type) (pr : profile) (h : list Z -> Z) (payload : list (list Z * V)) (x : expansion),
  (forall s, In s (map fst payload) -> zlen s < 2 ^ 64) ->
  distinct bytes_eqb (map fst payload) -> zlen payload < 2 ^ 31 -> ~ string_ub h (map fst payload) ->
  frozen_map_macro pr h TStr (map (fun e => @LStr O (fst e)) payload) = Ok x ->
  forall (BH : Type) (hash_string hash_write : BH -> list Z -> Z) (E : env) (bh : BH), env_ok E ->
  exists runs, start_str hash_string hash_write E bh x payload = Some (Ok runs) /\
    forall history, Forall2 same_obs (runs history) (object_run bytes_eqb (fun k => k) payload history).
Proof. exact macro_str_history. Qed.
Print Assumptions C58_macro_str_history.

Theorem C58_macro_other_history :
  forall (O V : Type) (eqbO : O -> O -> bool) (pr : profile) (h : list Z -> Z) (payload : list (O * V)) (x : expansion),
  equivalence eqbO -> distinct eqbO (map fst payload) -> zlen payload < 2 ^ 31 ->
  frozen_map_macro pr h TOther (map (fun e => LExpr (fst e)) payload) = Ok x ->
  forall (BH : Type) (hash : BH -> O -> Z) (E : env) (bh : BH), env_ok E ->
  (forall a b, eqbO a b = true -> hash bh a = hash bh b) ->
  exists runs, start_other eqbO hash E bh x payload = Some (Ok runs) /\
    forall history, Forall2 same_obs (runs history) (object_run eqbO (fun k => k) payload history).
Proof. exact macro_other_history. Qed.
Print Assumptions C58_macro_other_history.

Example C58_case :
  frozen_map_macro Checked poly (TInt u8) (map (fun e => @LInt Z (fst e)) five) = Ok (XPlain NIntegerMap u8) /\
  (match start_int checked_env u8 (XPlain NIntegerMap u8) five with
   | Some (Ok runs) => runs [OLen; OGetMut 31 9; OGet 31; OGet 32; OIndex 32] | _ => [] end) =
    [SawNumber 5; SawBool true; SawValue (Some 9); SawValue None; SawPanic] /\
  frozen_map_macro Checked poly TStr (map (fun e => @LStr Z (fst e)) (combine lefts5 [1; 2; 3; 4; 5])) = Ok (XRanged NLeftSliceMap u8 1 2) /\
  (match start_str hash_write hash_write checked_env sample_hasher (XRanged NLeftSliceMap u8 1 2)
           (combine lefts5 [1; 2; 3; 4; 5]) with
   | Some (Ok runs) => runs [OGet (nth 2 lefts5 []); OContainsKey [98]; OIsEmpty] | _ => [] end) =
    [SawValue (Some 3); SawBool false; SawBool false] /\
  frozen_map_macro Checked poly TOther (map (fun e => LExpr (fst e)) five) = Ok (XPlain NCommonMap u8) /\
  (match start_other mod_eqb (fun bh z => z mod 1000) checked_env sample_hasher (XPlain NCommonMap u8) five with
   | Some (Ok runs) => runs [OGetManyMut [(31, 7); (1031, 8)]; OGet 1031; OIndexMut 31 5; OGet 31] | _ => [] end) =
    [SawBool false; SawValue (Some 3); SawBool true; SawValue (Some 5)].
Proof. exact ex_C58. Qed.

(** ** C59: comparisons needed to find the stored keys *)

Theorem C59_stored_lookup_cost :
  forall (O V : Type) (eqbO : O -> O -> bool) (E : env) (kd : kind) (bh : hasher O)
         (payload : list (key O * V)) (m : map_types O V),
  env_ok E -> countable (prof E) (zlen payload) -> typed kd payload ->
  equivalence eqbO -> distinct (key_eqb eqbO) (map fst payload) ->
  fm_new E kd payload bh = Ok m ->
  exists costs, Forall2 (fun e c => fm_get_cost eqbO E m (fst e) = Ok c) payload costs /\
  let found_at_once := length (filter (fun c => c =? 1) costs) in
  ((zlen payload < 4 /\ costs = map Z.of_nat (seq 1 (length payload))) \/
   (kd = KindU32 /\ full_span payload /\ Forall (eq 0) costs) \/
   (4 <= zlen payload /\ exists code_of s col,
      let codes := map (fun e => code_of (fst e)) payload in
      code_choice kd bh code_of /\ analyze_hash_codes codes = Ok (s, col) /\
      2 * total costs = zlen payload + total (map (fun c => Z.of_nat (sharing s c codes)) codes) /\
      (found_at_once + collisions s codes)%nat = length payload /\
      (s <> zlen payload -> 95 * zlen payload <= 100 * Z.of_nat found_at_once))).
Proof. exact stored_lookup_cost. Qed.
Print Assumptions C59_stored_lookup_cost.

Example C59_case :
  costs_of (fm_new checked_env KindU32 (u32s [0; 8; 16; 24; 32; 40; 48; 56]) sample_hasher) (u32s [0; 8; 16; 24; 32; 40; 48; 56]) =
    map Ok [8; 7; 6; 5; 4; 3; 2; 1] /\
  costs_of (fm_new checked_env KindU32 (u32s [4; 8; 15; 16; 23; 42]) sample_hasher) (u32s [4; 8; 15; 16; 23; 42]) =
    map Ok [1; 1; 1; 1; 1; 1] /\
  costs_of (fm_new checked_env KindU32 (u32s [4; 8; 15]) sample_hasher) (u32s [4; 8; 15]) = map Ok [1; 2; 3] /\
  costs_of (fm_new checked_env KindU32 (u32s [4; 5; 6; 7]) sample_hasher) (u32s [4; 5; 6; 7]) = map Ok [0; 0; 0; 0] /\
  2 * total [8; 7; 6; 5; 4; 3; 2; 1] = 8 + total (map (fun c => Z.of_nat (sharing 8 c [0; 8; 16; 24; 32; 40; 48; 56])) [0; 8; 16; 24; 32; 40; 48; 56]).
Proof. exact ex_C59. Qed.

(** ** C60: literals in frozen_map *)

Theorem C60_macro_literals :
  forall (O : Type) (pr : profile) (h : list Z -> Z) (keys : list (literal O)),
  (zlen keys < 3 -> forall ty, frozen_map_macro pr h ty keys = Ok XScanning) /\
  (3 <= zlen keys ->
   (forall t k, In k keys -> ~ (exists z, k = LInt z /\ imin t <= z <= imax t) ->
      frozen_map_macro pr h (TInt t) keys = Panic PUnwrapNone) /\
   (forall k, In k keys -> ~ (exists s, k = LStr s) ->
      frozen_map_macro pr h TStr keys = Panic PUnwrapNone) /\
   exists S_ty, frozen_map_macro pr h TOther keys = Ok (XPlain NCommonMap S_ty)).
Proof. exact macro_literals. Qed.
Print Assumptions C60_macro_literals.

Example C60_case :
  frozen_map_macro Checked poly (TInt u8) [@LInt Z 1; LInt 300; LInt 3] = Panic PUnwrapNone /\
  frozen_map_macro Checked poly TStr [@LStr Z [97]; LExpr 1; LStr [98]] = Panic PUnwrapNone /\
  frozen_map_macro Checked poly (TInt u8) [@LInt Z 1; LInt 300] = Ok XScanning.
Proof. exact ex_C60. Qed.

(** ** C61: compound set expressions *)

Theorem C61_set_expression_values :
  forall (T : Type) (eqb : T -> T -> bool) (D : T -> Prop) (e : set_expr T),
  equivalence eqb -> good_expr eqb D e ->
  (exists s, evaluates eqb D e s) /\
  (forall o a b sa sb, e = Op o a b -> evaluates eqb D a sa -> evaluates eqb D b sb ->
     exists r, operate eqb o sa sb = Ok r /\ evaluates eqb D e r) /\
  (forall s, evaluates eqb D e s ->
     lawful_set eqb D s /\ distinct eqb (s_items s) /\
     (forall x, In x (s_items s) -> In x (given_items e)) /\
     (forall x, D x -> exists b, s_contains s x = Ok b /\ (b = true <-> denotes eqb e x))).
Proof. exact set_expression_values. Qed.
Print Assumptions C61_set_expression_values.

Theorem C61_set_expression_relations :
  forall (T : Type) (eqb : T -> T -> bool) (D : T -> Prop) (e1 e2 : set_expr T) (s1 s2 : set_impl T),
  equivalence eqb -> good_expr eqb D e1 -> good_expr eqb D e2 ->
  evaluates eqb D e1 s1 -> evaluates eqb D e2 s2 ->
  (exists b, set_eq s1 s2 = Ok b /\ (b = true <-> forall x, denotes eqb e1 x <-> denotes eqb e2 x)) /\
  (exists b, is_subset s1 s2 = Ok b /\ (b = true <-> forall x, denotes eqb e1 x -> denotes eqb e2 x)) /\
  (exists b, is_superset s1 s2 = Ok b /\ (b = true <-> forall x, denotes eqb e2 x -> denotes eqb e1 x)) /\
  (exists b, is_disjoint s1 s2 = Ok b /\ (b = true <-> forall x, ~ (denotes eqb e1 x /\ denotes eqb e2 x))).
Proof. exact set_expression_relations. Qed.
Print Assumptions C61_set_expression_relations.

Theorem C61_set_expression_laws :
  forall (T : Type) (eqb : T -> T -> bool) (D : T -> Prop) (a b c : set_expr T),
  equivalence eqb -> good_expr eqb D a -> good_expr eqb D b -> good_expr eqb D c ->
  let same e1 e2 := forall s1 s2, evaluates eqb D e1 s1 -> evaluates eqb D e2 s2 -> set_eq s1 s2 = Ok true in
  same (Op Or a b) (Op Or b a) /\ same (Op And a b) (Op And b a) /\ same (Op Xor a b) (Op Xor b a) /\
  same (Op Or a (Op Or b c)) (Op Or (Op Or a b) c) /\
  same (Op And a (Op And b c)) (Op And (Op And a b) c) /\
  same (Op Xor a (Op Xor b c)) (Op Xor (Op Xor a b) c) /\
  same (Op And a (Op Or b c)) (Op Or (Op And a b) (Op And a c)) /\
  same (Op Or a (Op And b c)) (Op And (Op Or a b) (Op Or a c)) /\
  same (Op And a (Op Xor b c)) (Op Xor (Op And a b) (Op And a c)) /\
  same (Op Minus a (Op Or b c)) (Op And (Op Minus a b) (Op Minus a c)) /\
  same (Op Minus a (Op And b c)) (Op Or (Op Minus a b) (Op Minus a c)) /\
  same (Op Minus a (Op Minus b c)) (Op Or (Op Minus a b) (Op And a c)) /\
  same (Op Xor a b) (Op Minus (Op Or a b) (Op And a b)) /\
  same (Op Or a (Op And a b)) a /\ same (Op And a (Op Or a b)) a /\ same (Op Xor (Op Xor a b) b) a.
Proof. exact set_expression_laws. Qed.
Print Assumptions C61_set_expression_laws.

(** FrozenSets as given sets and as arrangements of intermediate results. *)
Theorem C61_frozen_sets_in_expressions :
  forall (O : Type) (eqbO : O -> O -> bool) (E : env) (kd : kind) (bh : hasher O),
  env_ok E -> equivalence eqbO -> lawful_hash eqbO bh ->
  (forall items s, (forall x, In x items -> has_kind kd x) -> distinct (key_eqb eqbO) items ->
     countable (prof E) (zlen items) -> fs_new E kd items bh = Ok s ->
     good_expr (key_eqb eqbO) (has_kind kd) (Given (fs_as_set eqbO E s)) /\
     forall x, denotes (key_eqb eqbO) (Given (fs_as_set eqbO E s)) x <-> member (key_eqb eqbO) items x) /\
  (forall o a b sa sb r s, good_expr (key_eqb eqbO) (has_kind kd) (Op o a b) ->
     evaluates (key_eqb eqbO) (has_kind kd) a sa -> evaluates (key_eqb eqbO) (has_kind kd) b sb ->
     operate (key_eqb eqbO) o sa sb = Ok r ->
     countable (prof E) (zlen (s_items r)) -> fs_new E kd (s_items r) bh = Ok s ->
     evaluates (key_eqb eqbO) (has_kind kd) (Op o a b) (fs_as_set eqbO E s)).
Proof. exact frozen_sets_in_expressions. Qed.
Print Assumptions C61_frozen_sets_in_expressions.

Example C61_case :
  good_expr mod_eqb (fun _ => True) (Op Minus (Op Or (Given set_a) (Given set_b)) (Given set_c)) /\
  (exists r, bitor mod_eqb set_a set_b = Ok r /\ s_items r = [1; 2; 3; 4; 5] /\
   arranged mod_eqb (fun _ => True) r union_ab /\
   exists s, set_sub mod_eqb union_ab set_c = Ok s /\ s_items s = [5; 4; 3] /\
   evaluates mod_eqb (fun _ => True) (Op Minus (Op Or (Given set_a) (Given set_b)) (Given set_c)) s) /\
  (p <- two_sets ;;
   let a := fs_as_set mod_eqb checked_env (fst p) in
   r <- bitxor (key_eqb mod_eqb) a (fs_as_set mod_eqb checked_env (snd p)) ;;
   s <- fs_new checked_env KindU32 (s_items r) sample_hasher ;;
   r2 <- bitand (key_eqb mod_eqb) (fs_as_set mod_eqb checked_env s) a ;;
   Ok (map (fun k => s_contains r2 (KU32 k)) [10; 11; 12; 13; 14; 4])) =
     Ok [Ok true; Ok true; Ok false; Ok true; Ok false; Ok false].
Proof. exact ex_C61. Qed.

(** ** C62: constructors of the specialized collections *)

Theorem C62_specialized_map_constructors :
  forall (K V BH St StZ StB : Type) (hash_key : BH -> K -> Z) (len_key : K -> Z) (hash_write : BH -> bytes -> Z)
         (E : env) (S_ty ty : int_type) (bh : BH) (a b : Z) (fuel : nat)
         (payload : list (K * V)) (ints : list (Z * V)) (strings : list (bytes * V))
         (next : St -> res (option (K * V) * St)) (iter : St)
         (nextZ : StZ -> res (option (Z * V) * StZ)) (iterZ : StZ)
         (nextB : StB -> res (option (bytes * V) * StB)) (iterB : StB),
  yields next iter payload -> yields nextZ iterZ ints -> yields nextB iterB strings ->
  (length payload < fuel)%nat -> (length ints < fuel)%nat -> (length strings < fuel)%nat ->
  (sm_from payload = Ok (sm_from_vec payload) /\ sm_from_iter next fuel iter = Ok (sm_from_vec payload)) /\
  (let m := cm_from_vec hash_key E S_ty payload bh in
   cm_with_hasher hash_key E S_ty payload bh = m /\ cm_from_iter_with_hasher hash_key E S_ty next fuel iter bh = m /\
   cm_from_vec_random hash_key E S_ty bh payload = m /\ cm_from hash_key E S_ty bh payload = m /\
   cm_from_iter hash_key E S_ty bh next fuel iter = m) /\
  (let m := im_from_vec E S_ty ints in im_from E S_ty ints = m /\ im_from_iter E S_ty nextZ fuel iterZ = m) /\
  (let m := irm_from_vec (prof E) ty ints in
   irm_from (prof E) ty ints = m /\ irm_from_iter (prof E) ty nextZ fuel iterZ = m) /\
  (let m := lm_from_vec len_key E u8 payload in lm_from len_key E payload = m /\ lm_from_iter len_key E next fuel iter = m) /\
  (255 < zlen payload ->
   lm_from len_key E payload = Panic PCapacity /\ lm_from_iter len_key E next fuel iter = Panic PCapacity) /\
  (forall make, make = lsm_from_vec hash_write E S_ty \/ make = rsm_from_vec hash_write E S_ty ->
   let m := make strings a b bh in
   slm_with_hasher make strings a b bh = m /\ slm_from_iter_with_hasher make nextB fuel iterB a b bh = m /\
   slm_from_vec_random make bh strings a b = m /\ slm_from make bh strings a b = m /\
   slm_from_iter make bh nextB fuel iterB a b = m).
Proof. exact specialized_map_constructors. Qed.
Print Assumptions C62_specialized_map_constructors.

Theorem C62_specialized_set_constructors :
  forall (T BH St StZ StB : Type) (hash_key : BH -> T -> Z) (len_key : T -> Z) (hash_write : BH -> bytes -> Z)
         (E : env) (S_ty ty : int_type) (bh : BH) (a b : Z) (fuel : nat)
         (items : list T) (ints : list Z) (strings : list bytes)
         (next : St -> res (option T * St)) (iter : St)
         (nextZ : StZ -> res (option Z * StZ)) (iterZ : StZ)
         (nextB : StB -> res (option bytes * StB)) (iterB : StB),
  yields next iter items -> yields nextZ iterZ ints -> yields nextB iterB strings ->
  (length items < fuel)%nat -> (length ints < fuel)%nat -> (length strings < fuel)%nat ->
  (let s := Ok (ss_from_vec items) in
   ss_collect items = s /\ ss_from items = s /\ ss_from_iter next fuel iter = s) /\
  (let s := cs_from_vec hash_key E S_ty items bh in
   cs_from_vec_with_hasher hash_key E S_ty items bh = s /\ cs_with_hasher hash_key E S_ty items bh = s /\
   cs_from_iter_with_hasher hash_key E S_ty next fuel iter bh = s /\ cs_from_vec_random hash_key E S_ty bh items = s /\
   cs_from hash_key E S_ty bh items = s /\ cs_from_iter hash_key E S_ty bh next fuel iter = s) /\
  (let s := is_from_vec E S_ty ints in
   is_collect E S_ty ints = s /\ is_from E S_ty ints = s /\ is_from_iter E S_ty nextZ fuel iterZ = s) /\
  (let s := irs_from_vec (prof E) ty ints in
   irs_collect (prof E) ty ints = s /\ irs_from (prof E) ty ints = s /\ irs_from_iter (prof E) ty nextZ fuel iterZ = s) /\
  (let s := ls_from_vec len_key E S_ty items in
   ls_collect len_key E S_ty items = s /\ ls_from len_key E S_ty items = s /\
   ls_from_iter len_key E S_ty next fuel iter = s) /\
  (forall make_map make_set,
   (make_map = lsm_from_vec hash_write E S_ty /\ make_set = lss_from_vec hash_write E S_ty) \/
   (make_map = rsm_from_vec hash_write E S_ty /\ make_set = rss_from_vec hash_write E S_ty) ->
   let s := make_set strings a b bh in
   sls_from_vec_with_hasher make_map strings a b bh = s /\ sls_with_hasher make_map strings a b bh = s /\
   sls_from_iter_with_hasher make_map nextB fuel iterB a b bh = s /\
   sls_from_vec_random make_map bh strings a b = s /\ sls_from make_map bh strings a b = s /\
   sls_from_iter make_map bh nextB fuel iterB a b = s).
Proof. exact specialized_set_constructors. Qed.
Print Assumptions C62_specialized_set_constructors.

Example C62_case :
  yields list_next some_ints some_ints /\
  is_from_iter checked_env u16 list_next 301 some_ints = is_from_vec checked_env u16 some_ints /\
  (match is_from_iter checked_env u16 list_next 301 some_ints with
   | Ok s => is_len s = 300 /\ is_contains s 4 = Ok true /\ is_contains s 5 = Ok false | _ => False end) /\
  is_from_iter checked_env u8 list_next 301 some_ints = Panic PCapacity /\
  lm_from_iter (fun k => k) checked_env list_next 301 (with_unit some_ints) = Panic PCapacity /\
  (match sls_from (lsm_from_vec hash_write checked_env u8) sample_hasher lefts5 1 2 with
   | Ok s => sls_len s = 5 /\ lss_contains hash_write s (nth 2 lefts5 []) = Ok true | _ => False end).
Proof. exact ex_C62. Qed.

(** ** C63: the unfinished frozen_set macro *)

Theorem C63_set_macro_unfinished :
  forall (T ty expr O : Type) (parse_type : list (token T) -> option (ty * list (token T)))
    (parse_expr : list (token T) -> option (expr * list (token T)))
    (classify : ty -> macro_type) (literal_of : expr -> literal O) (pr : profile) (h : list Z -> Z)
    (text : expr -> list (token T)) (type_text : list (token T)) (t : ty),
  (forall rest, parse_type (type_text ++ Comma :: rest) = Some (t, Comma :: rest)) ->
  (forall e, text e <> []) ->
  (forall e rest, ends_here rest -> parse_expr (text e ++ rest) = Some (e, rest)) ->
  let call := frozen_set_call parse_type parse_expr classify literal_of pr h in
  (forall items trailing, items <> [] -> call (type_text ++ Comma :: items_text text trailing items) = SyntaxError) /\
  (forall entries trailing, call (type_text ++ Comma :: entries_text text trailing entries) =
     Expanded (frozen_map_macro pr h (classify t) (map (fun e => literal_of (fst e)) entries))).
Proof. exact set_macro_unfinished. Qed.
Print Assumptions C63_set_macro_unfinished.

Example C63_case :
  frozen_set_call sample_parse_type sample_parse_expr (fun t => t) (fun e => @LInt Z (fst e)) Checked poly
    [Tok 0; Comma; Tok 4; Comma; Tok 8; Comma; Tok 15] = SyntaxError /\
  [Tok 0] ++ Comma :: items_text sample_text false [(4, []); (8, []); (15, [])] =
    [Tok 0; Comma; Tok 4; Comma; Tok 8; Comma; Tok 15] /\
  frozen_set_call sample_parse_type sample_parse_expr (fun t => t) (fun e => @LInt Z (fst e)) Checked poly
    [Tok 0; Comma; Tok 4; Colon; Tok 1; Comma; Tok 8; Colon; Tok 1; Comma; Tok 15; Colon; Tok 1] =
    Expanded (Ok (XPlain NIntegerMap u8)).
Proof. exact ex_C63. Qed.

(** ** C64: the result array of get_many_mut *)

Theorem C64_get_many_mut_memory :
  forall (Q : Type) (eqb : Q -> Q -> bool) (get_at : Q -> res (option nat)) (keys : list Q),
  (forall k, In k keys -> exists o, get_at k = Ok o) ->
  (exists r, get_many_mut_in_memory eqb get_at keys = Ok r) /\
  (forall ps, get_many_mut_in_memory eqb get_at keys = Ok (Some ps) <->
     (forall i j ki kj, (j < i)%nat -> nth_error keys i = Some ki -> nth_error keys j = Some kj -> eqb kj ki = false) /\
     Forall2 (fun k p => get_at k = Ok (Some p)) keys ps) /\
  get_many_mut_in_memory eqb get_at keys = get_many_mut eqb get_at keys.
Proof. exact get_many_mut_memory. Qed.
Print Assumptions C64_get_many_mut_memory.

Example C64_case :
  (forall k, In k [30; 10] -> exists o, some_get k = Ok o) /\
  get_many_mut_in_memory mod_eqb some_get [30; 10] = Ok (Some [2%nat; 0%nat]) /\
  get_many_mut_in_memory mod_eqb some_get [30; 10; 1030] = Ok None /\
  get_many_mut_in_memory mod_eqb some_get [30; 11] = Ok None /\
  assume_init (uninit 2) = UB Uninitialized.
Proof. exact ex_C64. Qed.

(** ** C65: work done by the hash code analysis *)

Theorem C65_analysis_steps :
  forall codes : list Z, zlen codes < 2 ^ 60 ->
  let n := zlen codes in
  exists r tries steps, analyze_hash_codes_steps codes = Ok (r, (tries, steps)) /\
    analyze_hash_codes codes = Ok r /\
    1 <= tries <= (if n <? 8 then 15 * n + 2 else if n <? 1000 then 16 else 8) /\
    0 <= steps <= tries * n /\
    (0 < n -> Z.of_nat (collisions n codes) <= tolerated n -> tries = 1 /\ steps = n /\ fst r = n).
Proof. exact analysis_steps. Qed.
Print Assumptions C65_analysis_steps.

Example C65_case :
  zlen (numbers 1 3 300) < 2 ^ 60 /\
  analyze_hash_codes_steps [3; 10; 17; 24] = Ok ((4, 0), (1, 4)) /\
  (exists s c t k, analyze_hash_codes_steps (numbers 0 300 300) = Ok ((s, c), (t, k)) /\ 1 < t /\ 300 < k).
Proof. exact ex_C65. Qed.

(** ** C66: no history goes wrong *)

(** No law on Eq or Hash and no bound on the number of entries. *)
Theorem C66_history_never_goes_wrong :
  forall (O V : Type) (eqbO : O -> O -> bool) (E : env) (kd : kind) (bh : hasher O)
         (payload : list (key O * V)) (m : map_types O V) (history : list (op (key O) V)),
  env_ok E -> zlen payload < 2 ^ 64 -> typed kd payload ->
  fm_new E kd payload bh = Ok m ->
  (forall o k, In o history -> In k (op_keys o) -> has_kind kd k) ->
  sane_run payload [] history (run eqbO E m history).
Proof. exact history_never_goes_wrong. Qed.
Print Assumptions C66_history_never_goes_wrong.

Example C66_case :
  let wrong a b := negb (a =? b) in
  exists m, fm_new checked_env KindOther (others [5; 17; 103; 998; 42; 7]) poor_hasher = Ok m /\
  run wrong checked_env m
    [OGet (KOther 17); OGetManyMut [(KOther 17, 8); (KOther 17, 9)]; OGetKeyValue (KOther 17);
     OIndexMut (KOther 0) 7; OIndex (KOther 1); OIter] =
    [SawValue (Some 70); SawBool true; SawEntry (Some (KOther 7, 9)); SawBool true; SawValue (Some 7);
     SawItems [(KOther 998, 9980); (KOther 103, 1030); (KOther 7, 7); (KOther 42, 420); (KOther 17, 170);
               (KOther 5, 50)]].
Proof. exact ex_C66. Qed.

(** ** C67: work done by the slice key analysis *)

Theorem C67_slice_analysis_steps :
  forall (T : Type) (h : list T -> Z) (keys : list (list T)) (shortest longest : Z),
  (forall s, In s keys -> zlen s < 2 ^ 64) ->
  is_min shortest (map zlen keys) -> is_max longest (map zlen keys) ->
  let bound := if shortest =? longest then windows_within shortest else 3 * shortest in
  exists windows hashes,
    analyze_slice_keys_steps h keys = (analyze_slice_keys h keys, (windows, hashes)) /\
    0 <= windows <= bound /\ 0 <= hashes <= windows * zlen keys /\
    (analyze_slice_keys h keys = Ok SliceLength -> windows = 0) /\
    (16 < longest -> analyze_slice_keys h keys = Ok SliceNormal ->
     if shortest =? longest then windows = bound else shortest <= 1 /\ windows = 2 * shortest).
Proof. exact slice_analysis_steps. Qed.
Print Assumptions C67_slice_analysis_steps.

Example C67_case :
  analyze_slice_keys_steps poly [[1; 1; 1]; [1; 1; 2]; [1; 1; 3]; [1; 1; 4]] =
    (Ok (LeftHandSubslice 2 1), (3, 8)) /\ windows_within 3 = 6 /\
  analyze_slice_keys_steps poly (repeat (repeat 1 18) 5) = (Ok SliceNormal, (168, 336)) /\ windows_within 18 = 168 /\
  analyze_slice_keys_steps poly (repeat (repeat 1 18) 4 ++ [repeat 1 17]) = (Panic PIndexOutOfBounds, (51, 100)).
Proof. exact ex_C67. Qed.

(** ** C68: the set operations on any iterators *)

(** The same calls return the same results as in the model where an iterator in progress is the list of items to come. *)
Theorem C68_operations_on_iterators :
  forall (T St1 St2 : Type) (r1 : running_set T St1) (r2 : running_set T St2) (s1 s2 : set_impl T) (fuel n : nat),
  runs_as r1 s1 -> runs_as r2 s2 -> (length (s_items s1) < fuel)%nat -> (length (s_items s2) < fuel)%nat ->
  observed (run_union fuel r1 r2) n (run_new r1 r2) = observed (union_next s1 s2) n (pair_new s1 s2) /\
  observed (run_intersection fuel r1 r2) n (run_new r1 r2) = observed (intersection_next s1 s2) n (pair_new s1 s2) /\
  observed (run_symmetric_difference fuel r1 r2) n (run_new r1 r2) =
    observed (symmetric_difference_next s1 s2) n (pair_new s1 s2) /\
  observed (run_difference fuel r1 r2) n (r_iter r1) = observed (difference_next s1 s2) n (difference_new s1 s2) /\
  run_is_disjoint fuel r1 r2 = is_disjoint s1 s2 /\ run_is_subset fuel r1 r2 = is_subset s1 s2 /\
  run_is_superset fuel r1 r2 = is_superset s1 s2 /\ run_eq fuel r1 r2 = set_eq s1 s2.
Proof. exact operations_on_iterators. Qed.
Print Assumptions C68_operations_on_iterators.

Theorem C68_operations_run :
  forall (T St1 St2 : Type) (eqb : T -> T -> bool) (D : T -> Prop)
         (r1 : running_set T St1) (r2 : running_set T St2) (s1 s2 : set_impl T) (fuel : nat),
  equivalence eqb -> lawful_set eqb D s1 -> lawful_set eqb D s2 ->
  runs_as r1 s1 -> runs_as r2 s2 -> (length (s_items s1) < fuel)%nat -> (length (s_items s2) < fuel)%nat ->
  let i1 := s_items s1 in
  let i2 := s_items s2 in
  let lacks l x := negb (existsb (eqb x) l) in
  let has l x := existsb (eqb x) l in
  runs_through (run_union fuel r1 r2) (run_new r1 r2)
    (if zlen i2 <? zlen i1 then i1 ++ filter (lacks i1) i2 else i2 ++ filter (lacks i2) i1) /\
  runs_through (run_intersection fuel r1 r2) (run_new r1 r2)
    (if zlen i1 <? zlen i2 then filter (has i2) i1 else filter (has i1) i2) /\
  runs_through (run_difference fuel r1 r2) (r_iter r1) (filter (lacks i2) i1) /\
  runs_through (run_symmetric_difference fuel r1 r2) (run_new r1 r2)
    (filter (lacks i2) i1 ++ filter (lacks i1) i2).
Proof. exact operations_run. Qed.
Print Assumptions C68_operations_run.

Theorem C68_library_iterators :
  forall (T : Type) (pr : profile) (items : list T), zlen items < 2 ^ 64 ->
  runs_through (keys_next pr) (it_new (with_unit items)) items.
Proof. exact library_iterators. Qed.
Print Assumptions C68_library_iterators.

Example C68_case :
  runs_as (running set_a) set_a /\ runs_as (running set_b) set_b /\
  observed (run_union 5 (running set_a) (running set_b)) 6 (run_new (running set_a) (running set_b)) =
    Ok [Some 1; Some 2; Some 3; Some 4; Some 5; None] /\
  observed (run_union 5 (running set_b) (running set_a)) 6 (run_new (running set_b) (running set_a)) =
    Ok [Some 1; Some 2; Some 3; Some 4; Some 5; None] /\
  observed (run_intersection 5 (running set_a) (running set_b)) 4 (run_new (running set_a) (running set_b)) =
    Ok [Some 3; Some 1004; None; None] /\
  run_is_disjoint 5 (running set_a) (running set_b) = Ok false /\
  run_eq 5 (running set_a) (running set_a) = Ok true.
Proof. exact ex_C68. Qed.

(** ** C69: a set does not show how it was built *)

Theorem C69_set_observations_determined :
  forall (O : Type) (eqbO : O -> O -> bool) (E1 E2 : env) (kd : kind) (bh1 bh2 : hasher O)
         (items1 items2 : list (key O)) (s1 s2 : set_types O),
  env_ok E1 -> env_ok E2 -> equivalence eqbO -> lawful_hash eqbO bh1 -> lawful_hash eqbO bh2 ->
  countable (prof E1) (zlen items1) -> countable (prof E2) (zlen items1) ->
  (forall x, In x items1 -> has_kind kd x) -> distinct (key_eqb eqbO) items1 -> Permutation items1 items2 ->
  fs_new E1 kd items1 bh1 = Ok s1 -> fs_new E2 kd items2 bh2 = Ok s2 ->
  fs_len s1 = fs_len s2 /\ fs_is_empty s1 = fs_is_empty s2 /\ Permutation (fs_items s1) (fs_items s2) /\
  (forall x, has_kind kd x ->
     fs_contains eqbO E1 s1 x = fs_contains eqbO E2 s2 x /\ fs_get eqbO E1 s1 x = fs_get eqbO E2 s2 x) /\
  lawful_set (key_eqb eqbO) (has_kind kd) (fs_as_set eqbO E1 s1) /\
  lawful_set (key_eqb eqbO) (has_kind kd) (fs_as_set eqbO E2 s2).
Proof. exact set_observations_determined. Qed.
Print Assumptions C69_set_observations_determined.

(** Sets holding the same items in different orders, such as the two FrozenSets above, in combination with another set. *)
Theorem C69_reordered_operations :
  forall (T : Type) (eqb : T -> T -> bool) (D : T -> Prop) (a b o : set_impl T),
  equivalence eqb -> lawful_set eqb D a -> lawful_set eqb D b -> lawful_set eqb D o ->
  Permutation (s_items a) (s_items b) ->
  s_len a = s_len b /\ (forall x, D x -> s_contains a x = s_contains b x) /\
  (set_eq a o = set_eq b o /\ is_subset a o = is_subset b o /\ is_superset a o = is_superset b o /\
   is_disjoint a o = is_disjoint b o) /\
  (set_eq o a = set_eq o b /\ is_subset o a = is_subset o b /\ is_superset o a = is_superset o b /\
   is_disjoint o a = is_disjoint o b) /\
  (let same {St} (next : set_impl T -> set_impl T -> St -> res (option T * St)) (new : set_impl T -> set_impl T -> St) :=
     (exists L L', yields (next a o) (new a o) L /\ yields (next b o) (new b o) L' /\ Permutation L L') /\
     (exists L L', yields (next o a) (new o a) L /\ yields (next o b) (new o b) L' /\ Permutation L L') in
   same union_next pair_new /\ same intersection_next pair_new /\ same symmetric_difference_next pair_new /\
   same difference_next difference_new).
Proof. exact reordered_operations. Qed.
Print Assumptions C69_reordered_operations.

Theorem C69_reordered_operators :
  forall (T : Type) (eqb : T -> T -> bool) (D : T -> Prop) (a b o : set_impl T),
  equivalence eqb -> lawful_set eqb D a -> lawful_set eqb D b -> lawful_set eqb D o ->
  Permutation (s_items a) (s_items b) -> distinct eqb (s_items a) ->
  let same (op : set_impl T -> set_impl T -> res (set_impl T)) :=
    (exists r r', op a o = Ok r /\ op b o = Ok r' /\ Permutation (s_items r) (s_items r')) /\
    (exists r r', op o a = Ok r /\ op o b = Ok r' /\ Permutation (s_items r) (s_items r')) in
  same (bitor eqb) /\ same (bitand eqb) /\ same (bitxor eqb) /\ same (set_sub eqb).
Proof. exact reordered_operators. Qed.
Print Assumptions C69_reordered_operators.

Example C69_case :
  let items := map (@KOther Z) [5; 17; 103; 998; 42; 7] in
  distinct (key_eqb mod_eqb) items /\ Permutation items (rev items) /\
  exists p, (s1 <- fs_new checked_env KindOther items sample_hasher ;;
             s2 <- fs_new wrapping_env KindOther (rev items) poor_hasher ;; Ok (s1, s2)) = Ok p /\
  let a := fs_as_set mod_eqb checked_env (fst p) in
  let b := fs_as_set mod_eqb wrapping_env (snd p) in
  let o := hash_set_of (key_eqb mod_eqb) (map (@KOther Z) [7; 1005; 6]) in
  s_items a <> s_items b /\
  fs_get mod_eqb checked_env (fst p) (KOther 1042) = Ok (Some (KOther 42)) /\
  fs_get mod_eqb wrapping_env (snd p) (KOther 1042) = Ok (Some (KOther 42)) /\
  (r <- bitand (key_eqb mod_eqb) a o ;; Ok (s_items r)) = Ok (map (@KOther Z) [7; 1005]) /\
  (r <- bitand (key_eqb mod_eqb) b o ;; Ok (s_items r)) = Ok (map (@KOther Z) [7; 1005]) /\
  (r <- set_sub (key_eqb mod_eqb) a o ;; Ok (zlen (s_items r))) = Ok 4 /\
  (r <- set_sub (key_eqb mod_eqb) b o ;; Ok (zlen (s_items r))) = Ok 4.
Proof. exact ex_C69. Qed.

(** ** C70: no use of a set goes wrong *)

(** No law on Eq or Hash and no bound on the number of items. *)
Theorem C70_set_use_never_goes_wrong :
  forall (O : Type) (eqbO : O -> O -> bool) (E : env) (kd : kind) (bh1 bh2 : hasher O)
         (p1 p2 : list (key O)) (s1 s2 : set_types O) (fuel : nat),
  env_ok E -> zlen p1 < 2 ^ 64 -> zlen p2 < 2 ^ 64 ->
  (forall x, In x p1 -> has_kind kd x) -> (forall x, In x p2 -> has_kind kd x) ->
  fs_new E kd p1 bh1 = Ok s1 -> fs_new E kd p2 bh2 = Ok s2 ->
  (length p1 < fuel)%nat -> (length p2 < fuel)%nat ->
  let i1 := fs_items s1 in
  let i2 := fs_items s2 in
  let r1 := fs_running eqbO E s1 in
  let r2 := fs_running eqbO E s2 in
  let not (c : key O -> bool) x := negb (c x) in
  Permutation p1 i1 /\ Permutation p2 i2 /\ fs_len s1 = zlen p1 /\ fs_len s2 = zlen p2 /\
  runs_through (r_next r1) (r_iter r1) i1 /\
  exists g1 g2 : key O -> option (key O),
    let c1 x := match g1 x with Some _ => true | None => false end in
    let c2 x := match g2 x with Some _ => true | None => false end in
    (forall x, has_kind kd x -> fs_get eqbO E s1 x = Ok (g1 x) /\ fs_contains eqbO E s1 x = Ok (c1 x) /\
       forall y, g1 x = Some y -> In y p1) /\
    (forall x, has_kind kd x -> fs_get eqbO E s2 x = Ok (g2 x) /\ fs_contains eqbO E s2 x = Ok (c2 x) /\
       forall y, g2 x = Some y -> In y p2) /\
    runs_through (run_union fuel r1 r2) (run_new r1 r2)
      (if zlen p2 <? zlen p1 then i1 ++ filter (not c1) i2 else i2 ++ filter (not c2) i1) /\
    runs_through (run_intersection fuel r1 r2) (run_new r1 r2)
      (if zlen p1 <? zlen p2 then filter c2 i1 else filter c1 i2) /\
    runs_through (run_difference fuel r1 r2) (r_iter r1) (filter (not c2) i1) /\
    runs_through (run_symmetric_difference fuel r1 r2) (run_new r1 r2) (filter (not c2) i1 ++ filter (not c1) i2) /\
    run_is_disjoint fuel r1 r2 = Ok (forallb (not c2) i1) /\
    run_is_subset fuel r1 r2 = Ok ((zlen p1 <=? zlen p2) && forallb c2 i1) /\
    run_is_superset fuel r1 r2 = Ok ((zlen p2 <=? zlen p1) && forallb c1 i2) /\
    fs_eq eqbO E s1 s2 = Ok ((zlen p1 =? zlen p2) && forallb c2 i1).
Proof. exact set_use_never_goes_wrong. Qed.
Print Assumptions C70_set_use_never_goes_wrong.

(** Any two implementations of Set whose [contains] does not fail on the items of the other. *)
Theorem C70_operations_without_laws :
  forall (T St1 St2 : Type) (r1 : running_set T St1) (r2 : running_set T St2) (s1 s2 : set_impl T)
         (c1 c2 : T -> bool) (fuel : nat),
  runs_as r1 s1 -> runs_as r2 s2 ->
  (forall x, In x (s_items s2) -> r_contains r1 x = Ok (c1 x)) ->
  (forall x, In x (s_items s1) -> r_contains r2 x = Ok (c2 x)) ->
  (length (s_items s1) < fuel)%nat -> (length (s_items s2) < fuel)%nat ->
  let i1 := s_items s1 in
  let i2 := s_items s2 in
  let not (c : T -> bool) x := negb (c x) in
  runs_through (run_union fuel r1 r2) (run_new r1 r2)
    (if r_len r2 <? r_len r1 then i1 ++ filter (not c1) i2 else i2 ++ filter (not c2) i1) /\
  runs_through (run_intersection fuel r1 r2) (run_new r1 r2)
    (if r_len r1 <? r_len r2 then filter c2 i1 else filter c1 i2) /\
  runs_through (run_difference fuel r1 r2) (r_iter r1) (filter (not c2) i1) /\
  runs_through (run_symmetric_difference fuel r1 r2) (run_new r1 r2) (filter (not c2) i1 ++ filter (not c1) i2) /\
  run_is_disjoint fuel r1 r2 = Ok (forallb (not c2) i1) /\
  run_is_subset fuel r1 r2 = Ok ((r_len r1 <=? r_len r2) && forallb c2 i1) /\
  run_is_superset fuel r1 r2 = Ok ((r_len r2 <=? r_len r1) && forallb c1 i2) /\
  run_eq fuel r1 r2 = Ok ((r_len r1 =? r_len r2) && forallb c2 i1).
Proof. exact operations_without_laws. Qed.
Print Assumptions C70_operations_without_laws.

Example C70_case :
  let wrong a b := negb (a =? b) in
  exists p, (s1 <- fs_new checked_env KindOther (map (@KOther Z) [5; 17; 103; 998; 42; 7]) poor_hasher ;;
             s2 <- fs_new checked_env KindOther (map (@KOther Z) [5; 205; 311; 777]) sample_hasher ;; Ok (s1, s2)) = Ok p /\
  let r1 := fs_running wrong checked_env (fst p) in
  let r2 := fs_running wrong checked_env (snd p) in
  fs_items (fst p) = map (@KOther Z) [998; 103; 7; 42; 17; 5] /\
  fs_get wrong checked_env (fst p) (KOther 17) = Ok (Some (KOther 7)) /\
  observed (run_union 7 r1 r2) 8 (run_new r1 r2) =
    Ok (map Some (map (@KOther Z) [998; 103; 7; 42; 17; 5; 205]) ++ [None]) /\
  observed (run_intersection 7 r1 r2) 5 (run_new r1 r2) =
    Ok (map Some (map (@KOther Z) [5; 311; 777]) ++ [None; None]) /\
  run_is_subset 7 r2 r1 = Ok false /\ run_is_disjoint 7 r2 r1 = Ok false /\
  fs_eq wrong checked_env (fst p) (fst p) = Ok false.
Proof. exact ex_C70. Qed.

(** ** C71: no use of a map goes wrong, however equality and hashing behave *)

(** Equality, hash and hasher may change their answers from call to call and may panic. *)
Theorem C71_volatile_history_never_goes_wrong :
  forall (W O V : Type) (F : conduct W O) (E : env) (kd : kind) (bh : hasher O)
         (payload : list (key O * V)) (m : map_types O V) (history : list (op (key O) V)) (w w' w1 : W),
  env_ok E -> zlen payload < 2 ^ 64 -> typed kd payload ->
  v_new F E kd payload bh w = (Ok m, w') ->
  (forall o k, In o history -> In k (op_keys o) -> has_kind kd k) ->
  sane_run_caught payload [] history (v_run F E m history w1).
Proof. exact volatile_history_never_goes_wrong. Qed.
Print Assumptions C71_volatile_history_never_goes_wrong.

Theorem C71_volatile_construction :
  forall (W O V : Type) (F : conduct W O) (E : env) (kd : kind) (bh : hasher O)
         (payload : list (key O * V)) (w : W),
  env_ok E -> typed kd payload ->
  match fst (v_new F E kd payload bh w) with
  | Ok m => Permutation payload (fm_iter m)
  | Panic _ => True
  | UB _ => kd = KindString /\
      exists i l w1, v_analyze_slice_keys (fun s => call (on_hash_slice F bh s)) (str_keys payload) w =
        (Ok (RightHandSubslice i l), w1)
  | OutOfFuel => False
  end.
Proof. exact volatile_construction. Qed.
Print Assumptions C71_volatile_construction.

Theorem C71_volatile_construction_panics :
  forall (W O V : Type) (F : conduct W O) (E : env) (kd : kind) (bh : hasher O)
         (payload : list (key O * V)) (w : W) (p : panic),
  env_ok E -> typed kd payload -> zlen payload < 2 ^ 31 ->
  fst (v_new F E kd payload bh w) = Panic p ->
  p = PForeign \/
  p = PIndexOutOfBounds /\ kd = KindString /\
    exists s1 s2, In s1 (str_keys payload) /\ In s2 (str_keys payload) /\ length s1 <> length s2.
Proof. exact volatile_construction_panics. Qed.
Print Assumptions C71_volatile_construction_panics.

Theorem C71_volatile_construction_right :
  forall (W O V : Type) (F : conduct W O) (E : env) (bh : hasher O)
         (payload : list (key O * V)) (w w1 : W) (i l : Z),
  typed KindString payload -> 4 <= zlen payload ->
  v_analyze_slice_keys (fun s => call (on_hash_slice F bh s)) (str_keys payload) w = (Ok (RightHandSubslice i l), w1) ->
  fst (v_new F E KindString payload bh w) = UB OutOfBounds.
Proof. exact volatile_construction_right. Qed.
Print Assumptions C71_volatile_construction_right.

Theorem C71_volatile_equality :
  forall (W O V : Type) (F : conduct W O) (E : env) (veq : V -> V -> W -> option bool * W)
         (kd : kind) (bh1 bh2 : hasher O) (p1 p2 : list (key O * V)) (m1 m2 : map_types O V)
         (w1 w1' w2 w2' w : W),
  env_ok E -> typed kd p1 -> typed kd p2 ->
  v_new F E kd p1 bh1 w1 = (Ok m1, w1') -> v_new F E kd p2 bh2 w2 = (Ok m2, w2') ->
  match fst (v_eq F E veq m1 m2 w) with
  | Ok true => length p1 = length p2
  | Ok false | Panic PForeign => True
  | _ => False
  end.
Proof. exact volatile_equality. Qed.
Print Assumptions C71_volatile_equality.

(** Answers that depend on the question only: side effects change nothing. *)
Theorem C71_regular_agrees :
  forall (W O V : Type) (F : conduct W O) (eqbO : O -> O -> bool) (E : env) (kd : kind) (bh : hasher O)
         (payload : list (key O * V)) (history : list (op (key O) V)) (w w1 : W),
  regular F eqbO -> env_ok E -> zlen payload < 2 ^ 64 -> typed kd payload ->
  (forall o k, In o history -> In k (op_keys o) -> has_kind kd k) ->
  fst (v_new F E kd payload bh w) = fm_new E kd payload bh /\
  (forall m, fm_new E kd payload bh = Ok m ->
     v_run F E m history w1 = map Some (run eqbO E m history)).
Proof. exact regular_agrees. Qed.
Print Assumptions C71_regular_agrees.

Theorem C71_regular_equality :
  forall (W O V : Type) (F : conduct W O) (eqbO : O -> O -> bool) (veq : V -> V -> W -> option bool * W) (veqb : V -> V -> bool)
         (E : env) (kd : kind) (bh1 bh2 : hasher O) (p1 p2 : list (key O * V)) (m1 m2 : map_types O V) (w : W),
  regular F eqbO -> (forall a b, always (veq a b) (veqb a b)) -> env_ok E -> typed kd p1 -> typed kd p2 ->
  fm_new E kd p1 bh1 = Ok m1 -> fm_new E kd p2 bh2 = Ok m2 ->
  fst (v_eq F E veq m1 m2 w) = fm_eq eqbO E veqb m1 m2.
Proof. exact regular_equality. Qed.
Print Assumptions C71_regular_equality.

Example C71_case :
  (exists m n, v_new fickle checked_env KindOther (others [5; 17; 103; 998; 42; 7]) poor_hasher 0 = (Ok m, n) /\
  n = 12 /\
  v_run fickle checked_env m
    [OGet (KOther 17); OGet (KOther 17); OGet (KOther 17); OGetManyMut [(KOther 17, 8); (KOther 42, 9)];
     OGetManyMut [(KOther 17, 8); (KOther 17, 9)]; OGetKeyValue (KOther 17); OGetKeyValue (KOther 17);
     OIndexMut (KOther 0) 7; OIndex (KOther 1); OIter] n =
    [Some (SawValue (Some 1030)); Some (SawValue (Some 70)); None; Some (SawBool true); None;
     Some (SawEntry None); Some (SawEntry (Some (KOther 17, 170))); None; Some (SawValue (Some 9));
     Some (SawItems [(KOther 103, 9); (KOther 17, 170); (KOther 7, 70); (KOther 998, 8); (KOther 5, 50);
                     (KOther 42, 420)])] /\
  v_eq fickle checked_env (fun a b n => (Some (a =? b), n + 1)) m m 100 = (Panic PForeign, 102)) /\
  fst (v_new fickle checked_env KindString (strs lefts5) poor_hasher 0) = Panic PForeign.
Proof. exact ex_C71. Qed.

(** ** C72: calls of the code supplied by the caller *)

Theorem C72_construction_calls :
  forall (W O V : Type) (F : conduct W O) (E : env) (kd : kind) (bh : hasher O)
         (payload : list (key O * V)) (w w' : W) (r : res (map_types O V)) (calls : list (event O)),
  typed kd payload ->
  v_new (recording F) E kd payload bh (w, []) = (r, (w', calls)) ->
  v_new F E kd payload bh w = (r, w') /\
  comparisons_in calls = 0 /\
  (zlen payload < 4 \/ kd = KindU32 -> calls = []) /\
  (4 <= zlen payload -> kd = KindOther ->
     let twice := hash_all bh payload ++ hash_all bh payload in
     prefix calls twice /\ (forall m, r = Ok m -> calls = twice)) /\
  (4 <= zlen payload -> kd = KindString ->
     exists looked rest full, calls = looked ++ rest /\
       (forall shortest longest,
          is_min shortest (map zlen (str_keys payload)) -> is_max longest (map zlen (str_keys payload)) ->
          zlen looked <= zlen payload *
            (if shortest =? longest then windows_within shortest else 3 * shortest)) /\
       Forall (fun e => exists s x, In s (str_keys payload) /\ window_of s x /\ e = HashedSlice bh x) looked /\
       string_calls bh payload full /\ prefix rest full /\ (forall m, r = Ok m -> rest = full)).
Proof. exact construction_calls. Qed.
Print Assumptions C72_construction_calls.

Theorem C72_lookup_calls :
  forall (W O V : Type) (F : conduct W O) (E : env) (kd : kind) (bh : hasher O)
         (payload : list (key O * V)) (m : map_types O V) (w0 w1 : W),
  env_ok E -> typed kd payload -> v_new F E kd payload bh w0 = (Ok m, w1) ->
  forall (k : key O) (w w' : W) (r : res (option nat)) (calls : list (event O)), has_kind kd k ->
  v_find (recording F) E m k (w, []) = (r, (w', calls)) ->
  v_find F E m k w = (r, w') /\
  lookup_asks kd bh k (fm_iter m) r calls /\
  comparisons_in calls <= zlen payload /\ hashes_in calls <= 1 /\
  snd (v_get (recording F) E m k (w, [])) = (w', calls) /\
  snd (v_get_key_value (recording F) E m k (w, [])) = (w', calls) /\
  snd (v_contains_key (recording F) E m k (w, [])) = (w', calls) /\
  snd (v_index (recording F) E m k (w, [])) = (w', calls) /\
  snd (v_index_mut (recording F) E m k (w, [])) = (w', calls).
Proof. exact lookup_calls. Qed.
Print Assumptions C72_lookup_calls.

Theorem C72_many_calls :
  forall (W O V : Type) (F : conduct W O) (E : env) (kd : kind) (bh : hasher O)
         (payload : list (key O * V)) (m : map_types O V) (w0 w1 : W),
  env_ok E -> typed kd payload -> v_new F E kd payload bh w0 = (Ok m, w1) ->
  (forall keys w w' r calls, (forall k, In k keys -> has_kind kd k) ->
     v_get_many_mut (recording F) E m keys (w, []) = (r, (w', calls)) ->
     v_get_many_mut F E m keys w = (r, w') /\
     many_asked kd bh (fm_iter m) keys r calls /\
     comparisons_in calls <= zlen keys * (zlen keys - 1) / 2 + zlen keys * zlen payload /\
     hashes_in calls <= zlen keys) /\
  (forall bh2 payload2 m2 w2 w3 veq w w' r calls,
     typed kd payload2 -> v_new F E kd payload2 bh2 w2 = (Ok m2, w3) ->
     v_eq (recording F) E (fun a b => quietly (veq a b)) m m2 (w, []) = (r, (w', calls)) ->
     v_eq F E veq m m2 w = (r, w') /\
     (zlen payload <> zlen payload2 -> r = Ok false /\ calls = []) /\
     (zlen payload = zlen payload2 -> entries_ask kd bh2 (fm_iter m2) (fm_iter m) r calls) /\
     comparisons_in calls <= zlen payload * zlen payload2 /\ hashes_in calls <= zlen payload).
Proof. exact many_calls. Qed.
Print Assumptions C72_many_calls.

(** The counts behind C49 and C59 are the numbers of calls of [==]. *)
Theorem C72_comparisons_counted :
  forall (W O V : Type) (F : conduct W O) (eqbO : O -> O -> bool) (E : env) (bh : hasher O)
         (payload : list (key O * V)) (m : map_types O V) (k : key O) (w : W),
  regular F eqbO -> env_ok E -> typed KindOther payload -> has_kind KindOther k ->
  fm_new E KindOther payload bh = Ok m ->
  exists r w' calls, v_find (recording F) E m k (w, []) = (Ok r, (w', calls)) /\
    fm_get_at eqbO E m k = Ok r /\ fm_get_cost eqbO E m k = Ok (comparisons_in calls).
Proof. exact comparisons_counted. Qed.
Print Assumptions C72_comparisons_counted.

Example C72_case :
  let keys := [5; 17; 103; 998; 42; 7] in
  calls_of (v_new (recording fickle) checked_env KindOther (others keys) poor_hasher (0, [])) =
    map (fun x => (1, [x])) (keys ++ keys) /\
  (exists m n, v_new fickle checked_env KindOther (others keys) poor_hasher 0 = (Ok m, n) /\
     calls_of (v_find (recording fickle) checked_env m (KOther 17) (17, [])) = [(1, [17]); (0, [17; 103]); (0, [17; 17])] /\
     calls_of (v_get_many_mut (recording (steady Z.eqb)) checked_env m [KOther 17; KOther 42; KOther 5] (n, [])) =
       [(0, [17; 42]); (0, [17; 5]); (0, [42; 5]); (1, [17]); (0, [17; 42])]) /\
  calls_of (v_new (recording (steady Z.eqb)) checked_env KindString (strs lefts5) sample_hasher (0, [])) =
    [(2, [88]); (2, [88])] ++ map (fun x => (2, [x])) [97; 98; 99; 100; 101] ++
    map (fun x => (3, [x])) ([97; 98; 99; 100; 101] ++ [97; 98; 99; 100; 101]) /\
  (exists m, fm_new checked_env KindString (strs lefts5) sample_hasher = Ok m /\
     calls_of (v_find (recording fickle) checked_env m (KStr [88; 99]) (0, [])) = [(3, [99])]) /\
  (exists m, small_map = Ok m /\ fm_get_cost Z.eqb checked_env m (KOther 17) = Ok 1 /\
     calls_of (v_find (recording (steady Z.eqb)) checked_env m (KOther 17) (0, [])) = [(1, [17]); (0, [17; 17])]).
Proof. exact ex_C72. Qed.

(** ** C73: no use of a set goes wrong, however equality and hashing behave *)

Theorem C73_volatile_set_use :
  forall (W O : Type) (F : conduct W O) (E : env) (kd : kind) (bh : hasher O) (payload : list (key O))
         (s : set_types O) (w w' : W),
  env_ok E -> zlen payload < 2 ^ 64 -> (forall x, In x payload -> has_kind kd x) ->
  v_fs_new F E kd payload bh w = (Ok s, w') ->
  let r := v_fs_running F E s in
  Permutation payload (fs_items s) /\ vs_len r = zlen payload /\
  runs_through (vs_next r) (vs_iter r) (fs_items s) /\
  forall x w1, has_kind kd x ->
    (fst (v_fs_get F E s x w1) = Panic PForeign /\ fst (vs_contains r x w1) = Panic PForeign) \/
    exists o, fst (v_fs_get F E s x w1) = Ok o /\ (forall y, o = Some y -> In y payload) /\
      fst (vs_contains r x w1) = Ok (match o with Some _ => true | None => false end).
Proof. exact volatile_set_use. Qed.
Print Assumptions C73_volatile_set_use.

Theorem C73_volatile_set_construction :
  forall (W O : Type) (F : conduct W O) (E : env) (kd : kind) (bh : hasher O) (payload : list (key O)) (w : W),
  env_ok E -> (forall x, In x payload -> has_kind kd x) ->
  match fst (v_fs_new F E kd payload bh w) with
  | Ok s => Permutation payload (fs_items s)
  | Panic _ => True
  | UB _ => kd = KindString /\
      exists i l w1, v_analyze_slice_keys (fun s => call (on_hash_slice F bh s)) (str_keys (with_unit payload)) w =
        (Ok (RightHandSubslice i l), w1)
  | OutOfFuel => False
  end.
Proof. exact volatile_set_construction. Qed.
Print Assumptions C73_volatile_set_construction.

(** Each operation as a sequence of questions to [contains], with the answers it happened to get. *)
Theorem C73_volatile_set_operations :
  forall (W O : Type) (F1 F2 : conduct W O) (E : env) (kd : kind) (bh1 bh2 : hasher O)
         (p1 p2 : list (key O)) (s1 s2 : set_types O) (w1 w1' w2 w2' : W) (fuel : nat),
  env_ok E -> zlen p1 < 2 ^ 64 -> zlen p2 < 2 ^ 64 ->
  (forall x, In x p1 -> has_kind kd x) -> (forall x, In x p2 -> has_kind kd x) ->
  v_fs_new F1 E kd p1 bh1 w1 = (Ok s1, w1') -> v_fs_new F2 E kd p2 bh2 w2 = (Ok s2, w2') ->
  (length p1 < fuel)%nat -> (length p2 < fuel)%nat ->
  let n1 := noted First (v_fs_running F1 E s1) in
  let n2 := noted Second (v_fs_running F2 E s2) in
  let start := v_op_new n1 n2 in
  let asks2 := ask Second (fs_items s1) in
  let asks1 := ask First (fs_items s2) in
  (if zlen p2 <? zlen p1 then sifting (v_union fuel n1 n2) start (fs_items s1) asks1 false
   else sifting (v_union fuel n1 n2) start (fs_items s2) asks2 false) /\
  (if zlen p1 <? zlen p2 then sifting (v_intersection fuel n1 n2) start [] asks2 true
   else sifting (v_intersection fuel n1 n2) start [] asks1 true) /\
  sifting (v_difference fuel n1 n2) start [] asks2 false /\
  sifting (v_symmetric_difference fuel n1 n2) start [] (asks2 ++ asks1) false /\
  checking (v_is_disjoint fuel n1 n2) asks2 false /\
  (if zlen p1 <=? zlen p2 then checking (v_is_subset fuel n1 n2) asks2 true
   else forall wn, v_is_subset fuel n1 n2 wn = (Ok false, wn)) /\
  (if zlen p2 <=? zlen p1 then checking (v_is_superset fuel n1 n2) asks1 true
   else forall wn, v_is_superset fuel n1 n2 wn = (Ok false, wn)) /\
  (if zlen p1 =? zlen p2 then checking (v_set_eq fuel n1 n2) asks2 true
   else forall wn, v_set_eq fuel n1 n2 wn = (Ok false, wn)).
Proof. exact volatile_set_operations. Qed.
Print Assumptions C73_volatile_set_operations.

(** Any two implementations of Set. *)
Theorem C73_volatile_operations :
  forall (W T St1 St2 : Type) (s1 : vol_set W T St1) (s2 : vol_set W T St2) (i1 i2 : list T) (fuel : nat),
  runs_through (vs_next s1) (vs_iter s1) i1 -> runs_through (vs_next s2) (vs_iter s2) i2 ->
  (forall x w, In x i2 -> (exists p, fst (vs_contains s1 x w) = Panic p) \/ exists b, fst (vs_contains s1 x w) = Ok b) ->
  (forall x w, In x i1 -> (exists p, fst (vs_contains s2 x w) = Panic p) \/ exists b, fst (vs_contains s2 x w) = Ok b) ->
  (length i1 < fuel)%nat -> (length i2 < fuel)%nat ->
  let n1 := noted First s1 in
  let n2 := noted Second s2 in
  let start := v_op_new n1 n2 in
  let asks2 := ask Second i1 in
  let asks1 := ask First i2 in
  (if vs_len s2 <? vs_len s1 then sifting (v_union fuel n1 n2) start i1 asks1 false
   else sifting (v_union fuel n1 n2) start i2 asks2 false) /\
  (if vs_len s1 <? vs_len s2 then sifting (v_intersection fuel n1 n2) start [] asks2 true
   else sifting (v_intersection fuel n1 n2) start [] asks1 true) /\
  sifting (v_difference fuel n1 n2) start [] asks2 false /\
  sifting (v_symmetric_difference fuel n1 n2) start [] (asks2 ++ asks1) false /\
  checking (v_is_disjoint fuel n1 n2) asks2 false /\
  (if vs_len s1 <=? vs_len s2 then checking (v_is_subset fuel n1 n2) asks2 true
   else forall wn, v_is_subset fuel n1 n2 wn = (Ok false, wn)) /\
  (if vs_len s2 <=? vs_len s1 then checking (v_is_superset fuel n1 n2) asks1 true
   else forall wn, v_is_superset fuel n1 n2 wn = (Ok false, wn)) /\
  (if vs_len s1 =? vs_len s2 then checking (v_set_eq fuel n1 n2) asks2 true
   else forall wn, v_set_eq fuel n1 n2 wn = (Ok false, wn)).
Proof. exact volatile_operations. Qed.
Print Assumptions C73_volatile_operations.

(** The operands that take notes behave like the operands themselves. *)
Theorem C73_notes_change_nothing :
  forall (W T St1 St2 : Type) (s1 : vol_set W T St1) (s2 : vol_set W T St2) (fuel : nat)
         (between : list (W -> W)) (st : St1 * St2) (w : W) (log : notes T),
  let n1 := noted First s1 in
  let n2 := noted Second s2 in
  let same_calls (a : M (St1 * St2 * (W * notes T)) (option T)) (b : M (St1 * St2 * W) (option T)) :=
    exists log', v_calls a (map aside between) (st, (w, log)) =
      let (os, x) := v_calls b between (st, w) in (os, (fst x, (snd x, log'))) in
  let same_answer (a : M (W * notes T) bool) (b : M W bool) :=
    exists log', a (w, log) = let (r, w') := b w in (r, (w', log')) in
  same_calls (v_union fuel n1 n2) (v_union fuel s1 s2) /\
  same_calls (v_intersection fuel n1 n2) (v_intersection fuel s1 s2) /\
  same_calls (v_difference fuel n1 n2) (v_difference fuel s1 s2) /\
  same_calls (v_symmetric_difference fuel n1 n2) (v_symmetric_difference fuel s1 s2) /\
  same_answer (v_is_disjoint fuel n1 n2) (v_is_disjoint fuel s1 s2) /\
  same_answer (v_is_subset fuel n1 n2) (v_is_subset fuel s1 s2) /\
  same_answer (v_is_superset fuel n1 n2) (v_is_superset fuel s1 s2) /\
  same_answer (v_set_eq fuel n1 n2) (v_set_eq fuel s1 s2).
Proof. exact notes_change_nothing. Qed.
Print Assumptions C73_notes_change_nothing.

(** Answers that depend on the question only: side effects change nothing. *)
Theorem C73_regular_operations :
  forall (W T St1 St2 : Type) (r1 : running_set T St1) (r2 : running_set T St2) (v1 : vol_set W T St1) (v2 : vol_set W T St2)
         (fuel : nat) (w : W),
  acts_like v1 r1 -> acts_like v2 r2 ->
  plays (v_union fuel v1 v2) (run_union fuel r1 r2) /\
  plays (v_intersection fuel v1 v2) (run_intersection fuel r1 r2) /\
  plays (v_difference fuel v1 v2)
    (fun st => r <- run_difference fuel r1 r2 (fst st) ;; Ok (fst r, (snd r, snd st))) /\
  plays (v_symmetric_difference fuel v1 v2) (run_symmetric_difference fuel r1 r2) /\
  fst (v_is_disjoint fuel v1 v2 w) = run_is_disjoint fuel r1 r2 /\
  fst (v_is_subset fuel v1 v2 w) = run_is_subset fuel r1 r2 /\
  fst (v_is_superset fuel v1 v2 w) = run_is_superset fuel r1 r2 /\
  fst (v_set_eq fuel v1 v2 w) = run_eq fuel r1 r2.
Proof. exact regular_operations. Qed.
Print Assumptions C73_regular_operations.

Theorem C73_regular_set_agrees :
  forall (W O : Type) (F : conduct W O) (eqbO : O -> O -> bool) (E : env) (kd : kind) (bh : hasher O) (payload : list (key O)) (w : W),
  regular F eqbO -> env_ok E -> (forall x, In x payload -> has_kind kd x) ->
  fst (v_fs_new F E kd payload bh w) = fs_new E kd payload bh /\
  forall s, fs_new E kd payload bh = Ok s -> forall x, has_kind kd x ->
    fst (v_fs_get F E s x w) = fs_get eqbO E s x /\
    fst (v_fs_contains F E s x w) = fs_contains eqbO E s x.
Proof. exact regular_set_agrees. Qed.
Print Assumptions C73_regular_set_agrees.

Example C73_case :
  moody_pair (fun s1 s2 =>
    let n1 := noted First s1 in
    let n2 := noted Second s2 in
    let calls m :=
      let (os, x) := v_calls m (map aside (repeat (fun w => w + 3) 9)) (v_op_new n1 n2, (0, [])) in
      (os, snd (snd x)) in
    (calls (v_union 7 n1 n2), calls (v_symmetric_difference 7 n1 n2), v_is_disjoint 7 n1 n2 (0, []))) =
  Some
    ((map (fun x => Ok (Some (KOther x))) [103; 17; 7; 998; 5; 42] ++ [Panic PForeign; Ok None; Ok None],
      [(First, KOther 6, inr PForeign); (First, KOther 17, inl true); (First, KOther 7, inl true);
       (First, KOther 42, inl true)]),
     ([Ok (Some (KOther 103)); Panic PForeign; Panic PForeign; Ok (Some (KOther 5)); Ok (Some (KOther 42));
       Ok (Some (KOther 6)); Panic PForeign; Ok None; Ok None],
      [(Second, KOther 103, inl false); (Second, KOther 17, inr PForeign); (Second, KOther 7, inl true);
       (Second, KOther 998, inr PForeign); (Second, KOther 5, inl false); (Second, KOther 42, inl false);
       (First, KOther 6, inl false); (First, KOther 17, inl true); (First, KOther 7, inr PForeign);
       (First, KOther 42, inl true)]),
     (Panic PForeign,
      (11, [(Second, KOther 103, inl false); (Second, KOther 17, inl false); (Second, KOther 7, inl false);
            (Second, KOther 998, inr PForeign)]))).
Proof. exact ex_C73. Qed.

(** ** C74: references into a map and the aliasing rules *)

Theorem C74_references_usable :
  forall (O V : Type) (eqbO : O -> O -> bool) (E : env) (box : nat) (m : map_types O V) (us : list use),
  (forall u k, In u us -> In k (keys_used u) -> exists r, fm_get_at eqbO E m k = Ok r) ->
  exists h, run_uses eqbO E box m us (boxed box (length (fm_iter m))) = Ok h.
Proof. exact references_usable. Qed.
Print Assumptions C74_references_usable.

Theorem C74_references_found :
  forall (O V : Type) (eqbO : O -> O -> bool) (E : env) (box : nat) (m : map_types O V) (us : list use)
    (h : heap) (k : key O) (r : option nat),
  (forall u k, In u us -> In k (keys_used u) -> exists r, fm_get_at eqbO E m k = Ok r) ->
  run_uses eqbO E box m us (boxed box (length (fm_iter m))) = Ok h ->
  fm_get_mut eqbO E m k = Ok r ->
  (exists v h', fm_get_ref eqbO E box m k h = Ok (v, h') /\ option_map snd v = r) /\
  (exists v h', fm_get_mut_ref eqbO E box m k h = Ok (v, h') /\ option_map snd v = r).
Proof. exact references_found. Qed.
Print Assumptions C74_references_found.

(** What is true of [get_many_mut]. *)
Theorem C74_many_mut_unwritable :
  forall (O V : Type) (eqbO : O -> O -> bool) (E : env) (box : nat) (m : map_types O V) (us : list use)
    (h : heap) (keys : list (key O)) (ps : option (list nat)),
  (forall u k, In u us -> In k (keys_used u) -> exists r, fm_get_at eqbO E m k = Ok r) ->
  run_uses eqbO E box m us (boxed box (length (fm_iter m))) = Ok h ->
  fm_get_many_mut eqbO E m keys = Ok ps ->
  exists found h', fm_get_many_mut_ref eqbO E box m keys h = Ok (found, h') /\ option_map (map snd) found = ps /\
    forall rs, found = Some rs ->
      (forall order, exists h'', reads rs order h' = Ok h'') /\
      forall r, In r rs -> write_value r h' = UB Aliasing.
Proof. exact many_mut_unwritable. Qed.
Print Assumptions C74_many_mut_unwritable.

(** "The references returned by get_many_mut may be written through" is false. *)
Theorem C74_many_mut_write_refuted :
  exists (m : map_types Z Z) (r : value_ref) (h : heap), forall (E : env) (bh : hasher Z),
    fm_new E KindU32 [(KU32 7, 70%Z)] bh = Ok m /\
    fm_get_many_mut_ref Z.eqb E 0 m [KU32 7] (boxed 0 1) = Ok (Some [r], h) /\
    write_value r h = UB Aliasing.
Proof. exact many_mut_write_refuted. Qed.
Print Assumptions C74_many_mut_write_refuted.

Example C74_case :
  match fm_new checked_env KindOther (others (numbers 3 7 50)) sample_hasher with
  | Ok m =>
      match run_uses Z.eqb checked_env 9 m
              [Gets [KOther 3; KOther 17; KOther 4; KOther 3] [2; 0; 1; 0; 7]%nat;
               GetMut (KOther 17) [true; false; true]; GetMut (KOther 18) [true]; Gets [KOther 17] [0]%nat]
              (boxed 9 50) with
      | Ok h =>
          match fm_get_many_mut_ref Z.eqb checked_env 9 m [KOther 17; KOther 3; KOther 38] h with
          | Ok (Some rs, h') =>
              length rs = 3%nat /\ (exists h'', reads rs [0; 2; 1; 2]%nat h' = Ok h'') /\
              map (fun r => write_value r h') rs = [UB Aliasing; UB Aliasing; UB Aliasing]
          | _ => False
          end /\
          match fm_get_ref Z.eqb checked_env 9 m (KOther 3) h with
          | Ok (Some v1, h1) =>
              match fm_get_mut_ref Z.eqb checked_env 9 m (KOther 3) h1 with
              | Ok (Some v2, h2) => exists h3, write_value v2 h2 = Ok h3 /\ read_value v1 h3 = UB Aliasing
              | _ => False
              end
          | _ => False
          end
      | _ => False
      end
  | _ => False
  end.
Proof. exact ex_C74. Qed.

(** ** C75: types told apart by their names *)

(** Map and set, every number of entries. *)
Theorem C75_names_decide :
  forall (O V : Type) (E : env) (name : naming) (kd : kind) (bh : hasher O),
  standard name ->
  (forall payload : list (key O * V), typed kd payload ->
     (mistaken name kd (length payload) -> fm_new_by_name E name kd payload bh = UB WrongType) /\
     (~ mistaken name kd (length payload) -> fm_new_by_name E name kd payload bh = fm_new E kd payload bh)) /\
  (forall items : list (key O), (forall x, In x items -> has_kind kd x) ->
     (mistaken name kd (length items) -> fs_new_by_name E name kd items bh = UB WrongType) /\
     (~ mistaken name kd (length items) -> fs_new_by_name E name kd items bh = fs_new E kd items bh)).
Proof. exact names_decide. Qed.
Print Assumptions C75_names_decide.

(** "A map with keys of any type can be built" is false for a type named alloc::string::String. *)
Theorem C75_same_name_refuted :
  exists (name : naming) (payload : list (key Z * Z)),
    standard name /\
    typed KindOther payload /\ distinct (key_eqb Z.eqb) (map fst payload) /\
    forall (E : env) (bh : hasher Z), fm_new_by_name E name KindOther payload bh = UB WrongType.
Proof. exact same_name_refuted. Qed.
Print Assumptions C75_same_name_refuted.

Example C75_case :
  let five_others := others [5; 17; 103; 998; 42] in
  standard colliding /\ mistaken colliding KindOther (length five_others) /\
  standard like_point /\ ~ mistaken like_point KindOther (length five_others) /\
  match fm_new_by_name checked_env like_point KindOther five_others sample_hasher with
  | Ok m => fm_get mod_eqb checked_env m (KOther 103) = Ok (Some 1030)
  | _ => False
  end /\
  fm_new_by_name checked_env colliding KindOther five_others sample_hasher = UB WrongType /\
  fs_new_by_name checked_env like_u32 KindOther (map fst five_others) sample_hasher = UB WrongType /\
  match fm_new_by_name checked_env colliding KindOther (firstn 3 five_others) sample_hasher with
  | Ok m => fm_get mod_eqb checked_env m (KOther 103) = Ok (Some 1030)
  | _ => False
  end.
Proof. exact ex_C75. Qed.

(** ** C76: no use of a specialized map goes wrong, however the code of the caller behaves *)

Theorem C76_special_construction :
  forall (W K Q V BH : Type) (F : foreign W K Q BH) (E : env) (S_ty : int_type) (sh : shape BH)
         (payload : list (K * V)) (w : W),
  env_ok E -> imin S_ty = 0 ->
  match fst (sp_from_vec F E S_ty sh payload w) with
  | Ok m => Permutation payload (sp_entries m)
  | Panic p => fits S_ty (zlen payload) -> expected sh p
  | UB _ | OutOfFuel => False
  end.
Proof. exact special_construction. Qed.
Print Assumptions C76_special_construction.

(** Eq, Hash, Borrow, Len, SliceHash and AsPrimitive may change their answers from call to call and may panic. *)
Theorem C76_special_history_never_goes_wrong :
  forall (W K Q V BH : Type) (F : foreign W K Q BH) (E : env) (S_ty : int_type) (sh : shape BH)
         (payload : list (K * V)) (m : special K V BH) (history : list (op Q V)) (w w' w1 : W),
  env_ok E -> imin S_ty = 0 -> zlen payload < 2 ^ 64 ->
  sp_from_vec F E S_ty sh payload w = (Ok m, w') ->
  sane_run_caught payload [] history (sp_run F E m history w1).
Proof. exact special_history_never_goes_wrong. Qed.
Print Assumptions C76_special_history_never_goes_wrong.

Theorem C76_special_equality :
  forall (W K V BH : Type) (F : foreign W K K BH) (E : env) (veq : V -> V -> W -> option bool * W)
         (S1 S2 : int_type) (sh1 sh2 : shape BH) (p1 p2 : list (K * V)) (m1 m2 : special K V BH) (w1 w1' w2 w2' w : W),
  env_ok E -> imin S1 = 0 -> imin S2 = 0 ->
  sp_from_vec F E S1 sh1 p1 w1 = (Ok m1, w1') -> sp_from_vec F E S2 sh2 p2 w2 = (Ok m2, w2') ->
  match fst (sp_eq F E veq m1 m2 w) with
  | Ok true => length p1 = length p2
  | Ok false => True
  | Panic p => expected sh2 p
  | UB _ | OutOfFuel => False
  end.
Proof. exact special_equality. Qed.
Print Assumptions C76_special_equality.

(** The implementations of [SliceHash] in this library are an exception: they check nothing. *)
Theorem C76_slice_hash_outcome :
  forall (BH : Type) (hw : BH -> list Z -> Z) (bh : BH) (key : list Z) (a b : Z),
  0 <= a -> 0 <= b ->
  (a <= b <= zlen key -> exists h, slice_hash hw bh key a b = Ok h) /\
  (~ a <= b <= zlen key -> slice_hash hw bh key a b = UB OutOfBounds).
Proof. exact slice_hash_outcome. Qed.
Print Assumptions C76_slice_hash_outcome.

(** Answers that depend on the question only: nothing changes with respect to Maps.v, whatever the side effects. *)
Theorem C76_special_regular :
  forall (W K Q V BH : Type) (F : foreign W K Q BH) (a : oracle K Q BH) (E : env) (S_ty : int_type)
         (payload : list (K * V)) (bh : BH) (t : hash_table K V) (q : Q) (w : W),
  regular_foreign F a ->
  fst (sp_from_vec F E S_ty Scanning payload w) = Ok (Entries (sm_entries (sm_from_vec payload))) /\
  fst (sp_find F E (Entries payload : special K V BH) q w) = sm_get_at (a_eq a) (a_borrow a) (sm_from_vec payload) q /\
  fst (sp_from_vec F E S_ty (Common bh) payload w) =
    bind (cm_from_vec (a_hash_key a) E S_ty payload bh) (fun m => Ok (InTable (Common (cm_bh m)) (cm_table m))) /\
  fst (sp_find F E (InTable (Common bh) t) q w) =
    cm_get_at (a_eq a) (a_borrow a) (a_hash_query a) {| cm_table := t; cm_bh := bh |} q /\
  fst (sp_from_vec F E S_ty Length payload w) =
    bind (lm_from_vec (a_len_key a) E S_ty payload) (fun m => Ok (InTable Length (lm_table m))) /\
  fst (sp_find F E (InTable Length t : special K V BH) q w) =
    lm_get_at (a_eq a) (a_borrow a) (a_len_query a) {| lm_table := t |} q.
Proof. exact special_regular. Qed.
Print Assumptions C76_special_regular.

Theorem C76_special_regular_integer :
  forall (W V BH : Type) (F : foreign W Z Z BH) (a : oracle Z Z BH) (E : env) (S_ty : int_type)
         (payload : list (Z * V)) (t : hash_table Z V) (q : Z) (w : W),
  regular_foreign F a -> a_eq a = Z.eqb -> a_borrow a = (fun k => k) -> a_as_key a = wrap u64 -> a_as_query a = wrap u64 ->
  fst (sp_from_vec F E S_ty Integer payload w) =
    bind (im_from_vec E S_ty payload) (fun m => Ok (InTable Integer (im_table m))) /\
  fst (sp_find F E (InTable Integer t : special Z V BH) q w) = im_get_at {| im_table := t |} q.
Proof. exact special_regular_integer. Qed.
Print Assumptions C76_special_regular_integer.

Theorem C76_special_regular_slices :
  forall (W V BH : Type) (F : foreign W (list Z) (list Z) BH) (o : oracle (list Z) (list Z) BH) (E : env) (S_ty : int_type)
         (hw : BH -> list Z -> Z) (payload : list (list Z * V)) (t : hash_table (list Z) V) (bh : BH) (a b : Z) (q : list Z) (w : W),
  regular_foreign F o -> a_eq o = bytes_eqb -> a_borrow o = (fun k => k) -> a_len_key o = zlen -> a_len_query o = zlen ->
  (forall bh k x y, a_slice_hash_key o bh k x y = hw bh (sub x y k)) ->
  (forall bh k x y, a_slice_hash_query o bh k x y = hw bh (sub x y k)) ->
  let m := {| slm_table := t; slm_bh := bh; slm_start := a; slm_end := b |} in
  let unless_ub := fun A (x : res A * W) (r : res A) => (exists u, r = UB u) \/ fst x = r in
  unless_ub _ (sp_from_vec F E S_ty (LeftSlice bh a b) payload w)
    (bind (lsm_from_vec hw E S_ty payload a b bh) (fun m => Ok (InTable (LeftSlice bh a b) (slm_table m)))) /\
  unless_ub _ (sp_find F E (InTable (LeftSlice bh a b) t) q w) (lsm_get_at hw m q) /\
  unless_ub _ (sp_from_vec F E S_ty (RightSlice bh a b) payload w)
    (bind (rsm_from_vec hw E S_ty payload a b bh) (fun m => Ok (InTable (RightSlice bh a b) (slm_table m)))) /\
  unless_ub _ (sp_find F E (InTable (RightSlice bh a b) t) q w) (rsm_get_at hw E m q).
Proof. exact special_regular_slices. Qed.
Print Assumptions C76_special_regular_slices.

Example C76_case :
  unlucky Scanning =
    (0, [None; Some (SawValue (Some 1030)); Some (SawEntry (Some (103, 1030))); Some (SawBool true); None;
         Some (SawBool true); Some (SawBool true); Some (SawValue (Some 7));
         Some (SawItems [(5, 8); (17, 170); (103, 7); (998, 9980); (42, 420); (7, 70)])]) /\
  unlucky (Common 0) =
    (12, [Some (SawValue None); Some (SawValue (Some 420)); Some (SawEntry None); Some (SawBool false);
          Some (SawBool false); Some (SawBool true); Some (SawBool true); Some SawPanic;
          Some (SawItems [(103, 1030); (17, 170); (7, 70); (998, 9980); (5, 50); (42, 7)])]) /\
  unlucky (LeftSlice 0 0 3) =
    (18, [Some (SawValue None); Some (SawValue None); Some (SawEntry None); Some (SawBool false);
          Some (SawBool false); Some (SawBool false); Some SawPanic; Some SawPanic;
          Some (SawItems [(42, 420); (7, 70); (998, 9980); (103, 1030); (5, 50); (17, 170)])]) /\
  unlucky (RightSlice 0 2 1) =
    (42, [None; None; Some (SawEntry None); None; Some (SawBool false); None; Some (SawBool true);
          Some (SawValue (Some 7));
          Some (SawItems [(998, 9980); (5, 50); (42, 420); (7, 70); (103, 7); (17, 170)])]) /\
  fst (sp_from_vec erratic checked_env usize (RightSlice 0 9 1) unlucky_payload 0) = Panic POverflow /\
  map (fun ab => slice_hash (fun _ s => zlen s) 0 [104; 105] (fst ab) (snd ab)) [(0, 2); (1, 1); (0, 3); (2, 1)] =
    [Ok 2; Ok 0; UB OutOfBounds; UB OutOfBounds].
Proof. exact ex_C76. Qed.

(** ** C77: calls of the code supplied by the caller made by sets and set operations *)

(** Construction makes the calls listed in C72 for a map with the same keys. *)
Theorem C77_set_construction_calls :
  forall (W O : Type) (F : conduct W O) (E : env) (kd : kind) (bh : hasher O) (payload : list (key O))
         (w w' : W) (r : res (set_types O)) (calls : list (event O)),
  v_fs_new (recording F) E kd payload bh (w, []) = (r, (w', calls)) ->
  v_fs_new F E kd payload bh w = (r, w') /\
  exists r', v_new (recording F) E kd (map (fun x => (x, tt)) payload) bh (w, []) = (r', (w', calls)) /\
    match r, r' with
    | Ok s, Ok m => map (fun x => (x, tt)) (fs_items s) = fm_iter m
    | Panic p, Panic p' => p = p'
    | UB u, UB u' => u = u'
    | OutOfFuel, OutOfFuel => True
    | _, _ => False
    end.
Proof. exact set_construction_calls. Qed.
Print Assumptions C77_set_construction_calls.

Theorem C77_set_lookup_calls :
  forall (W O : Type) (F : conduct W O) (E : env) (kd : kind) (bh : hasher O) (payload : list (key O))
         (s : set_types O) (w0 w1 : W),
  env_ok E -> (forall x, In x payload -> has_kind kd x) -> v_fs_new F E kd payload bh w0 = (Ok s, w1) ->
  forall (x : key O) (w w' : W) (r : res bool) (calls : list (event O)), has_kind kd x ->
  v_fs_contains (recording F) E s x (w, []) = (r, (w', calls)) ->
  v_fs_contains F E s x w = (r, w') /\
  asked kd bh (fs_items s) x (outcome r) calls /\
  at_most (zlen payload) 1 calls /\
  snd (v_fs_get (recording F) E s x (w, [])) = (w', calls).
Proof. exact set_lookup_calls. Qed.
Print Assumptions C77_set_lookup_calls.

(** Each operation as in C73, together with the calls that the questions to [contains] give rise to. *)
Theorem C77_set_operation_calls :
  forall (W O : Type) (F : conduct W O) (E : env) (kd : kind) (bh1 bh2 : hasher O)
         (p1 p2 : list (key O)) (s1 s2 : set_types O) (w1 w1' w2 w2' : W) (fuel : nat),
  env_ok E -> zlen p1 < 2 ^ 64 -> zlen p2 < 2 ^ 64 ->
  (forall x, In x p1 -> has_kind kd x) -> (forall x, In x p2 -> has_kind kd x) ->
  v_fs_new F E kd p1 bh1 w1 = (Ok s1, w1') -> v_fs_new F E kd p2 bh2 w2 = (Ok s2, w2') ->
  (length p1 < fuel)%nat -> (length p2 < fuel)%nat ->
  let r1 := v_fs_running (recording F) E s1 in
  let r2 := v_fs_running (recording F) E s2 in
  let start := v_op_new r1 r2 in
  let asks2 := ask Second (fs_items s1) in
  let asks1 := ask First (fs_items s2) in
  let per := all_asked kd bh1 bh2 (fs_items s1) (fs_items s2) in
  (if zlen p2 <? zlen p1 then sifting_with (v_union fuel r1 r2) start (fs_items s1) asks1 false per
   else sifting_with (v_union fuel r1 r2) start (fs_items s2) asks2 false per) /\
  (if zlen p1 <? zlen p2 then sifting_with (v_intersection fuel r1 r2) start [] asks2 true per
   else sifting_with (v_intersection fuel r1 r2) start [] asks1 true per) /\
  sifting_with (v_difference fuel r1 r2) start [] asks2 false per /\
  sifting_with (v_symmetric_difference fuel r1 r2) start [] (asks2 ++ asks1) false per /\
  checking_with (v_is_disjoint fuel r1 r2) asks2 false per /\
  (if zlen p1 <=? zlen p2 then checking_with (v_is_subset fuel r1 r2) asks2 true per
   else forall w, v_is_subset fuel r1 r2 w = (Ok false, w)) /\
  (if zlen p2 <=? zlen p1 then checking_with (v_is_superset fuel r1 r2) asks1 true per
   else forall w, v_is_superset fuel r1 r2 w = (Ok false, w)) /\
  (if zlen p1 =? zlen p2 then checking_with (v_set_eq fuel r1 r2) asks2 true per
   else forall w, v_set_eq fuel r1 r2 w = (Ok false, w)).
Proof. exact set_operation_calls. Qed.
Print Assumptions C77_set_operation_calls.

Theorem C77_set_operation_counts :
  forall (W O : Type) (F : conduct W O) (E : env) (kd : kind) (bh1 bh2 : hasher O)
         (p1 p2 : list (key O)) (s1 s2 : set_types O) (w1 w1' w2 w2' : W) (fuel : nat),
  env_ok E -> zlen p1 < 2 ^ 64 -> zlen p2 < 2 ^ 64 ->
  (forall x, In x p1 -> has_kind kd x) -> (forall x, In x p2 -> has_kind kd x) ->
  v_fs_new F E kd p1 bh1 w1 = (Ok s1, w1') -> v_fs_new F E kd p2 bh2 w2 = (Ok s2, w2') ->
  (length p1 < fuel)%nat -> (length p2 < fuel)%nat ->
  let r1 := v_fs_running (recording F) E s1 in
  let r2 := v_fs_running (recording F) E s2 in
  let n := zlen p1 in
  let m := zlen p2 in
  (forall between w,
     let calls next := snd (snd (snd (v_calls next (map aside between) (v_op_new r1 r2, (w, []))))) in
     at_most (n * m) (Z.min n m) (calls (v_union fuel r1 r2)) /\
     at_most (n * m) (Z.min n m) (calls (v_intersection fuel r1 r2)) /\
     at_most (n * m) n (calls (v_difference fuel r1 r2)) /\
     at_most (2 * (n * m)) (n + m) (calls (v_symmetric_difference fuel r1 r2))) /\
  (forall w,
     let calls f := snd (snd (f (w, []))) in
     at_most (n * m) n (calls (v_is_disjoint fuel r1 r2)) /\
     (if n <=? m then at_most (n * m) n (calls (v_is_subset fuel r1 r2)) else calls (v_is_subset fuel r1 r2) = []) /\
     (if m <=? n then at_most (n * m) m (calls (v_is_superset fuel r1 r2)) else calls (v_is_superset fuel r1 r2) = []) /\
     (if n =? m then at_most (n * n) n (calls (v_set_eq fuel r1 r2)) else calls (v_set_eq fuel r1 r2) = [])).
Proof. exact set_operation_counts. Qed.
Print Assumptions C77_set_operation_counts.

(** Recording the calls changes nothing. *)
Theorem C77_recorded_operations :
  forall (W O : Type) (F : conduct W O) (E : env) (s1 s2 : set_types O) (fuel : nat)
         (between : list (W -> W)) (w : W) (calls : list (event O)),
  let r1 := v_fs_running (recording F) E s1 in
  let r2 := v_fs_running (recording F) E s2 in
  let v1 := v_fs_running F E s1 in
  let v2 := v_fs_running F E s2 in
  let same_calls a b :=
    forall st, exists calls', v_calls a (map aside between) (st, (w, calls)) =
      let (os, x) := v_calls b between (st, w) in (os, (fst x, (snd x, calls'))) in
  let same_answer (a : M (W * list (event O)) bool) (b : M W bool) :=
    exists calls', a (w, calls) = let (r, w') := b w in (r, (w', calls')) in
  same_calls (v_union fuel r1 r2) (v_union fuel v1 v2) /\
  same_calls (v_intersection fuel r1 r2) (v_intersection fuel v1 v2) /\
  same_calls (v_difference fuel r1 r2) (v_difference fuel v1 v2) /\
  same_calls (v_symmetric_difference fuel r1 r2) (v_symmetric_difference fuel v1 v2) /\
  same_answer (v_is_disjoint fuel r1 r2) (v_is_disjoint fuel v1 v2) /\
  same_answer (v_is_subset fuel r1 r2) (v_is_subset fuel v1 v2) /\
  same_answer (v_is_superset fuel r1 r2) (v_is_superset fuel v1 v2) /\
  same_answer (v_set_eq fuel r1 r2) (v_set_eq fuel v1 v2).
Proof. exact recorded_operations. Qed.
Print Assumptions C77_recorded_operations.

Example C77_case :
  calls_of (v_fs_new (recording moody) checked_env KindOther (map KOther [17; 42; 6; 7]) poor_hasher (50, [])) =
    map (fun x => (1, [x])) ([17; 42; 6; 7] ++ [17; 42; 6; 7]) /\
  recorded_pair (fun r1 r2 =>
    let calls m :=
      let (os, x) := v_calls m (map aside (repeat (fun w => w + 3) 9)) (v_op_new r1 r2, (0, [])) in
      calls_of (os, snd x) in
    (calls (v_union 7 r1 r2), calls (v_difference 7 r1 r2),
     calls_of (v_is_disjoint 7 r1 r2 (0, [])), calls_of (v_is_subset 7 r1 r2 (0, [])))) =
  Some
    ([(1, [6]); (0, [6; 7]); (0, [6; 998]); (0, [6; 5]); (1, [17]); (0, [17; 103]); (0, [17; 17]);
      (1, [7]); (0, [7; 7]); (0, [7; 998]); (1, [42]); (0, [42; 7]); (0, [42; 998])],
     [(1, [103]); (0, [103; 7]); (0, [103; 42]); (1, [17]); (0, [17; 6]); (1, [7]); (0, [7; 6]);
      (1, [998]); (0, [998; 6]); (1, [5]); (0, [5; 6]); (0, [5; 17]); (1, [42]); (0, [42; 7]); (0, [42; 42])],
     [(1, [103]); (0, [103; 7]); (0, [103; 42]); (1, [17]); (0, [17; 7]); (0, [17; 42]);
      (1, [7]); (0, [7; 6]); (0, [7; 17]); (1, [998]); (0, [998; 6])],
     []).
Proof. exact ex_C77. Qed.

(** ** C78: clones of maps and sets *)

(** Keys, values and hasher are cloned by code of the caller that may change its answers from call to call and may panic. *)
Theorem C78_clone_copies :
  forall (W O V : Type) (F : conduct W O) (C : cloning W O V) (E : env) (kd : kind) (bh : hasher O)
         (m : map_types O V) (w : W),
  env_ok E -> owned F C E kd bh m ->
  exists r w' log,
    fm_clone (recording_copies C) m (w, []) = (r, (w', log)) /\ fm_clone C m w = (r, w') /\
    copies_made kd bh (fm_iter m) (m' <- r ;; Ok (fm_iter m')) log.
Proof. exact clone_copies. Qed.
Print Assumptions C78_clone_copies.

(** Also clones of clones, and clones of maps in which values have been replaced. *)
Theorem C78_owned_history_never_goes_wrong :
  forall (W O V : Type) (F : conduct W O) (C : cloning W O V) (E : env) (kd : kind) (bh : hasher O)
         (m : map_types O V) (history : list (op (key O) V)) (w : W),
  env_ok E -> owned F C E kd bh m ->
  (forall o k, In o history -> In k (op_keys o) -> has_kind kd k) ->
  sane_run_caught (fm_iter m) [] history (v_run F E m history w).
Proof. exact owned_history_never_goes_wrong. Qed.
Print Assumptions C78_owned_history_never_goes_wrong.

(** A clone asks its own hasher. *)
Theorem C78_owned_lookup_calls :
  forall (W O V : Type) (F : conduct W O) (C : cloning W O V) (E : env) (kd : kind) (bh : hasher O)
         (m : map_types O V) (k : key O) (w : W),
  env_ok E -> owned F C E kd bh m -> has_kind kd k ->
  exists r w' calls,
    v_find (recording F) E m k (w, []) = (r, (w', calls)) /\ v_find F E m k w = (r, w') /\
    lookup_asks kd bh k (fm_iter m) r calls.
Proof. exact owned_lookup_calls. Qed.
Print Assumptions C78_owned_lookup_calls.

(** Nothing is assumed about Hash. *)
Theorem C78_faithful_clone :
  forall (W O V : Type) (F : conduct W O) (C : cloning W O V) (cO : O -> O) (cV : V -> V) (cB : hasher O -> hasher O)
         (eqbO : O -> O -> bool) (E : env) (kd : kind) (bh : hasher O) (m : map_types O V) (w : W),
  env_ok E -> equivalence eqbO -> (forall x, eqbO x (cO x) = true) -> (forall b, hash_alike b (cB b)) ->
  clones_as (on_clone C) cO -> clones_as (on_clone_value C) cV -> clones_as (on_clone_hasher C) cB ->
  owned F C E kd bh m ->
  exists m' w', fm_clone C m w = (Ok m', w') /\
    let copied e := (copied_key cO (fst e), cV (snd e)) in
    fm_iter m' = map copied (fm_iter m) /\ fm_len m' = fm_len m /\
    forall k, has_kind kd k ->
      fm_get_mut eqbO E m' k = fm_get_mut eqbO E m k /\
      fm_get eqbO E m' k = (r <- fm_get eqbO E m k ;; Ok (option_map cV r)) /\
      fm_get_key_value eqbO E m' k = (r <- fm_get_key_value eqbO E m k ;; Ok (option_map copied r)).
Proof. exact faithful_clone. Qed.
Print Assumptions C78_faithful_clone.

Theorem C78_clone_equals_original :
  forall (W O V : Type) (C : cloning W O V) (cO : O -> O) (cV : V -> V) (cB : hasher O -> hasher O)
         (eqbO : O -> O -> bool) (veq : V -> V -> bool) (E : env) (kd : kind) (bh : hasher O)
         (payload : list (key O * V)) (m m' : map_types O V) (w w' : W),
  env_ok E -> equivalence eqbO -> (forall x, eqbO x (cO x) = true) -> (forall b, hash_alike b (cB b)) ->
  (forall v, veq v (cV v) = true /\ veq (cV v) v = true) ->
  clones_as (on_clone C) cO -> clones_as (on_clone_value C) cV -> clones_as (on_clone_hasher C) cB ->
  lawful_hash eqbO bh -> countable (prof E) (zlen payload) -> typed kd payload ->
  distinct (key_eqb eqbO) (map fst payload) ->
  fm_new E kd payload bh = Ok m -> fm_clone C m w = (Ok m', w') ->
  fm_eq eqbO E veq m m' = Ok true /\ fm_eq eqbO E veq m' m = Ok true.
Proof. exact clone_equals_original. Qed.
Print Assumptions C78_clone_equals_original.

Theorem C78_set_clone_copies :
  forall (W O V : Type) (F : conduct W O) (C : cloning W O V) (E : env) (kd : kind) (bh : hasher O)
         (s : set_types O) (w : W),
  env_ok E -> owned_set F C E kd bh s ->
  exists r w' log,
    fs_clone (recording_copies C) s (w, []) = (r, (w', log)) /\ fs_clone C s w = (r, w') /\
    set_copies_made kd bh (fs_items s) (s' <- r ;; Ok (fs_items s')) log.
Proof. exact set_clone_copies. Qed.
Print Assumptions C78_set_clone_copies.

(** What C73 asks of the operands of set operations. *)
Theorem C78_owned_set_use :
  forall (W O V : Type) (F : conduct W O) (C : cloning W O V) (E : env) (kd : kind) (bh : hasher O)
         (s : set_types O),
  env_ok E -> owned_set F C E kd bh s ->
  let r := v_fs_running F E s in
  vs_len r = zlen (fs_items s) /\ runs_through (vs_next r) (vs_iter r) (fs_items s) /\
  forall x w, has_kind kd x ->
    (fst (v_fs_get F E s x w) = Panic PForeign /\ fst (vs_contains r x w) = Panic PForeign) \/
    exists o, fst (v_fs_get F E s x w) = Ok o /\ (forall y, o = Some y -> In y (fs_items s)) /\
      fst (vs_contains r x w) = Ok (match o with Some _ => true | None => false end).
Proof. exact owned_set_use. Qed.
Print Assumptions C78_owned_set_use.

(** "A clone finds what the original finds" is false if the clone of the hasher hashes otherwise. *)
Theorem C78_clone_finds_the_same_refuted :
  exists (C : cloning unit Z Z) (E : env) (payload : list (key Z * Z)) (bh : hasher Z) (m m' : map_types Z Z),
    env_ok E /\ lawful_hash Z.eqb bh /\ typed KindOther payload /\ distinct (key_eqb Z.eqb) (map fst payload) /\
    clones_as (on_clone C) (fun x => x) /\ clones_as (on_clone_value C) (fun v => v) /\
    fm_new E KindOther payload bh = Ok m /\ fm_clone C m tt = (Ok m', tt) /\ fm_iter m' = fm_iter m /\
    forall e, In e payload -> fm_get Z.eqb E m (fst e) = Ok (Some (snd e)) /\ fm_get Z.eqb E m' (fst e) = Ok None.
Proof. exact clone_finds_the_same_refuted. Qed.
Print Assumptions C78_clone_finds_the_same_refuted.

Example C78_case1 :
  match v_new moody checked_env KindOther (others [5; 17; 103; 998; 42]) poor_hasher 0 with
  | (Ok m, _) => Some (brief_clone m 0, brief_clone m 40, brief_clone m 48)
  | _ => None
  end =
  Some
    ((Ok [(KOther 1998, 9981); (KOther 1103, 1033); (KOther 1042, 425); (KOther 1017, 177); (KOther 1005, 59)], 11,
      [(0, 998, Some 1998); (1, 9980, Some 9981); (0, 103, Some 1103); (1, 1030, Some 1033); (0, 42, Some 1042);
       (1, 420, Some 425); (0, 17, Some 1017); (1, 170, Some 177); (0, 5, Some 1005); (1, 50, Some 59); (2, 0, Some 35)]),
     (Panic PForeign, 48,
      [(0, 998, Some 1998); (1, 9980, Some 10021); (0, 103, Some 1103); (1, 1030, Some 1073); (0, 42, Some 1042);
       (1, 420, Some 465); (0, 17, Some 1017); (1, 170, None)]),
     (Panic PForeign, 59,
      [(0, 998, Some 1998); (1, 9980, Some 10029); (0, 103, Some 1103); (1, 1030, Some 1081); (0, 42, Some 1042);
       (1, 420, Some 473); (0, 17, Some 1017); (1, 170, Some 225); (0, 5, Some 1005); (1, 50, Some 107); (2, 0, None)])) /\
  match fm_new checked_env KindString (strs lefts5) sample_hasher with
  | Ok m => Some (brief_clone m 0)
  | _ => None
  end =
  Some
    (Ok [(KStr [88; 97], 108); (KStr [88; 101; 101], 119); (KStr [88; 100], 110); (KStr [88; 99], 111); (KStr [88; 98], 112)], 6,
     [(1, 108, Some 108); (1, 118, Some 119); (1, 108, Some 110); (1, 108, Some 111); (1, 108, Some 112); (2, 35, Some 35)]) /\
  match fm_new checked_env KindU32 (u32s [5; 17; 103; 998; 42]) sample_hasher with
  | Ok m => Some (brief_clone m 0)
  | _ => None
  end =
  Some
    (Ok [(KU32 103, 1030); (KU32 998, 9981); (KU32 5, 52); (KU32 42, 423); (KU32 17, 174)], 5,
     [(1, 1030, Some 1030); (1, 9980, Some 9981); (1, 50, Some 52); (1, 420, Some 423); (1, 170, Some 174)]) /\
  match v_fs_new moody checked_env KindOther (map KOther [17; 42; 6; 7]) poor_hasher 50 with
  | (Ok s, _) => Some (brief_set_clone s 0, brief_set_clone s 31)
  | _ => None
  end =
  Some
    ((Ok [KOther 1006; KOther 1017; KOther 1007; KOther 1042], 5,
      [(0, 6, Some 1006); (0, 17, Some 1017); (0, 7, Some 1007); (0, 42, Some 1042); (2, 0, Some 35)]),
     (Panic PForeign, 34, [(0, 6, Some 1006); (0, 17, Some 1017); (0, 7, None)])).
Proof. exact ex_C78_copies. Qed.

Example C78_case2 :
  exists bh m, owned moody sloppy checked_env KindOther bh m /\
    hash_one bh (KOther 5) = 35 /\
    v_run moody checked_env m
      [OGet (KOther 17); OGet (KOther 17); OGet (KOther 17); OGetMut (KOther 17) 9;
       OGetManyMut [(KOther 17, 8); (KOther 42, 9)]; OIter] 11 =
      [Some (SawValue (Some 5)); Some (SawValue (Some 1033)); None; Some (SawBool false); Some (SawBool false);
       Some (SawItems [(KOther 1998, 9981); (KOther 1103, 1033); (KOther 1042, 5); (KOther 1017, 177); (KOther 1005, 59)])].
Proof. exact ex_C78_owned. Qed.

Example C78_case3 :
  (forall x, mod_eqb x (x + 1000) = true) /\ (forall b : hasher Z, hash_alike b b) /\
  clones_as (on_clone careful) (fun x => x + 1000) /\ clones_as (on_clone_value careful) (fun v => v) /\
  clones_as (on_clone_hasher careful) (fun b => b) /\
  match fm_new checked_env KindOther (others [5; 17; 103; 998; 42]) sample_hasher with
  | Ok m => let (r, n) := fm_clone careful m 1 in
      Some (n, m' <- r ;; b <- fm_eq mod_eqb checked_env Z.eqb m m' ;; v <- fm_get mod_eqb checked_env m' (KOther 17) ;;
               Ok (map fst (fm_iter m), map fst (fm_iter m'), b, v))
  | _ => None
  end =
  Some (48, Ok (map KOther [17; 42; 5; 998; 103], map KOther [1017; 1042; 1005; 1998; 1103], true, Some 170)).
Proof. exact ex_C78_faithful. Qed.

(** ** C79: side effects of lawful code change nothing *)

(** The code of the caller may read and write its state, but its answers depend on the question only and are lawful. *)
Theorem C79_lawful_map_history :
  forall (W O V : Type) (F : conduct W O) (eqbO : O -> O -> bool) (E : env) (kd : kind) (bh : hasher O)
         (payload : list (key O * V)) (m : map_types O V) (history : list (op (key O) V)) (w w' w1 : W),
  regular F eqbO -> env_ok E -> equivalence eqbO -> lawful_hash eqbO bh ->
  countable (prof E) (zlen payload) -> zlen payload < 2 ^ 64 -> typed kd payload ->
  distinct (key_eqb eqbO) (map fst payload) ->
  v_new F E kd payload bh w = (Ok m, w') ->
  (forall o k, In o history -> In k (op_keys o) -> has_kind kd k) ->
  Forall2 (fun seen expected => exists b, seen = Some b /\ same_obs b expected)
    (v_run F E m history w1) (abstract_run (key_eqb eqbO) payload history).
Proof. exact lawful_map_history. Qed.
Print Assumptions C79_lawful_map_history.

Theorem C79_lawful_map_equality :
  forall (W O V : Type) (F : conduct W O) (eqbO : O -> O -> bool) (veq : V -> V -> W -> option bool * W) (veqb : V -> V -> bool)
         (E : env) (kd : kind) (bh1 bh2 : hasher O) (p1 p2 : list (key O * V)) (m1 m2 : map_types O V) (w1 w1' w2 w2' w : W),
  regular F eqbO -> (forall a b, always (veq a b) (veqb a b)) ->
  env_ok E -> equivalence eqbO -> lawful_hash eqbO bh1 -> lawful_hash eqbO bh2 ->
  countable (prof E) (zlen p1) -> countable (prof E) (zlen p2) -> zlen p1 < 2 ^ 64 -> zlen p2 < 2 ^ 64 ->
  typed kd p1 -> typed kd p2 ->
  distinct (key_eqb eqbO) (map fst p1) -> distinct (key_eqb eqbO) (map fst p2) ->
  v_new F E kd p1 bh1 w1 = (Ok m1, w1') -> v_new F E kd p2 bh2 w2 = (Ok m2, w2') ->
  exists b, fst (v_eq F E veq m1 m2 w) = Ok b /\ (b = true <-> same_map (key_eqb eqbO) veqb p1 p2).
Proof. exact lawful_map_equality. Qed.
Print Assumptions C79_lawful_map_equality.

Theorem C79_lawful_set_items :
  forall (W O : Type) (F : conduct W O) (eqbO : O -> O -> bool) (E : env) (kd : kind) (bh : hasher O)
         (items : list (key O)) (s : set_types O) (w w' w1 : W) (x : key O),
  regular F eqbO -> env_ok E -> equivalence eqbO -> lawful_hash eqbO bh ->
  countable (prof E) (zlen items) -> zlen items < 2 ^ 64 -> (forall y, In y items -> has_kind kd y) ->
  (kd = KindU32 -> distinct (key_eqb eqbO) items) ->
  v_fs_new F E kd items bh w = (Ok s, w') -> has_kind kd x ->
  (member (key_eqb eqbO) items x /\ fst (v_fs_contains F E s x w1) = Ok true /\
   exists y, fst (v_fs_get F E s x w1) = Ok (Some y) /\ In y items /\ key_eqb eqbO x y = true) \/
  (~ member (key_eqb eqbO) items x /\ fst (v_fs_contains F E s x w1) = Ok false /\
   fst (v_fs_get F E s x w1) = Ok None).
Proof. exact lawful_set_items. Qed.
Print Assumptions C79_lawful_set_items.

(** Six specialized maps, keys asked for in a borrowed form. *)
Theorem C79_lawful_special_history :
  forall (W K Q V BH : Type) (F : foreign W K Q BH) (a : oracle K Q BH) (E : env) (S_ty : int_type) (sh : shape BH)
         (payload : list (K * V)) (w : W),
  regular_foreign F a -> env_ok E -> fits S_ty (zlen payload) -> equivalence (a_eq a) -> fitting a sh (map fst payload) ->
  distinct (a_eq a) (map (fun e => a_borrow a (fst e)) payload) ->
  exists m w', sp_from_vec F E S_ty sh payload w = (Ok m, w') /\
  forall (history : list (op Q V)) (w1 : W),
  Forall2 (fun seen expected => exists b, seen = Some b /\ same_obs b expected)
    (sp_run F E m history w1) (object_run (a_eq a) (a_borrow a) payload history).
Proof. exact lawful_special_history. Qed.
Print Assumptions C79_lawful_special_history.

Theorem C79_lawful_special_equality :
  forall (W K V BH : Type) (F : foreign W K K BH) (a : oracle K K BH) (veq : V -> V -> W -> option bool * W) (veqb : V -> V -> bool)
         (E : env) (S1 S2 : int_type) (sh1 sh2 : shape BH) (p1 p2 : list (K * V)) (m1 m2 : special K V BH) (w1 w1' w2 w2' w : W),
  regular_foreign F a -> (forall x y, always (veq x y) (veqb x y)) -> (forall k, a_borrow a k = k) ->
  env_ok E -> fits S1 (zlen p1) -> fits S2 (zlen p2) -> equivalence (a_eq a) ->
  fitting a sh1 (map fst p1) -> fitting a sh2 (map fst p2) ->
  distinct (a_eq a) (map fst p1) -> distinct (a_eq a) (map fst p2) ->
  sp_from_vec F E S1 sh1 p1 w1 = (Ok m1, w1') -> sp_from_vec F E S2 sh2 p2 w2 = (Ok m2, w2') ->
  exists b, fst (sp_eq F E veq m1 m2 w) = Ok b /\ (b = true <-> same_map (a_eq a) veqb p1 p2).
Proof. exact lawful_special_equality. Qed.
Print Assumptions C79_lawful_special_equality.

Example C79_case :
  regular counting mod_eqb /\ regular_foreign orderly_foreign orderly /\ equivalence (a_eq orderly) /\
  fits usize (zlen orderly_payload) /\ distinct (a_eq orderly) (map (fun e => a_borrow orderly (fst e)) orderly_payload) /\
  (forall sh, In sh orderly_shapes -> fitting orderly sh (map fst orderly_payload)) /\
  map orderly_result orderly_shapes = repeat
    [Some (SawValue (Some 170)); Some (SawValue None); Some (SawBool true); Some (SawBool false); Some (SawBool true); Some (SawBool false);
     Some (SawBool true); Some (SawBool false); Some (SawEntry (Some ((7, 6), 6))); Some SawPanic; Some (SawValue (Some 8))] 6 /\
  (exists m n, v_new counting checked_env KindOther (others [5; 17; 103; 998; 42; 7]) poor_hasher 0 = (Ok m, n) /\ n = 12 /\
     v_run counting checked_env m [OGet (KOther 1017); OContainsKey (KOther 18)] n = [Some (SawValue (Some 170)); Some (SawBool false)]).
Proof. exact ex_C79. Qed.

(** ** C80: calls of foreign code by the specialized maps *)

Theorem C80_special_construction_calls :
  forall (W K Q V BH : Type) (F : foreign W K Q BH) (E : env) (S_ty : int_type) (sh : shape BH)
         (payload : list (K * V)) (w : W),
  env_ok E -> fits S_ty (zlen payload) ->
  exists r w' log,
    sp_from_vec (witness (V := V) F) E S_ty sh payload (w, []) = (r, (w', log)) /\
    sp_from_vec F E S_ty sh payload w = (r, w') /\
    match sh with
    | Scanning =>
        log = [] /\ r = Ok (Entries payload) /\
        forall ws, answers_as E sh 1 (map (fun e => (0, fst e)) payload) (after_writes ws (Entries payload))
    | _ =>
        exists rc, codes_asked (prof E) sh (map fst payload) rc log /\
        match rc with
        | Ok codes =>
            exists m n placed, r = Ok m /\ 1 <= n /\
              Permutation (combine codes payload) placed /\ sp_entries m = map snd placed /\
              forall ws, answers_as E sh n (map (fun x => (fst x, fst (snd x))) placed) (after_writes ws m)
        | Panic p => r = Panic p
        | UB _ | OutOfFuel => False
        end
    end.
Proof. exact special_construction_calls. Qed.
Print Assumptions C80_special_construction_calls.

Example C80_case :
  erratic_calls (RightSlice 0 2 1) 18 22 30 =
    Some ([AskLen (inl 5) (Some 3); AskLen (inl 5) (Some 4); AskLen (inl 5) (Some 5); AskSliceHash 0 (inl 5) 2
     4 (Some 14); AskLen (inl 17) (Some 3); AskLen (inl 17) (Some 4); AskLen (inl 17) (Some 5); AskSliceHash 0
     (inl 17) 2 4 (Some 30); AskLen (inl 103) (Some 3); AskLen (inl 103) (Some 4); AskLen (inl 103) (Some 5);
     AskSliceHash 0 (inl 103) 2 4 (Some 120); AskLen (inl 5) (Some 3); AskLen (inl 5) (Some 4); AskSliceHash 0
     (inl 5) 1 3 (Some 23); AskLen (inl 17) (Some 6); AskLen (inl 17) (Some 3); AskSliceHash 0 (inl 17) 4 2
     (Some 40); AskLen (inl 103) (Some 5); AskLen (inl 103) (Some 6); AskSliceHash 0 (inl 103) 3 5 (Some 131)],
     [ 103; 17; 5], (Panic POverflow, [AskLen (inr 17) (Some 2); AskLen (inr 17) (Some 3); AskLen (inr 17)
     (Some 0)]), (Panic POverflow, [AskEq 17 42 (Some false); AskLen (inr 17) (Some 3); AskLen (inr 17) (Some
     0)]), (Panic POverflow, [AskLen (inr 103) (Some 2); AskLen (inr 103) (Some 3); AskLen (inr 103) (Some
     0)])) /\
  erratic_calls (Common 0) 7 16 25 =
    Some ([AskHash 0 (inl 5) (Some 0); AskHash 0 (inl 17) (Some 1); AskHash 0 (inl 103) (Some 4); AskHash 0
     (inl 5) (Some 4); AskHash 0 (inl 17) (Some 1); AskHash 0 (inl 103) (Some 0)], [5; 17; 103], (Ok (Some
     2%nat), [AskHash 0 (inr 17) (Some 0); AskBorrow 103 (Some 111); AskEq 17 111 (Some true)]), (Ok None,
     [AskEq 17 42 (Some false); AskHash 0 (inr 17) (Some 3)]), (Ok false, [AskHash 0 (inr 5) (Some 4);
     AskBorrow 5 (Some 31); AskEq 5 31 (Some true); AskValues 50 50 (Some true); AskHash 0 (inr 17) (Some 1);
     AskBorrow 17 (Some 47); AskEq 17 47 (Some false)])) /\
  erratic_calls Scanning 1 17 0 =
    Some ([], [5; 17; 103], (Ok (Some 2%nat), [AskBorrow 5 (Some 6); AskEq 17 6 (Some false); AskBorrow 17
     (Some 20); AskEq 17 20 (Some false); AskBorrow 103 (Some 108); AskEq 17 108 (Some true)]), (Panic
     PForeign, [AskEq 17 42 (Some false); AskBorrow 5 (Some 23); AskEq 17 23 (Some false); AskBorrow 17 (Some
     37); AskEq 17 37 (Some true); AskBorrow 5 (Some 27); AskEq 42 27 (Some false); AskBorrow 17 (Some 41);
     AskEq 42 41 None]), (Panic PForeign, [AskBorrow 5 (Some 5); AskEq 5 5 (Some false); AskBorrow 17 (Some
     19); AskEq 5 19 None])).
Proof. exact ex_C80. Qed.

(** ** C81: specialized sets and set operations with any code of the caller *)

(** Six kinds of set, keys asked for in a borrowed form, every conduct of the code of the caller. *)
Theorem C81_special_set_use :
  forall (W T Q BH : Type) (F : foreign W T Q BH) (E : env) (S_ty : int_type) (sh : shape BH) (payload : list T) (w : W),
  env_ok E -> imin S_ty = 0 -> zlen payload < 2 ^ 64 ->
  match fst (st_from_vec E F S_ty sh payload w) with
  | Ok s =>
      Permutation payload (st_items s) /\
      (forall W' (G : foreign W' T T BH), vs_len (st_running E G s) = zlen payload /\
         runs_through (vs_next (st_running E G s)) (vs_iter (st_running E G s)) (st_items s)) /\
      forall W' (G : foreign W' T Q BH) (q : Q) (w1 : W'),
        (exists p, expected sh p /\ fst (st_get E G s q w1) = Panic p /\ fst (st_contains E G s q w1) = Panic p) \/
        exists o, fst (st_get E G s q w1) = Ok o /\ (forall y, o = Some y -> In y payload) /\
          fst (st_contains E G s q w1) = Ok (match o with Some _ => true | None => false end)
  | Panic p => fits S_ty (zlen payload) -> expected sh p
  | UB _ | OutOfFuel => False
  end.
Proof. exact special_set_use. Qed.
Print Assumptions C81_special_set_use.

(** The questions to [contains] and the calls that they give rise to. *)
Theorem C81_special_set_operations :
  forall (W T BH : Type) (F : foreign W T T BH) (E : env) (S1 S2 : int_type) (sh1 sh2 : shape BH)
         (p1 p2 : list T) (s1 s2 : special T unit BH) (w1 w1' w2 w2' : W) (fuel : nat),
  env_ok E -> fits S1 (zlen p1) -> fits S2 (zlen p2) ->
  st_from_vec E F S1 sh1 p1 w1 = (Ok s1, w1') -> st_from_vec E F S2 sh2 p2 w2 = (Ok s2, w2') ->
  (length p1 < fuel)%nat -> (length p2 < fuel)%nat ->
  let r1 := st_running E (witness F) s1 in
  let r2 := st_running E (witness F) s2 in
  let start := v_op_new r1 r2 in
  let asks2 := ask Second (st_items s1) in
  let asks1 := ask First (st_items s2) in
  exists n1 placed1 n2 placed2,
  placement F E S1 sh1 p1 w1 n1 placed1 /\ st_items s1 = map snd placed1 /\
  placement F E S2 sh2 p2 w2 n2 placed2 /\ st_items s2 = map snd placed2 /\
  let per := answered (set_asked (prof E) sh1 n1 placed1) (set_asked (prof E) sh2 n2 placed2) in
  (if zlen p2 <? zlen p1 then sifting_with (v_union fuel r1 r2) start (st_items s1) asks1 false per
   else sifting_with (v_union fuel r1 r2) start (st_items s2) asks2 false per) /\
  (if zlen p1 <? zlen p2 then sifting_with (v_intersection fuel r1 r2) start [] asks2 true per
   else sifting_with (v_intersection fuel r1 r2) start [] asks1 true per) /\
  sifting_with (v_difference fuel r1 r2) start [] asks2 false per /\
  sifting_with (v_symmetric_difference fuel r1 r2) start [] (asks2 ++ asks1) false per /\
  checking_with (v_is_disjoint fuel r1 r2) asks2 false per /\
  (if zlen p1 <=? zlen p2 then checking_with (v_is_subset fuel r1 r2) asks2 true per
   else forall w, v_is_subset fuel r1 r2 w = (Ok false, w)) /\
  (if zlen p2 <=? zlen p1 then checking_with (v_is_superset fuel r1 r2) asks1 true per
   else forall w, v_is_superset fuel r1 r2 w = (Ok false, w)) /\
  (if zlen p1 =? zlen p2 then checking_with (v_set_eq fuel r1 r2) asks2 true per
   else forall w, v_set_eq fuel r1 r2 w = (Ok false, w)).
Proof. exact special_set_operations. Qed.
Print Assumptions C81_special_set_operations.

(** The code of the caller may have side effects but answers lawfully. *)
Theorem C81_lawful_special_set :
  forall (W T Q BH : Type) (F : foreign W T Q BH) (a : oracle T Q BH) (E : env) (S_ty : int_type) (sh : shape BH)
         (payload : list T) (w : W),
  regular_foreign F a -> env_ok E -> fits S_ty (zlen payload) -> equivalence (a_eq a) -> fitting a sh payload ->
  exists s w', st_from_vec E F S_ty sh payload w = (Ok s, w') /\ Permutation payload (st_items s) /\
  forall q w1,
    (exists x, In x payload /\ a_eq a q (a_borrow a x) = true /\
       fst (st_get E F s q w1) = Ok (Some x) /\ fst (st_contains E F s q w1) = Ok true) \/
    ((forall x, In x payload -> a_eq a q (a_borrow a x) = false) /\
       fst (st_get E F s q w1) = Ok None /\ fst (st_contains E F s q w1) = Ok false).
Proof. exact lawful_special_set. Qed.
Print Assumptions C81_lawful_special_set.

Theorem C81_lawful_special_serves :
  forall (W T BH : Type) (F : foreign W T T BH) (a : oracle T T BH) (E : env) (S_ty : int_type) (sh : shape BH)
         (payload : list T) (s : special T unit BH) (w w' : W),
  regular_foreign F a -> env_ok E -> fits S_ty (zlen payload) -> equivalence (a_eq a) -> fitting a sh payload ->
  (forall x, a_borrow a x = x) ->
  st_from_vec E F S_ty sh payload w = (Ok s, w') ->
  serves (a_eq a) (fun _ => True) (st_running E F s) (st_items s) /\ Permutation payload (st_items s).
Proof. exact lawful_special_serves. Qed.
Print Assumptions C81_lawful_special_serves.

Theorem C81_lawful_frozen_set_serves :
  forall (W O : Type) (F : conduct W O) (eqbO : O -> O -> bool) (E : env) (kd : kind) (bh : hasher O)
         (items : list (key O)) (s : set_types O) (w w' : W),
  regular F eqbO -> env_ok E -> equivalence eqbO -> lawful_hash eqbO bh ->
  countable (prof E) (zlen items) -> zlen items < 2 ^ 64 -> (forall y, In y items -> has_kind kd y) ->
  (kd = KindU32 -> distinct (key_eqb eqbO) items) ->
  v_fs_new F E kd items bh w = (Ok s, w') ->
  serves (key_eqb eqbO) (has_kind kd) (v_fs_running F E s) (fs_items s) /\ Permutation items (fs_items s).
Proof. exact lawful_frozen_set_serves. Qed.
Print Assumptions C81_lawful_frozen_set_serves.

(** Operands of any two kinds. *)
Theorem C81_lawful_volatile_operations :
  forall (W T St1 St2 : Type) (eqb : T -> T -> bool) (D : T -> Prop) (v1 : vol_set W T St1) (v2 : vol_set W T St2)
         (i1 i2 : list T) (fuel : nat),
  equivalence eqb -> serves eqb D v1 i1 -> serves eqb D v2 i2 -> (length i1 < fuel)%nat -> (length i2 < fuel)%nat ->
  let start := v_op_new v1 v2 in
  let lacks l x := negb (existsb (eqb x) l) in
  let has l x := existsb (eqb x) l in
  steadily (v_union fuel v1 v2) start
    (if zlen i2 <? zlen i1 then i1 ++ filter (lacks i1) i2 else i2 ++ filter (lacks i2) i1) /\
  steadily (v_intersection fuel v1 v2) start (if zlen i1 <? zlen i2 then filter (has i2) i1 else filter (has i1) i2) /\
  steadily (v_difference fuel v1 v2) start (filter (lacks i2) i1) /\
  steadily (v_symmetric_difference fuel v1 v2) start (filter (lacks i2) i1 ++ filter (lacks i1) i2) /\
  forall w : W,
  (exists b, fst (v_is_disjoint fuel v1 v2 w) = Ok b /\
     (b = true <-> forall x, ~ (member eqb i1 x /\ member eqb i2 x))) /\
  (distinct eqb i1 -> exists b, fst (v_is_subset fuel v1 v2 w) = Ok b /\
     (b = true <-> forall x, member eqb i1 x -> member eqb i2 x)) /\
  (distinct eqb i2 -> exists b, fst (v_is_superset fuel v1 v2 w) = Ok b /\
     (b = true <-> forall x, member eqb i2 x -> member eqb i1 x)) /\
  (distinct eqb i1 -> distinct eqb i2 -> exists b, fst (v_set_eq fuel v1 v2 w) = Ok b /\
     (b = true <-> forall x, member eqb i1 x <-> member eqb i2 x)).
Proof. exact lawful_volatile_operations. Qed.
Print Assumptions C81_lawful_volatile_operations.

Example C81_case1 :
  erratic_sets (Common 0) Length 2 =
    Some ((map (fun x => Ok (Some x)) [5; 17; 103; 17; 42],
           [AskHash 0 (inr 17) (Some 0); AskBorrow 103 (Some 118); AskEq 17 118 (Some false); AskHash 0 (inr 42) (Some 6);
            AskBorrow 17 (Some 38); AskEq 42 38 (Some false)]),
          ([Ok (Some 5); Ok (Some 17); Ok (Some 103); Ok None; Ok None],
           [AskLen (inr 5) (Some 1); AskBorrow 17 (Some 23); AskEq 5 23 (Some false); AskLen (inr 17) (Some 3);
            AskBorrow 17 (Some 29); AskEq 17 29 (Some false); AskLen (inr 103) (Some 1); AskBorrow 17 (Some 35);
            AskEq 103 35 (Some false)]),
          (Ok false, [AskHash 0 (inr 17) (Some 2)])) /\
  erratic_sets (RightSlice 0 2 1) Scanning 1 =
    Some ((map (fun x => Ok (Some x)) [103; 17; 5; 17; 42], [AskLen (inr 17) (Some 1); AskLen (inr 42) (Some 1)]),
          ([Ok (Some 103); Panic PForeign; Ok None; Ok None; Ok None],
           [AskBorrow 17 (Some 21); AskEq 103 21 (Some false); AskBorrow 42 (Some 48); AskEq 103 48 (Some false);
            AskBorrow 17 (Some 28); AskEq 17 28 (Some true); AskBorrow 17 (Some 30); AskEq 5 30 None]),
          (Ok false, [AskLen (inr 17) (Some 1)])).
Proof. exact ex_C81_calls. Qed.

Example C81_case2 :
  regular_foreign modular_foreign modular /\ equivalence (a_eq modular) /\ (forall x, a_borrow modular x = x) /\
  fits u16 (zlen modular_payload) /\ (forall sh, In sh orderly_shapes -> fitting modular sh modular_payload) /\
  map (fun sh => modular_results sh Scanning) orderly_shapes =
    repeat (Some ([Ok (Some 8); Ok None; Ok None], Ok false, Ok false, Ok (Some 42))) 6 /\
  map (modular_results (Common 3)) orderly_shapes =
    repeat (Some ([Ok (Some 8); Ok None; Ok None], Ok false, Ok false, Ok (Some 42))) 6.
Proof. exact ex_C81_lawful. Qed.

(** ** C82: the range map and set with integers of the caller *)

(** The keys may be of any type with its own arithmetic and order. *)
Theorem C82_range_construction :
  forall (W K Q V BH : Type) (G : integers W K Q) (srt : sorter) (payload : list (K * V)) (w : W),
  sorter_ok srt ->
  exists r w' log,
    rg_from_vec (overhear (BH := BH) G) srt payload (w, []) = (r, (w', log)) /\
    rg_from_vec G srt payload w = (r, w') /\
    range_built (may_end (srt _ payload) None) payload r log.
Proof. exact range_construction. Qed.
Print Assumptions C82_range_construction.

(** Also after writes through references to values. *)
Theorem C82_range_lookups :
  forall (W K Q V BH : Type) (G : integers W K Q) (m0 : range_map K V) (ws : list (nat * V)),
  let m := after_range_writes ws m0 in
  let search := range_searched (rg_min m0) (rg_max m0) (zlen (rg_entries m0)) in
  (forall q w, exists r w' log,
     rg_find (overhear (V := V) (BH := BH) G) m q (w, []) = (r, (w', log)) /\ search q r log /\
     rg_find G m q w = (r, w') /\
     rg_get G m q w = (over (fun o => option_map snd (entry_at (rg_entries m) o)) r, w') /\
     rg_get_key_value G m q w = (over (entry_at (rg_entries m)) r, w') /\
     rg_contains_key G m q w = (over (fun o => match o with Some _ => true | None => false end) r, w') /\
     rg_index G m q w = (unwrapped (over (fun o => option_map snd (entry_at (rg_entries m) o)) r), w') /\
     rg_index_mut G m q w = (unwrapped r, w')) /\
  (forall qs w, exists r w' log,
     rg_get_many_mut (overhear (V := V) (BH := BH) G) m qs (w, []) = (r, (w', log)) /\
     rg_get_many_mut G m qs w = (r, w') /\ many_looked_up search qs r log).
Proof. exact range_lookups. Qed.
Print Assumptions C82_range_lookups.

Theorem C82_range_equality :
  forall (W K V BH : Type) (G : integers W K K) (veq : V -> V -> W -> option bool * W) (self m : range_map K V) (w : W),
  exists r w' log,
    rg_eq (overhear (BH := BH) G) (witness_values veq) self m (w, []) = (r, (w', log)) /\
    rg_eq G veq self m w = (r, w') /\
    (zlen (rg_entries self) <> zlen (rg_entries m) -> r = Ok false /\ log = []) /\
    (zlen (rg_entries self) = zlen (rg_entries m) ->
     entries_asked (range_searched (rg_min m) (rg_max m) (zlen (rg_entries m))) (rg_entries m) (rg_entries self) r log).
Proof. exact range_equality. Qed.
Print Assumptions C82_range_equality.

(** [None] is a panic that was caught. *)
Theorem C82_range_history_never_goes_wrong :
  forall (W K Q V : Type) (G : integers W K Q) (srt : sorter) (p : profile) (payload : list (K * V)) (m : range_map K V)
         (history : list (op Q V)) (w w' w1 : W),
  sorter_ok srt -> zlen payload < 2 ^ 64 -> rg_from_vec G srt payload w = (Ok m, w') ->
  Permutation payload (rg_entries m) /\ sane_run_caught payload [] history (rg_run G p m history w1).
Proof. exact range_history_never_goes_wrong. Qed.
Print Assumptions C82_range_history_never_goes_wrong.

(** Integers with side effects. *)
Theorem C82_lawful_range_history :
  forall (W K Q V : Type) (G : integers W K Q) (lo hi : Z) (key_value : K -> Z) (value : Q -> Z) (borrow : K -> Q)
         (srt : sorter) (p : profile) (payload : list (K * V)) (w : W),
  lawful_integers G lo hi key_value value -> (forall k, value (borrow k) = key_value k) -> sorter_ok srt ->
  payload <> [] -> zlen payload < 2 ^ 64 -> zlen payload - 1 <= hi ->
  consecutive (map (fun e => key_value (fst e)) payload) ->
  exists m w' a, rg_from_vec G srt payload w = (Ok m, w') /\
  map (fun e => key_value (fst e)) (rg_entries m) = interval a (length payload) /\
  forall (history : list (op Q V)) (w1 : W),
  Forall2 (fun seen expected => exists b, seen = Some b /\ same_obs b expected)
    (rg_run G p m history w1) (object_run (fun a b => value a =? value b) borrow payload history).
Proof. exact lawful_range_history. Qed.
Print Assumptions C82_lawful_range_history.

Theorem C82_lawful_range_rejects :
  forall (W K Q V : Type) (G : integers W K Q) (lo hi : Z) (key_value : K -> Z) (value : Q -> Z)
         (srt : sorter) (payload : list (K * V)) (w : W),
  let values := map (fun e => key_value (fst e)) payload in
  lawful_integers G lo hi key_value value -> sorter_ok srt -> payload <> [] ->
  (forall a b, In a values -> In b values -> a - b <= hi) -> NoDup values -> ~ consecutive values ->
  fst (rg_from_vec G srt payload w) = Panic PAssert /\ (forall a b, In a values -> In b values -> a - b < 2 ^ 64) \/
  fst (rg_from_vec G srt payload w) = Panic PUnwrapNone /\ (exists a b, In a values /\ In b values /\ 2 ^ 64 <= a - b).
Proof. exact lawful_range_rejects. Qed.
Print Assumptions C82_lawful_range_rejects.

Theorem C82_lawful_empty_range :
  forall (W K Q V : Type) (G : integers W K Q) (lo hi : Z) (key_value : K -> Z) (value : Q -> Z) (srt : sorter) (w : W),
  lawful_integers G lo hi key_value value ->
  exists m w', rg_from_vec (V := V) G srt [] w = (Ok m, w') /\ rg_entries m = [] /\
  forall (q : Q) (w1 : W),
  (value q = 0 -> fst (rg_get G m q w1) = Panic PIndexOutOfBounds /\ fst (rg_get_key_value G m q w1) = Panic PIndexOutOfBounds /\
     fst (rg_contains_key G m q w1) = Panic PIndexOutOfBounds) /\
  (value q <> 0 -> fst (rg_get G m q w1) = Ok None /\ fst (rg_get_key_value G m q w1) = Ok None /\
     fst (rg_contains_key G m q w1) = Ok false).
Proof. exact lawful_empty_range. Qed.
Print Assumptions C82_lawful_empty_range.

Theorem C82_lawful_range_equality :
  forall (W K V : Type) (G : integers W K K) (lo hi : Z) (value : K -> Z) (srt : sorter)
         (veq : V -> V -> W -> option bool * W) (veqb : V -> V -> bool) (p1 p2 : list (K * V)) (m1 m2 : range_map K V)
         (w1 w1' w2 w2' w : W),
  lawful_integers G lo hi value value -> sorter_ok srt -> (forall x y, always (veq x y) (veqb x y)) ->
  (forall p, p = p1 \/ p = p2 ->
     zlen p < 2 ^ 64 /\ zlen p - 1 <= hi /\ (p <> [] -> consecutive (map (fun e => value (fst e)) p))) ->
  rg_from_vec G srt p1 w1 = (Ok m1, w1') -> rg_from_vec G srt p2 w2 = (Ok m2, w2') ->
  exists b, fst (rg_eq G veq m1 m2 w) = Ok b /\ (b = true <-> same_map (fun a b => value a =? value b) veqb p1 p2).
Proof. exact lawful_range_equality. Qed.
Print Assumptions C82_lawful_range_equality.

Theorem C82_range_set_use :
  forall (W T Q : Type) (G : integers W T Q) (srt : sorter) (p : profile) (payload : list T) (s : range_map T unit) (w w' : W),
  sorter_ok srt -> zlen payload < 2 ^ 64 -> rs_from_vec G srt payload w = (Ok s, w') ->
  Permutation payload (rs_items s) /\
  (forall W' (G' : integers W' T T), vs_len (rs_running p G' s) = zlen payload /\
     runs_through (vs_next (rs_running p G' s)) (vs_iter (rs_running p G' s)) (rs_items s)) /\
  forall W' (G' : integers W' T Q) (q : Q) (w1 : W'),
    (exists e, (e = PForeign \/ e = PIndexOutOfBounds) /\ fst (rs_get G' s q w1) = Panic e /\ fst (rs_contains G' s q w1) = Panic e) \/
    exists o, fst (rs_get G' s q w1) = Ok o /\ (forall y, o = Some y -> In y payload) /\
      fst (rs_contains G' s q w1) = Ok (match o with Some _ => true | None => false end).
Proof. exact range_set_use. Qed.
Print Assumptions C82_range_set_use.

(** A set in which the calls are taken down. *)
Theorem C82_range_set_operand :
  forall (W W' T Q BH : Type) (G : integers W T Q) (G' : integers W' T T) (srt : sorter) (p : profile) (payload : list T)
         (s : range_map T unit) (w w' : W),
  sorter_ok srt -> zlen payload < 2 ^ 64 -> rs_from_vec G srt payload w = (Ok s, w') ->
  Permutation payload (rs_items s) /\
  operand (rs_running p (overhear (BH := BH) G') s) (rs_items s) (range_set_asked (rg_min s) (rg_max s) (zlen payload)).
Proof. exact range_set_operand. Qed.
Print Assumptions C82_range_set_operand.

Theorem C82_special_set_operand :
  forall (W T BH : Type) (F : foreign W T T BH) (E : env) (S_ty : int_type) (sh : shape BH) (payload : list T)
         (s : special T unit BH) (w w' : W),
  env_ok E -> fits S_ty (zlen payload) -> st_from_vec E F S_ty sh payload w = (Ok s, w') ->
  exists n placed, placement F E S_ty sh payload w n placed /\ st_items s = map snd placed /\
  operand (st_running E (witness F) s) (st_items s) (set_asked (prof E) sh n placed).
Proof. exact special_set_operand. Qed.
Print Assumptions C82_special_set_operand.

(** Two sets of any of these kinds. *)
Theorem C82_operand_operations :
  forall (W T St1 St2 Ev : Type) (v1 : vol_set (W * list Ev) T St1) (v2 : vol_set (W * list Ev) T St2) (i1 i2 : list T)
         (asked1 asked2 : T -> bool + panic -> list Ev -> Prop) (fuel : nat),
  operand v1 i1 asked1 -> operand v2 i2 asked2 -> (length i1 < fuel)%nat -> (length i2 < fuel)%nat ->
  let start := v_op_new v1 v2 in
  let asks2 := ask Second i1 in
  let asks1 := ask First i2 in
  let per := answered asked1 asked2 in
  (if zlen i2 <? zlen i1 then sifting_with (v_union fuel v1 v2) start i1 asks1 false per
   else sifting_with (v_union fuel v1 v2) start i2 asks2 false per) /\
  (if zlen i1 <? zlen i2 then sifting_with (v_intersection fuel v1 v2) start [] asks2 true per
   else sifting_with (v_intersection fuel v1 v2) start [] asks1 true per) /\
  sifting_with (v_difference fuel v1 v2) start [] asks2 false per /\
  sifting_with (v_symmetric_difference fuel v1 v2) start [] (asks2 ++ asks1) false per /\
  checking_with (v_is_disjoint fuel v1 v2) asks2 false per /\
  (if zlen i1 <=? zlen i2 then checking_with (v_is_subset fuel v1 v2) asks2 true per
   else forall w, v_is_subset fuel v1 v2 w = (Ok false, w)) /\
  (if zlen i2 <=? zlen i1 then checking_with (v_is_superset fuel v1 v2) asks1 true per
   else forall w, v_is_superset fuel v1 v2 w = (Ok false, w)) /\
  (if zlen i1 =? zlen i2 then checking_with (v_set_eq fuel v1 v2) asks2 true per
   else forall w, v_set_eq fuel v1 v2 w = (Ok false, w)).
Proof. exact operand_operations. Qed.
Print Assumptions C82_operand_operations.

(** For the set operations see C81. *)
Theorem C82_lawful_range_serves :
  forall (W T : Type) (G : integers W T T) (lo hi : Z) (value : T -> Z) (srt : sorter) (p : profile) (payload : list T) (w : W),
  lawful_integers G lo hi value value -> sorter_ok srt ->
  payload <> [] -> zlen payload < 2 ^ 64 -> zlen payload - 1 <= hi -> consecutive (map value payload) ->
  exists s w', rs_from_vec G srt payload w = (Ok s, w') /\ Permutation payload (rs_items s) /\
  StronglySorted Z.le (map value (rs_items s)) /\
  serves (fun a b => value a =? value b) (fun _ => True) (rs_running p G s) (rs_items s).
Proof. exact lawful_range_serves. Qed.
Print Assumptions C82_lawful_range_serves.

Example C82_case1 :
  let run n := rg_from_vec (overhear (V := Z) (BH := unit) whims) by_insertion whims_entries (n, []) in
  run 0 = (Ok {| rg_min := 20; rg_max := 30; rg_entries := [(20, 2); (10, 1); (30, 3)] |},
           (5, [AskLess 20 10 (Some true); AskLess 20 30 (Some true); AskLess 10 30 (Some true);
                AskMinusKey 30 20 (Some 2); AskUsizeKey 2 (Some (Some 2))])) /\
  run 1 = (Panic PAssert,
           (6, [AskLess 20 10 (Some false); AskLess 10 30 (Some true); AskLess 20 30 (Some false);
                AskMinusKey 20 10 (Some 10); AskUsizeKey 10 (Some (Some 10))])) /\
  run 2 = (Panic PUnwrapNone,
           (6, [AskLess 20 10 (Some false); AskLess 10 30 (Some false);
                AskMinusKey 20 30 (Some (-10)); AskUsizeKey (-10) (Some None)])) /\
  run 12 = (Panic PForeign, (13, [AskLess 20 10 None])) /\
  zlen whims_entries < 2 ^ 64 /\
  match rg_from_vec whims by_insertion whims_entries 0 with
  | (Ok m, n) =>
      map (fun q => rg_find (overhear (V := Z) (BH := unit) whims) m q (n, [])) [5; 25] =
        [(Ok None, (7, [AskBorrow 20 (Some 20); AskGe 5 20 (Some false)]));
         (Panic PIndexOutOfBounds,
          (12, [AskBorrow 20 (Some 20); AskGe 25 20 (Some true); AskBorrow 30 (Some 30); AskLe 25 30 (Some true);
                AskBorrow 20 (Some 21); AskMinus 25 21 (Some 4); AskUsize 4 (Some (Some 4))]))] /\
      rg_run whims Checked m byte_history n =
        [Some (SawValue None); None; Some (SawBool true); Some (SawBool false); None; Some (SawBool false);
         Some (SawValue (Some 1)); None; Some (SawBool false); Some (SawBool false);
         Some (SawItems [(20, 2); (10, 1); (30, 3)]); Some (SawNumber 3)]
  | _ => False
  end.
Proof. exact ex_C82_calls. Qed.

Example C82_case2 :
  sorter_ok by_insertion /\ lawful_integers bytewise (-128) 127 (fun k => signed_byte (fst k)) signed_byte /\
  (forall k : Z * Z, signed_byte (fst k) = signed_byte (fst k)) /\
  zlen byte_payload < 2 ^ 64 /\ zlen byte_payload - 1 <= 127 /\
  consecutive (map (fun e => signed_byte (fst (fst e))) byte_payload) /\
  match rg_from_vec bytewise by_insertion byte_payload 0 with
  | (Ok m, n) =>
     rg_run bytewise Checked m byte_history n =
       map Some [SawValue (Some (-10)); SawValue (Some 10); SawBool false; SawBool false; SawEntry (Some ((256, 7), 0));
         SawBool true; SawValue (Some 99); SawPanic; SawBool true; SawBool false;
         SawItems [((-2, 6), -21); ((255, 8), -10); ((256, 7), 99); ((1, 5), 11)]; SawNumber 4]
  | _ => False
  end /\
  fst (rg_from_vec bytewise by_insertion [((1, 5), 10); ((255, 8), -10)] 0) = Panic PAssert.
Proof. exact ex_C82_lawful. Qed.

Example C82_case3 :
  match rg_from_vec (V := Z) bytewise by_insertion [] 5 with
  | (Ok m, n) => map (fun q => fst (rg_get bytewise m q n)) [0; 1; 256; -1] =
      [Panic PIndexOutOfBounds; Ok None; Panic PIndexOutOfBounds; Ok None]
  | _ => False
  end.
Proof. exact ex_C82_empty. Qed.

Example C82_case4 :
  lawful_integers byte_items (-128) 127 signed_byte signed_byte /\ consecutive (map signed_byte [1; 258; 3]) /\
  mixed_results =
    Some ([-2; 255; 256; 1], [Ok (Some (-2)); Ok (Some 255); Ok (Some 256); Ok None], Ok false, Ok false, Ok true,
          [Panic PIndexOutOfBounds; Panic PForeign; Ok (Some (-1)); Ok None],
          [AskBorrow (-2) (Some (-1)); AskGe 1 (-1) (Some true); AskBorrow 1 (Some 1); AskLe 1 1 (Some true);
           AskBorrow (-2) (Some (-2)); AskMinus 1 (-2) (Some 3); AskUsize 3 (Some (Some 5));
           AskBorrow (-2) (Some (-2)); AskGe 7 (-2) (Some true); AskBorrow 1 (Some 2); AskLe 7 2 (Some true);
           AskBorrow (-2) (Some (-2)); AskMinus 7 (-2) None;
           AskBorrow (-2) (Some (-2)); AskGe (-1) (-2) (Some true); AskBorrow 1 (Some 2); AskLe (-1) 2 (Some true);
           AskBorrow (-2) (Some (-2)); AskMinus (-1) (-2) (Some 1); AskUsize 1 (Some (Some 1))]).
Proof. exact ex_C82_sets. Qed.

(** ** C83: programs with iterators and their clones *)

Theorem C83_iterator_programs :
  forall (K V T : Type) (pr : profile) (entries : list (K * V)) (items : list (T * unit)),
  zlen entries < 2 ^ 64 -> zlen items < 2 ^ 64 ->
  sees (iter_iterator pr) (it_new entries) exact_iterator entries /\
  sees (keys_iterator pr) (keys_new entries) exact_iterator (map fst entries) /\
  sees (values_iterator pr) (values_new entries) exact_iterator (map snd entries) /\
  sees (set_iterator pr) (it_new items) (miscounting_iterator pr) (map fst items) /\
  sees into_iterator (into_iter_new items) exact_iterator (map fst items).
Proof. exact iterator_programs. Qed.
Print Assumptions C83_iterator_programs.

Theorem C83_operation_programs :
  forall (T : Type) (eqb : T -> T -> bool) (D : T -> Prop) (s1 s2 : set_impl T),
  equivalence eqb -> lawful_set eqb D s1 -> lawful_set eqb D s2 ->
  let n1 := zlen (s_items s1) in
  let n2 := zlen (s_items s2) in
  let sum := if n1 + n2 <? 2 ^ 64 then Some (n1 + n2) else None in
  exists U I X M,
    sees (union_iterator s1 s2) (pair_new s1 s2) (vague_iterator (n1, sum)) U /\
    sees (intersection_iterator s1 s2) (pair_new s1 s2) (vague_iterator (0, Some (Z.max n1 n2))) I /\
    sees (symmetric_difference_iterator s1 s2) (pair_new s1 s2) (vague_iterator (0, sum)) X /\
    sees (difference_iterator s1 s2) (difference_new s1 s2) (vague_iterator (0, Some n1)) M /\
    (forall x, member eqb U x <-> member eqb (s_items s1) x \/ member eqb (s_items s2) x) /\
    (forall x, member eqb I x <-> member eqb (s_items s1) x /\ member eqb (s_items s2) x) /\
    (forall x, member eqb X x <->
       (member eqb (s_items s1) x /\ ~ member eqb (s_items s2) x) \/
       (member eqb (s_items s2) x /\ ~ member eqb (s_items s1) x)) /\
    (forall x, member eqb M x <-> member eqb (s_items s1) x /\ ~ member eqb (s_items s2) x) /\
    (distinct eqb (s_items s1) -> distinct eqb (s_items s2) ->
     distinct eqb U /\ distinct eqb I /\ distinct eqb X /\ distinct eqb M).
Proof. exact operation_programs. Qed.
Print Assumptions C83_operation_programs.

Example C83_case :
  iter_run (keys_iterator Checked) [Some (keys_new three)] (cloned_use Z.add) =
    [HeardItem (Some 1); HeardNothing; HeardItem (Some 2); HeardItem (Some 3); HeardNumber 2; HeardHint (0, Some 0);
     HeardList [2; 3]; HeardNothing; HeardResult 105; NotAllowed; HeardNumber 0; HeardItem (Some 2); HeardList [3];
     HeardNumber 1; NotAllowed] /\
  iter_run (set_iterator Checked) [Some (it_new (with_unit [1; 2; 3]))] (cloned_use Z.add) =
    [HeardItem (Some 1); HeardNothing; HeardItem (Some 2); HeardItem (Some 3); HeardNumber 2; HeardHint (0, Some 0);
     HeardList [2; 3]; HeardNothing; HeardResult 105; NotAllowed; HeardPanic; HeardItem (Some 2); HeardList [3];
     HeardPanic; NotAllowed] /\
  iter_run (union_iterator set_a set_b) [Some (pair_new set_a set_b)] (cloned_use Z.add) =
    [HeardItem (Some 1); HeardNothing; HeardItem (Some 2); HeardItem (Some 3); NotAllowed; HeardHint (4, Some 7);
     HeardList [2; 3; 4; 5]; HeardNothing; HeardResult 114; NotAllowed; HeardNumber 2; HeardItem (Some 2);
     HeardList [3; 4; 5]; HeardNumber 3; NotAllowed].
Proof. exact ex_C83. Qed.

(** ** C84: references into specialized maps, and from get_key_value and iterators *)

Theorem C84_special_references :
  forall (K V Q BH : Type) (eqb : Q -> Q -> bool) (borrow : K -> Q) (hash_query : BH -> Q -> Z) (len_query : Q -> Z)
    (hash_write : BH -> bytes -> Z) (E : env) (pr : profile) (ty : int_type),
  (forall m : scanning_map K V,
     sound_references eqb (sm_get_at eqb borrow m) (sm_look eqb borrow m) (length (sm_entries m))) /\
  (forall m : common_map K V BH,
     sound_references eqb (cm_get_at eqb borrow hash_query m) (cm_look eqb borrow hash_query m)
       (length (entries (cm_table m)))) /\
  (forall m : integer_map V,
     sound_references Z.eqb (im_get_at m) (im_look m) (length (entries (im_table m)))) /\
  (forall m : integer_range_map V,
     sound_references Z.eqb (irm_get_at pr ty m) (irm_look pr ty m) (length (irm_entries m))) /\
  (forall m : length_map K V,
     sound_references eqb (lm_get_at eqb borrow len_query m) (lm_look eqb borrow len_query m)
       (length (entries (lm_table m)))) /\
  (forall m : slice_map V BH,
     sound_references bytes_eqb (lsm_get_at hash_write m) (lsm_look hash_write m) (length (entries (slm_table m)))) /\
  (forall m : slice_map V BH,
     sound_references bytes_eqb (rsm_get_at hash_write E m) (rsm_look hash_write E m) (length (entries (slm_table m)))).
Proof. exact special_references. Qed.
Print Assumptions C84_special_references.

Theorem C84_facade_references :
  forall (O V : Type) (eqbO : O -> O -> bool) (E : env) (m : map_types O V),
  sound_references (key_eqb eqbO) (fm_get_at eqbO E m) (fm_lookup eqbO E m) (length (fm_iter m)).
Proof. exact facade_references. Qed.
Print Assumptions C84_facade_references.

Example C84_case :
  (match lm_from_vec digits checked_env u8 [(7, 70); (12, 120); (345, 30)] with
   | Ok m =>
       map (lm_get_at Z.eqb (fun k => k) digits m) [12; 7; 8] = [Ok (Some 0); Ok (Some 1); Ok None]%nat /\
       after_uses Z.eqb (lm_get_at Z.eqb (fun k => k) digits m) (lm_look Z.eqb (fun k => k) digits m) 3 [345; 7] pair =
         Some ([[ValueOf 0; KeyOf 0; ValueOf 0; KeyOf 1; ValueOf 1; KeyOf 1; ValueOf 1; KeyOf 1; ValueOf 1; KeyOf 2; ValueOf 2];
                [ValueOf 0]; [KeyOf 1; ValueOf 1]]%nat,
               ([2; 1]%nat, [UB Aliasing; UB Aliasing]))
   | _ => False
   end) /\
  (match irm_from_vec Checked u8 [(8, 80); (7, 70)] with
   | Ok m =>
       map (irm_get_at Checked u8 m) [12; 7; 8] = [Ok None; Ok (Some 0); Ok (Some 1)]%nat /\
       after_uses Z.eqb (irm_get_at Checked u8 m) (irm_look Checked u8 m) 2 [8] pair =
         Some ([[KeyOf 0; ValueOf 0; KeyOf 0; ValueOf 0; KeyOf 1; ValueOf 1; KeyOf 1; ValueOf 1; ValueOf 1];
                []; [KeyOf 0; ValueOf 0]]%nat,
               ([1]%nat, [UB Aliasing]))
   | _ => False
   end).
Proof. exact ex_C84. Qed.

(** ** C85: lengths of the types of the standard library *)

Theorem C85_lengths :
  forall (A B : Type) (eqA : A -> A -> bool) (eqB : B -> B -> bool) (t : len_type) (v : len_value A B),
  value_of eqA t v ->
  (exists n, holds v n /\ len_of t v = Z.of_nat n /\ (len_is_empty t v = true <-> n = O)) /\
  (equivalence eqA -> equivalence eqB ->
   forall w, value_of eqA t w -> same_value eqA eqB v w -> len_of t v = len_of t w).
Proof. exact lengths. Qed.
Print Assumptions C85_lengths.

Theorem C85_length_map_of_values :
  forall (A B V : Type) (eqA : A -> A -> bool) (eqB : B -> B -> bool) (t : len_type)
    (eqb : sized (B := B) eqA t -> sized eqA t -> bool) (E : env) (S_ty : int_type) (payload : list (sized eqA t * V)),
  env_ok E -> fits S_ty (zlen payload) -> equivalence eqA -> equivalence eqB -> tells_equal eqA eqB eqb ->
  distinct eqb (map fst payload) ->
  exists m, lm_from_vec (sized_len eqA t) E S_ty payload = Ok m /\
  forall history : list (op (sized eqA t) V),
  Forall2 same_obs (mo_run (prof E) eqb (lm_object eqb (fun k => k) (sized_len eqA t)) m history)
                   (object_run eqb (fun k => k) payload history).
Proof. exact length_map_of_values. Qed.
Print Assumptions C85_length_map_of_values.

(** Keys in a [Box], [Rc] or [Arc], asked for by what they point to. *)
Theorem C85_length_map_of_pointers :
  forall (A B V : Type) (eqA : A -> A -> bool) (eqB : B -> B -> bool) (p t : len_type) (Hpt : points_to p t)
    (eqb : sized (B := B) eqA t -> sized eqA t -> bool) (E : env) (S_ty : int_type) (payload : list (sized eqA p * V)),
  env_ok E -> fits S_ty (zlen payload) -> equivalence eqA -> equivalence eqB -> tells_equal eqA eqB eqb ->
  distinct eqb (map (fun e => sized_pointee eqA p t Hpt (fst e)) payload) ->
  exists m, lm_from_vec (sized_len eqA p) E S_ty payload = Ok m /\
  forall history : list (op (sized eqA t) V),
  Forall2 same_obs (mo_run (prof E) eqb (lm_object eqb (sized_pointee eqA p t Hpt) (sized_len eqA t)) m history)
                   (object_run eqb (sized_pointee eqA p t Hpt) payload history).
Proof. exact length_map_of_pointers. Qed.
Print Assumptions C85_length_map_of_pointers.

Theorem C85_length_set_of_values :
  forall (A B : Type) (eqA : A -> A -> bool) (eqB : B -> B -> bool) (t : len_type)
    (eqb : sized (B := B) eqA t -> sized eqA t -> bool) (E : env) (S_ty : int_type) (items : list (sized eqA t)),
  env_ok E -> fits S_ty (zlen items) -> equivalence eqA -> equivalence eqB -> tells_equal eqA eqB eqb ->
  exists s, ls_from_vec (sized_len eqA t) E S_ty items = Ok s /\
    lawful_set eqb (fun _ => True) (ls_as_set eqb (sized_len eqA t) s) /\
    forall x, member eqb (s_items (ls_as_set eqb (sized_len eqA t) s)) x <-> member eqb items x.
Proof. exact length_set_of_values. Qed.
Print Assumptions C85_length_set_of_values.

Example C85_case :
  tells_equal mod_eqb Z.eqb sets_eqb /\
  let to := sized_pointee (B := Z) mod_eqb (OfBox OfHashSet) OfHashSet (or_introl eq_refl) in
  let payload := [(boxed_set [1; 2] eq_refl, 12);
                  (boxed_set [] eq_refl, 0);
                  (boxed_set [7] eq_refl, 7)] in
  distinct sets_eqb (map (fun e => to (fst e)) payload) /\
  match lm_from_vec (sized_len mod_eqb (OfBox OfHashSet)) checked_env u8 payload with
  | Ok m =>
      map (lm_get sets_eqb to (sized_len mod_eqb OfHashSet) m)
        [plain_set [1002; 1] eq_refl; plain_set [] eq_refl;
         plain_set [2] eq_refl; plain_set [1; 7] eq_refl]
      = [Ok (Some 12); Ok (Some 0); Ok None; Ok None]
  | _ => False
  end /\
  map (fun v => len_of OfCString (A := Z) (B := Z) (VCBytes v)) [[104; 105; 0]; [0]] = [2; 0].
Proof. exact ex_C85. Qed.

(** ** C86: clones of specialized maps and sets *)

Theorem C86_special_clone_copies :
  forall (W K V BH : Type) (D : copying W K V BH) (m : special K V BH) (w : W),
  exists r w' log,
    sp_clone (noting_copies D) m (w, []) = (r, (w', log)) /\ sp_clone D m w = (r, w') /\
    copied_in_order (special_pieces m) (m' <- r ;; Ok (special_pieces m')) log.
Proof. exact special_clone_copies. Qed.
Print Assumptions C86_special_clone_copies.

Theorem C86_range_clone_copies :
  forall (W K V BH : Type) (D : copying W K V BH) (m : range_map K V) (w : W),
  exists r w' log,
    rg_clone (noting_copies D) m (w, []) = (r, (w', log)) /\ rg_clone D m w = (r, w') /\
    copied_in_order (range_pieces m) (m' <- r ;; Ok (range_pieces m')) log.
Proof. exact range_clone_copies. Qed.
Print Assumptions C86_range_clone_copies.

Theorem C86_special_set_clone_copies :
  forall (W T V BH : Type) (D : copying W T V BH) (s : special T unit BH) (w : W),
  exists r w' log,
    st_clone (noting_copies D) s (w, []) = (r, (w', log)) /\ st_clone D s w = (r, w') /\
    copied_in_order (special_set_pieces s) (s' <- r ;; Ok (special_set_pieces s')) log.
Proof. exact special_set_clone_copies. Qed.
Print Assumptions C86_special_set_clone_copies.

Theorem C86_range_set_clone_copies :
  forall (W T V BH : Type) (D : copying W T V BH) (s : range_map T unit) (w : W),
  exists r w' log,
    rs_clone (noting_copies D) s (w, []) = (r, (w', log)) /\ rs_clone D s w = (r, w') /\
    copied_in_order (range_set_pieces s) (s' <- r ;; Ok (range_set_pieces s')) log.
Proof. exact range_set_clone_copies. Qed.
Print Assumptions C86_range_set_clone_copies.

(** The map may be a clone, of a clone, of a map changed by calls, and so on. *)
Theorem C86_owned_special_never_goes_wrong :
  forall (W K Q V BH : Type) (F : foreign W K Q BH) (D : copying W K V BH) (E : env) (m : special K V BH)
         (history : list (op Q V)) (w : W),
  env_ok E -> owned_special F D E m ->
  sane_run_caught (sp_entries m) [] history (sp_run F E m history w).
Proof. exact owned_special_never_goes_wrong. Qed.
Print Assumptions C86_owned_special_never_goes_wrong.

Theorem C86_owned_special_equality :
  forall (W K V BH : Type) (F : foreign W K K BH) (D : copying W K V BH) (E : env) (veq : V -> V -> W -> option bool * W)
         (m1 m2 : special K V BH) (w : W),
  env_ok E -> owned_special F D E m1 -> owned_special F D E m2 ->
  match fst (sp_eq F E veq m1 m2 w) with
  | Ok true => length (sp_entries m1) = length (sp_entries m2)
  | Ok false => True
  | Panic p => p = PForeign \/ p = POverflow /\ exists bh x y t, m2 = InTable (RightSlice bh x y) t
  | UB _ | OutOfFuel => False
  end.
Proof. exact owned_special_equality. Qed.
Print Assumptions C86_owned_special_equality.

Theorem C86_any_range_equality :
  forall (W K V : Type) (G : integers W K K) (veq : V -> V -> W -> option bool * W) (m1 m2 : range_map K V) (w : W),
  match fst (rg_eq G veq m1 m2 w) with
  | Ok true => length (rg_entries m1) = length (rg_entries m2)
  | Ok false => True
  | Panic p => p = PForeign \/ p = PIndexOutOfBounds
  | UB _ | OutOfFuel => False
  end.
Proof. exact any_range_equality. Qed.
Print Assumptions C86_any_range_equality.

Theorem C86_owned_range_never_goes_wrong :
  forall (W K Q V BH : Type) (G : integers W K Q) (D : copying W K V BH) (srt : sorter) (p : profile) (m : range_map K V)
         (history : list (op Q V)) (w : W),
  sorter_ok srt -> owned_range G D srt p m ->
  sane_run_caught (rg_entries m) [] history (rg_run G p m history w).
Proof. exact owned_range_never_goes_wrong. Qed.
Print Assumptions C86_owned_range_never_goes_wrong.

Theorem C86_owned_special_set_use :
  forall (W T Q V BH : Type) (F : foreign W T Q BH) (D : copying W T V BH) (E : env) (s : special T unit BH),
  env_ok E -> owned_special F (valueless D) E s ->
  (forall W' (G : foreign W' T T BH), vs_len (st_running E G s) = zlen (st_items s) /\
     runs_through (vs_next (st_running E G s)) (vs_iter (st_running E G s)) (st_items s)) /\
  forall W' (G : foreign W' T Q BH) (q : Q) (w : W'),
    (exists p, fst (st_get E G s q w) = Panic p /\ fst (st_contains E G s q w) = Panic p /\
       (p = PForeign \/ p = POverflow /\ exists bh x y t, s = InTable (RightSlice bh x y) t)) \/
    exists o, fst (st_get E G s q w) = Ok o /\ (forall y, o = Some y -> In y (st_items s)) /\
      fst (st_contains E G s q w) = Ok (match o with Some _ => true | None => false end).
Proof. exact owned_special_set_use. Qed.
Print Assumptions C86_owned_special_set_use.

Theorem C86_owned_range_set_use :
  forall (W T Q V BH : Type) (G : integers W T Q) (D : copying W T V BH) (srt : sorter) (p : profile) (s : range_map T unit),
  sorter_ok srt -> owned_range G (valueless D) srt p s ->
  (forall W' (G' : integers W' T T), vs_len (rs_running p G' s) = zlen (rs_items s) /\
     runs_through (vs_next (rs_running p G' s)) (vs_iter (rs_running p G' s)) (rs_items s)) /\
  forall W' (G' : integers W' T Q) (q : Q) (w : W'),
    (exists e, (e = PForeign \/ e = PIndexOutOfBounds) /\ fst (rs_get G' s q w) = Panic e /\ fst (rs_contains G' s q w) = Panic e) \/
    exists o, fst (rs_get G' s q w) = Ok o /\ (forall y, o = Some y -> In y (rs_items s)) /\
      fst (rs_contains G' s q w) = Ok (match o with Some _ => true | None => false end).
Proof. exact owned_range_set_use. Qed.
Print Assumptions C86_owned_range_set_use.

Theorem C86_faithful_special_clone :
  forall (W K Q V BH : Type) (F : foreign W K Q BH) (a : oracle K Q BH) (D : copying W K V BH) (E : env)
         (cK : K -> K) (cV : V -> V) (cB : BH -> BH) (m : special K V BH),
  regular_foreign F a -> env_ok E -> equivalence (a_eq a) -> copies_as D cK cV cB -> true_copies a cK cB ->
  lawful_owned F a D E m ->
  (forall history w, Forall2 (fun seen expected => exists b, seen = Some b /\ same_obs b expected)
     (sp_run F E m history w) (object_run (a_eq a) (a_borrow a) (sp_entries m) history)) /\
  forall w, exists m' w', sp_clone D m w = (Ok m', w') /\
    sp_entries m' = map (fun e => (cK (fst e), cV (snd e))) (sp_entries m).
Proof. exact faithful_special_clone. Qed.
Print Assumptions C86_faithful_special_clone.

Theorem C86_faithful_special_clone_equal :
  forall (W K V BH : Type) (F : foreign W K K BH) (a : oracle K K BH) (D : copying W K V BH) (E : env)
         (cK : K -> K) (cV : V -> V) (cB : BH -> BH) (veq : V -> V -> W -> option bool * W) (veqb : V -> V -> bool)
         (m m' : special K V BH) (w w' w1 : W),
  regular_foreign F a -> env_ok E -> equivalence (a_eq a) -> copies_as D cK cV cB -> true_copies a cK cB ->
  (forall k, a_borrow a k = k) -> (forall x y, always (veq x y) (veqb x y)) ->
  (forall v, veqb v (cV v) = true /\ veqb (cV v) v = true) ->
  lawful_owned F a D E m -> sp_clone D m w = (Ok m', w') ->
  fst (sp_eq F E veq m m' w1) = Ok true /\ fst (sp_eq F E veq m' m w1) = Ok true.
Proof. exact faithful_special_clone_equal. Qed.
Print Assumptions C86_faithful_special_clone_equal.

Theorem C86_faithful_range_clone :
  forall (W K Q V BH : Type) (G : integers W K Q) (lo hi : Z) (key_value : K -> Z) (value : Q -> Z) (borrow : K -> Q)
         (D : copying W K V BH) (cK : K -> K) (cV : V -> V) (cB : BH -> BH) (srt : sorter) (p : profile) (m : range_map K V),
  lawful_integers G lo hi key_value value -> (forall k, value (borrow k) = key_value k) -> sorter_ok srt ->
  copies_as D cK cV cB -> (forall k, key_value (cK k) = key_value k) ->
  lawful_range_owned G hi key_value D srt p m ->
  (forall history w, Forall2 (fun seen expected => exists b, seen = Some b /\ same_obs b expected)
     (rg_run G p m history w) (object_run (fun a b => value a =? value b) borrow (rg_entries m) history)) /\
  forall w, exists m' w', rg_clone D m w = (Ok m', w') /\
    rg_entries m' = map (fun e => (cK (fst e), cV (snd e))) (rg_entries m).
Proof. exact faithful_range_clone. Qed.
Print Assumptions C86_faithful_range_clone.

(** Both maps may be clones, changed since. *)
Theorem C86_lawful_special_equality_owned :
  forall (W K V BH : Type) (F : foreign W K K BH) (a : oracle K K BH) (D : copying W K V BH) (E : env)
         (cK : K -> K) (cV : V -> V) (cB : BH -> BH) (veq : V -> V -> W -> option bool * W) (veqb : V -> V -> bool)
         (m1 m2 : special K V BH) (w : W),
  regular_foreign F a -> env_ok E -> equivalence (a_eq a) -> copies_as D cK cV cB -> true_copies a cK cB ->
  (forall k, a_borrow a k = k) -> (forall x y, always (veq x y) (veqb x y)) ->
  lawful_owned F a D E m1 -> lawful_owned F a D E m2 ->
  exists b, fst (sp_eq F E veq m1 m2 w) = Ok b /\ (b = true <-> same_map (a_eq a) veqb (sp_entries m1) (sp_entries m2)).
Proof. exact lawful_special_equality_owned. Qed.
Print Assumptions C86_lawful_special_equality_owned.

Theorem C86_lawful_range_equality_owned :
  forall (W K V BH : Type) (G : integers W K K) (lo hi : Z) (value : K -> Z)
         (D : copying W K V BH) (cK : K -> K) (cV : V -> V) (cB : BH -> BH) (srt : sorter) (p : profile)
         (veq : V -> V -> W -> option bool * W) (veqb : V -> V -> bool) (m1 m2 : range_map K V) (w : W),
  lawful_integers G lo hi value value -> sorter_ok srt ->
  copies_as D cK cV cB -> (forall k, value (cK k) = value k) -> (forall x y, always (veq x y) (veqb x y)) ->
  lawful_range_owned G hi value D srt p m1 -> lawful_range_owned G hi value D srt p m2 ->
  exists b, fst (rg_eq G veq m1 m2 w) = Ok b /\
    (b = true <-> same_map (fun a b => value a =? value b) veqb (rg_entries m1) (rg_entries m2)).
Proof. exact lawful_range_equality_owned. Qed.
Print Assumptions C86_lawful_range_equality_owned.

Theorem C86_faithful_range_clone_equal :
  forall (W K V BH : Type) (G : integers W K K) (lo hi : Z) (value : K -> Z)
         (D : copying W K V BH) (cK : K -> K) (cV : V -> V) (cB : BH -> BH) (srt : sorter) (p : profile)
         (veq : V -> V -> W -> option bool * W) (veqb : V -> V -> bool) (m m' : range_map K V) (w w' w1 : W),
  lawful_integers G lo hi value value -> sorter_ok srt ->
  copies_as D cK cV cB -> (forall k, value (cK k) = value k) -> (forall x y, always (veq x y) (veqb x y)) ->
  (forall v, veqb v (cV v) = true /\ veqb (cV v) v = true) ->
  lawful_range_owned G hi value D srt p m -> rg_clone D m w = (Ok m', w') ->
  fst (rg_eq G veq m m' w1) = Ok true /\ fst (rg_eq G veq m' m w1) = Ok true.
Proof. exact faithful_range_clone_equal. Qed.
Print Assumptions C86_faithful_range_clone_equal.

(** The set may contain duplicates. *)
Theorem C86_faithful_special_set_clone :
  forall (W T Q V BH : Type) (F : foreign W T Q BH) (a : oracle T Q BH) (D : copying W T V BH) (E : env)
         (cK : T -> T) (cV : V -> V) (cB : BH -> BH) (s : special T unit BH),
  regular_foreign F a -> env_ok E -> equivalence (a_eq a) -> copies_as D cK cV cB -> true_copies a cK cB ->
  lawful_set_owned F a D E s ->
  (forall q w,
     (exists x, In x (st_items s) /\ a_eq a q (a_borrow a x) = true /\
        fst (st_get E F s q w) = Ok (Some x) /\ fst (st_contains E F s q w) = Ok true) \/
     ((forall x, In x (st_items s) -> a_eq a q (a_borrow a x) = false) /\
        fst (st_get E F s q w) = Ok None /\ fst (st_contains E F s q w) = Ok false)) /\
  forall w, exists s' w', st_clone D s w = (Ok s', w') /\ st_items s' = map cK (st_items s).
Proof. exact faithful_special_set_clone. Qed.
Print Assumptions C86_faithful_special_set_clone.

(** With C81: what the set operations compute. *)
Theorem C86_faithful_special_set_serves :
  forall (W T V BH : Type) (F : foreign W T T BH) (a : oracle T T BH) (D : copying W T V BH) (E : env)
         (cK : T -> T) (cV : V -> V) (cB : BH -> BH) (s : special T unit BH),
  regular_foreign F a -> env_ok E -> equivalence (a_eq a) -> copies_as D cK cV cB -> true_copies a cK cB ->
  (forall x, a_borrow a x = x) -> lawful_set_owned F a D E s ->
  serves (a_eq a) (fun _ => True) (st_running E F s) (st_items s).
Proof. exact faithful_special_set_serves. Qed.
Print Assumptions C86_faithful_special_set_serves.

Theorem C86_faithful_range_set_clone :
  forall (W T V BH : Type) (G : integers W T T) (lo hi : Z) (value : T -> Z) (D : copying W T V BH)
         (cK : T -> T) (cV : V -> V) (cB : BH -> BH) (srt : sorter) (p : profile) (s : range_map T unit),
  lawful_integers G lo hi value value -> sorter_ok srt -> copies_as D cK cV cB -> (forall k, value (cK k) = value k) ->
  lawful_range_set_owned G hi value D srt s ->
  serves (fun a b => value a =? value b) (fun _ => True) (rs_running p G s) (rs_items s) /\
  forall w, exists s' w', rs_clone D s w = (Ok s', w') /\ rs_items s' = map cK (rs_items s).
Proof. exact faithful_range_set_clone. Qed.
Print Assumptions C86_faithful_range_set_clone.

(** The set may contain duplicates. *)
Theorem C86_faithful_special_set_equal :
  forall (W T V BH : Type) (F : foreign W T T BH) (a : oracle T T BH) (D : copying W T V BH) (E : env)
         (cK : T -> T) (cV : V -> V) (cB : BH -> BH) (s s' : special T unit BH) (w w' w1 : W) (fuel : nat),
  regular_foreign F a -> env_ok E -> equivalence (a_eq a) -> copies_as D cK cV cB -> true_copies a cK cB ->
  (forall x, a_borrow a x = x) -> lawful_set_owned F a D E s -> st_clone D s w = (Ok s', w') ->
  (length (st_items s) < fuel)%nat ->
  fst (v_set_eq fuel (st_running E F s) (st_running E F s') w1) = Ok true /\
  fst (v_set_eq fuel (st_running E F s') (st_running E F s) w1) = Ok true.
Proof. exact faithful_special_set_equal. Qed.
Print Assumptions C86_faithful_special_set_equal.

Theorem C86_faithful_range_set_equal :
  forall (W T V BH : Type) (G : integers W T T) (lo hi : Z) (value : T -> Z) (D : copying W T V BH)
         (cK : T -> T) (cV : V -> V) (cB : BH -> BH) (srt : sorter) (p : profile) (s s' : range_map T unit) (w w' w1 : W) (fuel : nat),
  lawful_integers G lo hi value value -> sorter_ok srt -> copies_as D cK cV cB -> (forall k, value (cK k) = value k) ->
  lawful_range_set_owned G hi value D srt s -> rs_clone D s w = (Ok s', w') -> (length (rs_items s) < fuel)%nat ->
  fst (v_set_eq fuel (rs_running p G s) (rs_running p G s') w1) = Ok true /\
  fst (v_set_eq fuel (rs_running p G s') (rs_running p G s) w1) = Ok true.
Proof. exact faithful_range_set_equal. Qed.
Print Assumptions C86_faithful_range_set_equal.

Example C86_case1 :
  careless_clone (Common 3) 0 =
    Some (Ok [(1005, 51); (1017, 173); (1103, 1035)], 7,
      [(KeyPiece 5, Some (KeyPiece 1005)); (ValuePiece 50, Some (ValuePiece 51)); (KeyPiece 17, Some (KeyPiece 1017));
       (ValuePiece 170, Some (ValuePiece 173)); (KeyPiece 103, Some (KeyPiece 1103)); (ValuePiece 1030, Some (ValuePiece 1035));
       (HasherPiece 3, Some (HasherPiece 9))]) /\
  careless_clone (RightSlice 3 2 1) 52 =
    Some (Panic PForeign, 59,
      [(KeyPiece 103, Some (KeyPiece 1103)); (ValuePiece 1030, Some (ValuePiece 1083)); (KeyPiece 17, Some (KeyPiece 1017));
       (ValuePiece 170, Some (ValuePiece 225)); (KeyPiece 5, Some (KeyPiece 1005)); (ValuePiece 50, Some (ValuePiece 107));
       (HasherPiece 3, None)]) /\
  careless_clone Scanning 33 = Some (Panic PForeign, 34, [(KeyPiece 5, None)]) /\
  match rg_from_vec whims by_insertion whims_entries 0 with
  | (Ok m, n) => rg_clone (noting_copies careless) m (n, []) =
      (Ok {| rg_min := 1020; rg_max := 1030; rg_entries := [(1020, 10); (1010, 11); (1030, 15)] |},
       (13, [(KeyPiece 20, Some (KeyPiece 1020)); (KeyPiece 30, Some (KeyPiece 1030)); (KeyPiece 20, Some (KeyPiece 1020));
             (ValuePiece 2, Some (ValuePiece 10)); (KeyPiece 10, Some (KeyPiece 1010)); (ValuePiece 1, Some (ValuePiece 11));
             (KeyPiece 30, Some (KeyPiece 1030)); (ValuePiece 3, Some (ValuePiece 15))]))
  | _ => False
  end /\
  match st_from_vec checked_env erratic usize (LeftSlice 3 0 2) [5; 17; 103] 0 with
  | (Ok s, _) =>
      let '(r, (n', log)) := st_clone (noting_copies careless) s (0, []) in
      Some (s' <- r ;; Ok (st_items s'), n', log) =
      Some (Ok [1103; 1005; 1017], 4,
        [(KeyPiece 103, Some (KeyPiece 1103)); (KeyPiece 5, Some (KeyPiece 1005)); (KeyPiece 17, Some (KeyPiece 1017));
         (HasherPiece 3, Some (HasherPiece 6))])
  | _ => False
  end.
Proof. exact ex_C86_copies. Qed.

Example C86_case2 :
  (forall m n m' n', sp_from_vec erratic checked_env usize (Common 3) unlucky_payload 0 = (Ok m, n) ->
     sp_clone careless m 0 = (Ok m', n') -> owned_special erratic careless checked_env m') /\
  match sp_from_vec erratic checked_env usize (Common 3) unlucky_payload 0 with
  | (Ok m, _) => match sp_clone careless m 0 with
      | (Ok m', n) => sp_run erratic checked_env m' unlucky_history n =
          map Some [SawValue (Some 431); SawValue None; SawEntry None; SawBool false; SawBool false;
            SawBool false; SawPanic; SawValue (Some 1031);
            SawItems [(1103, 1031); (1017, 173); (1007, 75); (1998, 9987); (1005, 59); (1042, 431)]]
      | _ => False
      end
  | _ => False
  end /\
  (forall m n m' n', rg_from_vec whims by_insertion whims_entries 0 = (Ok m, n) ->
     rg_clone careless m 5 = (Ok m', n') -> owned_range whims careless by_insertion Checked m') /\
  match rg_from_vec whims by_insertion whims_entries 0 with
  | (Ok m, _) => match rg_clone careless m 5 with
      | (Ok m', n) => rg_run whims Checked m' [OGet 1020; OGet 1021; OIter; OLen] 5 =
          [Some (SawValue None); None; Some (SawItems [(1020, 10); (1010, 11); (1030, 15)]); Some (SawNumber 3)]
      | _ => False
      end
  | _ => False
  end.
Proof. exact ex_C86_owned. Qed.

Example C86_case3 :
  copies_as orderly_copies (fun k => (fst k + 1000, snd k + 1)) (fun v => v * 2) (fun bh => bh) /\
  true_copies orderly (fun k => (fst k + 1000, snd k + 1)) (fun bh => bh) /\
  map orderly_clone orderly_shapes = repeat (Some (6%nat,
    [Some (SawValue (Some 340)); Some (SawValue None); Some (SawBool true); Some (SawBool false); Some (SawBool true); Some (SawBool false);
     Some (SawBool true); Some (SawBool false); Some (SawEntry (Some ((1007, 7), 6))); Some SawPanic; Some (SawValue (Some 8))])) 6 /\
  let wide := {| d_key := fun k : Z * Z => counted (fst k + 256, snd k); d_value := counted; d_hasher := counted |} : copying Z (Z * Z) Z Z in
  copies_as wide (fun k => (fst k + 256, snd k)) (fun v => v) (fun bh => bh) /\
  (forall k : Z * Z, signed_byte (fst k + 256) = signed_byte (fst k)) /\
  match rg_from_vec bytewise by_insertion byte_payload 0 with
  | (Ok m, n) => match rg_clone wide m n with
      | (Ok m', n') => rg_run bytewise Checked m' byte_history n' =
          map Some [SawValue (Some (-10)); SawValue (Some 10); SawBool false; SawBool false; SawEntry (Some ((512, 7), 0));
            SawBool true; SawValue (Some 99); SawPanic; SawBool true; SawBool false;
            SawItems [((254, 6), -21); ((511, 8), -10); ((512, 7), 99); ((257, 5), 11)]; SawNumber 4]
      | _ => False
      end
  | _ => False
  end.
Proof. exact ex_C86_faithful. Qed.

Example C86_case4 :
  let by_thousand := {| d_key := fun k => counted (k + 1000); d_value := fun v : Z => counted (v + 10); d_hasher := counted |} : copying Z Z Z Z in
  let veq x y := counted (x mod 10 =? y mod 10) in
  copies_as by_thousand (fun k => k + 1000) (fun v => v + 10) (fun bh => bh) /\
  true_copies modular (fun k => k + 1000) (fun bh => bh) /\
  (forall v, (v mod 10 =? (v + 10) mod 10) = true) /\
  map (fun sh => match sp_from_vec modular_foreign checked_env usize sh [(5, 51); (17, 172); (103, 1033); (998, 9984); (42, 425)] 0 with
      | (Ok m, n) => match sp_clone by_thousand m n with
          | (Ok m', n') => Some (fst (sp_eq modular_foreign checked_env veq m m' n'), fst (sp_eq modular_foreign checked_env veq m' m n'))
          | _ => None
          end
      | _ => None
      end) orderly_shapes = repeat (Some (Ok true, Ok true)) 6.
Proof. exact ex_C86_equal. Qed.

Example C86_case5 :
  let veq x y := counted (x mod 10 =? y mod 10) in
  copies_as next_turn (fun k => k + 256) (fun v => v + 10) (fun bh => bh) /\
  (forall k, signed_byte (k + 256) = signed_byte k) /\
  match rg_from_vec byte_items by_insertion [(1, 10); (-2, -20); (256, 0); (255, -10)] 0 with
  | (Ok m, n) => match rg_clone next_turn m n with
      | (Ok m', n') =>
          let '(_, m2, n2) := rg_step byte_items Checked m' (OGetMut 257 3) n' in
          (fst (rg_eq byte_items veq m m' n'), fst (rg_eq byte_items veq m' m n'), fst (rg_eq byte_items veq m m2 n2)) =
          (Ok true, Ok true, Ok false)
      | _ => False
      end
  | _ => False
  end /\
  match rs_from_vec byte_items by_insertion [1; -2; 256; 255] 0 with
  | (Ok s, n) => match rs_clone next_turn s n with
      | (Ok s', n') => (rs_items s', map (fun q => fst (rs_contains byte_items s' q n')) [254; 2; 0]) =
          ([254; 511; 512; 257], [Ok true; Ok false; Ok true])
      | _ => False
      end
  | _ => False
  end /\
  map (fun sh => match st_from_vec checked_env modular_foreign usize sh [5; 17; 1005; 103] 0 with
      | (Ok s, n) => match st_clone {| d_key := fun k => counted (k + 1000); d_value := counted (A := Z); d_hasher := counted |} s n with
          | (Ok s', n') => Some (length (st_items s'), map (fun q => fst (st_contains checked_env modular_foreign s' q n')) [17; 5; 42])
          | _ => None
          end
      | _ => None
      end) orderly_shapes = repeat (Some (4%nat, [Ok true; Ok true; Ok false])) 6.
Proof. exact ex_C86_more. Qed.

(** ** C87: clones of FrozenMap and FrozenSet with lawful code *)

(** The map may be a clone, of a clone, of a map changed by calls, and so on. *)
Theorem C87_lawful_clone_history :
  forall (W O V : Type) (F : conduct W O) (C : cloning W O V) (eqbO : O -> O -> bool) (E : env) (kd : kind)
         (cO : O -> O) (cV : V -> V) (cB : hasher O -> hasher O) (m : map_types O V),
  regular F eqbO -> env_ok E -> equivalence eqbO -> faithful_clones C eqbO cO cV cB ->
  lawful_map F C eqbO E kd m ->
  (forall history w, (forall o k, In o history -> In k (op_keys o) -> has_kind kd k) ->
     Forall2 (fun seen expected => exists b, seen = Some b /\ same_obs b expected)
       (v_run F E m history w) (abstract_run (key_eqb eqbO) (fm_iter m) history)) /\
  forall w, exists m' w', fm_clone C m w = (Ok m', w') /\
    fm_iter m' = map (fun e => (copied_key cO (fst e), cV (snd e))) (fm_iter m).
Proof. exact lawful_clone_history. Qed.
Print Assumptions C87_lawful_clone_history.

Theorem C87_lawful_clone_equality :
  forall (W O V : Type) (F : conduct W O) (C : cloning W O V) (eqbO : O -> O -> bool)
         (veq : V -> V -> W -> option bool * W) (veqb : V -> V -> bool) (E : env) (kd : kind)
         (cO : O -> O) (cV : V -> V) (cB : hasher O -> hasher O) (m1 m2 : map_types O V) (w : W),
  regular F eqbO -> (forall a b, always (veq a b) (veqb a b)) -> env_ok E -> equivalence eqbO ->
  faithful_clones C eqbO cO cV cB -> lawful_map F C eqbO E kd m1 -> lawful_map F C eqbO E kd m2 ->
  exists b, fst (v_eq F E veq m1 m2 w) = Ok b /\ (b = true <-> same_map (key_eqb eqbO) veqb (fm_iter m1) (fm_iter m2)).
Proof. exact lawful_clone_equality. Qed.
Print Assumptions C87_lawful_clone_equality.

Theorem C87_lawful_clone_equals_original :
  forall (W O V : Type) (F : conduct W O) (C : cloning W O V) (eqbO : O -> O -> bool)
         (veq : V -> V -> W -> option bool * W) (veqb : V -> V -> bool) (E : env) (kd : kind)
         (cO : O -> O) (cV : V -> V) (cB : hasher O -> hasher O) (m m' : map_types O V) (w w' w1 : W),
  regular F eqbO -> (forall a b, always (veq a b) (veqb a b)) -> (forall v, veqb v (cV v) = true /\ veqb (cV v) v = true) ->
  env_ok E -> equivalence eqbO -> faithful_clones C eqbO cO cV cB ->
  lawful_map F C eqbO E kd m -> fm_clone C m w = (Ok m', w') ->
  fst (v_eq F E veq m m' w1) = Ok true /\ fst (v_eq F E veq m' m w1) = Ok true.
Proof. exact lawful_clone_equals_original. Qed.
Print Assumptions C87_lawful_clone_equals_original.

(** The set may contain duplicates if the items are not u32. With C81: what the set operations compute. *)
Theorem C87_lawful_clone_set :
  forall (W O V : Type) (F : conduct W O) (C : cloning W O V) (eqbO : O -> O -> bool) (E : env) (kd : kind)
         (cO : O -> O) (cV : V -> V) (cB : hasher O -> hasher O) (s : set_types O),
  regular F eqbO -> env_ok E -> equivalence eqbO -> faithful_clones C eqbO cO cV cB ->
  lawful_frozen_set F C eqbO E kd s ->
  serves (key_eqb eqbO) (has_kind kd) (v_fs_running F E s) (fs_items s) /\
  (forall x w, has_kind kd x -> exists r, fst (v_fs_get F E s x w) = Ok r /\
     (forall y, r = Some y -> In y (fs_items s) /\ key_eqb eqbO x y = true) /\
     (r = None -> ~ member (key_eqb eqbO) (fs_items s) x)) /\
  forall w, exists s' w', fs_clone C s w = (Ok s', w') /\ fs_items s' = map (copied_key cO) (fs_items s).
Proof. exact lawful_clone_set. Qed.
Print Assumptions C87_lawful_clone_set.

Theorem C87_lawful_clone_set_equal :
  forall (W O V : Type) (F : conduct W O) (C : cloning W O V) (eqbO : O -> O -> bool) (E : env) (kd : kind)
         (cO : O -> O) (cV : V -> V) (cB : hasher O -> hasher O) (s s' : set_types O) (w w' w1 : W) (fuel : nat),
  regular F eqbO -> env_ok E -> equivalence eqbO -> faithful_clones C eqbO cO cV cB ->
  lawful_frozen_set F C eqbO E kd s -> fs_clone C s w = (Ok s', w') -> (length (fs_items s) < fuel)%nat ->
  fst (v_set_eq fuel (v_fs_running F E s) (v_fs_running F E s') w1) = Ok true /\
  fst (v_set_eq fuel (v_fs_running F E s') (v_fs_running F E s) w1) = Ok true.
Proof. exact lawful_clone_set_equal. Qed.
Print Assumptions C87_lawful_clone_set_equal.

Example C87_case1 :
  faithful_clones careful mod_eqb (fun x => x + 1000) (fun v => v) (fun b => b) /\
  (exists m, lawful_map counting careful mod_eqb checked_env KindOther m /\
     v_run counting checked_env m [OGet (KOther 17); OGetMut (KOther 5042) 1; OGet (KOther 42); OGet (KOther 18); OContainsKey (KOther 103);
       OGetManyMut [(KOther 5, 2); (KOther 998, 3)]; OIter] 0 =
     [Some (SawValue (Some 8)); Some (SawBool true); Some (SawValue (Some 1)); Some (SawValue None); Some (SawBool true); Some (SawBool true);
      Some (SawItems [(KOther 2017, 8); (KOther 2042, 1); (KOther 2005, 2); (KOther 2998, 3); (KOther 2103, 1030)])]) /\
  match twice_cloned with
  | Some (m, m2, m3, n) =>
      map (fun p => fst (v_eq counting checked_env number_eq (fst p) (snd p) n)) [(m, m2); (m2, m3); (m3, m2); (m3, m)] =
      [Ok false; Ok true; Ok true; Ok false]
  | None => False
  end.
Proof. exact ex_C87_map. Qed.

Example C87_case2 :
  exists s n, v_fs_new counting checked_env KindOther (map KOther [5; 17; 1005; 103; 42; 998]) sample_hasher 0 = (Ok s, n) /\
    lawful_frozen_set counting careful mod_eqb checked_env KindOther s /\
    match fs_clone careful s n with
    | (Ok s', n') =>
        (fs_items s', map (fun q => fst (v_fs_contains counting checked_env s' (KOther q) n')) [17; 3005; 18],
         fst (v_set_eq 7 (v_fs_running counting checked_env s) (v_fs_running counting checked_env s') n'),
         fst (v_set_eq 7 (v_fs_running counting checked_env s') (v_fs_running counting checked_env s) n')) =
        (map KOther [2005; 1017; 1005; 1998; 1103; 1042], [Ok true; Ok true; Ok false], Ok true, Ok true)
    | _ => False
    end.
Proof. exact ex_C87_set. Qed.

(** ** C88: standard sets as operands *)

(** With C28 to C35 and C61: what all set operations compute with it. *)
Theorem C88_hash_set_operand :
  forall (T : Type) (eqb : T -> T -> bool) (hash : T -> Z) (D : T -> Prop) (history : list (set_change T)) (items : list T),
  equivalence eqb -> (forall x y, eqb x y = true -> hash x = hash y) -> (forall x, In x (inserted history) -> D x) ->
  hash_set eqb hash history items ->
  lawful_set eqb D (std_hash_set eqb hash items) /\ distinct eqb items /\
  (forall x, In x items -> In x (inserted history)) /\
  forall x, member eqb items x <-> held eqb history x = true.
Proof. exact hash_set_operand. Qed.
Print Assumptions C88_hash_set_operand.

Theorem C88_btree_set_operand :
  forall (T : Type) (eqb : T -> T -> bool) (cmp : T -> T -> comparison) (D : T -> Prop) (history : list (set_change T)),
  equivalence eqb -> total_order eqb cmp -> (forall x, In x (inserted history) -> D x) ->
  let items := btree_set cmp history in
  lawful_set eqb D (std_btree_set cmp items) /\ distinct eqb items /\ StronglySorted (fun x y => cmp x y = Lt) items /\
  (forall x, In x items -> In x (inserted history)) /\
  forall x, member eqb items x <-> held eqb history x = true.
Proof. exact btree_set_operand. Qed.
Print Assumptions C88_btree_set_operand.

Theorem C88_frozen_and_std_sets :
  forall (O : Type) (eqbO : O -> O -> bool) (E : env) (kd : kind) (bh : hasher O)
         (items : list (key O)) (s : set_types O) (history : list (set_change (key O))) (t : set_impl (key O)),
  env_ok E -> equivalence eqbO -> lawful_hash eqbO bh -> countable (prof E) (zlen items) ->
  (forall x, In x items -> has_kind kd x) -> distinct (key_eqb eqbO) items -> fs_new E kd items bh = Ok s ->
  (forall x, In x (inserted history) -> has_kind kd x) -> std_operand (key_eqb eqbO) history t ->
  let f := fs_as_set eqbO E s in
  let here := member (key_eqb eqbO) items in
  let there x := held (key_eqb eqbO) history x = true in
  (exists b, set_eq f t = Ok b /\ (b = true <-> forall x, here x <-> there x)) /\
  (exists b, is_subset f t = Ok b /\ (b = true <-> forall x, here x -> there x)) /\
  (exists b, is_subset t f = Ok b /\ (b = true <-> forall x, there x -> here x)) /\
  (exists b, is_superset f t = Ok b /\ (b = true <-> forall x, there x -> here x)) /\
  (exists b, is_superset t f = Ok b /\ (b = true <-> forall x, here x -> there x)) /\
  (exists b, is_disjoint f t = Ok b /\ (b = true <-> forall x, ~ (here x /\ there x))) /\
  (exists b, is_disjoint t f = Ok b /\ (b = true <-> forall x, ~ (here x /\ there x))) /\
  (exists r, bitor (key_eqb eqbO) f t = Ok r /\ distinct (key_eqb eqbO) (s_items r) /\
     forall x, member (key_eqb eqbO) (s_items r) x <-> here x \/ there x) /\
  (exists r, bitand (key_eqb eqbO) f t = Ok r /\ distinct (key_eqb eqbO) (s_items r) /\
     forall x, member (key_eqb eqbO) (s_items r) x <-> here x /\ there x) /\
  (exists r, bitxor (key_eqb eqbO) f t = Ok r /\ distinct (key_eqb eqbO) (s_items r) /\
     forall x, member (key_eqb eqbO) (s_items r) x <-> (here x /\ ~ there x) \/ (there x /\ ~ here x)) /\
  (exists r, set_sub (key_eqb eqbO) f t = Ok r /\ distinct (key_eqb eqbO) (s_items r) /\
     forall x, member (key_eqb eqbO) (s_items r) x <-> here x /\ ~ there x).
Proof. exact frozen_and_std_sets. Qed.
Print Assumptions C88_frozen_and_std_sets.

Example C88_case :
  total_order (key_eqb mod_eqb) key_order /\
  btree_set key_order set_history = map KOther [5; 7; 17; 998] /\
  hash_set (key_eqb mod_eqb) (hash_one poor_hasher) set_history (map KOther [5; 17; 998; 7]) /\
  map (held (key_eqb mod_eqb) set_history) (map KOther [5; 1017; 42; 7; 8]) = [true; true; false; true; false] /\
  match fs_new checked_env KindOther (map KOther [1005; 2007; 42]) sample_hasher with
  | Ok s =>
      let f := fs_as_set mod_eqb checked_env s in
      let t := std_btree_set key_order (btree_set key_order set_history) in
      let u := std_hash_set (key_eqb mod_eqb) (hash_one poor_hasher) (map KOther [5; 17; 998; 7]) in
      Some (set_eq f t, is_subset f t, is_disjoint t f,
        r <- bitand (key_eqb mod_eqb) f t ;; Ok (s_items r), r <- bitxor (key_eqb mod_eqb) f u ;; Ok (s_items r))
  | _ => None
  end = Some (Ok false, Ok false, Ok false, Ok (map KOther [1005; 2007]), Ok (map KOther [42; 17; 998])).
Proof. exact ex_C88. Qed.

(** ** C89: the slice analysis sees collisions only *)

Theorem C89_analysis_sees_collisions :
  forall (T : Type) (h1 h2 : list T -> Z) (keys : list (list T)),
  collide_alike h1 h2 keys -> analyze_slice_keys h1 keys = analyze_slice_keys h2 keys.
Proof. exact analysis_sees_collisions. Qed.
Print Assumptions C89_analysis_sees_collisions.

Theorem C89_string_construction_alike :
  forall (O V1 V2 : Type) (E1 E2 : env) (bh1 bh2 : hasher O) (p1 : list (key O * V1)) (p2 : list (key O * V2)),
  env_ok E1 -> env_ok E2 -> zlen p1 < 2 ^ 31 -> typed KindString p1 -> Permutation (map fst p1) (map fst p2) ->
  collide_alike (hash_one_slice bh1) (hash_one_slice bh2) (str_keys p1) ->
  ends_alike (fm_new E1 KindString p1 bh1) (fm_new E2 KindString p2 bh2) /\
  ends_alike (fm_new E1 KindString p1 bh1) (fs_new E2 KindString (map fst p2) bh2).
Proof. exact string_construction_alike. Qed.
Print Assumptions C89_string_construction_alike.

Example C89_case1 :
  collide_alike byte_code (fun w => 1000 - 7 * byte_code w) second_case /\
  analyze_slice_keys byte_code second_case = Ok (LeftHandSubslice 0 1) /\
  analyze_slice_keys (fun w => 1000 - 7 * byte_code w) second_case = Ok (LeftHandSubslice 0 1) /\
  analyze_slice_keys (fun _ => 5) second_case = Ok SliceNormal.
Proof. exact ex_C89. Qed.

Example C89_case2 :
  let ending bh l := match fm_new checked_env KindString (strs l) bh with Ok _ => 0 | Panic _ => 1 | UB _ => 2 | OutOfFuel => 3 end in
  (forall keys, collide_alike (hash_one_slice sample_hasher) (hash_one_slice other_codes) keys) /\
  map (ending sample_hasher) [lengths5; panic_keys; rev ub_keys] = [0; 1; 2] /\
  map (ending other_codes) [rev lengths5; rev panic_keys; ub_keys] = [0; 1; 2] /\
  map (ending poor_hasher) [lengths5; panic_keys; ub_keys] = [0; 1; 1].
Proof. exact ex_C89_construction. Qed.

(** ** C90: tests of the project *)

Theorem C90_slice_tests :
  forall h : list Z -> Z,
  Forall (fun c => let keys := map literal_bytes (fst c) in
            separates h keys -> analyze_slice_keys h keys = Ok (snd c)) slice_test_cases.
Proof. exact slice_tests. Qed.
Print Assumptions C90_slice_tests.

Theorem C90_hash_code_tests :
  analyze_hash_codes (random_codes 0) = Ok (0, 0) /\
  analyze_hash_codes (random_codes 2) = Ok (2, 0) /\
  analyze_hash_codes (random_codes 1000) = Ok (1000, 359) /\
  (forall n, Z.of_nat n < 2 ^ 60 -> analyze_hash_codes (map Z.of_nat (seq 0 n)) = Ok (Z.of_nat n, 0)).
Proof. exact hash_code_tests. Qed.
Print Assumptions C90_hash_code_tests.

Theorem C90_int_key_tests :
  forall pr : profile,
  analyze_int_keys pr i32 [1; 3; 5; 7; 9] = Ok IntNormal /\ analyze_int_keys pr i32 [1; 2; 3; 4; 5] = Ok IntRange /\
  analyze_int_keys pr i32 [] = Ok IntNormal /\ analyze_int_keys pr i32 [1] = Ok IntRange.
Proof. exact int_key_tests. Qed.
Print Assumptions C90_int_key_tests.

Theorem C90_common_map_tests :
  forall (BH : Type) (hash : BH -> Z -> Z) (E : env) (rs : BH),
  env_ok E ->
  let collect payload := cm_from_iter hash E u32 rs list_next (S (length payload)) payload in
  let run m := mo_run (prof E) Z.eqb (cm_object Z.eqb (fun k => k) hash) m in
  (exists m, collect [] = Ok m /\ run m [@OIsEmpty Z Z] = [SawBool true]) /\
  (exists m, collect [(1, 2)] = Ok m /\ run m [OGet 1] = [SawValue (Some 2)]) /\
  (exists m, collect [(1, 2); (3, 4); (5, 6)] = Ok m /\
     run m [OGet 1; OGet 3; OGet 5] = [SawValue (Some 2); SawValue (Some 4); SawValue (Some 6)]).
Proof. exact common_map_tests. Qed.
Print Assumptions C90_common_map_tests.

Theorem C90_integer_map_tests :
  forall E : env,
  env_ok E ->
  let collect payload := im_from_iter E u32 list_next (S (length payload)) payload in
  let run m := mo_run (prof E) Z.eqb im_object m in
  (exists m, collect [] = Ok m /\ run m [@OIsEmpty Z Z] = [SawBool true]) /\
  (exists m, collect [(1, 2)] = Ok m /\ run m [OGet 1] = [SawValue (Some 2)]) /\
  (exists m, collect [(1, 2); (3, 4); (5, 6)] = Ok m /\
     run m [OGet 1; OGet 3; OGet 5] = [SawValue (Some 2); SawValue (Some 4); SawValue (Some 6)]).
Proof. exact integer_map_tests. Qed.
Print Assumptions C90_integer_map_tests.

Theorem C90_length_map_tests :
  forall E : env,
  env_ok E ->
  let from (payload : list (bytes * Z)) := lm_from zlen E payload in
  let collect (payload : list (bytes * Z)) := lm_from_iter zlen E list_next (S (length payload)) payload in
  let run m := mo_run (prof E) bytes_eqb (lm_object bytes_eqb (fun k => k) zlen) m in
  forall build, build = from \/ build = collect ->
  (exists m, build [] = Ok m /\ run m [@OIsEmpty bytes Z] = [SawBool true]) /\
  (exists m, build [(test_key1, 1)] = Ok m /\ run m [OGet test_key1] = [SawValue (Some 1)]) /\
  (exists m, build [(test_key1, 1); (test_key2, 2); (test_key3, 3)] = Ok m /\
     run m [OGet test_key1; OGet test_key2; OGet test_key3] = [SawValue (Some 1); SawValue (Some 2); SawValue (Some 3)]).
Proof. exact length_map_tests. Qed.
Print Assumptions C90_length_map_tests.

Theorem C90_scanning_map_tests :
  forall pr : profile,
  let payload := [(10, 20); (30, 40); (50, 60)] in
  let run := mo_run pr Z.eqb (sm_object Z.eqb (fun k => k)) (sm_from_vec payload) in
  run [OLen] = [SawNumber 3] /\
  run [OGet 10; OGet 30; OGet 50; OGet 0] = [SawValue (Some 20); SawValue (Some 40); SawValue (Some 60); SawValue None] /\
  run [OGetMut 10 20; OGetMut 30 40; OGetMut 50 60; OGetMut 0 0] = [SawBool true; SawBool true; SawBool true; SawBool false] /\
  run [OGetKeyValue 10; OGetKeyValue 30; OGetKeyValue 50; OGetKeyValue 0] =
    [SawEntry (Some (10, 20)); SawEntry (Some (30, 40)); SawEntry (Some (50, 60)); SawEntry None] /\
  plain_text decimal decimal (sm_fmt (sm_from_vec [(10, 20)])) = scanning_test_text.
Proof. exact scanning_map_tests. Qed.
Print Assumptions C90_scanning_map_tests.

Theorem C90_range_map_tests :
  forall (pr : profile) (min : Z), In min [-11; -10; -9; 0; 1] ->
  exists m, irm_from_vec pr i32 (map (fun i => (min + i, i)) [0; 1; 2; 3; 4; 5; 6; 7; 8; 9]) = Ok m /\
    mo_run pr Z.eqb (irm_object pr i32) m (map fst (range_test min)) = map snd (range_test min) /\
    (min = -11 -> plain_text decimal decimal (irm_fmt m) = range_test_text).
Proof. exact range_map_tests. Qed.
Print Assumptions C90_range_map_tests.

Theorem C90_map_facade_tests :
  forall (E : env) (rs : hasher Z),
  env_ok E ->
  let number n := KOther n in
  fm_len (fm_default (O := Z) (V := Z)) = 0 /\
  (exists m, fm_from E KindOther rs (map (fun n => (number n, n)) [1; 2; 3; 4; 5; 6]) = Ok m /\
     fm_get Z.eqb E m (number 6) = Ok (Some 6)) /\
  (exists m, fm_from E KindOther rs [(number 0, 1); (number 2, 3); (number 4, 5)] = Ok m /\
     fm_contains_key Z.eqb E m (number 0) = Ok true) /\
  (forall payload, Permutation payload [(number 1, 10); (number 2, 20); (number 3, 30); (number 4, 40)] ->
     exists m e es it, fm_from_iter E KindOther rs list_next (S (length payload)) payload = Ok m /\
       Permutation payload (e :: es) /\
       iter_fmt (it_next (prof E)) 5 (fm_iter_new m) = Ok (DList (e :: es)) /\
       it_next (prof E) (fm_iter_new m) = Ok (Some e, it) /\
       iter_fmt (it_next (prof E)) 5 it = Ok (DList es)).
Proof. exact map_facade_tests. Qed.
Print Assumptions C90_map_facade_tests.

Theorem C90_u32_facade_test :
  forall (V : Type) (text : nat -> V) (E : env) (rs : hasher Z) (max step : nat) (payload : list (key Z * V)),
  env_ok E -> Z.of_nat max < 2 ^ 31 -> (1 <= step)%nat -> Z.of_nat (max * step) <= 2 ^ 32 ->
  let number i := KU32 (Z.of_nat (i * step)) in
  Permutation payload (map (fun i => (number i, text i)) (seq 0 max)) ->
  exists m, fm_from_iter E KindU32 rs list_next (S (length payload)) payload = Ok m /\
    fm_len m = Z.of_nat max /\ fm_is_empty m = (Z.of_nat max =? 0) /\
    forall i, (i < max)%nat ->
      fm_contains_key Z.eqb E m (number i) = Ok true /\ fm_get Z.eqb E m (number i) = Ok (Some (text i)) /\
      fm_get_key_value Z.eqb E m (number i) = Ok (Some (number i, text i)).
Proof. exact u32_facade_test. Qed.
Print Assumptions C90_u32_facade_test.

Theorem C90_set_facade_test :
  forall (E : env) (rs : hasher Z) (size : nat),
  env_ok E -> Z.of_nat size < 2 ^ 31 ->
  let number i := KOther (Z.of_nat i) in
  exists s, fs_from_vec E KindOther rs (map number (seq 0 size)) = Ok s /\
    fs_len s = Z.of_nat size /\ fs_is_empty s = (Z.of_nat size =? 0) /\
    (forall i, (i < size)%nat -> fs_get Z.eqb E s (number i) = Ok (Some (number i)) /\
                                 fs_contains Z.eqb E s (number i) = Ok true) /\
    exists items, yields (keys_next (prof E)) (it_new (with_unit (fs_items s))) items /\
      forall i, (i < size)%nat -> In (number i) items.
Proof. exact set_facade_test. Qed.
Print Assumptions C90_set_facade_test.

Theorem C90_macro_tests :
  forall (O : Type) (pr : profile) (h : bytes -> Z),
  let call keys := frozen_map_macro pr h TStr (map (fun s => @LStr O (literal_bytes s)) keys) in
  call macro_test_keys = Ok (XPlain NLengthMap u8) /\
  (separates h (map literal_bytes example_keys) ->
     call example_keys = Ok (XRanged NLeftSliceMap u8 2 3) /\
     forall (V BH : Type) (hash_string hash_write : BH -> bytes -> Z) (E : env) (bh : BH) (values : list V),
     env_ok E -> length values = 7%nat ->
     let payload := combine (map literal_bytes example_keys) values in
     exists get, run_str hash_string hash_write E bh (XRanged NLeftSliceMap u8 2 3) payload = Some (Ok get) /\
       exact_get bytes_eqb (fun _ => True) payload get).
Proof. exact macro_tests. Qed.
Print Assumptions C90_macro_tests.

Example C90_case1 :
  Forall (fun c => separates byte_code (map literal_bytes (fst c))) slice_test_cases /\
  separates byte_code (map literal_bytes example_keys).
Proof. exact ex_C90_separates. Qed.

Example C90_case2 :
  env_ok checked_env /\ env_ok wrapping_env /\
  (exists s, fs_from_vec unstable_env KindOther sample_hasher (map KOther [0; 1; 2; 3; 4]) = Ok s /\ fs_len s = 5) /\
  Permutation [(KU32 2, 11); (KU32 0, 10); (KU32 6, 13); (KU32 4, 12)]
    (map (fun i => (@KU32 Z (Z.of_nat (i * 2)), 10 + Z.of_nat i)) (seq 0 4)) /\
  match fm_from_iter checked_env KindU32 sample_hasher list_next 5
          [(KU32 2, 11); (KU32 0, 10); (KU32 6, 13); (KU32 4, 12)] with
  | Ok m => fm_get Z.eqb checked_env m (KU32 6) = Ok (Some 13) /\ fm_get Z.eqb checked_env m (KU32 3) = Ok None
  | _ => False
  end.
Proof. exact ex_C90_facades. Qed.

(** ** C91: examples in the documentation *)

(** Every constructor on every payload of the examples; the answers asserted or announced; iteration. *)
Theorem C91_map_documentation :
  forall (E : env) (rs : hasher datum), env_ok E ->
  Forall (fun ex => let kd := me_kind ex in let payload := me_payload ex in
    exists m,
      Forall (eq (Ok m)) [fm_from E kd rs payload; fm_from_vec E kd rs payload; fm_with_hasher E kd payload rs;
                          fm_from_vec_with_hasher E kd payload rs;
                          fm_from_iter_with_hasher E kd list_next (S (length payload)) payload rs] /\
      Forall2 same_obs (run datum_eqb E m (map fst (me_story ex))) (map snd (me_story ex)) /\
      exists entries, Permutation payload entries /\
        yields (it_next (prof E)) (fm_iter_new m) entries /\
        yields (keys_next (prof E)) (fm_keys_new m) (map fst entries) /\
        yields (values_next (prof E)) (fm_values_new m) (map snd entries)) map_examples.
Proof. exact map_documentation. Qed.
Print Assumptions C91_map_documentation.

(** The two references returned by [get_many_mut] and what they point to. *)
Theorem C91_library_references :
  forall (E : env) (rs : hasher datum) (m : map_types datum datum),
  env_ok E -> fm_from E KindString rs libraries = Ok m ->
  exists p q, fm_get_many_mut datum_eqb E m wanted_libraries = Ok (Some [p; q]) /\ p <> q /\
    option_map snd (nth_error (fm_iter m) p) = Some (Number 1807) /\
    option_map snd (nth_error (fm_iter m) q) = Some (Number 1800).
Proof. exact library_references. Qed.
Print Assumptions C91_library_references.

Theorem C91_set_documentation :
  forall (E : env) (rs : hasher datum), env_ok E ->
  Forall (fun ex => let kd := se_kind ex in let items := se_items ex in
    exists s,
      Forall (eq (Ok s)) [fs_from E kd rs items; fs_from_vec E kd rs items; fs_with_hasher E kd items rs;
                          fs_from_vec_with_hasher E kd items rs;
                          fs_from_iter_with_hasher E kd list_next (S (length items)) items rs] /\
      fs_len s = zlen items /\ fs_is_empty s = false /\
      Forall (fun x => fs_contains datum_eqb E s x = Ok true /\ fs_get datum_eqb E s x = Ok (Some x)) (se_held ex) /\
      Forall (fun x => fs_contains datum_eqb E s x = Ok false /\ fs_get datum_eqb E s x = Ok None) (se_missing ex) /\
      exists L, yields (keys_next (prof E)) (it_new (with_unit (fs_items s))) L /\ Permutation items L) set_examples.
Proof. exact set_documentation. Qed.
Print Assumptions C91_set_documentation.

Theorem C91_common_set_documentation :
  forall (BH : Type) (hash : BH -> Z -> Z) (E : env) (rs : BH), env_ok E ->
  let items := [1; 2; 3] in
  exists s,
    Forall (eq (Ok s)) [cs_from hash E u8 rs items; cs_from_vec_random hash E u8 rs items; cs_with_hasher hash E u8 items rs;
                        cs_from_vec_with_hasher hash E u8 items rs;
                        cs_from_iter_with_hasher hash E u8 list_next (S (length items)) items rs] /\
    cs_len s = 3 /\
    map (cs_contains Z.eqb (fun x => x) hash s) [1; 4] = [Ok true; Ok false] /\
    map (cs_get Z.eqb (fun x => x) hash s) [2; 4] = [Ok (Some 2); Ok None].
Proof. exact common_set_documentation. Qed.
Print Assumptions C91_common_set_documentation.

(** A FrozenSet of 1, 2, 3 and a std HashSet of 4, 2, 3, 4. *)
Theorem C91_algebra_documentation :
  forall (E : env) (rs : hasher datum) (hash : key datum -> Z) (b : list (key datum)), env_ok E ->
  hash_set (key_eqb datum_eqb) hash (map (fun n => SInsert (i32_key n)) [4; 2; 3; 4]) b ->
  exists a, fs_from E KindOther rs (map i32_key [1; 2; 3]) = Ok a /\
    let s1 := fs_as_set datum_eqb E a in
    let s2 := std_hash_set (key_eqb datum_eqb) hash b in
    let prints {St} (next : set_impl (key datum) -> set_impl (key datum) -> St -> res (option (key datum) * St)) new numbers :=
      exists L, yields (next s1 s2) (new s1 s2) L /\ Permutation (map i32_key numbers) L in
    prints union_next pair_new [1; 2; 3; 4] /\ prints symmetric_difference_next pair_new [1; 4] /\
    prints difference_next difference_new [1] /\ prints intersection_next pair_new [2; 3].
Proof. exact algebra_documentation. Qed.
Print Assumptions C91_algebra_documentation.

Example C91_case :
  env_ok checked_env /\
  map (fun ex => match fm_from checked_env (me_kind ex) doc_hasher (me_payload ex) with
                 | Ok (MStringLengthSmall _) => 0 | Ok (MScanning _) => 1 | _ => 2
                 end) map_examples = [0; 1; 1; 1; 1; 0; 1; 1; 1] /\
  match fm_from checked_env KindString doc_hasher libraries with
  | Ok m => fm_get_many_mut datum_eqb checked_env m wanted_libraries = Ok (Some [2%nat; 1%nat])
  | _ => False
  end /\
  hash_set (key_eqb datum_eqb) (hash_one doc_hasher) (map (fun n => SInsert (i32_key n)) [4; 2; 3; 4]) (map i32_key [3; 4; 2]).
Proof. exact ex_C91. Qed.

(** ** C92: walking over specialized maps and sets *)

Theorem C92_scanning_map_walks :
  forall (K V Q : Type) (eqb : Q -> Q -> bool) (borrow : K -> Q) (pr : profile) (payload : list (K * V)),
  zlen payload < 2 ^ 64 ->
  walks_in pr (mo_write (sm_object eqb borrow)) sm_walk (sm_from_vec payload) payload.
Proof. exact scanning_map_walks. Qed.
Print Assumptions C92_scanning_map_walks.

(** No law on Eq or Hash; duplicates allowed. *)
Theorem C92_common_map_walks :
  forall (K V Q BH : Type) (eqb : Q -> Q -> bool) (borrow : K -> Q) (hash_key : BH -> K -> Z) (hash_query : BH -> Q -> Z)
         (E : env) (S_ty : int_type) (payload : list (K * V)) (bh : BH) (m : common_map K V BH),
  env_ok E -> zlen payload < 2 ^ 64 -> cm_from_vec hash_key E S_ty payload bh = Ok m ->
  exists es, Permutation payload es /\
    walks_in (prof E) (mo_write (cm_object eqb borrow hash_query)) cm_walk m es /\
    (forall ws, cm_hasher (changed (mo_write (cm_object eqb borrow hash_query)) m ws) = bh) /\
    (payload <> [] -> exists slots collisions,
       analyze_hash_codes (map (fun e => hash_key bh (fst e)) payload) = Ok (slots, collisions) /\ by_slot (hash_key bh) slots es).
Proof. exact common_map_walks. Qed.
Print Assumptions C92_common_map_walks.

Theorem C92_integer_map_walks :
  forall (V : Type) (E : env) (S_ty : int_type) (payload : list (Z * V)) (m : integer_map V),
  env_ok E -> zlen payload < 2 ^ 64 -> im_from_vec E S_ty payload = Ok m ->
  exists es, Permutation payload es /\ walks_in (prof E) (mo_write im_object) im_walk m es /\
    (payload <> [] -> exists slots collisions,
       analyze_hash_codes (map (fun e => fst e mod 2 ^ 64) payload) = Ok (slots, collisions) /\
       by_slot (fun k => k mod 2 ^ 64) slots es).
Proof. exact integer_map_walks. Qed.
Print Assumptions C92_integer_map_walks.

Theorem C92_range_map_walks :
  forall (V : Type) (pr : profile) (ty : int_type) (payload : list (Z * V)) (m : integer_range_map V),
  zlen payload < 2 ^ 64 -> irm_from_vec pr ty payload = Ok m ->
  exists es, Permutation payload es /\ walks_in pr (mo_write (irm_object pr ty)) irm_walk m es /\
    StronglySorted Z.le (map fst es).
Proof. exact range_map_walks. Qed.
Print Assumptions C92_range_map_walks.

Theorem C92_length_map_walks :
  forall (K V Q : Type) (eqb : Q -> Q -> bool) (borrow : K -> Q) (len_key : K -> Z) (len_query : Q -> Z)
         (E : env) (S_ty : int_type) (payload : list (K * V)) (m : length_map K V),
  env_ok E -> zlen payload < 2 ^ 64 -> lm_from_vec len_key E S_ty payload = Ok m ->
  exists es, Permutation payload es /\ walks_in (prof E) (mo_write (lm_object eqb borrow len_query)) lm_walk m es /\
    (payload <> [] -> exists slots collisions,
       analyze_hash_codes (map (fun e => len_key (fst e)) payload) = Ok (slots, collisions) /\ by_slot len_key slots es).
Proof. exact length_map_walks. Qed.
Print Assumptions C92_length_map_walks.

Theorem C92_slice_map_walks :
  forall (V BH : Type) (hash_write : BH -> bytes -> Z) (E : env) (S_ty : int_type) (payload : list (bytes * V))
         (start end_ : Z) (bh : BH) (m : slice_map V BH),
  env_ok E -> zlen payload < 2 ^ 64 ->
  (lsm_from_vec hash_write E S_ty payload start end_ bh = Ok m ->
   exists es, Permutation payload es /\ walks_in (prof E) (mo_write (lsm_object hash_write)) slm_walk m es /\
     (forall ws, slm_hasher (changed (mo_write (lsm_object hash_write)) m ws) = bh) /\
     (payload <> [] -> exists slots collisions,
        let code k := hash_write bh (firstn (Z.to_nat (end_ - start)) (skipn (Z.to_nat start) k)) in
        analyze_hash_codes (map (fun e => code (fst e)) payload) = Ok (slots, collisions) /\ by_slot code slots es)) /\
  (rsm_from_vec hash_write E S_ty payload start end_ bh = Ok m ->
   exists es, Permutation payload es /\ walks_in (prof E) (mo_write (rsm_object hash_write E)) slm_walk m es /\
     (forall ws, slm_hasher (changed (mo_write (rsm_object hash_write E)) m ws) = bh)).
Proof. exact slice_map_walks. Qed.
Print Assumptions C92_slice_map_walks.

Theorem C92_special_set_walks :
  forall (T BH : Type) (hash_key : BH -> T -> Z) (len_key : T -> Z) (hash_write : BH -> bytes -> Z) (E : env) (ty S_ty : int_type)
         (items : list T) (numbers : list Z) (strings : list bytes) (start end_ : Z) (bh : BH),
  env_ok E -> zlen items < 2 ^ 64 -> zlen numbers < 2 ^ 64 -> zlen strings < 2 ^ 64 ->
  let visits {S U} (built : res S) (walk_of : S -> set_walk U) (l : list U) (more : S -> Prop) :=
    forall s, built = Ok s -> exists l', Permutation l l' /\ set_walks_in (prof E) (walk_of s) l' /\ more s in
  set_walks_in (prof E) (ss_walk (ss_from_vec items)) items /\
  visits (cs_from_vec hash_key E S_ty items bh) cs_walk items (fun s => cs_hasher s = bh) /\
  visits (is_from_vec E S_ty numbers) is_walk numbers (fun _ => True) /\
  (forall s, irs_from_vec (prof E) ty numbers = Ok s -> exists l', Permutation numbers l' /\ set_walks_in (prof E) (irs_walk s) l' /\
     StronglySorted Z.le l') /\
  visits (ls_from_vec len_key E S_ty items) ls_walk items (fun _ => True) /\
  visits (lss_from_vec hash_write E S_ty strings start end_ bh) sls_walk strings (fun s => sls_hasher s = bh) /\
  visits (rss_from_vec hash_write E S_ty strings start end_ bh) sls_walk strings (fun s => sls_hasher s = bh).
Proof. exact special_set_walks. Qed.
Print Assumptions C92_special_set_walks.

Example C92_case :
  env_ok checked_env /\
  match im_from_vec checked_env u8 walked with
  | Ok m => w_iter (im_walk (changed (mo_write im_object) m [(2%nat, 9)])) = it_new [(5, 50); (3, 30); (20, 9); (12, 120)]
  | _ => False
  end /\
  match irm_from_vec Checked u32 [(6, 0); (4, 1); (5, 2)] with
  | Ok m => w_iter (irm_walk m) = it_new [(4, 1); (5, 2); (6, 0)]
  | _ => False
  end /\
  match lm_from_vec zlen checked_env u8 (map (fun k => (k, tt)) walked_keys) with
  | Ok m => map fst (entries (lm_table m)) = [[1; 2]; [1; 7]; [1; 5; 5]]
  | _ => False
  end /\
  match cm_from_vec (fun (bh : Z) (k : bytes) => bh + byte_code k) checked_env u8 (map (fun k => (k, tt)) walked_keys) 5 with
  | Ok m => cm_hasher m = 5
  | _ => False
  end /\
  match lsm_from_vec (fun (bh : Z) k => bh + byte_code k) checked_env u8 (map (fun k => (k, tt)) walked_keys) 1 2 5 with
  | Ok m => map fst (entries (slm_table m)) = [[1; 2]; [1; 5; 5]; [1; 7]]
  | _ => False
  end /\
  match rss_from_vec (fun (bh : Z) k => bh + byte_code k) checked_env u8 walked_keys 1 0 5 with
  | Ok s => sls_hasher s = 5
  | _ => False
  end.
Proof. exact ex_C92. Qed.

(** ** C93: the code emitted by frozen_map! *)

(** The code, read back, says what the expansion of C36 and C58 means. *)
Theorem C93_emitted_code :
  forall (ty expr O : Type) (classify : ty -> macro_type) (literal_of : expr -> literal O) (pr : profile) (h : bytes -> Z)
         (input : parsed_map ty expr),
  let t := classify (pm_ty input) in
  let outcome := frozen_map_macro pr h t (map (fun e => literal_of (fst e)) (pm_entries input)) in
  let emitted := emit classify literal_of pr h input in
  (forall x, outcome = Ok x -> exists code, emitted = Ok code /\
     read_block code = Some (should_say t (pm_ty input) (pm_entries input) x)) /\
  (forall p, outcome = Panic p -> emitted = Panic p) /\
  (forall code, emitted = Ok code -> exists x, outcome = Ok x).
Proof. exact emitted_code. Qed.
Print Assumptions C93_emitted_code.

(** rustc rejects exactly the calls that lead to an IntegerRangeMap. *)
Theorem C93_emitted_code_agrees :
  forall (ty expr O : Type) (t : macro_type) (input_ty : ty) (entries : list (expr * expr)) (literal_of : expr -> literal O)
         (pr : profile) (h : bytes -> Z) (x : expansion),
  frozen_map_macro pr h t (map (fun e => literal_of (fst e)) entries) = Ok x ->
  (agrees (should_say t input_ty entries x) <-> forall S_ty, x <> XPlain NIntegerRangeMap S_ty).
Proof. exact emitted_code_agrees. Qed.
Print Assumptions C93_emitted_code_agrees.

Example C93_case :
  frozen_map_macro Checked byte_code (TInt u32) (map (@LInt Z) [4; 8; 15; 16]) = Ok (XPlain NIntegerMap u8) /\
  emitted_statement LInt four_entries = Some (should_say (TInt u32) (TInt u32) (pm_entries four_entries) (XPlain NIntegerMap u8)) /\
  emitted_statement LInt range_entries =
    Some (should_say (TInt u32) (TInt u32) (pm_entries range_entries) (XPlain NIntegerRangeMap u8)) /\
  emitted_statement as_bytes word_entries =
    Some (should_say TStr TStr (pm_entries word_entries) (XRanged NLeftSliceMap u8 1 2)) /\
  option_map st_entries (emitted_statement as_bytes word_entries) = Some [(Converted 1, 0); (Converted 2, 1); (Converted 3, 2); (Converted 4, 3)] /\
  emit (fun t => t) (fun e => LExpr e) Checked byte_code four_entries = Panic PUnwrapNone.
Proof. exact ex_C93. Qed.

(** ** C94: the benchmarks *)

(** Each benchmark builds its map, finds what a HashMap finds, and measures the representation it is named after. *)
Theorem C94_benchmark_programs :
  forall (E : env) (rs : hasher datum), env_ok E ->
  Forall (fun b => exists m v,
    fm_from E (bm_kind b) rs (bm_payload b) = Ok m /\
    fm_get datum_eqb E m (bm_query b) = Ok (Some v) /\ std_lookup (bm_payload b) (bm_query b) = Some v /\
    fm_len m = zlen (bm_payload b) /\
    ((bm_kept b = ByWindow 9 10 -> separates (hash_one_slice rs) (str_keys (bm_payload b))) -> storage_of m = bm_kept b)) benchmarks.
Proof. exact benchmark_programs. Qed.
Print Assumptions C94_benchmark_programs.

(** In the HashMap each insertion replaces the value of an equal key. *)
Theorem C94_benchmark_hash_map :
  forall (V : Type) (payload : list (key datum * V)) (k : key datum),
  std_lookup payload k =
    fold_left (fun held e => if key_eqb datum_eqb (fst e) k then Some (snd e) else held) payload None.
Proof. exact benchmark_hash_map. Qed.
Print Assumptions C94_benchmark_hash_map.

Example C94_case :
  separates (hash_one_slice telling_hasher) (str_keys (bm_payload string_keys_subslice)) /\
  map (benchmark_outcome telling_hasher) benchmarks =
    [Some (ByLength, Ok (Some 4)); Some (ByWindow 9 10, Ok (Some 4)); Some (ByNumber, Ok (Some 5)); Some (ByOffset, Ok (Some 4));
     Some (ByHash, Ok (Some 5))] /\
  ~ separates (hash_one_slice constant_hasher) (str_keys (bm_payload string_keys_subslice)) /\
  map (benchmark_outcome constant_hasher) benchmarks =
    [Some (ByLength, Ok (Some 4)); Some (ByHash, Ok (Some 4)); Some (ByNumber, Ok (Some 5)); Some (ByOffset, Ok (Some 4));
     Some (ByHash, Ok (Some 5))].
Proof. exact ex_C94. Qed.

(** ** C95: from a written call of frozen_map! to the running map *)

(** Integer literals. *)
Theorem C95_integer_call_runs :
  forall (T ty expr O V : Type) (parse_type : list (token T) -> option (ty * list (token T)))
    (parse_expr : list (token T) -> option (expr * list (token T))) (text : expr -> list (token T)) (type_text : list (token T)) (t : ty)
    (classify : ty -> macro_type) (literal_of : expr -> literal O) (pr : profile) (h : list Z -> Z)
    (it : int_type) (key_of : expr -> Z) (value_of : expr -> V) (entries : list (expr * expr)) (trailing : bool),
  reads_back parse_type parse_expr text type_text t -> classify t = TInt it -> 1 <= bits it ->
  (forall e, In e entries -> literal_of (fst e) = LInt (key_of (fst e)) /\ imin it <= key_of (fst e) <= imax it) ->
  let payload := meaning key_of value_of entries in
  let keys := map fst payload in
  let output := frozen_map_output parse_type parse_expr classify literal_of pr h (written_call text type_text trailing entries) in
  NoDup keys -> zlen keys < 2 ^ 31 ->
  (3 <= zlen keys /\ pr = Checked /\ too_wide it keys /\ output = Some (Some (Panic POverflow))) \/
  ((zlen keys < 3 \/ pr = Wrapping \/ ~ too_wide it keys) /\
   exists code st, output = Some (Some (Ok code)) /\ read_block code = Some st /\
   ((3 <= zlen keys < 2 ^ bits it /\ consecutive keys /\
       forall (BH : Type) (E : env) (bh : BH) (hash : BH -> Z -> Z), execute_int E bh it hash key_of value_of st = None) \/
    ((zlen keys < 3 \/ ~ consecutive keys \/ zlen keys = 2 ^ bits it) /\
       forall (BH : Type) (E : env) (bh : BH) (hash : BH -> Z -> Z), env_ok E ->
       exists runs, execute_int E bh it hash key_of value_of st = Some (Ok runs) /\
         forall history, Forall2 same_obs (runs history) (object_run Z.eqb (fun k => k) payload history)))).
Proof. exact integer_call_runs. Qed.
Print Assumptions C95_integer_call_runs.

(** String literals. *)
Theorem C95_string_call_runs :
  forall (T ty expr O V : Type) (parse_type : list (token T) -> option (ty * list (token T)))
    (parse_expr : list (token T) -> option (expr * list (token T))) (text : expr -> list (token T)) (type_text : list (token T)) (t : ty)
    (classify : ty -> macro_type) (literal_of : expr -> literal O) (pr : profile) (h : list Z -> Z)
    (key_of : expr -> list Z) (value_of : expr -> V) (entries : list (expr * expr)) (trailing : bool),
  reads_back parse_type parse_expr text type_text t -> classify t = TStr ->
  (forall e, In e entries -> literal_of (fst e) = LStr (key_of (fst e)) /\ zlen (key_of (fst e)) < 2 ^ 64) ->
  let payload := meaning key_of value_of entries in
  let keys := map fst payload in
  let output := frozen_map_output parse_type parse_expr classify literal_of pr h (written_call text type_text trailing entries) in
  distinct bytes_eqb keys -> zlen keys < 2 ^ 31 ->
  (string_panic h keys /\ output = Some (Some (Panic PIndexOutOfBounds))) \/
  (~ string_panic h keys /\
   exists code st, output = Some (Some (Ok code)) /\ read_block code = Some st /\
   forall (BH : Type) (E : env) (bh : BH) (hash_string hash_write : BH -> list Z -> Z), env_ok E ->
     (string_ub h keys /\ execute_str E bh hash_string hash_write key_of value_of st = Some (UB OutOfBounds)) \/
     (~ string_ub h keys /\
      exists runs, execute_str E bh hash_string hash_write key_of value_of st = Some (Ok runs) /\
        forall history, Forall2 same_obs (runs history) (object_run bytes_eqb (fun k => k) payload history))).
Proof. exact string_call_runs. Qed.
Print Assumptions C95_string_call_runs.

(** Keys of any other type. *)
Theorem C95_other_call_runs :
  forall (T ty expr O K V : Type) (parse_type : list (token T) -> option (ty * list (token T)))
    (parse_expr : list (token T) -> option (expr * list (token T))) (text : expr -> list (token T)) (type_text : list (token T)) (t : ty)
    (classify : ty -> macro_type) (literal_of : expr -> literal O) (pr : profile) (h : list Z -> Z)
    (eqb : K -> K -> bool) (key_of : expr -> K) (value_of : expr -> V) (entries : list (expr * expr)) (trailing : bool),
  reads_back parse_type parse_expr text type_text t -> classify t = TOther -> equivalence eqb ->
  let payload := meaning key_of value_of entries in
  let keys := map fst payload in
  distinct eqb keys -> zlen keys < 2 ^ 31 ->
  exists code st,
    frozen_map_output parse_type parse_expr classify literal_of pr h (written_call text type_text trailing entries) = Some (Some (Ok code)) /\
    read_block code = Some st /\
    forall (BH : Type) (E : env) (bh : BH) (hash : BH -> K -> Z), env_ok E -> (forall a b, eqb a b = true -> hash bh a = hash bh b) ->
    exists runs, execute_other E bh eqb hash key_of value_of st = Some (Ok runs) /\
      forall history, Forall2 same_obs (runs history) (object_run eqb (fun k => k) payload history).
Proof. exact other_call_runs. Qed.
Print Assumptions C95_other_call_runs.

(** Any argument at all. *)
Theorem C95_call_output :
  forall (T ty expr O : Type) (parse_type : list (token T) -> option (ty * list (token T)))
    (parse_expr : list (token T) -> option (expr * list (token T)))
    (classify : ty -> macro_type) (literal_of : expr -> literal O) (pr : profile) (h : list Z -> Z)
    (args : list (token T)),
  (forall ts x rest, parse_expr ts = Some (x, rest) -> (length rest < length ts)%nat) ->
  let output := frozen_map_output parse_type parse_expr classify literal_of pr h args in
  let means t es := exists rest, parse_type args = Some (t, Comma :: rest) /\ reads_entries parse_expr rest es in
  (exists t es, means t es /\
     let outcome := frozen_map_macro pr h (classify t) (map (fun e => literal_of (fst e)) es) in
     (forall x, outcome = Ok x ->
        exists code, output = Some (Some (Ok code)) /\ read_block code = Some (should_say (classify t) t es x)) /\
     (forall p, outcome = Panic p -> output = Some (Some (Panic p))) /\
     (forall code, output = Some (Some (Ok code)) -> exists x, outcome = Ok x)) \/
  ((forall t es, ~ means t es) /\ output = Some None).
Proof. exact call_output. Qed.
Print Assumptions C95_call_output.

Example C95_case :
  (forall ts x rest, sample_parse_expr ts = Some (x, rest) -> (length rest < length ts)%nat) /\
  frozen_map_output sample_parse_type sample_parse_expr strings_for_others (fun e => @LInt Z (fst e)) Checked byte_code
    [Tok 0; Comma; Tok 4; Comma] = Some None /\
  reads_back sample_parse_type sample_parse_expr sample_text [Tok 0] (TInt u8) /\
  written_call sample_text [Tok 0] true number_entries =
    [Tok 0; Comma; Tok 4; Colon; Tok 1; Comma; Tok 8; Colon; Tok 2; Tok 43; Tok 3; Comma; Tok 15; Colon; Tok 0; Comma] /\
  meaning fst sample_value number_entries = [(4, 1); (8, 5); (15, 0)] /\
  match sample_output [Tok 0] number_entries with
  | Some st => match execute_int checked_env tt u8 (fun _ z => z) fst sample_value st with
               | Some (Ok runs) => runs [OLen; OGet 8; OGetMut 15 7; OGet 15; OGet 16] | _ => [] end
  | _ => []
  end = [SawNumber 3; SawValue (Some 5); SawBool true; SawValue (Some 7); SawValue None] /\
  match sample_output [Tok 0] near_entries with
  | Some st => execute_int checked_env tt u8 (fun _ z => z) fst sample_value st = None
  | _ => False
  end /\
  match sample_output [Tok 1] name_entries with
  | Some st => match execute_str checked_env 7 (fun bh k => bh + byte_code k) (fun bh k => bh + byte_code k) sample_bytes sample_value st with
               | Some (Ok runs) => runs [OLen; OGet [1; 30; 4]; OContainsKey [1; 60; 4]; OIndex []] | _ => [] end
  | _ => []
  end = [SawNumber 4; SawValue (Some 2); SawBool false; SawPanic].
Proof. exact ex_C95. Qed.

(** ** C96: maps with repeated keys *)

Theorem C96_repeated_scanning :
  forall (K V Q : Type) (pr : profile) (eqb : Q -> Q -> bool) (borrow : K -> Q) (payload : list (K * V)),
  zlen payload < 2 ^ 64 ->
  laid_out eqb borrow (fun _ => True) payload payload (mo_run pr eqb (sm_object eqb borrow) (sm_from_vec payload)).
Proof. exact repeated_scanning. Qed.
Print Assumptions C96_repeated_scanning.

Theorem C96_repeated_common :
  forall (K V Q BH : Type) (eqb : Q -> Q -> bool) (borrow : K -> Q)
         (hash_key : BH -> K -> Z) (hash_query : BH -> Q -> Z)
         (E : env) (S_ty : int_type) (payload : list (K * V)) (bh : BH),
  env_ok E -> fits S_ty (zlen payload) -> equivalence eqb ->
  (forall k, hash_key bh k = hash_query bh (borrow k)) ->
  (forall a b, eqb a b = true -> hash_query bh a = hash_query bh b) ->
  exists m es, cm_from_vec hash_key E S_ty payload bh = Ok m /\
  laid_out eqb borrow (fun _ => True) payload es (mo_run (prof E) eqb (cm_object eqb borrow hash_query) m).
Proof. exact repeated_common. Qed.
Print Assumptions C96_repeated_common.

Theorem C96_repeated_integer :
  forall (V : Type) (E : env) (S_ty : int_type) (payload : list (Z * V)),
  env_ok E -> fits S_ty (zlen payload) ->
  exists m es, im_from_vec E S_ty payload = Ok m /\
  laid_out Z.eqb (fun k => k) (fun _ => True) payload es (mo_run (prof E) Z.eqb im_object m).
Proof. exact repeated_integer. Qed.
Print Assumptions C96_repeated_integer.

Theorem C96_repeated_length :
  forall (K V Q : Type) (eqb : Q -> Q -> bool) (borrow : K -> Q) (len_key : K -> Z) (len_query : Q -> Z)
         (E : env) (S_ty : int_type) (payload : list (K * V)),
  env_ok E -> fits S_ty (zlen payload) ->
  (forall k, len_key k = len_query (borrow k)) ->
  (forall a b, eqb a b = true -> len_query a = len_query b) ->
  exists m es, lm_from_vec len_key E S_ty payload = Ok m /\
  laid_out eqb borrow (fun _ => True) payload es (mo_run (prof E) eqb (lm_object eqb borrow len_query) m).
Proof. exact repeated_length. Qed.
Print Assumptions C96_repeated_length.

Theorem C96_repeated_left_slice :
  forall (V BH : Type) (hash_write : BH -> list Z -> Z) (E : env) (S_ty : int_type)
         (payload : list (list Z * V)) (a b : Z) (bh : BH),
  env_ok E -> fits S_ty (zlen payload) -> 0 <= a <= b ->
  (forall k, In k (map fst payload) -> b <= zlen k) ->
  exists m es, lsm_from_vec hash_write E S_ty payload a b bh = Ok m /\
  laid_out bytes_eqb (fun k => k) (fun _ => True) payload es (mo_run (prof E) bytes_eqb (lsm_object hash_write) m).
Proof. exact repeated_left_slice. Qed.
Print Assumptions C96_repeated_left_slice.

Theorem C96_repeated_right_slice :
  forall (V BH : Type) (hash_write : BH -> list Z -> Z) (E : env) (S_ty : int_type)
         (payload : list (list Z * V)) (a b : Z) (bh : BH),
  env_ok E -> fits S_ty (zlen payload) -> 0 <= b <= a ->
  (forall k, In k (map fst payload) -> a <= zlen k < 2 ^ 64) ->
  exists m es, rsm_from_vec hash_write E S_ty payload a b bh = Ok m /\
  laid_out bytes_eqb (fun k => k) (fun q => zlen q < 2 ^ 64) payload es (mo_run (prof E) bytes_eqb (rsm_object hash_write E) m).
Proof. exact repeated_right_slice. Qed.
Print Assumptions C96_repeated_right_slice.

Theorem C96_repeated_frozen_map :
  forall (O V : Type) (eqbO : O -> O -> bool) (E : env) (kd : kind) (bh : hasher O)
         (payload : list (key O * V)) (m : map_types O V),
  env_ok E -> equivalence eqbO -> lawful_hash eqbO bh ->
  countable (prof E) (zlen payload) -> zlen payload < 2 ^ 64 -> typed kd payload ->
  (kd = KindU32 -> ~ full_span payload) ->
  fm_new E kd payload bh = Ok m ->
  exists es, laid_out (key_eqb eqbO) (fun k => k) (has_kind kd) payload es (run eqbO E m).
Proof. exact repeated_frozen_map. Qed.
Print Assumptions C96_repeated_frozen_map.

Theorem C96_repeated_integer_call :
  forall (T ty expr O V : Type) (parse_type : list (token T) -> option (ty * list (token T)))
    (parse_expr : list (token T) -> option (expr * list (token T))) (text : expr -> list (token T)) (type_text : list (token T)) (t : ty)
    (classify : ty -> macro_type) (literal_of : expr -> literal O) (pr : profile) (h : list Z -> Z)
    (it : int_type) (key_of : expr -> Z) (value_of : expr -> V) (entries : list (expr * expr)) (trailing : bool),
  reads_back parse_type parse_expr text type_text t -> classify t = TInt it -> 1 <= bits it ->
  (forall e, In e entries -> literal_of (fst e) = LInt (key_of (fst e)) /\ imin it <= key_of (fst e) <= imax it) ->
  let payload := meaning key_of value_of entries in
  let keys := map fst payload in
  let output := frozen_map_output parse_type parse_expr classify literal_of pr h (written_call text type_text trailing entries) in
  zlen keys < 2 ^ 31 ->
  (3 <= zlen keys /\ pr = Checked /\ too_wide it keys /\ output = Some (Some (Panic POverflow))) \/
  ((zlen keys < 3 \/ pr = Wrapping \/ ~ too_wide it keys) /\
   exists code st, output = Some (Some (Ok code)) /\ read_block code = Some st /\
   ((3 <= zlen keys /\ (too_wide it keys \/ spanning keys) /\
       forall (BH : Type) (E : env) (bh : BH) (hash : BH -> Z -> Z), execute_int E bh it hash key_of value_of st = None) \/
    ((zlen keys < 3 \/ too_wide it keys \/ ~ spanning keys) /\
       forall (BH : Type) (E : env) (bh : BH) (hash : BH -> Z -> Z), env_ok E ->
       exists runs es, execute_int E bh it hash key_of value_of st = Some (Ok runs) /\
         laid_out Z.eqb (fun k => k) (fun _ => True) payload es runs))).
Proof. exact repeated_integer_call. Qed.
Print Assumptions C96_repeated_integer_call.

Theorem C96_repeated_string_call :
  forall (T ty expr O V : Type) (parse_type : list (token T) -> option (ty * list (token T)))
    (parse_expr : list (token T) -> option (expr * list (token T))) (text : expr -> list (token T)) (type_text : list (token T)) (t : ty)
    (classify : ty -> macro_type) (literal_of : expr -> literal O) (pr : profile) (h : list Z -> Z)
    (key_of : expr -> list Z) (value_of : expr -> V) (entries : list (expr * expr)) (trailing : bool),
  reads_back parse_type parse_expr text type_text t -> classify t = TStr ->
  (forall e, In e entries -> literal_of (fst e) = LStr (key_of (fst e)) /\ zlen (key_of (fst e)) < 2 ^ 64) ->
  let payload := meaning key_of value_of entries in
  let keys := map fst payload in
  let output := frozen_map_output parse_type parse_expr classify literal_of pr h (written_call text type_text trailing entries) in
  zlen keys < 2 ^ 31 ->
  (string_panic h keys /\ output = Some (Some (Panic PIndexOutOfBounds))) \/
  (~ string_panic h keys /\
   exists code st, output = Some (Some (Ok code)) /\ read_block code = Some st /\
   forall (BH : Type) (E : env) (bh : BH) (hash_string hash_write : BH -> list Z -> Z), env_ok E ->
     (string_ub h keys /\ execute_str E bh hash_string hash_write key_of value_of st = Some (UB OutOfBounds)) \/
     (~ string_ub h keys /\
      exists runs es, execute_str E bh hash_string hash_write key_of value_of st = Some (Ok runs) /\
        laid_out bytes_eqb (fun k => k) (fun _ => True) payload es runs)).
Proof. exact repeated_string_call. Qed.
Print Assumptions C96_repeated_string_call.

Theorem C96_repeated_other_call :
  forall (T ty expr O K V : Type) (parse_type : list (token T) -> option (ty * list (token T)))
    (parse_expr : list (token T) -> option (expr * list (token T))) (text : expr -> list (token T)) (type_text : list (token T)) (t : ty)
    (classify : ty -> macro_type) (literal_of : expr -> literal O) (pr : profile) (h : list Z -> Z)
    (eqb : K -> K -> bool) (key_of : expr -> K) (value_of : expr -> V) (entries : list (expr * expr)) (trailing : bool),
  reads_back parse_type parse_expr text type_text t -> classify t = TOther -> equivalence eqb ->
  let payload := meaning key_of value_of entries in
  zlen payload < 2 ^ 31 ->
  exists code st,
    frozen_map_output parse_type parse_expr classify literal_of pr h (written_call text type_text trailing entries) = Some (Some (Ok code)) /\
    read_block code = Some st /\
    forall (BH : Type) (E : env) (bh : BH) (hash : BH -> K -> Z), env_ok E -> (forall a b, eqb a b = true -> hash bh a = hash bh b) ->
    exists runs es, execute_other E bh eqb hash key_of value_of st = Some (Ok runs) /\
      laid_out eqb (fun k => k) (fun _ => True) payload es runs.
Proof. exact repeated_other_call. Qed.
Print Assumptions C96_repeated_other_call.

Example C96_case :
  fits u8 (zlen repeated_numbers) /\
  after_run checked_env = [SawNumber 5; SawValue (Some 6); SawBool true; SawValue (Some 7); SawValue None; SawBool true; SawBool false;
    SawItems [(9, 2); (5, 8); (20, 9); (5, 3); (5, 1)]] /\
  after_run unstable_env = [SawNumber 5; SawValue (Some 1); SawBool true; SawValue (Some 7); SawValue None; SawBool true; SawBool false;
    SawItems [(9, 2); (5, 8); (5, 3); (20, 9); (5, 6)]] /\
  first_run Z.eqb (fun k => k) [(9, 2); (5, 6); (20, 4); (5, 3); (5, 1)] repeated_history = after_run checked_env /\
  mo_run Checked Z.eqb (sm_object Z.eqb (fun k => k)) (sm_from_vec repeated_numbers) [OGet 5; OIndexMut 5 0; OIter] =
    [SawValue (Some 1); SawBool true; SawItems [(5, 0); (9, 2); (5, 3); (20, 4); (5, 6)]] /\
  (match fm_new checked_env KindString [(KStr [97; 98], 1); (KStr [99], 2); (KStr [97; 98], 3); (KStr [100], 4)] sample_hasher with
   | Ok m => run Z.eqb checked_env m [OLen; OGetKeyValue (KStr [97; 98]); OContainsKey (KStr [98])]
   | _ => []
   end = [SawNumber 4; SawEntry (Some (KStr [97; 98], 3)); SawBool false]) /\
  match sample_output [Tok 0] repeated_entries with
  | Some st => match execute_int checked_env tt u8 (fun _ z => z) fst sample_value st with
               | Some (Ok runs) => runs [OLen; OGet 8; OGet 4; OGet 5] | _ => [] end
  | _ => []
  end = [SawNumber 3; SawValue (Some 5); SawValue (Some 0); SawValue None] /\
  spanning (map fst (meaning fst sample_value hidden_entries)) /\
  match sample_output [Tok 0] hidden_entries with
  | Some st => execute_int checked_env tt u8 (fun _ z => z) fst sample_value st = None
  | _ => False
  end.
Proof. exact ex_C96. Qed.

(** ** C97: range maps answer by place *)

Theorem C97_range_map_by_place :
  forall (V : Type) (pr : profile) (ty : int_type) (payload : list (Z * V)),
  1 <= bits ty -> payload <> [] -> zlen payload < 2 ^ 64 ->
  (forall x y, In x (map fst payload) -> In y (map fst payload) -> x - y <= imax ty /\ x - y < 2 ^ 64) ->
  (forall mn, spans_from mn (map fst payload) ->
     exists m es, irm_from_vec pr ty payload = Ok m /\ sorted_entries (fun k => k) payload es /\
       forall history : list (op Z V),
       mo_run pr Z.eqb (irm_object pr ty) m history = place_run Z.eqb (offset_from mn (length payload)) es history) /\
  ((forall mn, ~ spans_from mn (map fst payload)) -> irm_from_vec pr ty payload = Panic PAssert).
Proof. exact range_map_by_place. Qed.
Print Assumptions C97_range_map_by_place.

(** Keys never given are found exactly if some key was repeated. *)
Theorem C97_range_map_strangers :
  forall (V : Type) (pr : profile) (ty : int_type) (payload : list (Z * V)) (m : integer_range_map V),
  1 <= bits ty -> payload <> [] -> zlen payload < 2 ^ 64 ->
  (forall x y, In x (map fst payload) -> In y (map fst payload) -> x - y <= imax ty /\ x - y < 2 ^ 64) ->
  irm_from_vec pr ty payload = Ok m ->
  (forall k, In k (map fst payload) -> mo_contains_key (irm_object pr ty) m k = Ok true) /\
  (NoDup (map fst payload) <-> forall k, mo_contains_key (irm_object pr ty) m k = Ok true -> In k (map fst payload)).
Proof. exact range_map_strangers. Qed.
Print Assumptions C97_range_map_strangers.

Theorem C97_frozen_map_by_place :
  forall (O V : Type) (eqbO : O -> O -> bool) (E : env) (bh : hasher O) (payload : list (key O * V)) (mn : Z),
  4 <= zlen payload -> zlen payload < 2 ^ 32 -> typed KindU32 payload ->
  spans_from mn (map (fun e => u32_of (fst e)) payload) ->
  exists m es, fm_new E KindU32 payload bh = Ok m /\ sorted_entries u32_of payload es /\
    forall history : list (op (key O) V), queries (has_kind KindU32) history ->
    run eqbO E m history =
      place_run (key_eqb eqbO) (fun k => offset_from mn (length payload) (u32_of k)) es history.
Proof. exact frozen_map_by_place. Qed.
Print Assumptions C97_frozen_map_by_place.

Theorem C97_filled_range_set :
  forall (pr : profile) (ty : int_type) (items : list Z) (mn : Z),
  1 <= bits ty -> items <> [] -> zlen items < 2 ^ 64 ->
  (forall x y, In x items -> In y items -> x - y <= imax ty /\ x - y < 2 ^ 64) ->
  spans_from mn items ->
  exists s, irs_from_vec pr ty items = Ok s /\
    Permutation items (irs_items s) /\ StronglySorted Z.le (irs_items s) /\ irs_len s = zlen items /\
    forall x,
    irs_contains pr ty s x = Ok ((mn <=? x) && (x <? mn + zlen items)) /\
    irs_get pr ty s x = Ok (match offset_from mn (length items) x with Some i => nth_error (irs_items s) i | None => None end).
Proof. exact filled_range_set. Qed.
Print Assumptions C97_filled_range_set.

(** Also for keys that span more than their type holds. *)
Theorem C97_range_map_domain :
  forall (V : Type) (pr : profile) (ty : int_type) (payload : list (Z * V)),
  1 <= bits ty -> payload <> [] -> zlen payload < 2 ^ 64 ->
  (forall k, In k (map fst payload) -> imin ty <= k <= imax ty) ->
  (zlen payload - 1 <= imax ty -> forall mn, spans_from mn (map fst payload) ->
     exists m es, irm_from_vec pr ty payload = Ok m /\ sorted_entries (fun k => k) payload es /\
       forall history : list (op Z V),
       mo_run pr Z.eqb (irm_object pr ty) m history = place_run Z.eqb (offset_from mn (length payload)) es history) /\
  (zlen payload - 1 > imax ty \/ (forall mn, ~ spans_from mn (map fst payload)) ->
     exists why, irm_from_vec pr ty payload = Panic why).
Proof. exact range_map_domain. Qed.
Print Assumptions C97_range_map_domain.

Example C97_case1 :
  (forall x y, In x (map fst filled_range) -> In y (map fst filled_range) -> x - y <= imax u8 /\ x - y < 2 ^ 64) /\
  spans_from 5 (map fst filled_range) /\
  (match irm_from_vec Checked u8 filled_range with
   | Ok m => mo_run Checked Z.eqb (irm_object Checked u8) m
       [OLen; OGet 5; OGet 6; OGetKeyValue 6; OGet 9; OGetMut 6 31; OGetManyMut [(5, 11); (6, 32)]; OIter; OIndex 4]
   | _ => [] end =
   [SawNumber 4; SawValue (Some 10); SawValue (Some 30); SawEntry (Some (5, 30)); SawValue None; SawBool true; SawBool true;
    SawItems [(5, 11); (5, 32); (7, 20); (8, 40)]; SawPanic]) /\
  (match fm_new checked_env KindU32 (map (@from_u32_entry Z Z) filled_range) sample_hasher with
   | Ok m => run Z.eqb checked_env m [OContainsKey (KU32 6); OGetKeyValue (KU32 6); OGet (KU32 9)]
   | _ => [] end = [SawBool true; SawEntry (Some (KU32 5, 30)); SawValue None]) /\
  (match irs_from_vec Checked u8 [7; 5; 8; 5] with
   | Ok s => (irs_items s, irs_contains Checked u8 s 6, irs_get Checked u8 s 6, irs_contains Checked u8 s 9)
   | _ => ([], Ok false, Ok None, Ok false) end = ([5; 5; 7; 8], Ok true, Ok (Some 5), Ok false)) /\
  irm_from_vec Checked u8 [(5, 1); (7, 2)] = Panic PAssert.
Proof. exact ex_C97. Qed.

Example C97_case2 :
  let all := map (fun n => (Z.of_nat n - 128, tt)) (seq 0 256) in
  spans_from (-128) (map fst all) /\ zlen all - 1 > imax i8 /\
  irm_from_vec Checked i8 all = Panic POverflow /\ irm_from_vec Wrapping i8 all = Panic PUnwrapNone /\
  (match irm_from_vec Wrapping i8 (firstn 128 all) with Ok m => (irm_min m, irm_max m) | _ => (0, 0) end) = (-128, -1) /\
  irm_from_vec Wrapping i8 [(-100, tt); (100, tt)] = Panic PUnwrapNone.
Proof. exact ex_C97_wide. Qed.

(** ** C98: comparing collections with repeated keys *)

Theorem C98_repeated_set_comparisons :
  forall (T : Type) (eqb : T -> T -> bool) (D : T -> Prop) (s1 s2 : set_impl T),
  equivalence eqb -> lawful_set eqb D s1 -> lawful_set eqb D s2 ->
  let n1 := length (s_items s1) in
  let n2 := length (s_items s2) in
  let included l l' := forall x, member eqb l x -> member eqb l' x in
  (exists b, is_subset s1 s2 = Ok b /\ (b = true <-> (n1 <= n2)%nat /\ included (s_items s1) (s_items s2))) /\
  (exists b, is_superset s1 s2 = Ok b /\ (b = true <-> (n2 <= n1)%nat /\ included (s_items s2) (s_items s1))) /\
  (exists b, set_eq s1 s2 = Ok b /\ (b = true <-> n1 = n2 /\ included (s_items s1) (s_items s2))).
Proof. exact repeated_set_comparisons. Qed.
Print Assumptions C98_repeated_set_comparisons.

Theorem C98_repeated_set_eq_laws :
  forall (T : Type) (eqb : T -> T -> bool) (D : T -> Prop) (s1 s2 s3 : set_impl T),
  equivalence eqb -> lawful_set eqb D s1 -> lawful_set eqb D s2 -> lawful_set eqb D s3 ->
  set_eq s1 s1 = Ok true /\
  (set_eq s1 s2 = Ok true -> set_eq s2 s3 = Ok true -> set_eq s1 s3 = Ok true) /\
  (set_eq s1 s2 = Ok true -> distinct eqb (s_items s1) ->
     set_eq s2 s1 = Ok true /\ forall x, member eqb (s_items s1) x <-> member eqb (s_items s2) x).
Proof. exact repeated_set_eq_laws. Qed.
Print Assumptions C98_repeated_set_eq_laws.

(** FrozenSets with repetitions are sets as meant above. *)
Theorem C98_repeated_frozen_set :
  forall (O : Type) (eqbO : O -> O -> bool) (E : env) (kd : kind) (bh : hasher O)
         (items : list (key O)) (s : set_types O),
  env_ok E -> equivalence eqbO -> lawful_hash eqbO bh -> countable (prof E) (zlen items) ->
  (forall x, In x items -> has_kind kd x) ->
  (kd = KindU32 -> ~ full_span (map (fun x => (x, tt)) items)) ->
  fs_new E kd items bh = Ok s ->
  lawful_set (key_eqb eqbO) (has_kind kd) (fs_as_set eqbO E s) /\ Permutation items (s_items (fs_as_set eqbO E s)) /\
  forall x, has_kind kd x -> fs_get eqbO E s x = Ok (find (fun y => key_eqb eqbO x y) (s_items (fs_as_set eqbO E s))).
Proof. exact repeated_frozen_set. Qed.
Print Assumptions C98_repeated_frozen_set.

Theorem C98_filled_frozen_set :
  forall (O : Type) (eqbO : O -> O -> bool) (E : env) (bh : hasher O) (items : list (key O)) (s : set_types O) (mn : Z),
  4 <= zlen items -> zlen items < 2 ^ 32 -> (forall x, In x items -> has_kind KindU32 x) ->
  spans_from mn (map u32_of items) ->
  fs_new E KindU32 items bh = Ok s ->
  exists es, sorted_entries u32_of (map (fun x => (x, tt)) items) es /\ s_items (fs_as_set eqbO E s) = map fst es /\
    forall x, has_kind KindU32 x ->
    let place := offset_from mn (length items) (u32_of x) in
    fs_contains eqbO E s x = Ok (match place with Some _ => true | None => false end) /\
    fs_get eqbO E s x = Ok (match place with Some i => nth_error (map fst es) i | None => None end).
Proof. exact filled_frozen_set. Qed.
Print Assumptions C98_filled_frozen_set.

Theorem C98_repeated_map_eq :
  forall (O V : Type) (eqbO : O -> O -> bool) (veq : V -> V -> bool) (E : env) (kd : kind) (bh1 bh2 : hasher O)
         (p1 p2 : list (key O * V)) (m1 m2 : map_types O V),
  env_ok E -> equivalence eqbO -> lawful_hash eqbO bh1 -> lawful_hash eqbO bh2 ->
  countable (prof E) (zlen p1) -> countable (prof E) (zlen p2) -> zlen p2 < 2 ^ 64 ->
  typed kd p1 -> typed kd p2 -> (kd = KindU32 -> ~ full_span p2) ->
  fm_new E kd p1 bh1 = Ok m1 -> fm_new E kd p2 bh2 = Ok m2 ->
  exists es, laid_out (key_eqb eqbO) (fun k => k) (has_kind kd) p2 es (run eqbO E m2) /\
    exists b, fm_eq eqbO E veq m1 m2 = Ok b /\
      (b = true <-> length p1 = length p2 /\
         forall k v, In (k, v) p1 ->
         exists k' v', find (fun e => key_eqb eqbO k (fst e)) es = Some (k', v') /\ veq v v' = true).
Proof. exact repeated_map_eq. Qed.
Print Assumptions C98_repeated_map_eq.

Theorem C98_repeated_map_eq_self :
  forall (O V : Type) (eqbO : O -> O -> bool) (veq : V -> V -> bool) (E : env) (kd : kind) (bh : hasher O)
         (p : list (key O * V)) (m : map_types O V),
  env_ok E -> equivalence eqbO -> equivalence veq -> lawful_hash eqbO bh ->
  countable (prof E) (zlen p) -> zlen p < 2 ^ 64 ->
  typed kd p -> (kd = KindU32 -> ~ full_span p) ->
  fm_new E kd p bh = Ok m ->
  exists b, fm_eq eqbO E veq m m = Ok b /\
    (b = true <-> forall k v k' v', In (k, v) p -> In (k', v') p -> key_eqb eqbO k k' = true -> veq v v' = true).
Proof. exact repeated_map_eq_self. Qed.
Print Assumptions C98_repeated_map_eq_self.

Theorem C98_repeated_scanning_eq :
  forall (K V : Type) (eqb : K -> K -> bool) (veq : V -> V -> bool) (p1 p2 : list (K * V)),
  equivalence eqb ->
  exists b, mo_eq veq (sm_object eqb (fun k => k)) (sm_from_vec p1) (sm_from_vec p2) = Ok b /\
    (b = true <-> length p1 = length p2 /\
       forall k v, In (k, v) p1 -> exists k' v', find (fun e => eqb k (fst e)) p2 = Some (k', v') /\ veq v v' = true).
Proof. exact repeated_scanning_eq. Qed.
Print Assumptions C98_repeated_scanning_eq.

Theorem C98_repeated_common_eq_self :
  forall (K V BH : Type) (eqb : K -> K -> bool) (veq : V -> V -> bool) (hash : BH -> K -> Z)
         (E : env) (S_ty : int_type) (p : list (K * V)) (bh : BH) (m : common_map K V BH),
  env_ok E -> fits S_ty (zlen p) -> equivalence eqb -> equivalence veq ->
  (forall a b, eqb a b = true -> hash bh a = hash bh b) ->
  cm_from_vec hash E S_ty p bh = Ok m ->
  exists b, mo_eq veq (cm_object eqb (fun k => k) hash) m m = Ok b /\
    (b = true <-> forall k v k' v', In (k, v) p -> In (k', v') p -> eqb k k' = true -> veq v v' = true).
Proof. exact repeated_common_eq_self. Qed.
Print Assumptions C98_repeated_common_eq_self.

Theorem C98_repeated_integer_eq_self :
  forall (V : Type) (veq : V -> V -> bool) (E : env) (S_ty : int_type) (p : list (Z * V)) (m : integer_map V),
  env_ok E -> fits S_ty (zlen p) -> equivalence veq ->
  im_from_vec E S_ty p = Ok m ->
  exists b, mo_eq veq im_object m m = Ok b /\
    (b = true <-> forall k v v', In (k, v) p -> In (k, v') p -> veq v v' = true).
Proof. exact repeated_integer_eq_self. Qed.
Print Assumptions C98_repeated_integer_eq_self.

Theorem C98_repeated_length_eq_self :
  forall (K V : Type) (eqb : K -> K -> bool) (veq : V -> V -> bool) (len : K -> Z)
         (E : env) (S_ty : int_type) (p : list (K * V)) (m : length_map K V),
  env_ok E -> fits S_ty (zlen p) -> equivalence eqb -> equivalence veq ->
  (forall a b, eqb a b = true -> len a = len b) ->
  lm_from_vec len E S_ty p = Ok m ->
  exists b, mo_eq veq (lm_object eqb (fun k => k) len) m m = Ok b /\
    (b = true <-> forall k v k' v', In (k, v) p -> In (k', v') p -> eqb k k' = true -> veq v v' = true).
Proof. exact repeated_length_eq_self. Qed.
Print Assumptions C98_repeated_length_eq_self.

Theorem C98_repeated_left_slice_eq_self :
  forall (V BH : Type) (veq : V -> V -> bool) (hash_write : BH -> list Z -> Z) (E : env) (S_ty : int_type)
         (p : list (list Z * V)) (a b : Z) (bh : BH) (m : slice_map V BH),
  env_ok E -> fits S_ty (zlen p) -> 0 <= a <= b -> (forall k, In k (map fst p) -> b <= zlen k) -> equivalence veq ->
  lsm_from_vec hash_write E S_ty p a b bh = Ok m ->
  exists r, mo_eq veq (lsm_object hash_write) m m = Ok r /\
    (r = true <-> forall k v v', In (k, v) p -> In (k, v') p -> veq v v' = true).
Proof. exact repeated_left_slice_eq_self. Qed.
Print Assumptions C98_repeated_left_slice_eq_self.

Theorem C98_repeated_right_slice_eq_self :
  forall (V BH : Type) (veq : V -> V -> bool) (hash_write : BH -> list Z -> Z) (E : env) (S_ty : int_type)
         (p : list (list Z * V)) (a b : Z) (bh : BH) (m : slice_map V BH),
  env_ok E -> fits S_ty (zlen p) -> 0 <= b <= a -> (forall k, In k (map fst p) -> a <= zlen k < 2 ^ 64) -> equivalence veq ->
  rsm_from_vec hash_write E S_ty p a b bh = Ok m ->
  exists r, mo_eq veq (rsm_object hash_write E) m m = Ok r /\
    (r = true <-> forall k v v', In (k, v) p -> In (k, v') p -> veq v v' = true).
Proof. exact repeated_right_slice_eq_self. Qed.
Print Assumptions C98_repeated_right_slice_eq_self.

(** IntegerRangeMap, by place. *)
Theorem C98_filled_range_map_eq :
  forall (V : Type) (veq : V -> V -> bool) (pr : profile) (ty : int_type) (p1 p2 : list (Z * V))
         (m1 m2 : integer_range_map V) (mn : Z),
  1 <= bits ty -> p2 <> [] -> zlen p2 < 2 ^ 64 ->
  (forall x y, In x (map fst p2) -> In y (map fst p2) -> x - y <= imax ty /\ x - y < 2 ^ 64) ->
  spans_from mn (map fst p2) ->
  irm_from_vec pr ty p1 = Ok m1 -> irm_from_vec pr ty p2 = Ok m2 ->
  exists es, sorted_entries (fun k => k) p2 es /\
  exists b, mo_eq veq (irm_object pr ty) m1 m2 = Ok b /\
    (b = true <-> length p1 = length p2 /\
       forall k v, In (k, v) p1 ->
       exists i e, offset_from mn (length p2) k = Some i /\ nth_error es i = Some e /\ veq v (snd e) = true).
Proof. exact filled_range_map_eq. Qed.
Print Assumptions C98_filled_range_map_eq.

Theorem C98_repeated_map_eq_not_reflexive_refuted :
  exists p : list (key Z * Z), typed KindU32 p /\
    forall (E : env) (bh : hasher Z), exists m, fm_new E KindU32 p bh = Ok m /\ fm_eq Z.eqb E Z.eqb m m = Ok false.
Proof. exact repeated_map_eq_not_reflexive_refuted. Qed.
Print Assumptions C98_repeated_map_eq_not_reflexive_refuted.

Theorem C98_repeated_set_eq_not_symmetric_refuted :
  exists i1 i2 : list (key Z),
    forall (E : env) (bh : hasher Z), exists s1 s2,
      fs_new E KindU32 i1 bh = Ok s1 /\ fs_new E KindU32 i2 bh = Ok s2 /\
      fs_eq Z.eqb E s1 s2 = Ok true /\ fs_eq Z.eqb E s2 s1 = Ok false.
Proof. exact repeated_set_eq_not_symmetric_refuted. Qed.
Print Assumptions C98_repeated_set_eq_not_symmetric_refuted.

Example C98_case :
  ~ full_span (map (fun x => (x, tt)) (map (@KU32 Z) [1; 1; 9; 20; 9])) /\
  is_subset (numbers_set [1; 1; 9; 20; 9]) (numbers_set [1; 9; 20; 40]) = Ok false /\
  set_eq (numbers_set [1; 1; 9; 20; 9]) (numbers_set [20; 40; 9; 1; 60]) = Ok true /\
  set_eq (numbers_set [20; 40; 9; 1; 60]) (numbers_set [1; 1; 9; 20; 9]) = Ok false /\
  compared [(1, 5); (9, 6); (1, 5); (30, 7)] [(1, 5); (9, 6); (1, 5); (30, 7)] = Ok true /\
  compared [(1, 5); (9, 6); (1, 4); (30, 7)] [(1, 5); (9, 6); (1, 4); (30, 7)] = Ok false /\
  compared [(1, 5); (9, 6); (1, 5); (30, 7)] [(1, 5); (9, 6); (40, 4); (30, 7)] = Ok true /\
  mo_eq Z.eqb (sm_object Z.eqb (fun k => k)) (sm_from_vec [(1, 5); (1, 4)]) (sm_from_vec [(1, 5); (1, 4)]) = Ok false /\
  mo_eq Z.eqb (sm_object Z.eqb (fun k => k)) (sm_from_vec [(1, 5); (1, 5)]) (sm_from_vec [(1, 5); (2, 4)]) = Ok true /\
  (m <- irm_from_vec Checked u8 filled_range ;; mo_eq Z.eqb (irm_object Checked u8) m m) = Ok false /\
  (m <- irm_from_vec Checked u8 [(5, 1); (5, 1); (7, 2)] ;; mo_eq Z.eqb (irm_object Checked u8) m m) = Ok true /\
  (m <- lsm_from_vec (fun (_ : unit) (s : list Z) => zlen s) checked_env u8 [([1; 2], 5); ([1; 2], 4)] 0 1 tt ;;
     mo_eq Z.eqb (lsm_object (fun (_ : unit) (s : list Z) => zlen s)) m m) = Ok false /\
  spans_from 5 (map u32_of (map (@KU32 Z) [7; 5; 8; 5])) /\
  s_contains (numbers_set [7; 5; 8; 5]) (KU32 6) = Ok true /\ s_items (numbers_set [7; 5; 8; 5]) = map (@KU32 Z) [5; 5; 7; 8].
Proof. exact ex_C98. Qed.
