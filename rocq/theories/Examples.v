(** Concrete cases meeting the hypotheses of the theorems of Properties.v. *)
From Coq Require Import List ZArith Bool Arith Lia Permutation Sorted Znumtheory.
From Coq Require String.
Import String.StringSyntax.
From Verif Require Import Spec MapSpec SetSpec IterSpec HistorySpec Base BaseLemmas EqbLists HashCodeAnalyzer
  IntKeyAnalyzer SliceKeyAnalyzer HashTable Maps FrozenMap FrozenMapFacts Iterators SetOps Sets FrozenSet History
  MacroModel IntWrapProofs MacroProofs MapTheorems ComponentTheorems SetTheorems Refutations HugeMap ObjectSpec
  MapObjects SetObjects UsizeAnalyzer SizeSpec TableSizeProofs LookupCost CostSpec DebugModel Constructors
  MacroParse ParseSpec ExprSpec SpecializedConstructors
  ManyMut FloatSpec AnalysisCost SliceCost SetRunning RunSpec SetRunningProofs Volatile CallSpec VolatileSets VolatileSetSpec
  Borrows BorrowSpec Naming NamingSpec Cloning CloneSpec.
From Verif Require PlaceSpec RepeatedSpec EmitRun WrittenSpec Benchmarks MacroEmit EmitSpec Walks WalkSpec DocExamples DocExampleProofs ProjectTests CollisionSpec ProjectTestProofs MapsProofs StdSets StdSetSpec LawfulCloneSpec SpecialClone SpecialCloneSpec LenModel LenSpec MapBorrows MapBorrowSpec IteratorUse IteratorUseSpec VolatileMaps VolatileMapSpec EffectSpec SpecialCallSpec SpecialSets SpecialSetSpec VolatileRange RangeSpec.
Import ListNotations.
Open Scope Z_scope.

(** ** Environments, key equality, hashers *)

Definition checked_env : env := {| prof := Checked; usort := @stable_sort |}.
Definition wrapping_env : env := {| prof := Wrapping; usort := @stable_sort |}.
(** An unstable sort: sorts the reversed input. *)
Definition unstable_env : env := {| prof := Checked; usort := fun A key l => stable_sort key (rev l) |}.

Lemma stable_env_ok pr : env_ok {| prof := pr; usort := @stable_sort |}.
Proof. intros A key l. split; [apply stable_sort_perm|apply stable_sort_sorted]. Qed.
Lemma checked_env_ok : env_ok checked_env. Proof. apply stable_env_ok. Qed.
Lemma wrapping_env_ok : env_ok wrapping_env. Proof. apply stable_env_ok. Qed.
Lemma unstable_env_ok : env_ok unstable_env.
Proof.
  intros A key l. split; [|apply stable_sort_sorted].
  rewrite (Permutation_rev l) at 1. apply stable_sort_perm.
Qed.

(** An ordinary key type: integers compared modulo 1000, so that equal keys need not be
    identical. *)
Definition mod_eqb (a b : Z) : bool := a mod 1000 =? b mod 1000.
Lemma mod_eqb_equiv : equivalence mod_eqb.
Proof. unfold mod_eqb. constructor; intros; lia. Qed.

(** A lawful hasher. *)
Definition poly (s : list Z) : Z := fold_left (fun a b => (a * 31 + b) mod 2 ^ 64) s 7.
Definition sample_hasher : hasher Z :=
  {| hash_one := fun k => match k with KU32 n => n * 3 | KStr s => poly s | KOther a => (a mod 1000) * 7 end;
     hash_one_slice := poly; hash_write := poly |}.
(** A lawful hasher under which many keys collide. *)
Definition poor_hasher : hasher Z :=
  {| hash_one := fun k => match k with KU32 n => n mod 2 | KStr s => zlen s | KOther a => (a mod 1000) / 100 end;
     hash_one_slice := fun _ => 5; hash_write := fun s => zlen s |}.
Lemma sample_lawful : lawful_hash mod_eqb sample_hasher.
Proof. intros a b H. unfold mod_eqb in H. apply Z.eqb_eq in H. cbn [hash_one sample_hasher]. now rewrite H. Qed.
Lemma poor_lawful : lawful_hash mod_eqb poor_hasher.
Proof. intros a b H. unfold mod_eqb in H. apply Z.eqb_eq in H. cbn [hash_one poor_hasher]. now rewrite H. Qed.

(** ** Checkers for the hypotheses *)

Definition has_kindb (kd : kind) (k : key Z) : bool :=
  match kd, k with
  | KindU32, KU32 n => (0 <=? n) && (n <? 2 ^ 32)
  | KindString, KStr s => zlen s <? 2 ^ 64
  | KindOther, KOther _ => true
  | _, _ => false
  end.
Lemma has_kindb_ok kd k : has_kindb kd k = true -> has_kind kd k.
Proof. destruct kd, k; cbn [has_kindb has_kind]; try discriminate; auto; lia. Qed.

Definition distinctb {K} (eqb : K -> K -> bool) : list K -> bool :=
  fix go l := match l with [] => true | k :: l' => forallb (fun k' => negb (eqb k k')) l' && go l' end.
Lemma distinctb_ok {K} (eqb : K -> K -> bool) l : distinctb eqb l = true -> distinct eqb l.
Proof.
  induction l as [|k l IH]; cbn [distinctb distinct]; auto. intros H. apply andb_prop in H. destruct H as (H1 & H2).
  split; auto. intros k' Hk'. rewrite forallb_forall in H1. specialize (H1 k' Hk'). now apply negb_true_iff in H1.
Qed.

(** ** Payloads selecting every representation *)

Record scenario : Type := {
  sc_env : env; sc_kind : kind; sc_hasher : hasher Z; sc_payload : list (key Z * Z)
}.

Definition numbers (a step : Z) (n : nat) : list Z := map (fun i => a + step * Z.of_nat i) (seq 0 n).
Definition others (l : list Z) : list (key Z * Z) := map (fun a => (KOther a, a * 10)) l.
Definition u32s (l : list Z) : list (key Z * Z) := map (fun a => (KU32 a, a * 10)) l.
Definition strs (l : list (list Z)) : list (key Z * Z) := map (fun s => (KStr s, zlen s * 10 + hd 0 s)) l.

(** ["a"; "bb"; "ccc"; "dddd"; "eeeee"] *)
Definition lengths5 : list (list Z) := [[97]; [98;98]; [99;99;99]; [100;100;100;100]; [101;101;101;101;101]].
(** ["Xa"; "Xb"; "Xc"; "Xd"; "Xee"] *)
Definition lefts5 : list (list Z) := [[88;97]; [88;98]; [88;99]; [88;100]; [88;101;101]].
(** 300 distinct strings of the form "p" c "yz" ... of equal length *)
Definition lefts300 : list (list Z) := map (fun c => [112; c / 20; c mod 20; 122]) (numbers 0 1 300).

Definition scenarios : list scenario :=
  [ {| sc_env := checked_env; sc_kind := KindOther; sc_hasher := sample_hasher; sc_payload := others [1; 2; 3] |};
    {| sc_env := checked_env; sc_kind := KindOther; sc_hasher := sample_hasher; sc_payload := others [5; 17; 103; 998; 42; 7] |};
    {| sc_env := unstable_env; sc_kind := KindOther; sc_hasher := poor_hasher; sc_payload := others (numbers 0 3 300) |};
    {| sc_env := wrapping_env; sc_kind := KindU32; sc_hasher := sample_hasher; sc_payload := u32s [4; 8; 15; 16; 23; 42] |};
    {| sc_env := checked_env; sc_kind := KindU32; sc_hasher := sample_hasher; sc_payload := u32s (numbers 10 2 300) |};
    {| sc_env := wrapping_env; sc_kind := KindU32; sc_hasher := sample_hasher; sc_payload := u32s [12; 10; 13; 11; 14] |};
    {| sc_env := checked_env; sc_kind := KindString; sc_hasher := sample_hasher; sc_payload := strs lengths5 |};
    {| sc_env := unstable_env; sc_kind := KindString; sc_hasher := sample_hasher; sc_payload := strs lefts5 |};
    {| sc_env := wrapping_env; sc_kind := KindString; sc_hasher := sample_hasher; sc_payload := strs lefts300 |};
    {| sc_env := checked_env; sc_kind := KindString; sc_hasher := poor_hasher;
       sc_payload := strs [[88;97]; [88;98]; [88;99]; [88;100]; [88;101]] |};
    {| sc_env := checked_env; sc_kind := KindString; sc_hasher := poor_hasher; sc_payload := strs lefts300 |} ].

(** Constructor number in [map_types]. *)
Definition representation (m : map_types Z Z) : nat :=
  match m with
  | MScanning _ => 0 | MCommonSmall _ => 1 | MCommonLarge _ => 2
  | MU32Small _ => 3 | MU32Large _ => 4 | MU32Range _ => 5
  | MLeftStringSliceSmall _ => 6 | MLeftStringSliceLarge _ => 7
  | MRightStringSliceSmall _ => 8 | MRightStringSliceLarge _ => 9
  | MStringLengthSmall _ => 10
  end%nat.
Definition built_as (sc : scenario) : option nat :=
  match fm_new (sc_env sc) (sc_kind sc) (sc_payload sc) (sc_hasher sc) with
  | Ok m => Some (representation m)
  | _ => None
  end.

Lemma ex_representations :
  map built_as scenarios =
    [Some 0; Some 1; Some 2; Some 3; Some 4; Some 5; Some 10; Some 6; Some 7; Some 1; Some 2]%nat.
Proof. vm_compute. reflexivity. Qed.

(** The hypotheses shared by the theorems about FrozenMap. *)
Definition meets_hypotheses (sc : scenario) : Prop :=
  env_ok (sc_env sc) /\ equivalence mod_eqb /\ lawful_hash mod_eqb (sc_hasher sc) /\
  countable (prof (sc_env sc)) (zlen (sc_payload sc)) /\ zlen (sc_payload sc) < 2 ^ 31 /\
  typed (sc_kind sc) (sc_payload sc) /\
  distinct (key_eqb mod_eqb) (map fst (sc_payload sc)) /\
  exists m, fm_new (sc_env sc) (sc_kind sc) (sc_payload sc) (sc_hasher sc) = Ok m.

Lemma typedb_ok kd (p : list (key Z * Z)) : forallb (fun e => has_kindb kd (fst e)) p = true -> typed kd p.
Proof. intros H e He. rewrite forallb_forall in H. apply has_kindb_ok. now apply H. Qed.

Lemma check_scenario sc :
  env_ok (sc_env sc) -> lawful_hash mod_eqb (sc_hasher sc) ->
  forallb (fun e => has_kindb (sc_kind sc) (fst e)) (sc_payload sc)
    && distinctb (key_eqb mod_eqb) (map fst (sc_payload sc)) && (zlen (sc_payload sc) <? 2 ^ 31)
    && match built_as sc with Some _ => true | None => false end = true ->
  meets_hypotheses sc.
Proof.
  intros HE Hl H. apply andb_prop in H; destruct H as (H & H4). apply andb_prop in H; destruct H as (H & H3).
  apply andb_prop in H; destruct H as (H1 & H2).
  split; auto. split; [apply mod_eqb_equiv|]. split; auto. apply Z.ltb_lt in H3. split; [right; lia|]. split; auto.
  split; [now apply typedb_ok|]. split; [now apply distinctb_ok|].
  unfold built_as in H4. destruct (fm_new _ _ _ _); try discriminate. eauto.
Qed.

Lemma ex_hypotheses : Forall meets_hypotheses scenarios.
Proof.
  repeat (apply Forall_cons; [apply check_scenario|]); try apply Forall_nil;
    cbn [sc_env sc_hasher sc_kind];
    first [apply checked_env_ok | apply wrapping_env_ok | apply unstable_env_ok | apply sample_lawful
          | apply poor_lawful | vm_compute; reflexivity].
Qed.

(** ** What the maps answer *)

(** All lookups in a scenario: values of the supplied keys, then the answers for keys that
    were not supplied. *)
Definition answers (sc : scenario) (absent : list (key Z)) : res (list (option Z) * list (option Z)) :=
  m <- fm_new (sc_env sc) (sc_kind sc) (sc_payload sc) (sc_hasher sc) ;;
  found <- mapM (fun e => fm_get mod_eqb (sc_env sc) m (fst e)) (sc_payload sc) ;;
  missed <- mapM (fm_get mod_eqb (sc_env sc) m) absent ;;
  Ok (found, missed).
Definition absent_keys (kd : kind) : list (key Z) :=
  match kd with
  | KindU32 => [KU32 0; KU32 9; KU32 4294967295]
  | KindString => [KStr []; KStr [88]; KStr [120;120]; KStr [112;0;0;0;0;0;0]]
  | KindOther => [KOther 4; KOther 10001; KOther (-1)]
  end.

(** Every supplied key is found with its value, absent ones are not, in every
    representation. *)
Lemma ex_C01 : Forall (fun sc =>
    answers sc (filter (fun k => negb (existsb (key_eqb mod_eqb k) (map fst (sc_payload sc)))) (absent_keys (sc_kind sc))) =
    Ok (map (fun e => Some (snd e)) (sc_payload sc),
        map (fun _ => None) (filter (fun k => negb (existsb (key_eqb mod_eqb k) (map fst (sc_payload sc)))) (absent_keys (sc_kind sc)))))
  scenarios.
Proof. repeat (apply Forall_cons; [vm_compute; reflexivity|]). apply Forall_nil. Qed.

(** Proves [exists m, r = Ok m /\ P m] without normalizing the functions stored in [m]. *)
Lemma with_ok {A} (r : res A) (P : A -> Prop) :
  match r with Ok m => P m | _ => False end -> exists m, r = Ok m /\ P m.
Proof. destruct r; try contradiction. eauto. Qed.

Lemma with_ok3 {A} (r1 r2 r3 : res A) (P : A -> A -> A -> Prop) :
  match r1, r2, r3 with Ok m1, Ok m2, Ok m3 => P m1 m2 m3 | _, _, _ => False end ->
  exists m1, r1 = Ok m1 /\ exists m2, r2 = Ok m2 /\ exists m3, r3 = Ok m3 /\ P m1 m2 m3.
Proof. destruct r1, r2, r3; try contradiction. eauto 10. Qed.

Definition small_map : res (map_types Z Z) :=
  fm_new checked_env KindOther (others [5; 17; 103; 998; 42; 7]) sample_hasher.

Lemma ex_C02 : exists m, small_map = Ok m /\
  fm_get mod_eqb checked_env m (KOther 1042) = Ok (Some 420) /\
  fm_get_key_value mod_eqb checked_env m (KOther 1042) = Ok (Some (KOther 42, 420)) /\
  fm_contains_key mod_eqb checked_env m (KOther 1042) = Ok true /\
  (exists i, fm_get_mut mod_eqb checked_env m (KOther 1042) = Ok (Some i)) /\
  fm_get mod_eqb checked_env m (KOther 6) = Ok None /\
  fm_contains_key mod_eqb checked_env m (KOther 6) = Ok false.
Proof. apply with_ok. vm_compute. repeat split. eexists. reflexivity. Qed.

Lemma ex_C03 : exists m, small_map = Ok m /\ fm_len m = 6 /\ fm_is_empty m = false /\
  map snd (fm_iter m) <> map snd (others [5; 17; 103; 998; 42; 7]).
Proof. apply with_ok. vm_compute. repeat split. discriminate. Qed.

Lemma ex_C04 : zlen (others (numbers 0 3 300)) < 2 ^ 31 /\ env_ok unstable_env /\
  exists m, fm_new unstable_env KindOther (others (numbers 0 3 300)) poor_hasher = Ok m /\ fm_len m = 300.
Proof. split; [reflexivity|]. split; [apply unstable_env_ok|]. apply with_ok. vm_compute. reflexivity. Qed.

Lemma ex_C05 :
  let p := u32s [12; 10; 13; 11; 14] in
  typed KindU32 p /\ NoDup (map (fun e => u32_of (fst e)) p) /\ consecutive (map (fun e => u32_of (fst e)) p).
Proof.
  cbv zeta. split; [now apply typedb_ok|].
  change (map _ _) with [12; 10; 13; 11; 14]. split; [repeat constructor; cbn; lia|].
  exists 10. change (interval 10 _) with [10; 11; 12; 13; 14].
  change [12; 10; 13; 11; 14] with ([12] ++ 10 :: [13; 11; 14]).
  rewrite <- (Permutation_middle [12] [13; 11; 14] 10). cbn [app]. constructor.
  change [12; 13; 11; 14] with ([12; 13] ++ 11 :: [14]).
  rewrite <- (Permutation_middle [12; 13] [14] 11). reflexivity.
Qed.

(** The three outcomes all occur. *)
Lemma ex_C06 :
  (exists m, fm_new checked_env KindString (strs lefts5) sample_hasher = Ok m /\ fm_len m = 5) /\
  fm_new checked_env KindString (string_payload ub_keys) sample_hasher = UB OutOfBounds /\
  fm_new checked_env KindString (string_payload panic_keys) sample_hasher = Panic PIndexOutOfBounds.
Proof. split; [apply with_ok; vm_compute; reflexivity|]. split; vm_compute; reflexivity. Qed.

(** "abc" "abd" "xbe" "ybe" *)
Definition tails : list (list Z * Z) := [([97;98;99], 1); ([97;98;100], 2); ([120;98;101], 3); ([121;98;101], 4)].
Lemma tails_distinct : distinct bytes_eqb (map fst tails). Proof. now apply distinctb_ok. Qed.
Lemma tails_fit : fits u8 (zlen tails). Proof. unfold fits. change (imin u8) with 0. change (imax u8) with 255. change (zlen tails) with 4. lia. Qed.
Lemma tails_long e : In e tails -> 3 <= zlen (fst e) < 2 ^ 64.
Proof. intros H. cbn in H. intuition subst; unfold zlen; cbn; lia. Qed.

Lemma ex_C07 :
  fits u8 (zlen tails) /\ (forall e, In e tails -> 2 <= zlen (fst e) < 2 ^ 64) /\ distinct bytes_eqb (map fst tails) /\
  rsm_from_vec hash_write checked_env u8 tails 0 1 sample_hasher = UB OutOfBounds /\
  exists m, rsm_from_vec hash_write checked_env u8 tails 2 0 sample_hasher = Ok m /\
    rsm_get hash_write checked_env m [97;98;100] = Ok (Some 2) /\
    rsm_get hash_write checked_env m [97] = Ok None.
Proof.
  split; [apply tails_fit|]. split; [intros e He; apply tails_long in He; lia|]. split; [apply tails_distinct|].
  split; [vm_compute; reflexivity|]. apply with_ok. vm_compute. auto.
Qed.

Lemma ex_C08 :
  fits u8 (zlen tails) /\ (forall e, In e tails -> 3 <= zlen (fst e)) /\ distinct bytes_eqb (map fst tails) /\
  (exists m, lsm_from_vec hash_write checked_env u8 tails 1 3 sample_hasher = Ok m /\
    lsm_get hash_write m [120;98;101] = Ok (Some 3) /\ lsm_get hash_write m [98;101] = Ok None) /\
  lsm_from_vec hash_write checked_env u8 tails 2 4 sample_hasher = UB OutOfBounds.
Proof.
  split; [apply tails_fit|]. split; [intros e He; apply tails_long in He; lia|]. split; [apply tails_distinct|].
  split; [|vm_compute; reflexivity]. apply with_ok. vm_compute. auto.
Qed.

(** Duplicate keys 7 and 1007. *)
Lemma ex_C09 : exists m,
  fm_new checked_env KindOther [(KOther 7, 1); (KOther 3, 2); (KOther 1007, 3); (KOther 4, 4); (KOther 5, 5)] sample_hasher = Ok m /\
  (fm_get mod_eqb checked_env m (KOther 7) = Ok (Some 1) \/ fm_get mod_eqb checked_env m (KOther 7) = Ok (Some 3)) /\
  fm_get mod_eqb checked_env m (KOther 8) = Ok None.
Proof. apply with_ok. vm_compute. auto. Qed.

Lemma ex_C10 : exists m, small_map = Ok m /\
  exists i, fm_get_mut mod_eqb checked_env m (KOther 17) = Ok (Some i) /\
  fm_get mod_eqb checked_env m (KOther 17) = Ok (Some 170) /\
  fm_get mod_eqb checked_env (fm_write i 5 m) (KOther 17) = Ok (Some 5) /\
  fm_get mod_eqb checked_env (fm_write i 5 m) (KOther 42) = Ok (Some 420).
Proof. apply with_ok. vm_compute. eexists. repeat split; reflexivity. Qed.

Lemma ex_C11 : exists m, small_map = Ok m /\
  (exists i j, fm_get_many_mut mod_eqb checked_env m [KOther 42; KOther 5] = Ok (Some [i; j]) /\ i <> j) /\
  fm_get_many_mut mod_eqb checked_env m [KOther 42; KOther 1042] = Ok None /\
  fm_get_many_mut mod_eqb checked_env m [KOther 42; KOther 6] = Ok None.
Proof.
  apply with_ok. vm_compute. split; [|auto]. do 2 eexists. split; [reflexivity|discriminate].
Qed.

Lemma ex_C13 : exists m, small_map = Ok m /\
  fm_index mod_eqb checked_env m (KOther 103) = Ok 1030 /\
  fm_index mod_eqb checked_env m (KOther 104) = Panic PUnwrapNone.
Proof. apply with_ok. vm_compute. auto. Qed.

(** Three maps: the second equal to the first, the third not. *)
Lemma ex_C14 : exists m1, fm_new checked_env KindOther (others [5; 17; 103; 998; 42]) sample_hasher = Ok m1 /\
  exists m2, fm_new checked_env KindOther (rev (others [5; 17; 103; 998; 42])) poor_hasher = Ok m2 /\
  exists m3, fm_new checked_env KindOther (others [5; 17; 103; 998; 41]) poor_hasher = Ok m3 /\
  fm_eq mod_eqb checked_env Z.eqb m1 m2 = Ok true /\ fm_eq mod_eqb checked_env Z.eqb m1 m3 = Ok false.
Proof. apply with_ok3. vm_compute. auto. Qed.

(** ** Components *)

Definition five : list (Z * Z) := [(10, 1); (20, 2); (31, 3); (40, 4); (52, 5)].

(** Analysis, construction and lookup use unrelated hash codes. *)
Lemma ex_C15 : exists s c, analyze_hash_codes [1; 2; 3; 4; 5] = Ok (s, c) /\
  exists t, ht_new checked_env u8 five s (fun k => Ok (k * k)) = Ok t /\
  (range <- ht_get_hash_info t 12345678901234567 ;; ht_probe t range (fun k => k =? 20)) = Ok None /\
  (range <- ht_get_hash_info t 31 ;; ht_probe t range (fun k => k =? 31)) <> Ok None.
Proof.
  do 2 eexists. split; [vm_compute; reflexivity|]. apply with_ok. vm_compute. split; [reflexivity|discriminate].
Qed.

(** Three slots; four of the five codes are 1 modulo 3. *)
Lemma ex_C16 : exists t, ht_new checked_env u8 five 3 (fun k => Ok k) = Ok t /\
  exists a b, ht_get_hash_info t 7 = Ok (a, b) /\ b - a = 4.
Proof. apply with_ok. vm_compute. do 2 eexists. split; reflexivity. Qed.

Lemma ex_C17 : numbers 5 7 40 <> [] /\
  exists s c, analyze_hash_codes (numbers 5 7 40) = Ok (s, c) /\ 38 <= s <= size_limit 40.
Proof.
  split; [discriminate|].
  do 2 eexists. split; [vm_compute; reflexivity|]. vm_compute. split; discriminate.
Qed.

(** A perfect size exists for the first list and none for the second. *)
Lemma ex_C18 : analyze_hash_codes [0; 5; 10; 15; 20] = Ok (6, 0) /\ analyze_hash_codes [7; 7; 7; 8; 9] = Ok (5, 2).
Proof. split; vm_compute; reflexivity. Qed.

Lemma ex_C19 : (exists r, analyze_hash_codes (numbers 0 7 200) = Ok r) /\
  exists l, candidate_sizes 200 (200 - 10) (size_limit 200) = Ok (200 :: l) /\ l <> [].
Proof.
  split; [eexists; vm_compute; reflexivity|]. eexists. split; [vm_compute; reflexivity|discriminate].
Qed.

Lemma ex_C19_w : analyze_hash_codes_w Checked (numbers 0 200 200) = Ok (239, 0) /\ zlen (numbers 0 200 200) < 2 ^ 60.
Proof. split; vm_compute; reflexivity. Qed.

Lemma ex_C20 : is_prime 10403 = Ok false /\ is_prime 10007 = Ok true /\ 10403 = 101 * 103.
Proof. split; [vm_compute; reflexivity|]. split; vm_compute; reflexivity. Qed.

Lemma ex_C21 :
  analyze_int_keys Checked i8 [-3; -1; -2; 0] = Ok IntRange /\ analyze_int_keys Checked i8 [-3; -1; -2; 1] = Ok IntNormal /\
  analyze_int_keys Checked i8 [-100; 100; 0] = Panic POverflow.
Proof. repeat split; vm_compute; reflexivity. Qed.

Lemma ex_C22 :
  (exists m, irm_from_vec Checked u16 [(7, 70); (5, 50); (6, 60)] = Ok m /\
     irm_get Checked u16 m 6 = Ok (Some 60) /\ irm_get Checked u16 m 4 = Ok None /\ irm_get Checked u16 m 8 = Ok None) /\
  irm_from_vec Checked u16 [(7, 70); (5, 50); (9, 60)] = Panic PAssert.
Proof. split; [|vm_compute; reflexivity]. apply with_ok. vm_compute. auto. Qed.

Lemma ex_C23 : analyze_slice_keys poly lengths5 = Ok SliceLength /\ analyze_slice_keys poly lefts5 <> Ok SliceLength.
Proof. split; vm_compute; [reflexivity|discriminate]. Qed.

Lemma ex_C24 : analyze_slice_keys poly lefts5 = Ok (LeftHandSubslice 1 1) /\
  analyze_slice_keys poly lefts300 = Ok (LeftHandSubslice 1 2) /\
  analyze_slice_keys poly ub_keys = Ok (RightHandSubslice 0 1) /\
  analyze_slice_keys (fun _ => 5) [[88;97]; [88;98]; [88;99]; [88;100]] = Ok SliceNormal.
Proof. repeat split; vm_compute; reflexivity. Qed.

(** Partially consumed iterators over three entries. *)
Definition three : list (Z * Z) := [(1, 10); (2, 20); (3, 30)].
Lemma ex_C25 : f64_five_percent 1234567 = 61728 /\ f64_five_percent 39 = 1.
Proof. split; vm_compute; reflexivity. Qed.

Lemma ex_C26 : exists its, calls (keys_next Checked) 2 (keys_new three) = Ok ([Some 1; Some 2], its) /\
  it_len Checked its = Ok 1 /\ keys_fold Checked (fun a k => a + k) 100 its = Ok 103 /\
  (exists r, calls (values_next Checked) 5 (values_new three) = Ok ([Some 10; Some 20; Some 30; None; None], r)).
Proof. eexists. split; [vm_compute; reflexivity|]. repeat split; try (vm_compute; reflexivity). eexists. vm_compute. reflexivity. Qed.

Lemma ex_C27 : exists it, calls (keys_next Checked) 1 (it_new (with_unit [1; 2; 3])) = Ok ([Some 1], it) /\
  it_len Checked it = Ok 2 /\ set_it_count Checked it = Ok 1 /\
  calls into_iter_next 2 (into_iter_new (with_unit [1; 2; 3])) = Ok ([Some 1; Some 2], with_unit [3]).
Proof. eexists. split; [vm_compute; reflexivity|]. repeat split; vm_compute; reflexivity. Qed.

Lemma ex_C40 :
  fits u8 (zlen (numbers 0 1 255)) /\ imax u8 < zlen (numbers 0 1 256) /\
  im_from_vec checked_env u8 (map (fun k => (k, k)) (numbers 0 1 256)) = Panic PCapacity /\
  im_from_vec checked_env u128 three = Panic PUnwrapNone.
Proof. split; [unfold fits; change (imin u8) with 0; change (imax u8) with 255; change (zlen (numbers 0 1 255)) with 255; lia|]. repeat split; vm_compute; reflexivity. Qed.

Lemma ex_C41 :
  (exists m, im_from_vec checked_env u8 five = Ok m /\ im_get m 31 = Ok (Some 3) /\ im_get m 32 = Ok None) /\
  (exists m, lm_from_vec zlen checked_env u8 tails = Ok m /\
     lm_get bytes_eqb (fun k => k) zlen m [97;98;100] = Ok (Some 2) /\ lm_get bytes_eqb (fun k => k) zlen m [97] = Ok None) /\
  sm_get mod_eqb (fun k => k) (sm_from_vec three) 1002 = Ok (Some 20).
Proof.
  split; [apply with_ok; vm_compute; auto|]. split; [apply with_ok; vm_compute; auto|vm_compute; reflexivity].
Qed.

(** The analysis of full-width key sets. *)
Lemma ex_C43 :
  analyze_int_keys Wrapping u8 (numbers 0 1 256) = Ok IntNormal /\ analyze_int_keys Checked u8 (numbers 0 1 256) = Panic POverflow /\
  analyze_int_keys Wrapping u8 (numbers 0 1 255) = Ok IntRange /\ analyze_int_keys Wrapping i8 [-128; 127] = Ok IntNormal /\
  analyze_int_keys Wrapping i8 (numbers (-128) 1 200) = Ok IntRange.
Proof. repeat split; vm_compute; reflexivity. Qed.

(** ** Sets *)

Definition sample_sets : list (set_impl Z) :=
  [hash_set_of mod_eqb [1; 2; 3; 4]; hash_set_of mod_eqb [3; 1004; 5]; hash_set_of mod_eqb [2; 1]].
Lemma hash_set_of_lawful l : lawful_set mod_eqb (fun _ => True) (hash_set_of mod_eqb l).
Proof.
  constructor; cbn; auto. intros x _. eexists. split; [reflexivity|]. unfold member. rewrite existsb_exists.
  split; intros (y & H1 & H2); exists y; auto.
Qed.
Lemma sample_sets_ok : Forall (fun s => lawful_set mod_eqb (fun _ => True) s /\ distinct mod_eqb (s_items s)) sample_sets.
Proof. repeat (apply Forall_cons; [split; [apply hash_set_of_lawful|now apply distinctb_ok]|]). apply Forall_nil. Qed.

Definition set_a : set_impl Z := hash_set_of mod_eqb [1; 2; 3; 4].
Definition set_b : set_impl Z := hash_set_of mod_eqb [3; 1004; 5].
Definition set_c : set_impl Z := hash_set_of mod_eqb [2; 1].
(** The items produced by an iterator. *)
Definition items_of {St} (next : St -> res (option Z * St)) (s : St) : res (list (option Z)) :=
  r <- calls next 6 s ;; Ok (fst r).

Lemma ex_C28 : items_of (union_next set_a set_b) (pair_new set_a set_b) =
  Ok [Some 1; Some 2; Some 3; Some 4; Some 5; None].
Proof. vm_compute. reflexivity. Qed.
Lemma ex_C29 : items_of (intersection_next set_a set_b) (pair_new set_a set_b) = Ok [Some 3; Some 1004; None; None; None; None].
Proof. vm_compute. reflexivity. Qed.
Lemma ex_C30 : items_of (difference_next set_a set_b) (difference_new set_a set_b) = Ok [Some 1; Some 2; None; None; None; None] /\
  items_of (symmetric_difference_next set_a set_b) (pair_new set_a set_b) = Ok [Some 1; Some 2; Some 5; None; None; None].
Proof. split; vm_compute; reflexivity. Qed.
Lemma ex_C31 : within 5 (union_size_hint set_a set_b) /\ within 2 (intersection_size_hint set_a set_b) /\
  within 2 (difference_size_hint set_a set_b) /\ within 3 (symmetric_difference_size_hint set_a set_b) /\
  ~ within 8 (union_size_hint set_a set_b).
Proof. repeat split; try (vm_compute; discriminate). intros (_ & H). vm_compute in H. now apply H. Qed.
Lemma ex_C32 : is_subset set_c set_a = Ok true /\ is_subset set_b set_a = Ok false /\ is_superset set_a set_c = Ok true /\
  is_disjoint set_b set_c = Ok true /\ is_disjoint set_a set_b = Ok false.
Proof. repeat split; vm_compute; reflexivity. Qed.
Lemma ex_C33 : set_eq set_c (hash_set_of mod_eqb [1001; 2]) = Ok true /\ set_eq set_c (hash_set_of mod_eqb [1; 3]) = Ok false.
Proof. split; vm_compute; reflexivity. Qed.

Definition set_scenarios : list (env * kind * hasher Z * list (key Z)) :=
  map (fun sc => (sc_env sc, sc_kind sc, sc_hasher sc, map fst (sc_payload sc))) scenarios.
Definition set_answers (sc : env * kind * hasher Z * list (key Z)) : res (Z * list bool * list bool) :=
  let '(E, kd, bh, items) := sc in
  s <- fs_new E kd items bh ;;
  found <- mapM (fs_contains mod_eqb E s) items ;;
  missed <- mapM (fs_contains mod_eqb E s)
    (filter (fun k => negb (existsb (key_eqb mod_eqb k) items)) (absent_keys kd)) ;;
  Ok (fs_len s, found, missed).
Lemma ex_C34 : Forall (fun sc => set_answers sc =
    Ok (zlen (snd sc), map (fun _ => true) (snd sc),
        map (fun _ => false) (filter (fun k => negb (existsb (key_eqb mod_eqb k) (snd sc))) (absent_keys (snd (fst (fst sc))))))) set_scenarios.
Proof. repeat (apply Forall_cons; [vm_compute; reflexivity|]). apply Forall_nil. Qed.

Lemma ex_C35 : (s <- bitor mod_eqb set_a set_b ;; Ok (zlen (s_items s))) = Ok 5 /\
  (s <- bitand mod_eqb set_a set_b ;; Ok (zlen (s_items s))) = Ok 2 /\
  (s <- bitxor mod_eqb set_a set_b ;; Ok (s_items s)) = Ok [1; 2; 5] /\
  (s <- set_sub mod_eqb set_a set_b ;; Ok (s_items s)) = Ok [1; 2].
Proof. repeat split; vm_compute; reflexivity. Qed.

(** ** The macro *)

(** Keys of [frozen_map!] calls and what they expand to. *)
Lemma ex_C36 :
  frozen_map_macro Checked poly (TInt u8) (map (@LInt Z) [4; 8; 15; 16; 23; 42]) = Ok (XPlain NIntegerMap u8) /\
  frozen_map_macro Checked poly (TInt u8) (map (@LInt Z) [1; 2; 3; 4; 5]) = Ok (XPlain NIntegerRangeMap u8) /\
  frozen_map_macro Checked poly (TInt u64) (map (@LInt Z) [1; 1000]) = Ok XScanning /\
  frozen_map_macro Checked poly TStr (map (@LStr Z) lefts5) = Ok (XRanged NLeftSliceMap u8 1 2) /\
  frozen_map_macro Checked poly TStr (map (@LStr Z) ub_keys) = Ok (XRanged NRightSliceMap u8 0 1) /\
  frozen_map_macro Checked poly TStr (map (@LStr Z) panic_keys) = Panic PIndexOutOfBounds /\
  frozen_map_macro Checked poly TOther (map (@LExpr Z) [1; 2; 3; 4]) = Ok (XPlain NCommonMap u8).
Proof. repeat split; vm_compute; reflexivity. Qed.

(** The generated code for integer and string keys answers lookups. *)
Lemma ex_C36_run :
  (match run_int checked_env u8 (XPlain NIntegerMap u8) five with
   | Some (Ok get) => map get [31; 32] | _ => [] end) = [Ok (Some 3); Ok None] /\
  (match run_str hash_write hash_write checked_env sample_hasher (XRanged NLeftSliceMap u8 1 3) tails with
   | Some (Ok get) => map get [[97;98;99]; [98]] | _ => [] end) = [Ok (Some 1); Ok None].
Proof. split; vm_compute; reflexivity. Qed.

(** ** Histories *)

Definition sample_history : list (op (key Z) Z) :=
  [OLen; OGet (KOther 1017); OGetMut (KOther 17) 9; OGet (KOther 17); OIndex (KOther 18); OIndexMut (KOther 5) 1;
   OGetManyMut [(KOther 5, 2); (KOther 42, 3)]; OGetKeyValue (KOther 1005); OGetManyMut [(KOther 5, 2); (KOther 1005, 3)];
   OContainsKey (KOther 998); OIsEmpty].
Lemma ex_C38 : exists m, small_map = Ok m /\
  run mod_eqb checked_env m sample_history =
    [SawNumber 6; SawValue (Some 170); SawBool true; SawValue (Some 9); SawPanic; SawBool true;
     SawBool true; SawEntry (Some (KOther 5, 2)); SawBool false; SawBool true; SawBool false] /\
  (forall o k, In o sample_history -> In k (op_keys o) -> has_kind KindOther k).
Proof.
  enough (H : exists m, small_map = Ok m /\ run mod_eqb checked_env m sample_history =
    [SawNumber 6; SawValue (Some 170); SawBool true; SawValue (Some 9); SawPanic; SawBool true;
     SawBool true; SawEntry (Some (KOther 5, 2)); SawBool false; SawBool true; SawBool false]).
  { destruct H as (m & H1 & H2). exists m. split; [exact H1|]. split; [exact H2|].
    intros o k Ho Hk. cbn in Ho. intuition subst; cbn in Hk; intuition subst; exact I. }
  apply with_ok. vm_compute. reflexivity.
Qed.

Lemma ex_C39 :
  fm_new checked_env KindU32 (others [1; 2; 3; 4]) sample_hasher = UB WrongType /\
  (exists m, fm_new checked_env KindU32 (u32s [4; 8; 15; 16]) sample_hasher = Ok m /\
     fm_get mod_eqb checked_env m (KOther 4) = UB WrongType).
Proof. split; [vm_compute; reflexivity|]. apply with_ok. vm_compute. reflexivity. Qed.

(** ** Specialized maps and sets *)

(** Keys looked up by a part of them, as a [String] is by its [str]. *)
Definition tagged : list (Z * Z * Z) := [((5, 1), 50); ((17, 2), 170); ((103, 3), 1030); ((998, 4), 9980)].
Definition mod_hash (_ : unit) (q : Z) : Z := (q mod 1000) * 7.
Definition tagged_hash (_ : unit) (k : Z * Z) : Z := (fst k mod 1000) * 7.
Lemma tagged_ok : fits u8 (zlen tagged) /\ distinct mod_eqb (map (fun e => fst (fst e)) tagged) /\
  (forall k, tagged_hash tt k = mod_hash tt (fst k)) /\
  (forall a b, mod_eqb a b = true -> mod_hash tt a = mod_hash tt b).
Proof.
  split; [unfold fits; change (imin u8) with 0; change (imax u8) with 255; change (zlen tagged) with 4; lia|].
  split; [now apply distinctb_ok|]. split; auto.
  intros a b H. unfold mod_eqb in H. apply Z.eqb_eq in H. unfold mod_hash. now rewrite H.
Qed.
Definition tagged_history : list (op Z Z) :=
  [OLen; OGet 1017; OGetMut 17 9; OGetKeyValue 2017; OIndex 18; OIndexMut 5 1; OGetManyMut [(5, 2); (103, 3)];
   OGetManyMut [(5, 7); (1005, 8)]; OGet 5; OContainsKey 998; OIsEmpty].
Definition tagged_results : list (obs (Z * Z) Z) :=
  [SawNumber 4; SawValue (Some 170); SawBool true; SawEntry (Some ((17, 2), 9)); SawPanic; SawBool true;
   SawBool true; SawBool false; SawValue (Some 2); SawBool true; SawBool false].
Lemma ex_C44 :
  object_run mod_eqb fst tagged tagged_history = tagged_results /\
  mo_run Checked mod_eqb (sm_object mod_eqb fst) (sm_from_vec tagged) tagged_history = tagged_results /\
  (exists m, cm_from_vec tagged_hash checked_env u8 tagged tt = Ok m /\
  mo_run Checked mod_eqb (cm_object mod_eqb fst mod_hash) m tagged_history = tagged_results) /\
  (exists m, irm_from_vec Checked u16 [(7, 70); (5, 50); (6, 60)] = Ok m /\
  mo_run Checked Z.eqb (irm_object Checked u16) m [OGet 6; OGetMut 6 1; OGet 6; OGet 8; OIter] =
       [SawValue (Some 60); SawBool true; SawValue (Some 1); SawValue None; SawItems [(5, 50); (6, 1); (7, 70)]]) /\
  (exists m, im_from_vec checked_env u8 five = Ok m /\
  mo_run Checked Z.eqb im_object m [OGetManyMut [(31, 8); (10, 9)]; OGet 31; OGet 10; OIndex 11] =
       [SawBool true; SawValue (Some 8); SawValue (Some 9); SawPanic]) /\
  (exists m, rsm_from_vec hash_write checked_env u8 tails 2 0 sample_hasher = Ok m /\
  mo_run Checked bytes_eqb (rsm_object hash_write checked_env) m [OGetMut [97;98;100] 9; OGet [97;98;100]; OGet [97]] =
       [SawBool true; SawValue (Some 9); SawValue None]).
Proof.
  split; [vm_compute; reflexivity|]. split; [vm_compute; reflexivity|].
  split; [apply with_ok; vm_compute; reflexivity|]. split; [apply with_ok; vm_compute; reflexivity|].
  split; [apply with_ok; vm_compute; reflexivity|]. apply with_ok; vm_compute; reflexivity.
Qed.

Lemma then_ok {A B} (r : res A) (r' : A -> res B) (P : A -> B -> Prop) :
  match r with Ok m => match r' m with Ok m' => P m m' | _ => False end | _ => False end ->
  exists m, r = Ok m /\ exists m', r' m = Ok m' /\ P m m'.
Proof. destruct r as [m| | |]; try contradiction. destruct (r' m) eqn:H; try contradiction. eauto. Qed.
Lemma with_ok2 {A B} (r1 : res A) (r2 : res B) (P : A -> B -> Prop) :
  match r1, r2 with Ok a, Ok b => P a b | _, _ => False end ->
  exists a, r1 = Ok a /\ exists b, r2 = Ok b /\ P a b.
Proof. destruct r1, r2; try easy. intros H. eexists. split; [reflexivity|]. eexists. split; [reflexivity|exact H]. Qed.

Lemma ex_C45 :
  (exists m1, im_from_vec checked_env u8 five = Ok m1 /\ exists m2, im_from_vec checked_env u8 (rev five) = Ok m2 /\
  mo_eq Z.eqb im_object m1 m2 = Ok true) /\
  (exists m1, im_from_vec checked_env u8 five = Ok m1 /\
  exists m2, im_from_vec checked_env u8 [(10, 1); (20, 2); (31, 3); (40, 4); (52, 6)] = Ok m2 /\
  mo_eq Z.eqb im_object m1 m2 = Ok false) /\
  (exists m1, irm_from_vec Checked u16 three = Ok m1 /\ exists m2, irm_from_vec Checked u16 (rev three) = Ok m2 /\
  mo_eq Z.eqb (irm_object Checked u16) m1 m2 = Ok true) /\
  (exists m1, lsm_from_vec hash_write checked_env u8 tails 1 3 sample_hasher = Ok m1 /\
  exists m2, lsm_from_vec hash_write checked_env u8 (rev tails) 0 2 poor_hasher = Ok m2 /\
  mo_eq Z.eqb (lsm_object hash_write) m1 m2 = Ok true).
Proof. repeat split; apply with_ok2; vm_compute; reflexivity. Qed.

Lemma ex_C46 :
  (exists s, cs_from_vec tagged_hash checked_env u8 (map fst tagged) tt = Ok s /\
  map (cs_get mod_eqb fst mod_hash s) [1017; 18] = [Ok (Some (17, 2)); Ok None] /\
  map (cs_contains mod_eqb fst mod_hash s) [1017; 18] = [Ok true; Ok false] /\ cs_len s = 4) /\
  (exists s, irs_from_vec Checked u16 [7; 5; 6] = Ok s /\
  map (irs_contains Checked u16 s) [4; 5; 6; 7; 8] = [Ok false; Ok true; Ok true; Ok true; Ok false]) /\
  (exists s, is_from_vec checked_env u8 [10; 20; 10; 40; 52] = Ok s /\
  map (is_contains s) [10; 20; 30] = [Ok true; Ok true; Ok false] /\ is_len s = 5) /\
  (exists s, ls_from_vec zlen checked_env u8 (map fst tails) = Ok s /\
  map (Sets.ls_contains bytes_eqb (fun x => x) zlen s) [[97;98;100]; [97]] = [Ok true; Ok false]) /\
  (exists s1, lss_from_vec hash_write checked_env u8 (map fst tails) 1 3 sample_hasher = Ok s1 /\
  exists s2, rss_from_vec hash_write checked_env u8 (map fst (firstn 2 tails)) 2 0 poor_hasher = Ok s2 /\
  is_subset (rss_as_set hash_write checked_env s2) (lss_as_set hash_write s1) = Ok true /\
  is_subset (lss_as_set hash_write s1) (rss_as_set hash_write checked_env s2) = Ok false).
Proof.
  split; [apply with_ok; vm_compute; auto|]. split; [apply with_ok; vm_compute; auto|].
  split; [apply with_ok; vm_compute; auto|]. split; [apply with_ok; vm_compute; auto|].
  apply with_ok2. vm_compute. auto.
Qed.

(** All 200 codes collide in a table of 200 slots and three of them in one of 197 slots.  Eight
    codes that all collide still get a table of eight slots. *)
Lemma ex_C47 :
  analyze_hash_codes (numbers 0 200 200) = Ok (239, 0) /\ collisions 200 (numbers 0 200 200) = 199%nat /\
  collisions 197 (numbers 0 200 200) = 3%nat /\
  zlen (numbers 0 8 8) = 8 /\ analyze_hash_codes (numbers 0 8 8) = Ok (8, 7).
Proof. repeat split; vm_compute; reflexivity. Qed.

(** The same entries in another order, another hasher and no overflow checks. *)
Lemma ex_C48 :
  lawful_hash mod_eqb sample_hasher /\ lawful_hash mod_eqb poor_hasher /\
  distinct (key_eqb mod_eqb) (map fst (others [5; 17; 103; 998; 42; 7])) /\
  (exists m1, fm_new checked_env KindOther (others [5; 17; 103; 998; 42; 7]) sample_hasher = Ok m1 /\
   exists m2, fm_new wrapping_env KindOther (rev (others [5; 17; 103; 998; 42; 7])) poor_hasher = Ok m2 /\
   map fst (fm_iter m1) <> map fst (fm_iter m2) /\
   run mod_eqb checked_env m1 sample_history = run mod_eqb wrapping_env m2 sample_history).
Proof.
  split; [apply sample_lawful|]. split; [apply poor_lawful|]. split; [now apply distinctb_ok|].
  apply with_ok2. vm_compute. split; [discriminate|reflexivity].
Qed.

(** Up to four comparisons when four keys share a slot, none or one when no two do, none in a range. *)
Lemma ex_C49 :
  (exists m, fm_new checked_env KindOther (others [5; 17; 103; 998; 42; 7]) poor_hasher = Ok m /\
   map (fm_get_cost mod_eqb checked_env m) (map (@KOther Z) [42; 17; 5; 8; 103; 204]) =
     [Ok 2; Ok 3; Ok 4; Ok 4; Ok 1; Ok 0]) /\
  (exists m, fm_new checked_env KindOther (others [5; 17; 103; 998; 42; 7]) sample_hasher = Ok m /\
   map (fm_get_cost mod_eqb checked_env m) (map (@KOther Z) [42; 17; 5; 8; 103; 10]) =
     [Ok 1; Ok 1; Ok 1; Ok 1; Ok 1; Ok 0]) /\
  collisions 11 (map (fun e => hash_one sample_hasher (fst e)) (others [5; 17; 103; 998; 42; 7])) = 0%nat /\
  (exists m, fm_new checked_env KindU32 (u32s [12; 10; 13; 11; 14]) sample_hasher = Ok m /\
   fm_get_cost mod_eqb checked_env m (KU32 13) = Ok 0).
Proof.
  split; [apply with_ok; vm_compute; reflexivity|]. split; [apply with_ok; vm_compute; reflexivity|].
  split; [vm_compute; reflexivity|]. apply with_ok. vm_compute. reflexivity.
Qed.

Lemma ex_C50 :
  (exists m, fm_new checked_env KindU32 (u32s [12; 10; 13; 11; 14]) sample_hasher = Ok m /\
   fm_fmt m = DMap (u32s [10; 11; 12; 13; 14])) /\
  (exists s, cs_from_vec (fun (_ : unit) x => x) checked_env u8 [7; 9; 8] tt = Ok s /\
   cs_fmt s = DList [8; 7; 9]) /\
  (exists s, is_from_vec checked_env u8 [7; 9; 8] = Ok s /\
   is_fmt s = DMap [(8, tt); (7, tt); (9, tt)]) /\
  iter_fmt (union_next set_a set_b) 8 (pair_new set_a set_b) = Ok (@DList Z unit [1; 2; 3; 4; 5]).
Proof.
  split; [apply with_ok; vm_compute; reflexivity|]. split; [apply with_ok; vm_compute; reflexivity|].
  split; [apply with_ok; vm_compute; reflexivity|]. vm_compute. reflexivity.
Qed.

(** Continues C28 to C32: sizes 5 + 2 = 4 + 3, 2 + 2 = 4, 3 = 2 + 1. *)
Lemma ex_C51 :
  items_of (union_next set_b set_a) (pair_new set_b set_a) = Ok [Some 1; Some 2; Some 3; Some 4; Some 5; None] /\
  items_of (intersection_next set_b set_a) (pair_new set_b set_a) = Ok [Some 3; Some 1004; None; None; None; None] /\
  items_of (difference_next set_b set_a) (difference_new set_b set_a) = Ok [Some 5; None; None; None; None; None] /\
  s_len set_a = 4 /\ s_len set_b = 3 /\
  items_of (difference_next set_c set_a) (difference_new set_c set_a) = Ok [None; None; None; None; None; None] /\
  is_subset set_c set_a = Ok true.
Proof. repeat split; vm_compute; reflexivity. Qed.

(** Slots 8, 6, 5, 4, 3 and 2 of 10 in the last case. *)
Lemma ex_C52 :
  (exists m, fm_new checked_env KindOther (others [3; 1; 2]) sample_hasher = Ok m /\
   fm_iter m = others [3; 1; 2]) /\
  (exists m, fm_new checked_env KindU32 (u32s [12; 10; 13; 11; 14]) sample_hasher = Ok m /\
   fm_iter m = u32s [10; 11; 12; 13; 14]) /\
  (exists m, fm_new checked_env KindU32 (u32s [4; 8; 15; 16; 23; 42]) sample_hasher = Ok m /\
   analyze_hash_codes [4; 8; 15; 16; 23; 42] = Ok (10, 0) /\
   fm_iter m = u32s [8; 16; 15; 4; 23; 42]).
Proof.
  split; [apply with_ok; vm_compute; reflexivity|]. split; [apply with_ok; vm_compute; reflexivity|].
  apply with_ok; vm_compute; auto.
Qed.

(** A range and a table of u32 values; 5 + 4 items, 2 of them common. *)
Definition two_sets : res (set_types Z * set_types Z) :=
  s1 <- fs_new checked_env KindU32 (map (@KU32 Z) [12; 10; 13; 11; 14]) sample_hasher ;;
  s2 <- fs_new wrapping_env KindU32 (map (@KU32 Z) [4; 12; 100; 14]) poor_hasher ;; Ok (s1, s2).
Lemma ex_C53 :
  exists p, two_sets = Ok p /\
  let a := fs_as_set mod_eqb checked_env (fst p) in
  let b := fs_as_set mod_eqb checked_env (snd p) in
  (r <- bitor (key_eqb mod_eqb) a b ;; Ok (zlen (s_items r))) = Ok 7 /\
  (r <- bitand (key_eqb mod_eqb) a b ;; Ok (s_items r)) = Ok (map KU32 [12; 14]) /\
  (r <- set_sub (key_eqb mod_eqb) a b ;; Ok (s_items r)) = Ok (map KU32 [10; 11; 13]) /\
  (r <- bitxor (key_eqb mod_eqb) a b ;; Ok (zlen (s_items r))) = Ok 5 /\
  is_subset a b = Ok false /\ is_disjoint a b = Ok false.
Proof. apply with_ok; vm_compute; repeat split; reflexivity. Qed.

(** The larger set comes first in the union, the smaller is filtered in the intersection; with
    duplicates the union repeats. *)
Lemma ex_C54 :
  items_of (union_next set_c set_a) (pair_new set_c set_a) = Ok (map Some (s_items set_a) ++ [None; None]) /\
  items_of (intersection_next set_a set_b) (pair_new set_a set_b) = Ok [Some 3; Some 1004; None; None; None; None] /\
  items_of (union_next (hash_set_of mod_eqb [7; 7]) set_b) (pair_new (hash_set_of mod_eqb [7; 7]) set_b) =
    Ok (map Some (s_items set_b) ++ [Some 7; Some 7; None]).
Proof. repeat split; vm_compute; reflexivity. Qed.

Lemma ex_C55 :
  exists m, fm_from checked_env KindU32 sample_hasher (u32s [4; 8; 15; 16; 23; 42]) = Ok m /\
  fm_from_vec checked_env KindU32 sample_hasher (u32s [4; 8; 15; 16; 23; 42]) = Ok m /\
  yields list_next (u32s [4; 8; 15; 16; 23; 42]) (u32s [4; 8; 15; 16; 23; 42]) /\ fm_len m = 6.
Proof. apply with_ok. vm_compute. repeat split. repeat econstructor. Qed.

(** A String map copied with another hasher; a FrozenSet of a symmetric difference. *)
Lemma ex_C56 :
  (exists m, fm_new checked_env KindString (strs lengths5) sample_hasher = Ok m /\
   exists m', fm_from_iter_with_hasher checked_env KindString (it_next Checked) 9 (fm_iter_new m) poor_hasher = Ok m' /\
   fm_eq mod_eqb checked_env Z.eqb m m' = Ok true) /\
  (exists p, two_sets = Ok p /\
   let a := fs_as_set mod_eqb checked_env (fst p) in
   let b := fs_as_set mod_eqb checked_env (snd p) in
   exists s, fs_from_iter_with_hasher checked_env KindU32 (symmetric_difference_next a b) 10 (pair_new a b) sample_hasher = Ok s /\
   fs_len s = 5 /\ fs_contains mod_eqb checked_env s (KU32 100) = Ok true /\
   fs_contains mod_eqb checked_env s (KU32 12) = Ok false).
Proof.
  split; apply then_ok; vm_compute; auto.
Qed.

(** A small syntax: the first token of a type tells which, an expression is any number of tokens.
    [frozen_map!(u8, 4: 1, 8: 2 + 3, 15: 0,)] and calls with errors. *)
Fixpoint take_tokens (ts : list (token Z)) : list Z * list (token Z) :=
  match ts with
  | Tok z :: ts' => let (zs, rest) := take_tokens ts' in (z :: zs, rest)
  | _ => ([], ts)
  end.
Definition sample_parse_type (ts : list (token Z)) : option (macro_type * list (token Z)) :=
  match ts with Tok z :: rest => Some (if z =? 0 then TInt u8 else TOther, rest) | _ => None end.
Definition sample_parse_expr (ts : list (token Z)) : option ((Z * list Z) * list (token Z)) :=
  match take_tokens ts with (z :: zs, rest) => Some ((z, zs), rest) | _ => None end.
Definition sample_text (e : Z * list Z) : list (token Z) := Tok (fst e) :: map Tok (snd e).
Definition sample_call := frozen_map_call sample_parse_type sample_parse_expr (fun t => t) (fun e => @LInt Z (fst e)) Checked poly.

Lemma sample_parse_text e rest : ends_here rest -> sample_parse_expr (sample_text e ++ rest) = Some (e, rest).
Proof.
  intros Hr. destruct e as [z zs]. unfold sample_parse_expr, sample_text. cbn [fst snd app take_tokens].
  assert (H : take_tokens (map Tok zs ++ rest) = (zs, rest)).
  { induction zs as [|y zs IH]; cbn [map app take_tokens].
    - destruct rest as [|[| |x] rest]; try reflexivity. contradiction.
    - now rewrite IH. }
  now rewrite H.
Qed.

Lemma sample_parse_shorter ts x rest : sample_parse_expr ts = Some (x, rest) -> (length rest < length ts)%nat.
Proof.
  assert (H : forall ts zs r, take_tokens ts = (zs, r) -> length ts = (length zs + length r)%nat).
  { clear. induction ts as [|[| |z] ts IH]; cbn [take_tokens]; intros zs r H; try (injection H as <- <-; reflexivity).
    destruct (take_tokens ts) as [zs' r'] eqn:E. injection H as <- <-. specialize (IH _ _ eq_refl). cbn [length]. lia. }
  unfold sample_parse_expr. destruct (take_tokens ts) as [[|z zs] r] eqn:E; [discriminate|].
  intros H'. injection H' as <- <-. apply H in E. cbn [length] in E. lia.
Qed.

Lemma ex_C57 :
  (forall rest, sample_parse_type ([Tok 0] ++ Comma :: rest) = Some (TInt u8, Comma :: rest)) /\
  (forall e, sample_text e <> []) /\
  (forall e rest, ends_here rest -> sample_parse_expr (sample_text e ++ rest) = Some (e, rest)) /\
  (forall ts x rest, sample_parse_expr ts = Some (x, rest) -> (length rest < length ts)%nat) /\
  [Tok 0] ++ Comma :: entries_text sample_text true [((4, []), (1, [])); ((8, []), (2, [43; 3])); ((15, []), (0, []))] =
    [Tok 0; Comma; Tok 4; Colon; Tok 1; Comma; Tok 8; Colon; Tok 2; Tok 43; Tok 3; Comma; Tok 15; Colon; Tok 0; Comma] /\
  sample_call [Tok 0; Comma; Tok 4; Colon; Tok 1; Comma; Tok 8; Colon; Tok 2; Tok 43; Tok 3; Comma; Tok 15; Colon; Tok 0; Comma] =
    Expanded (Ok (XPlain NIntegerMap u8)) /\
  sample_call [Tok 0] = SyntaxError /\ sample_call [Tok 0; Comma] = Expanded (Ok XScanning) /\
  sample_call [Tok 0; Comma; Tok 4; Comma] = SyntaxError /\
  sample_call [Tok 0; Comma; Tok 4; Colon; Tok 1; Comma; Comma] = SyntaxError.
Proof.
  split; [reflexivity|]. split; [discriminate|]. split; [exact sample_parse_text|]. split; [exact sample_parse_shorter|].
  repeat split; vm_compute; reflexivity.
Qed.

(** Histories of generated maps. *)
Lemma ex_C58 :
  frozen_map_macro Checked poly (TInt u8) (map (fun e => @LInt Z (fst e)) five) = Ok (XPlain NIntegerMap u8) /\
  (match start_int checked_env u8 (XPlain NIntegerMap u8) five with
   | Some (Ok runs) => runs [OLen; OGetMut 31 9; OGet 31; OGet 32; OIndex 32] | _ => [] end) =
    [SawNumber 5; SawBool true; SawValue (Some 9); SawValue None; SawPanic] /\
  frozen_map_macro Checked poly TStr (map (fun e => @LStr Z (fst e)) (combine lefts5 [1; 2; 3; 4; 5])) = Ok (XRanged NLeftSliceMap u8 1 2) /\
  (match start_str hash_write hash_write checked_env sample_hasher (XRanged NLeftSliceMap u8 1 2)
           (combine lefts5 [1; 2; 3; 4; 5]) with
   | Some (Ok runs) => runs [OGet (nth 2 lefts5 []); OContainsKey [98]; OIsEmpty] | _ => [] end) =
    [SawValue (Some 3); SawBool false; SawBool false] /\
  frozen_map_macro Checked poly TOther (map (fun e => LExpr (fst e)) five) = Ok (XPlain NCommonMap u8) /\
  (match start_other mod_eqb (fun bh z => z mod 1000) checked_env sample_hasher (XPlain NCommonMap u8) five with
   | Some (Ok runs) => runs [OGetManyMut [(31, 7); (1031, 8)]; OGet 1031; OIndexMut 31 5; OGet 31] | _ => [] end) =
    [SawBool false; SawValue (Some 3); SawBool true; SawValue (Some 5)].
Proof. repeat split; vm_compute; reflexivity. Qed.

(** Eight keys in one slot need 36 comparisons; six separated keys and three scanned ones. *)
Definition costs_of {V} (m : res (map_types Z V)) (payload : list (key Z * V)) : list (res Z) :=
  match m with Ok m => map (fun e => fm_get_cost mod_eqb checked_env m (fst e)) payload | _ => [] end.
Lemma ex_C59 :
  costs_of (fm_new checked_env KindU32 (u32s [0; 8; 16; 24; 32; 40; 48; 56]) sample_hasher) (u32s [0; 8; 16; 24; 32; 40; 48; 56]) =
    map Ok [8; 7; 6; 5; 4; 3; 2; 1] /\
  costs_of (fm_new checked_env KindU32 (u32s [4; 8; 15; 16; 23; 42]) sample_hasher) (u32s [4; 8; 15; 16; 23; 42]) =
    map Ok [1; 1; 1; 1; 1; 1] /\
  costs_of (fm_new checked_env KindU32 (u32s [4; 8; 15]) sample_hasher) (u32s [4; 8; 15]) = map Ok [1; 2; 3] /\
  costs_of (fm_new checked_env KindU32 (u32s [4; 5; 6; 7]) sample_hasher) (u32s [4; 5; 6; 7]) = map Ok [0; 0; 0; 0] /\
  2 * total [8; 7; 6; 5; 4; 3; 2; 1] = 8 + total (map (fun c => Z.of_nat (sharing 8 c [0; 8; 16; 24; 32; 40; 48; 56])) [0; 8; 16; 24; 32; 40; 48; 56]).
Proof. repeat split; vm_compute; reflexivity. Qed.

Lemma ex_C60 :
  frozen_map_macro Checked poly (TInt u8) [@LInt Z 1; LInt 300; LInt 3] = Panic PUnwrapNone /\
  frozen_map_macro Checked poly TStr [@LStr Z [97]; LExpr 1; LStr [98]] = Panic PUnwrapNone /\
  frozen_map_macro Checked poly (TInt u8) [@LInt Z 1; LInt 300] = Ok XScanning.
Proof. repeat split; vm_compute; reflexivity. Qed.

(** The limits of the machine types, and reduction into them. *)
Lemma ex_types :
  map imin [u8; u16; u32; u64; u128; usize; i8; i16; i32; i64; i128; isize] =
    [0; 0; 0; 0; 0; 0; -128; -32768; -2147483648; -9223372036854775808;
     -170141183460469231731687303715884105728; -9223372036854775808] /\
  map imax [u8; u16; u32; u64; u128; usize; i8; i16; i32; i64; i128; isize] =
    [255; 65535; 4294967295; 18446744073709551615; 340282366920938463463374607431768211455; 18446744073709551615;
     127; 32767; 2147483647; 9223372036854775807; 170141183460469231731687303715884105727; 9223372036854775807] /\
  map (wrap i8) [127; 128; 255; 256; -129; -1] = [127; -128; -1; 0; 127; -1] /\
  map (wrap u8) [255; 256; -1] = [255; 0; 255] /\
  arith Checked i16 32768 = Panic POverflow /\ arith Wrapping i16 32768 = Ok (-32768) /\
  arith Checked i16 32767 = Ok 32767 /\ to_usize (-1) = None /\ num_cast u16 65536 = None /\ num_cast u16 65535 = Some 65535.
Proof. repeat split; vm_compute; reflexivity. Qed.

(** (a | b) - c with the intermediate HashSet iterating in another order; FrozenSets, with the
    intermediate result frozen again. *)
Definition union_ab : set_impl Z := hash_set_of mod_eqb [5; 4; 3; 2; 1].
Lemma ex_C61 :
  good_expr mod_eqb (fun _ => True) (Op Minus (Op Or (Given set_a) (Given set_b)) (Given set_c)) /\
  (exists r, bitor mod_eqb set_a set_b = Ok r /\ s_items r = [1; 2; 3; 4; 5] /\
   arranged mod_eqb (fun _ => True) r union_ab /\
   exists s, set_sub mod_eqb union_ab set_c = Ok s /\ s_items s = [5; 4; 3] /\
   evaluates mod_eqb (fun _ => True) (Op Minus (Op Or (Given set_a) (Given set_b)) (Given set_c)) s) /\
  (p <- two_sets ;;
   let a := fs_as_set mod_eqb checked_env (fst p) in
   r <- bitxor (key_eqb mod_eqb) a (fs_as_set mod_eqb checked_env (snd p)) ;;
   s <- fs_new checked_env KindU32 (s_items r) sample_hasher ;;
   r2 <- bitand (key_eqb mod_eqb) (fs_as_set mod_eqb checked_env s) a ;;
   Ok (map (fun k => s_contains r2 (KU32 k)) [10; 11; 12; 13; 14; 4])) =
     Ok [Ok true; Ok true; Ok false; Ok true; Ok false; Ok false].
Proof.
  split; [|split].
  - assert (H : forall l, distinctb mod_eqb l = true -> good_expr mod_eqb (fun _ => True) (Given (hash_set_of mod_eqb l)))
      by (intros l Hl; split; [apply hash_set_of_lawful|now apply distinctb_ok]).
    split; [split|]; apply H; reflexivity.
  - eexists. split; [reflexivity|]. split; [reflexivity|].
    assert (A : arranged mod_eqb (fun _ => True) (hash_set_of mod_eqb [1; 2; 3; 4; 5]) union_ab).
    { split; [|apply hash_set_of_lawful]. apply (Permutation_rev [1; 2; 3; 4; 5]). }
    split; [exact A|]. eexists. split; [reflexivity|]. split; [reflexivity|].
    eapply ev_op; [eapply ev_op; [apply ev_given|apply ev_given|reflexivity|exact A]|apply ev_given|reflexivity|].
    split; [apply Permutation_refl|apply hash_set_of_lawful].
  - vm_compute. reflexivity.
Qed.

Definition some_ints : list Z := numbers 1 3 300.
Lemma ex_C62 :
  yields list_next some_ints some_ints /\
  is_from_iter checked_env u16 list_next 301 some_ints = is_from_vec checked_env u16 some_ints /\
  (match is_from_iter checked_env u16 list_next 301 some_ints with
   | Ok s => is_len s = 300 /\ is_contains s 4 = Ok true /\ is_contains s 5 = Ok false | _ => False end) /\
  is_from_iter checked_env u8 list_next 301 some_ints = Panic PCapacity /\
  lm_from_iter (fun k => k) checked_env list_next 301 (with_unit some_ints) = Panic PCapacity /\
  (match sls_from (lsm_from_vec hash_write checked_env u8) sample_hasher lefts5 1 2 with
   | Ok s => sls_len s = 5 /\ lss_contains hash_write s (nth 2 lefts5 []) = Ok true | _ => False end).
Proof.
  split; [unfold some_ints; generalize (numbers 1 3 300); induction l as [|x l IH]; econstructor; cbn; eauto|].
  split; [vm_compute; reflexivity|]. split; [vm_compute; repeat split; reflexivity|].
  split; [vm_compute; reflexivity|]. split; [vm_compute; reflexivity|].
  vm_compute; repeat split; reflexivity.
Qed.

Lemma ex_C63 :
  frozen_set_call sample_parse_type sample_parse_expr (fun t => t) (fun e => @LInt Z (fst e)) Checked poly
    [Tok 0; Comma; Tok 4; Comma; Tok 8; Comma; Tok 15] = SyntaxError /\
  [Tok 0] ++ Comma :: items_text sample_text false [(4, []); (8, []); (15, [])] =
    [Tok 0; Comma; Tok 4; Comma; Tok 8; Comma; Tok 15] /\
  frozen_set_call sample_parse_type sample_parse_expr (fun t => t) (fun e => @LInt Z (fst e)) Checked poly
    [Tok 0; Comma; Tok 4; Colon; Tok 1; Comma; Tok 8; Colon; Tok 1; Comma; Tok 15; Colon; Tok 1] =
    Expanded (Ok (XPlain NIntegerMap u8)).
Proof. split; [vm_compute; reflexivity|]. split; vm_compute; reflexivity. Qed.

(** A lookup in a map of three entries, as [get_many_mut] uses it. *)
Definition some_get (k : Z) : res (option nat) :=
  Ok (if mod_eqb k 10 then Some 0%nat else if mod_eqb k 20 then Some 1%nat else if mod_eqb k 30 then Some 2%nat else None).
Lemma ex_C64 :
  (forall k, In k [30; 10] -> exists o, some_get k = Ok o) /\
  get_many_mut_in_memory mod_eqb some_get [30; 10] = Ok (Some [2%nat; 0%nat]) /\
  get_many_mut_in_memory mod_eqb some_get [30; 10; 1030] = Ok None /\
  get_many_mut_in_memory mod_eqb some_get [30; 11] = Ok None /\
  assume_init (uninit 2) = UB Uninitialized.
Proof. split; [intros; eexists; reflexivity|]. repeat split; vm_compute; reflexivity. Qed.

Lemma ex_C65 :
  zlen (numbers 1 3 300) < 2 ^ 60 /\
  analyze_hash_codes_steps [3; 10; 17; 24] = Ok ((4, 0), (1, 4)) /\
  (exists s c t k, analyze_hash_codes_steps (numbers 0 300 300) = Ok ((s, c), (t, k)) /\ 1 < t /\ 300 < k).
Proof.
  split; [vm_compute; reflexivity|]. split; [vm_compute; reflexivity|].
  eexists _, _, _, _. split; [vm_compute; reflexivity|]. vm_compute. auto.
Qed.

(** The literal 0.05 is the multiple of 2^-57 nearest to 1/20; a rounding to even and a square root
    that is rounded up to an integer. *)
Lemma ex_float :
  2 * Z.abs (20 * 7205759403792794 - 2 ^ 57) < 20 /\
  round53 (2 ^ 53 + 1) = 2 ^ 53 /\ round53 (2 ^ 53 + 3) = 2 ^ 53 + 4 /\
  f64_sqrt 15 = 3 /\ f64_sqrt (2 ^ 64 - 1) = 2 ^ 32.
Proof. repeat split; vm_compute; reflexivity. Qed.

(** Under an equality that is false exactly on equal values. *)
Lemma ex_C66 :
  let wrong a b := negb (a =? b) in
  exists m, fm_new checked_env KindOther (others [5; 17; 103; 998; 42; 7]) poor_hasher = Ok m /\
  run wrong checked_env m
    [OGet (KOther 17); OGetManyMut [(KOther 17, 8); (KOther 17, 9)]; OGetKeyValue (KOther 17);
     OIndexMut (KOther 0) 7; OIndex (KOther 1); OIter] =
    [SawValue (Some 70); SawBool true; SawEntry (Some (KOther 7, 9)); SawBool true; SawValue (Some 7);
     SawItems [(KOther 998, 9980); (KOther 103, 1030); (KOther 7, 7); (KOther 42, 420); (KOther 17, 170);
               (KOther 5, 50)]].
Proof. cbv zeta. apply with_ok. vm_compute. reflexivity. Qed.

(** Found at the third of at most six windows; all 168 windows of equal keys examined; a panic. *)
Lemma ex_C67 :
  analyze_slice_keys_steps poly [[1; 1; 1]; [1; 1; 2]; [1; 1; 3]; [1; 1; 4]] =
    (Ok (LeftHandSubslice 2 1), (3, 8)) /\ windows_within 3 = 6 /\
  analyze_slice_keys_steps poly (repeat (repeat 1 18) 5) = (Ok SliceNormal, (168, 336)) /\ windows_within 18 = 168 /\
  analyze_slice_keys_steps poly (repeat (repeat 1 18) 4 ++ [repeat 1 17]) = (Panic PIndexOutOfBounds, (51, 100)).
Proof. repeat split; vm_compute; reflexivity. Qed.

(** A set with the iterator of the library's sets. *)
Definition running (s : set_impl Z) : running_set Z (iter (Z * unit)) :=
  {| r_iter := it_new (with_unit (s_items s)); r_next := keys_next Checked;
     r_len := s_len s; r_contains := s_contains s |}.
Lemma running_ok s : zlen (s_items s) < 2 ^ 64 -> runs_as (running s) s.
Proof. intros H. split; auto. now apply library_iterators. Qed.
Lemma ex_C68 :
  runs_as (running set_a) set_a /\ runs_as (running set_b) set_b /\
  observed (run_union 5 (running set_a) (running set_b)) 6 (run_new (running set_a) (running set_b)) =
    Ok [Some 1; Some 2; Some 3; Some 4; Some 5; None] /\
  observed (run_union 5 (running set_b) (running set_a)) 6 (run_new (running set_b) (running set_a)) =
    Ok [Some 1; Some 2; Some 3; Some 4; Some 5; None] /\
  observed (run_intersection 5 (running set_a) (running set_b)) 4 (run_new (running set_a) (running set_b)) =
    Ok [Some 3; Some 1004; None; None] /\
  run_is_disjoint 5 (running set_a) (running set_b) = Ok false /\
  run_eq 5 (running set_a) (running set_a) = Ok true.
Proof.
  split; [apply running_ok; reflexivity|]. split; [apply running_ok; reflexivity|].
  split; [vm_compute; reflexivity|]. split; [vm_compute; reflexivity|]. split; [vm_compute; reflexivity|].
  split; vm_compute; reflexivity.
Qed.

(** The same items in another order, another hasher and no overflow checks. *)
Lemma ex_C69 :
  let items := map (@KOther Z) [5; 17; 103; 998; 42; 7] in
  distinct (key_eqb mod_eqb) items /\ Permutation items (rev items) /\
  exists p, (s1 <- fs_new checked_env KindOther items sample_hasher ;;
             s2 <- fs_new wrapping_env KindOther (rev items) poor_hasher ;; Ok (s1, s2)) = Ok p /\
  let a := fs_as_set mod_eqb checked_env (fst p) in
  let b := fs_as_set mod_eqb wrapping_env (snd p) in
  let o := hash_set_of (key_eqb mod_eqb) (map (@KOther Z) [7; 1005; 6]) in
  s_items a <> s_items b /\
  fs_get mod_eqb checked_env (fst p) (KOther 1042) = Ok (Some (KOther 42)) /\
  fs_get mod_eqb wrapping_env (snd p) (KOther 1042) = Ok (Some (KOther 42)) /\
  (r <- bitand (key_eqb mod_eqb) a o ;; Ok (s_items r)) = Ok (map (@KOther Z) [7; 1005]) /\
  (r <- bitand (key_eqb mod_eqb) b o ;; Ok (s_items r)) = Ok (map (@KOther Z) [7; 1005]) /\
  (r <- set_sub (key_eqb mod_eqb) a o ;; Ok (zlen (s_items r))) = Ok 4 /\
  (r <- set_sub (key_eqb mod_eqb) b o ;; Ok (zlen (s_items r))) = Ok 4.
Proof.
  split; [now apply distinctb_ok|]. split; [apply Permutation_rev|].
  apply with_ok. vm_compute. split; [discriminate|]. repeat split; reflexivity.
Qed.

(** An equality that holds exactly between different keys. *)
Lemma ex_C70 :
  let wrong a b := negb (a =? b) in
  exists p, (s1 <- fs_new checked_env KindOther (map (@KOther Z) [5; 17; 103; 998; 42; 7]) poor_hasher ;;
             s2 <- fs_new checked_env KindOther (map (@KOther Z) [5; 205; 311; 777]) sample_hasher ;; Ok (s1, s2)) = Ok p /\
  let r1 := fs_running wrong checked_env (fst p) in
  let r2 := fs_running wrong checked_env (snd p) in
  fs_items (fst p) = map (@KOther Z) [998; 103; 7; 42; 17; 5] /\
  fs_get wrong checked_env (fst p) (KOther 17) = Ok (Some (KOther 7)) /\
  observed (run_union 7 r1 r2) 8 (run_new r1 r2) =
    Ok (map Some (map (@KOther Z) [998; 103; 7; 42; 17; 5; 205]) ++ [None]) /\
  observed (run_intersection 7 r1 r2) 5 (run_new r1 r2) =
    Ok (map Some (map (@KOther Z) [5; 311; 777]) ++ [None; None]) /\
  run_is_subset 7 r2 r1 = Ok false /\ run_is_disjoint 7 r2 r1 = Ok false /\
  fs_eq wrong checked_env (fst p) (fst p) = Ok false.
Proof. cbv zeta. apply with_ok. vm_compute. repeat split; reflexivity. Qed.

(** Answers that depend on a count of the calls made so far; some calls panic. *)
Definition fickle : conduct Z Z := {|
  on_eq := fun _ _ n => (if n mod 7 =? 3 then None else Some (Z.odd n), n + 1);
  on_hash := fun _ _ n => (Some (n * n mod 5), n + 1);
  on_hash_slice := fun _ _ n => (Some n, n + 1);
  on_hash_write := fun _ _ n => (None, n + 1)
|}.

Lemma with_ok_state {A W} (r : res A * W) (P : A -> W -> Prop) :
  match r with (Ok m, w) => P m w | _ => False end -> exists m w, r = (Ok m, w) /\ P m w.
Proof. destruct r as [[] w]; try contradiction. eauto. Qed.

Lemma ex_C71 :
  (exists m n, v_new fickle checked_env KindOther (others [5; 17; 103; 998; 42; 7]) poor_hasher 0 = (Ok m, n) /\
  n = 12 /\
  v_run fickle checked_env m
    [OGet (KOther 17); OGet (KOther 17); OGet (KOther 17); OGetManyMut [(KOther 17, 8); (KOther 42, 9)];
     OGetManyMut [(KOther 17, 8); (KOther 17, 9)]; OGetKeyValue (KOther 17); OGetKeyValue (KOther 17);
     OIndexMut (KOther 0) 7; OIndex (KOther 1); OIter] n =
    [Some (SawValue (Some 1030)); Some (SawValue (Some 70)); None; Some (SawBool true); None;
     Some (SawEntry None); Some (SawEntry (Some (KOther 17, 170))); None; Some (SawValue (Some 9));
     Some (SawItems [(KOther 103, 9); (KOther 17, 170); (KOther 7, 70); (KOther 998, 8); (KOther 5, 50);
                     (KOther 42, 420)])] /\
  v_eq fickle checked_env (fun a b n => (Some (a =? b), n + 1)) m m 100 = (Panic PForeign, 102)) /\
  fst (v_new fickle checked_env KindString (strs lefts5) poor_hasher 0) = Panic PForeign.
Proof.
  split; [apply with_ok_state|]; vm_compute; [|reflexivity].
  split; [reflexivity|]. split; reflexivity.
Qed.

(** Calls without their hasher: 0 for [==], 1 for a key, 2 for a slice, 3 for a window written. *)
Definition brief (e : event Z) : Z * list Z :=
  match e with
  | Compared a b => (0, [a; b])
  | Hashed _ k => (1, match k with KOther x => [x] | KStr s => s | KU32 n => [n] end)
  | HashedSlice _ s => (2, s)
  | HashedPart _ s => (3, s)
  end.
Definition calls_of {A} (x : A * (Z * list (event Z))) : list (Z * list Z) := map brief (snd (snd x)).

Lemma ex_C72 :
  let keys := [5; 17; 103; 998; 42; 7] in
  calls_of (v_new (recording fickle) checked_env KindOther (others keys) poor_hasher (0, [])) =
    map (fun x => (1, [x])) (keys ++ keys) /\
  (exists m n, v_new fickle checked_env KindOther (others keys) poor_hasher 0 = (Ok m, n) /\
     calls_of (v_find (recording fickle) checked_env m (KOther 17) (17, [])) = [(1, [17]); (0, [17; 103]); (0, [17; 17])] /\
     calls_of (v_get_many_mut (recording (steady Z.eqb)) checked_env m [KOther 17; KOther 42; KOther 5] (n, [])) =
       [(0, [17; 42]); (0, [17; 5]); (0, [42; 5]); (1, [17]); (0, [17; 42])]) /\
  calls_of (v_new (recording (steady Z.eqb)) checked_env KindString (strs lefts5) sample_hasher (0, [])) =
    [(2, [88]); (2, [88])] ++ map (fun x => (2, [x])) [97; 98; 99; 100; 101] ++
    map (fun x => (3, [x])) ([97; 98; 99; 100; 101] ++ [97; 98; 99; 100; 101]) /\
  (exists m, fm_new checked_env KindString (strs lefts5) sample_hasher = Ok m /\
     calls_of (v_find (recording fickle) checked_env m (KStr [88; 99]) (0, [])) = [(3, [99])]) /\
  (exists m, small_map = Ok m /\ fm_get_cost Z.eqb checked_env m (KOther 17) = Ok 1 /\
     calls_of (v_find (recording (steady Z.eqb)) checked_env m (KOther 17) (0, [])) = [(1, [17]); (0, [17; 17])]).
Proof.
  cbv zeta. split; [vm_compute; reflexivity|].
  split; [apply with_ok_state; vm_compute; split; reflexivity|].
  split; [vm_compute; reflexivity|].
  split; apply with_ok; vm_compute; try split; reflexivity.
Qed.

(** Neither [==] nor [contains] is to be relied upon. *)
Definition moody : conduct Z Z := {|
  on_eq := fun _ _ n => (if n mod 7 =? 3 then None else Some (n mod 3 =? 0), n + 1);
  on_hash := fun _ _ n => (Some (n * n mod 5), n + 1);
  on_hash_slice := fun _ _ n => (Some n, n + 1);
  on_hash_write := fun _ _ n => (None, n + 1)
|}.
Definition moody_sets {A} (k : set_types Z -> set_types Z -> A) : option A :=
  match v_fs_new moody checked_env KindOther (map KOther [5; 17; 103; 998; 42; 7]) poor_hasher 0,
        v_fs_new moody checked_env KindOther (map KOther [17; 42; 6; 7]) poor_hasher 50 with
  | (Ok s1, _), (Ok s2, _) => Some (k s1 s2)
  | _, _ => None
  end.
Definition moody_pair {A} (k : vol_set Z (key Z) _ -> vol_set Z (key Z) _ -> A) : option A :=
  moody_sets (fun s1 s2 => k (v_fs_running moody checked_env s1) (v_fs_running moody checked_env s2)).
Lemma ex_C73 :
  moody_pair (fun s1 s2 =>
    let n1 := noted First s1 in
    let n2 := noted Second s2 in
    let calls m :=
      let (os, x) := v_calls m (map aside (repeat (fun w => w + 3) 9)) (v_op_new n1 n2, (0, [])) in
      (os, snd (snd x)) in
    (calls (v_union 7 n1 n2), calls (v_symmetric_difference 7 n1 n2), v_is_disjoint 7 n1 n2 (0, []))) =
  Some
    ((map (fun x => Ok (Some (KOther x))) [103; 17; 7; 998; 5; 42] ++ [Panic PForeign; Ok None; Ok None],
      [(First, KOther 6, inr PForeign); (First, KOther 17, inl true); (First, KOther 7, inl true);
       (First, KOther 42, inl true)]),
     ([Ok (Some (KOther 103)); Panic PForeign; Panic PForeign; Ok (Some (KOther 5)); Ok (Some (KOther 42));
       Ok (Some (KOther 6)); Panic PForeign; Ok None; Ok None],
      [(Second, KOther 103, inl false); (Second, KOther 17, inr PForeign); (Second, KOther 7, inl true);
       (Second, KOther 998, inr PForeign); (Second, KOther 5, inl false); (Second, KOther 42, inl false);
       (First, KOther 6, inl false); (First, KOther 17, inl true); (First, KOther 7, inr PForeign);
       (First, KOther 42, inl true)]),
     (Panic PForeign,
      (11, [(Second, KOther 103, inl false); (Second, KOther 17, inl false); (Second, KOther 7, inl false);
            (Second, KOther 998, inr PForeign)]))).
Proof. vm_compute. reflexivity. Qed.

Definition recorded_pair {A} (k : vol_set _ (key Z) _ -> vol_set _ (key Z) _ -> A) : option A :=
  moody_sets (fun s1 s2 =>
    k (v_fs_running (recording moody) checked_env s1) (v_fs_running (recording moody) checked_env s2)).
Lemma ex_C77 :
  calls_of (v_fs_new (recording moody) checked_env KindOther (map KOther [17; 42; 6; 7]) poor_hasher (50, [])) =
    map (fun x => (1, [x])) ([17; 42; 6; 7] ++ [17; 42; 6; 7]) /\
  recorded_pair (fun r1 r2 =>
    let calls m :=
      let (os, x) := v_calls m (map aside (repeat (fun w => w + 3) 9)) (v_op_new r1 r2, (0, [])) in
      calls_of (os, snd x) in
    (calls (v_union 7 r1 r2), calls (v_difference 7 r1 r2),
     calls_of (v_is_disjoint 7 r1 r2 (0, [])), calls_of (v_is_subset 7 r1 r2 (0, [])))) =
  Some
    ([(1, [6]); (0, [6; 7]); (0, [6; 998]); (0, [6; 5]); (1, [17]); (0, [17; 103]); (0, [17; 17]);
      (1, [7]); (0, [7; 7]); (0, [7; 998]); (1, [42]); (0, [42; 7]); (0, [42; 998])],
     [(1, [103]); (0, [103; 7]); (0, [103; 42]); (1, [17]); (0, [17; 6]); (1, [7]); (0, [7; 6]);
      (1, [998]); (0, [998; 6]); (1, [5]); (0, [5; 6]); (0, [5; 17]); (1, [42]); (0, [42; 7]); (0, [42; 42])],
     [(1, [103]); (0, [103; 7]); (0, [103; 42]); (1, [17]); (0, [17; 7]); (0, [17; 42]);
      (1, [7]); (0, [7; 6]); (0, [7; 17]); (1, [998]); (0, [998; 6])],
     []).
Proof. vm_compute. split; reflexivity. Qed.

(** References into a map of 50 entries: [get] and [get_mut] in turn, then [get_many_mut]; and a program
    that the borrow checker rejects, with a reference of [get] kept across a write. *)
Lemma ex_C74 :
  match fm_new checked_env KindOther (others (numbers 3 7 50)) sample_hasher with
  | Ok m =>
      match run_uses Z.eqb checked_env 9 m
              [Gets [KOther 3; KOther 17; KOther 4; KOther 3] [2; 0; 1; 0; 7]%nat;
               GetMut (KOther 17) [true; false; true]; GetMut (KOther 18) [true]; Gets [KOther 17] [0]%nat]
              (boxed 9 50) with
      | Ok h =>
          match fm_get_many_mut_ref Z.eqb checked_env 9 m [KOther 17; KOther 3; KOther 38] h with
          | Ok (Some rs, h') =>
              length rs = 3%nat /\ (exists h'', reads rs [0; 2; 1; 2]%nat h' = Ok h'') /\
              map (fun r => write_value r h') rs = [UB Aliasing; UB Aliasing; UB Aliasing]
          | _ => False
          end /\
          match fm_get_ref Z.eqb checked_env 9 m (KOther 3) h with
          | Ok (Some v1, h1) =>
              match fm_get_mut_ref Z.eqb checked_env 9 m (KOther 3) h1 with
              | Ok (Some v2, h2) => exists h3, write_value v2 h2 = Ok h3 /\ read_value v1 h3 = UB Aliasing
              | _ => False
              end
          | _ => False
          end
      | _ => False
      end
  | _ => False
  end.
Proof. vm_compute. repeat split; eauto. Qed.

Section Names.
Local Open Scope string_scope.
Definition like_point : naming := fun kd => match kd with KindOther => "app::Point" | _ => colliding kd end.
Definition like_u32 : naming := fun kd => match kd with KindOther => "u32" | _ => colliding kd end.
End Names.

(** The same five keys under three names of their type. *)
Lemma ex_C75 :
  let five_others := others [5; 17; 103; 998; 42] in
  standard colliding /\ mistaken colliding KindOther (length five_others) /\
  standard like_point /\ ~ mistaken like_point KindOther (length five_others) /\
  match fm_new_by_name checked_env like_point KindOther five_others sample_hasher with
  | Ok m => fm_get mod_eqb checked_env m (KOther 103) = Ok (Some 1030)
  | _ => False
  end /\
  fm_new_by_name checked_env colliding KindOther five_others sample_hasher = UB WrongType /\
  fs_new_by_name checked_env like_u32 KindOther (map fst five_others) sample_hasher = UB WrongType /\
  match fm_new_by_name checked_env colliding KindOther (firstn 3 five_others) sample_hasher with
  | Ok m => fm_get mod_eqb checked_env m (KOther 103) = Ok (Some 1030)
  | _ => False
  end.
Proof.
  intros five_others.
  split; [split; reflexivity|]. split; [repeat split; [vm_compute; auto | right; reflexivity]|].
  split; [split; reflexivity|].
  split; [intros (_ & _ & [H|H]); discriminate H|].
  split; [vm_compute; reflexivity|]. split; [reflexivity|]. split; reflexivity.
Qed.

(** Code of the caller that keeps no promise at all. *)
Section Erratic.
Import VolatileMaps.

Definition erratic : foreign Z Z Z Z := {|
  f_eq := fun _ _ n => (if n mod 11 =? 3 then None else Some (n mod 3 =? 0), n + 1);
  f_borrow := fun k n => (Some (k + n), n + 1);
  f_hash_key := fun _ _ n => (Some (n * n mod 5), n + 1);
  f_hash_query := fun _ _ n => (Some (n mod 7), n + 1);
  f_len_key := fun _ n => (Some (n mod 4 + 3), n + 1);
  f_len_query := fun _ n => (Some (n mod 4), n + 1);
  f_as_key := fun k n => (Some (k * n), n + 1);
  f_as_query := fun _ n => (Some n, n + 1);
  f_slice_hash_key := fun _ k a b n => (Some (k + a + b + n), n + 1);
  f_slice_hash_query := fun _ _ a b n => (Some (a + b + n), n + 1)
|}.

Definition unlucky_payload : list (Z * Z) := [(5, 50); (17, 170); (103, 1030); (998, 9980); (42, 420); (7, 70)].
Definition unlucky_history : list (op Z Z) :=
  [OGet 17; OGet 17; OGetKeyValue 42; OGetManyMut [(17, 8); (42, 9)]; OGetManyMut [(17, 8); (42, 9)]; OContainsKey 5;
   OIndexMut 0 7; OIndex 1; OIter].
Definition unlucky (sh : shape Z) : Z * list (option (obs Z Z)) :=
  match sp_from_vec erratic checked_env usize sh unlucky_payload 0 with
  | (Ok m, n) => (n, sp_run erratic checked_env m unlucky_history n)
  | (_, n) => (n, [])
  end.

Lemma ex_C76 :
  unlucky Scanning =
    (0, [None; Some (SawValue (Some 1030)); Some (SawEntry (Some (103, 1030))); Some (SawBool true); None;
         Some (SawBool true); Some (SawBool true); Some (SawValue (Some 7));
         Some (SawItems [(5, 8); (17, 170); (103, 7); (998, 9980); (42, 420); (7, 70)])]) /\
  unlucky (Common 0) =
    (12, [Some (SawValue None); Some (SawValue (Some 420)); Some (SawEntry None); Some (SawBool false);
          Some (SawBool false); Some (SawBool true); Some (SawBool true); Some SawPanic;
          Some (SawItems [(103, 1030); (17, 170); (7, 70); (998, 9980); (5, 50); (42, 7)])]) /\
  unlucky (LeftSlice 0 0 3) =
    (18, [Some (SawValue None); Some (SawValue None); Some (SawEntry None); Some (SawBool false);
          Some (SawBool false); Some (SawBool false); Some SawPanic; Some SawPanic;
          Some (SawItems [(42, 420); (7, 70); (998, 9980); (103, 1030); (5, 50); (17, 170)])]) /\
  unlucky (RightSlice 0 2 1) =
    (42, [None; None; Some (SawEntry None); None; Some (SawBool false); None; Some (SawBool true);
          Some (SawValue (Some 7));
          Some (SawItems [(998, 9980); (5, 50); (42, 420); (7, 70); (103, 7); (17, 170)])]) /\
  fst (sp_from_vec erratic checked_env usize (RightSlice 0 9 1) unlucky_payload 0) = Panic POverflow /\
  map (fun ab => slice_hash (fun _ s => zlen s) 0 [104; 105] (fst ab) (snd ab)) [(0, 2); (1, 1); (0, 3); (2, 1)] =
    [Ok 2; Ok 0; UB OutOfBounds; UB OutOfBounds].
Proof. vm_compute. repeat split; reflexivity. Qed.

(** ** C80 *)

Import SpecialCallSpec.
Definition logged {A} (x : A * (Z * list (request Z Z Z Z))) : A * list (request Z Z Z Z) := (fst x, snd (snd x)).
Definition erratic_calls (sh : shape Z) (n1 n2 n3 : Z) :=
  match sp_from_vec (witness (V := Z) erratic) checked_env usize sh [(5, 50); (17, 170); (103, 1030)] (0, []) with
  | (Ok m, (_, log)) =>
     Some (log, map fst (sp_entries m), logged (sp_find (witness erratic) checked_env m 17 (n1, [])),
       logged (sp_get_many_mut (witness erratic) checked_env m [17; 42] (n2, [])),
       logged (sp_eq (witness erratic) checked_env (witness_values (fun a b n => (Some (a <=? b), n + 1))) m m (n3, [])))
  | _ => None
  end.
Lemma ex_C80 :
  erratic_calls (RightSlice 0 2 1) 18 22 30 =
    Some ([AskLen (inl 5) (Some 3); AskLen (inl 5) (Some 4); AskLen (inl 5) (Some 5); AskSliceHash 0 (inl 5) 2
     4 (Some 14); AskLen (inl 17) (Some 3); AskLen (inl 17) (Some 4); AskLen (inl 17) (Some 5); AskSliceHash 0
     (inl 17) 2 4 (Some 30); AskLen (inl 103) (Some 3); AskLen (inl 103) (Some 4); AskLen (inl 103) (Some 5);
     AskSliceHash 0 (inl 103) 2 4 (Some 120); AskLen (inl 5) (Some 3); AskLen (inl 5) (Some 4); AskSliceHash 0
     (inl 5) 1 3 (Some 23); AskLen (inl 17) (Some 6); AskLen (inl 17) (Some 3); AskSliceHash 0 (inl 17) 4 2
     (Some 40); AskLen (inl 103) (Some 5); AskLen (inl 103) (Some 6); AskSliceHash 0 (inl 103) 3 5 (Some 131)],
     [ 103; 17; 5], (Panic POverflow, [AskLen (inr 17) (Some 2); AskLen (inr 17) (Some 3); AskLen (inr 17)
     (Some 0)]), (Panic POverflow, [AskEq 17 42 (Some false); AskLen (inr 17) (Some 3); AskLen (inr 17) (Some
     0)]), (Panic POverflow, [AskLen (inr 103) (Some 2); AskLen (inr 103) (Some 3); AskLen (inr 103) (Some
     0)])) /\
  erratic_calls (Common 0) 7 16 25 =
    Some ([AskHash 0 (inl 5) (Some 0); AskHash 0 (inl 17) (Some 1); AskHash 0 (inl 103) (Some 4); AskHash 0
     (inl 5) (Some 4); AskHash 0 (inl 17) (Some 1); AskHash 0 (inl 103) (Some 0)], [5; 17; 103], (Ok (Some
     2%nat), [AskHash 0 (inr 17) (Some 0); AskBorrow 103 (Some 111); AskEq 17 111 (Some true)]), (Ok None,
     [AskEq 17 42 (Some false); AskHash 0 (inr 17) (Some 3)]), (Ok false, [AskHash 0 (inr 5) (Some 4);
     AskBorrow 5 (Some 31); AskEq 5 31 (Some true); AskValues 50 50 (Some true); AskHash 0 (inr 17) (Some 1);
     AskBorrow 17 (Some 47); AskEq 17 47 (Some false)])) /\
  erratic_calls Scanning 1 17 0 =
    Some ([], [5; 17; 103], (Ok (Some 2%nat), [AskBorrow 5 (Some 6); AskEq 17 6 (Some false); AskBorrow 17
     (Some 20); AskEq 17 20 (Some false); AskBorrow 103 (Some 108); AskEq 17 108 (Some true)]), (Panic
     PForeign, [AskEq 17 42 (Some false); AskBorrow 5 (Some 23); AskEq 17 23 (Some false); AskBorrow 17 (Some
     37); AskEq 17 37 (Some true); AskBorrow 5 (Some 27); AskEq 42 27 (Some false); AskBorrow 17 (Some 41);
     AskEq 42 41 None]), (Panic PForeign, [AskBorrow 5 (Some 5); AskEq 5 5 (Some false); AskBorrow 17 (Some
     19); AskEq 5 19 None])).
Proof. vm_compute. repeat split; reflexivity. Qed.
(** ** C81 *)

Import SpecialSets.
(** Two sets, the calls of the iterators of the union and of the difference, and of [is_superset]. *)
Definition erratic_sets (sh1 sh2 : shape Z) (n : Z) :=
  match st_from_vec checked_env erratic usize sh1 [5; 17; 103] 0, st_from_vec checked_env erratic usize sh2 [17; 42] 40 with
  | (Ok s1, _), (Ok s2, _) =>
      let r1 := st_running checked_env (witness (V := unit) erratic) s1 in
      let r2 := st_running checked_env (witness (V := unit) erratic) s2 in
      let calls m :=
        let (os, x) := v_calls m (map aside (repeat (fun w => w + 3) 5)) (v_op_new r1 r2, (n, [])) in
        (os, snd (snd x)) in
      let (b, x) := v_is_superset 4 r1 r2 (n, []) in
      Some (calls (v_union 4 r1 r2), calls (v_difference 4 r1 r2), (b, snd x))
  | _, _ => None
  end.
Lemma ex_C81_calls :
  erratic_sets (Common 0) Length 2 =
    Some ((map (fun x => Ok (Some x)) [5; 17; 103; 17; 42],
           [AskHash 0 (inr 17) (Some 0); AskBorrow 103 (Some 118); AskEq 17 118 (Some false); AskHash 0 (inr 42) (Some 6);
            AskBorrow 17 (Some 38); AskEq 42 38 (Some false)]),
          ([Ok (Some 5); Ok (Some 17); Ok (Some 103); Ok None; Ok None],
           [AskLen (inr 5) (Some 1); AskBorrow 17 (Some 23); AskEq 5 23 (Some false); AskLen (inr 17) (Some 3);
            AskBorrow 17 (Some 29); AskEq 17 29 (Some false); AskLen (inr 103) (Some 1); AskBorrow 17 (Some 35);
            AskEq 103 35 (Some false)]),
          (Ok false, [AskHash 0 (inr 17) (Some 2)])) /\
  erratic_sets (RightSlice 0 2 1) Scanning 1 =
    Some ((map (fun x => Ok (Some x)) [103; 17; 5; 17; 42], [AskLen (inr 17) (Some 1); AskLen (inr 42) (Some 1)]),
          ([Ok (Some 103); Panic PForeign; Ok None; Ok None; Ok None],
           [AskBorrow 17 (Some 21); AskEq 103 21 (Some false); AskBorrow 42 (Some 48); AskEq 103 48 (Some false);
            AskBorrow 17 (Some 28); AskEq 17 28 (Some true); AskBorrow 17 (Some 30); AskEq 5 30 None]),
          (Ok false, [AskLen (inr 17) (Some 1)])).
Proof. vm_compute. split; reflexivity. Qed.
End Erratic.

(** ** C78: cloning that changes values, replaces the hasher and panics now and then *)

Definition sloppy : cloning Z Z Z := {|
  on_clone := fun x n => (if n mod 40 =? 33 then None else Some (x + 1000), n + 1);
  on_clone_value := fun v n => (if n mod 50 =? 47 then None else Some (v + n), n + 1);
  on_clone_hasher := fun _ n => (if n mod 60 =? 58 then None else Some sample_hasher, n + 1)
|}.
Definition brief_copy (c : copy Z Z) : Z * Z * option Z :=
  match c with
  | CopiedKey x a => (0, x, a)
  | CopiedValue v a => (1, v, a)
  | CopiedHasher bh a => (2, hash_one bh (KOther 5), option_map (fun b => hash_one b (KOther 5)) a)
  end.
Definition brief_clone (m : map_types Z Z) (n : Z) :=
  let '(r, (n', log)) := fm_clone (recording_copies sloppy) m (n, []) in
  (m' <- r ;; Ok (fm_iter m'), n', map brief_copy log).
Definition brief_set_clone (s : set_types Z) (n : Z) :=
  let '(r, (n', log)) := fs_clone (recording_copies sloppy) s (n, []) in
  (s' <- r ;; Ok (fs_items s'), n', map brief_copy log).
Lemma ex_C78_copies :
  match v_new moody checked_env KindOther (others [5; 17; 103; 998; 42]) poor_hasher 0 with
  | (Ok m, _) => Some (brief_clone m 0, brief_clone m 40, brief_clone m 48)
  | _ => None
  end =
  Some
    ((Ok [(KOther 1998, 9981); (KOther 1103, 1033); (KOther 1042, 425); (KOther 1017, 177); (KOther 1005, 59)], 11,
      [(0, 998, Some 1998); (1, 9980, Some 9981); (0, 103, Some 1103); (1, 1030, Some 1033); (0, 42, Some 1042);
       (1, 420, Some 425); (0, 17, Some 1017); (1, 170, Some 177); (0, 5, Some 1005); (1, 50, Some 59); (2, 0, Some 35)]),
     (Panic PForeign, 48,
      [(0, 998, Some 1998); (1, 9980, Some 10021); (0, 103, Some 1103); (1, 1030, Some 1073); (0, 42, Some 1042);
       (1, 420, Some 465); (0, 17, Some 1017); (1, 170, None)]),
     (Panic PForeign, 59,
      [(0, 998, Some 1998); (1, 9980, Some 10029); (0, 103, Some 1103); (1, 1030, Some 1081); (0, 42, Some 1042);
       (1, 420, Some 473); (0, 17, Some 1017); (1, 170, Some 225); (0, 5, Some 1005); (1, 50, Some 107); (2, 0, None)])) /\
  match fm_new checked_env KindString (strs lefts5) sample_hasher with
  | Ok m => Some (brief_clone m 0)
  | _ => None
  end =
  Some
    (Ok [(KStr [88; 97], 108); (KStr [88; 101; 101], 119); (KStr [88; 100], 110); (KStr [88; 99], 111); (KStr [88; 98], 112)], 6,
     [(1, 108, Some 108); (1, 118, Some 119); (1, 108, Some 110); (1, 108, Some 111); (1, 108, Some 112); (2, 35, Some 35)]) /\
  match fm_new checked_env KindU32 (u32s [5; 17; 103; 998; 42]) sample_hasher with
  | Ok m => Some (brief_clone m 0)
  | _ => None
  end =
  Some
    (Ok [(KU32 103, 1030); (KU32 998, 9981); (KU32 5, 52); (KU32 42, 423); (KU32 17, 174)], 5,
     [(1, 1030, Some 1030); (1, 9980, Some 9981); (1, 50, Some 52); (1, 420, Some 423); (1, 170, Some 174)]) /\
  match v_fs_new moody checked_env KindOther (map KOther [17; 42; 6; 7]) poor_hasher 50 with
  | (Ok s, _) => Some (brief_set_clone s 0, brief_set_clone s 31)
  | _ => None
  end =
  Some
    ((Ok [KOther 1006; KOther 1017; KOther 1007; KOther 1042], 5,
      [(0, 6, Some 1006); (0, 17, Some 1017); (0, 7, Some 1007); (0, 42, Some 1042); (2, 0, Some 35)]),
     (Panic PForeign, 34, [(0, 6, Some 1006); (0, 17, Some 1017); (0, 7, None)])).
Proof. split; [|split; [|split]]; vm_compute; reflexivity. Qed.

(** The clone of a map whose values have been changed, in use. *)
Lemma ex_C78_owned :
  exists bh m, owned moody sloppy checked_env KindOther bh m /\
    hash_one bh (KOther 5) = 35 /\
    v_run moody checked_env m
      [OGet (KOther 17); OGet (KOther 17); OGet (KOther 17); OGetMut (KOther 17) 9;
       OGetManyMut [(KOther 17, 8); (KOther 42, 9)]; OIter] 11 =
      [Some (SawValue (Some 5)); Some (SawValue (Some 1033)); None; Some (SawBool false); Some (SawBool false);
       Some (SawItems [(KOther 1998, 9981); (KOther 1103, 1033); (KOther 1042, 5); (KOther 1017, 177); (KOther 1005, 59)])].
Proof.
  assert (H : match v_new moody checked_env KindOther (others [5; 17; 103; 998; 42]) poor_hasher 0 with
    | (Ok m, _) => let '(_, m1, _) := v_step moody checked_env m (OGetMut (KOther 17) 0) 11 in
        match fm_clone (recording_copies sloppy) m1 (0, []) with
        | (Ok m2, (_, log)) => hash_one (hasher_in poor_hasher log) (KOther 5) = 35 /\
            v_run moody checked_env m2
              [OGet (KOther 17); OGet (KOther 17); OGet (KOther 17); OGetMut (KOther 17) 9;
               OGetManyMut [(KOther 17, 8); (KOther 42, 9)]; OIter] 11 =
              [Some (SawValue (Some 5)); Some (SawValue (Some 1033)); None; Some (SawBool false); Some (SawBool false);
               Some (SawItems [(KOther 1998, 9981); (KOther 1103, 1033); (KOther 1042, 5); (KOther 1017, 177); (KOther 1005, 59)])]
        | _ => False
        end
    | _ => False
    end) by (vm_compute; split; reflexivity).
  destruct (v_new moody checked_env KindOther _ poor_hasher 0) as [[m| | |] n] eqn:Hm; try contradiction.
  destruct (v_step moody checked_env m _ 11) as [[b m1] n1] eqn:Hs.
  destruct (fm_clone _ m1 _) as [[m2| | |] [n2 log]] eqn:Hc; try contradiction.
  exists (hasher_in poor_hasher log), m2. split; [|exact H].
  eapply OwnedClone; [|exact Hc]. eapply OwnedUse; [|intros k Hk|exact Hs].
  - refine (OwnedNew _ _ _ _ _ _ _ _ _ _ _ Hm); [reflexivity|]. apply typedb_ok. reflexivity.
  - destruct Hk as [<-|[]]. exact I.
Qed.

(** A clone equal to its original, with other representatives of the keys. *)
Definition careful : cloning Z Z Z := {|
  on_clone := fun x n => (Some (x + 1000), n + 1);
  on_clone_value := fun v n => (Some v, n + 2);
  on_clone_hasher := fun bh n => (Some bh, n * 3)
|}.
Lemma ex_C78_faithful :
  (forall x, mod_eqb x (x + 1000) = true) /\ (forall b : hasher Z, hash_alike b b) /\
  clones_as (on_clone careful) (fun x => x + 1000) /\ clones_as (on_clone_value careful) (fun v => v) /\
  clones_as (on_clone_hasher careful) (fun b => b) /\
  match fm_new checked_env KindOther (others [5; 17; 103; 998; 42]) sample_hasher with
  | Ok m => let (r, n) := fm_clone careful m 1 in
      Some (n, m' <- r ;; b <- fm_eq mod_eqb checked_env Z.eqb m m' ;; v <- fm_get mod_eqb checked_env m' (KOther 17) ;;
               Ok (map fst (fm_iter m), map fst (fm_iter m'), b, v))
  | _ => None
  end =
  Some (48, Ok (map KOther [17; 42; 5; 998; 103], map KOther [1017; 1042; 1005; 1998; 1103], true, Some 170)).
Proof.
  split. { intros x. unfold mod_eqb. apply Z.eqb_eq. rewrite <- Z.add_mod_idemp_r by discriminate. now rewrite Z.add_0_r. }
  split. { intros b. split; reflexivity. }
  split. { intros x n. exists (n + 1). reflexivity. }
  split. { intros x n. exists (n + 2). reflexivity. }
  split. { intros x n. exists (n * 3). reflexivity. }
  vm_compute. reflexivity.
Qed.

(** ** C79: lawful code of the caller that counts how often it is called *)
Section Effects.
Import VolatileMaps EffectSpec.

Definition counting : conduct Z Z := {|
  on_eq := fun a b n => (Some (mod_eqb a b), n + 1);
  on_hash := fun bh k n => (Some (hash_one bh k), n + 1);
  on_hash_slice := fun bh s n => (Some (hash_one_slice bh s), n + 1);
  on_hash_write := fun bh s n => (Some (hash_write bh s), n + 1)
|}.

(** Keys are numbers with a note; numbers that agree modulo 1000 are equal. *)
Definition orderly : oracle (Z * Z) Z Z := {|
  a_eq := fun x y => x mod 1000 =? y mod 1000;
  a_borrow := fst;
  a_hash_key := fun bh k => fst k mod 1000 mod 5 + bh;
  a_hash_query := fun bh q => q mod 1000 mod 5 + bh;
  a_len_key := fun k => fst k mod 1000 mod 4 + 3;
  a_len_query := fun q => q mod 1000 mod 4 + 3;
  a_as_key := fun k => fst k mod 1000;
  a_as_query := fun q => q mod 1000;
  a_slice_hash_key := fun bh k x y => fst k mod 1000 mod 3 + bh + 10 * x + y;
  a_slice_hash_query := fun bh q x y => q mod 1000 mod 3 + bh + 10 * x + y
|}.
Definition counted {A} (a : A) (n : Z) : option A * Z := (Some a, n + 1).
Definition orderly_foreign : foreign Z (Z * Z) Z Z := {|
  f_eq := fun x y => counted (a_eq orderly x y);
  f_borrow := fun k => counted (a_borrow orderly k);
  f_hash_key := fun bh k => counted (a_hash_key orderly bh k);
  f_hash_query := fun bh q => counted (a_hash_query orderly bh q);
  f_len_key := fun k => counted (a_len_key orderly k);
  f_len_query := fun q => counted (a_len_query orderly q);
  f_as_key := fun k => counted (a_as_key orderly k);
  f_as_query := fun q => counted (a_as_query orderly q);
  f_slice_hash_key := fun bh k x y => counted (a_slice_hash_key orderly bh k x y);
  f_slice_hash_query := fun bh q x y => counted (a_slice_hash_query orderly bh q x y)
|}.

Definition orderly_payload : list (Z * Z * Z) :=
  [((5, 1), 50); ((17, 2), 170); ((103, 3), 1030); ((998, 4), 9980); ((42, 5), 420); ((7, 6), 70)].
Definition orderly_shapes : list (shape Z) :=
  [Scanning; Common 3; Length; Integer; LeftSlice 3 1 2; RightSlice 3 2 1].
Definition orderly_history : list (op Z Z) :=
  [OGet 1017; OGet 18; OContainsKey 1042; OContainsKey 43; OGetManyMut [(17, 8); (42, 9)]; OGetManyMut [(17, 8); (1017, 9)];
   OGetMut 7 6; OGetMut 8 6; OGetKeyValue 1007; OIndexMut 0 7; OIndex 2017].
Definition orderly_result (sh : shape Z) : list (option (obs (Z * Z) Z)) :=
  match sp_from_vec orderly_foreign checked_env usize sh orderly_payload 0 with
  | (Ok m, n) => sp_run orderly_foreign checked_env m orderly_history n
  | _ => []
  end.

Lemma ex_C79 :
  regular counting mod_eqb /\ regular_foreign orderly_foreign orderly /\ equivalence (a_eq orderly) /\
  fits usize (zlen orderly_payload) /\ distinct (a_eq orderly) (map (fun e => a_borrow orderly (fst e)) orderly_payload) /\
  (forall sh, In sh orderly_shapes -> fitting orderly sh (map fst orderly_payload)) /\
  map orderly_result orderly_shapes = repeat
    [Some (SawValue (Some 170)); Some (SawValue None); Some (SawBool true); Some (SawBool false); Some (SawBool true); Some (SawBool false);
     Some (SawBool true); Some (SawBool false); Some (SawEntry (Some ((7, 6), 6))); Some SawPanic; Some (SawValue (Some 8))] 6 /\
  (exists m n, v_new counting checked_env KindOther (others [5; 17; 103; 998; 42; 7]) poor_hasher 0 = (Ok m, n) /\ n = 12 /\
     v_run counting checked_env m [OGet (KOther 1017); OContainsKey (KOther 18)] n = [Some (SawValue (Some 170)); Some (SawBool false)]).
Proof.
  split. { repeat split. }
  split. { repeat split. }
  split.
  { split; cbn [a_eq orderly]; intros *; rewrite ?Z.eqb_eq; congruence. }
  split. { unfold fits. vm_compute. intuition discriminate. }
  split. { apply distinctb_ok. vm_compute. reflexivity. }
  split.
  { assert (He : forall x y, a_eq orderly x y = true -> x mod 1000 = y mod 1000) by (intros x y H; now apply Z.eqb_eq).
    intros sh H. repeat destruct H as [<-|H]; try contradiction; cbn [fitting orderly_payload map fst In]; try exact I;
      repeat split; intros; cbn; try reflexivity; try lia;
      try match goal with H : a_eq _ _ _ = true |- _ => now rewrite (He _ _ H) end;
      match goal with |- context [?z mod 4] => pose proof (Z.mod_pos_bound z 4 ltac:(lia)); lia end. }
  split; [vm_compute; reflexivity|].
  apply with_ok_state. vm_compute. auto.
Qed.
(** ** C81: numbers that agree modulo 1000 are equal *)

Import SpecialSets SpecialSetSpec VolatileRange RangeSpec.
Definition modular : oracle Z Z Z := {|
  a_eq := fun x y => x mod 1000 =? y mod 1000;
  a_borrow := fun x => x;
  a_hash_key := fun bh k => k mod 1000 mod 5 + bh;
  a_hash_query := fun bh q => q mod 1000 mod 5 + bh;
  a_len_key := fun k => k mod 1000 mod 4 + 3;
  a_len_query := fun q => q mod 1000 mod 4 + 3;
  a_as_key := fun k => k mod 1000;
  a_as_query := fun q => q mod 1000;
  a_slice_hash_key := fun bh k x y => k mod 1000 mod 3 + bh + 10 * x + y;
  a_slice_hash_query := fun bh q x y => q mod 1000 mod 3 + bh + 10 * x + y
|}.
Definition modular_foreign : foreign Z Z Z Z := {|
  f_eq := fun x y => counted (a_eq modular x y);
  f_borrow := fun k => counted (a_borrow modular k);
  f_hash_key := fun bh k => counted (a_hash_key modular bh k);
  f_hash_query := fun bh q => counted (a_hash_query modular bh q);
  f_len_key := fun k => counted (a_len_key modular k);
  f_len_query := fun q => counted (a_len_query modular q);
  f_as_key := fun k => counted (a_as_key modular k);
  f_as_query := fun q => counted (a_as_query modular q);
  f_slice_hash_key := fun bh k x y => counted (a_slice_hash_key modular bh k x y);
  f_slice_hash_query := fun bh q x y => counted (a_slice_hash_query modular bh q x y)
|}.
Definition modular_payload : list Z := [5; 17; 103; 998; 42; 7; 1005].
Definition modular_results (sh1 sh2 : shape Z) :=
  match st_from_vec checked_env modular_foreign u16 sh1 modular_payload 0,
        st_from_vec checked_env modular_foreign u8 sh2 [2042; 8; 3017; 1998] 9 with
  | (Ok s1, n), (Ok s2, _) =>
      let r1 := st_running checked_env modular_foreign s1 in
      let r2 := st_running checked_env modular_foreign s2 in
      Some (fst (v_calls (v_difference 9 r2 r1) (repeat (fun w => w * w) 3) (v_op_new r2 r1, n)),
            fst (v_is_disjoint 9 r1 r2 n), fst (v_is_subset 9 r2 r1 n), fst (st_get checked_env modular_foreign s1 4042 n))
  | _, _ => None
  end.
Lemma ex_C81_lawful :
  regular_foreign modular_foreign modular /\ equivalence (a_eq modular) /\ (forall x, a_borrow modular x = x) /\
  fits u16 (zlen modular_payload) /\ (forall sh, In sh orderly_shapes -> fitting modular sh modular_payload) /\
  map (fun sh => modular_results sh Scanning) orderly_shapes =
    repeat (Some ([Ok (Some 8); Ok None; Ok None], Ok false, Ok false, Ok (Some 42))) 6 /\
  map (modular_results (Common 3)) orderly_shapes =
    repeat (Some ([Ok (Some 8); Ok None; Ok None], Ok false, Ok false, Ok (Some 42))) 6.
Proof.
  split. { repeat split. }
  split.
  { split; cbn [a_eq modular]; intros *; rewrite ?Z.eqb_eq; congruence. }
  split; [reflexivity|].
  split. { unfold fits. vm_compute. intuition discriminate. }
  split.
  { assert (He : forall x y, a_eq modular x y = true -> x mod 1000 = y mod 1000) by (intros x y H; now apply Z.eqb_eq).
    intros sh H. repeat destruct H as [<-|H]; try contradiction; cbn [fitting modular_payload In]; try exact I;
      repeat split; intros; cbn; try reflexivity; try lia;
      try match goal with H : a_eq _ _ _ = true |- _ => now rewrite (He _ _ H) end;
      match goal with |- context [?z mod 4] => pose proof (Z.mod_pos_bound z 4 ltac:(lia)); lia end. }
  split; vm_compute; reflexivity.
Qed.
End Effects.

(** ** C82: integers of the caller *)

Section Ranges.
Import VolatileMaps SpecialCallSpec EffectSpec SpecialSets SpecialSetSpec VolatileRange RangeSpec.

(** Insertion sort. *)
Fixpoint insertion {A} (x : A) (l : list A) (go_on : list A -> sorting A) : sorting A :=
  match l with
  | [] => go_on [x]
  | y :: l' => Compare y x (fun below => if below then insertion x l' (fun r => go_on (y :: r)) else go_on (x :: l))
  end.
Fixpoint insertion_sort {A} (l : list A) (go_on : list A -> sorting A) : sorting A :=
  match l with
  | [] => go_on []
  | x :: l' => insertion_sort l' (fun r => insertion x r go_on)
  end.
Definition by_insertion : sorter := fun A l => insertion_sort l (fun r => Ended (Some r)).

Lemma insertion_ends {A} (x : A) r : forall l k, may_end (insertion x l k) r ->
  exists l', Permutation (x :: l) l' /\ may_end (k l') r.
Proof.
  induction l as [|y l IH]; intros k H; cbn [insertion] in H; [eauto|].
  inversion H as [|a b next ans r' Hn]; subst. destruct ans; [|eauto].
  destruct (IH _ Hn) as (l' & HP & He). exists (y :: l'). split; auto.
  rewrite perm_swap. now constructor.
Qed.
Lemma insertion_sort_ends {A} r : forall (l : list A) k, may_end (insertion_sort l k) r ->
  exists l', Permutation l l' /\ may_end (k l') r.
Proof.
  induction l as [|x l IH]; intros k H; cbn [insertion_sort] in H; [eauto|].
  destruct (IH _ H) as (l1 & HP1 & H1). destruct (insertion_ends x r l1 k H1) as (l2 & HP2 & H2). exists l2. split; auto.
  rewrite <- HP2. now constructor.
Qed.
Lemma insertion_compares {A} (x : A) a b : forall l k, may_compare (insertion x l k) a b ->
  In a (x :: l) /\ In b (x :: l) \/ exists l', Permutation (x :: l) l' /\ may_compare (k l') a b.
Proof.
  induction l as [|y l IH]; intros k H; cbn [insertion] in H; [eauto|].
  inversion H as [|a' b' next ans c d Hn]; subst. { left. cbn. auto. }
  destruct ans; [|eauto]. destruct (IH _ Hn) as [(Ha & Hb)|(l' & HP & He)].
  - left. cbn in *. tauto.
  - right. exists (y :: l'). split; auto. rewrite perm_swap. now constructor.
Qed.
Lemma insertion_sort_compares {A} a b : forall (l : list A) k, may_compare (insertion_sort l k) a b ->
  In a l /\ In b l \/ exists l', Permutation l l' /\ may_compare (k l') a b.
Proof.
  induction l as [|x l IH]; intros k H; cbn [insertion_sort] in H; [eauto|].
  destruct (IH _ H) as [(Ha & Hb)|(l1 & HP1 & H1)]; [left; cbn; auto|].
  destruct (insertion_compares x a b l1 k H1) as [(Ha & Hb)|(l2 & HP2 & H2)].
  - left. assert (HP : Permutation (x :: l1) (x :: l)) by (constructor; now apply Permutation_sym).
    split; now apply (Permutation_in _ HP).
  - right. exists l2. split; auto. rewrite <- HP2. now constructor.
Qed.
Lemma insertion_sorts {A} (key : A -> Z) (x : A) : forall l k, StronglySorted Z.le (map key l) ->
  exists l', Permutation (x :: l) l' /\ StronglySorted Z.le (map key l') /\
    ends_as (fun a b => key a <? key b) (insertion x l k) = ends_as (fun a b => key a <? key b) (k l').
Proof.
  induction l as [|y l IH]; intros k H; cbn [insertion ends_as].
  - exists [x]. split; auto. split; auto. repeat constructor.
  - cbn [map] in H. apply StronglySorted_inv in H. destruct H as (Hs & Hf). destruct (Z.ltb_spec (key y) (key x)).
    + destruct (IH (fun r => k (y :: r)) Hs) as (l' & HP & Hs' & He). exists (y :: l').
      split; [rewrite perm_swap; now constructor|]. split; auto. cbn [map]. constructor; auto.
      rewrite Forall_forall in *. intros z Hz. apply (Permutation_in _ (Permutation_sym (Permutation_map key HP))) in Hz.
      destruct Hz as [<-|Hz]; [lia|auto].
    + exists (x :: y :: l). split; auto. split; auto. cbn [map]. repeat constructor; auto.
      rewrite Forall_forall in *. intros z Hz. specialize (Hf z Hz). lia.
Qed.
Lemma insertion_sort_sorts {A} (key : A -> Z) : forall l k,
  exists l', Permutation l l' /\ StronglySorted Z.le (map key l') /\
    ends_as (fun a b => key a <? key b) (insertion_sort l k) = ends_as (fun a b => key a <? key b) (k l').
Proof.
  induction l as [|x l IH]; intros k; cbn [insertion_sort].
  - exists []. split; auto. split; auto. constructor.
  - destruct (IH (fun r => insertion x r k)) as (l1 & HP1 & Hs1 & ->).
    destruct (insertion_sorts key x l1 k Hs1) as (l2 & HP2 & Hs2 & ->). exists l2. split; auto. rewrite <- HP2. now constructor.
Qed.
Lemma by_insertion_ok : sorter_ok by_insertion.
Proof.
  split.
  - intros A l l' H. destruct (insertion_sort_ends _ l _ H) as (l1 & HP & He). inversion He; subst. exact HP.
  - intros A l a b H. destruct (insertion_sort_compares a b l _ H) as [H1|(l1 & _ & He)]; auto. inversion He.
  - intros A key l. destruct (insertion_sort_sorts key l (fun r => Ended (Some r))) as (l' & _ & Hs & He). eauto.
Qed.

(** Bytes: a number stands for its remainder modulo 256, taken between -128 and 127. *)
Definition signed_byte (z : Z) : Z := (z + 128) mod 256 - 128.
Definition bytewise : integers Z (Z * Z) Z := {|
  g_zero := counted (0, 0);
  g_less := fun a b => counted (signed_byte (fst a) <? signed_byte (fst b));
  g_minus_key := fun a b => counted (fst a - fst b, snd a);
  g_usize_key := fun k => counted (to_usize (signed_byte (fst k)));
  g_borrow := fun k n => counted (fst k + 256 * n) n;
  g_ge := fun a b => counted (signed_byte b <=? signed_byte a);
  g_le := fun a b => counted (signed_byte a <=? signed_byte b);
  g_minus := fun a b n => counted (a - b - 256 * n) n;
  g_usize := fun q => counted (to_usize (signed_byte q));
  g_same := fun a b => counted (signed_byte a =? signed_byte b)
|}.

Lemma signed_byte_range z : -128 <= signed_byte z <= 127.
Proof. unfold signed_byte. pose proof (Z.mod_pos_bound (z + 128) 256 ltac:(lia)). lia. Qed.
Lemma signed_byte_minus a b n : -128 <= signed_byte a - signed_byte b <= 127 ->
  signed_byte (a - b - 256 * n) = signed_byte a - signed_byte b.
Proof.
  unfold signed_byte. intros H. pose proof (Z.div_mod (a + 128) 256 ltac:(lia)) as Ha. pose proof (Z.div_mod (b + 128) 256 ltac:(lia)) as Hb.
  set (u := (a + 128) mod 256) in *. set (v := (b + 128) mod 256) in *.
  rewrite <- (Z.mod_unique_pos (a - b - 256 * n + 128) 256 ((a + 128) / 256 - (b + 128) / 256 - n) (u - v + 128)); lia.
Qed.
Lemma bytewise_lawful : lawful_integers bytewise (-128) 127 (fun k => signed_byte (fst k)) signed_byte.
Proof.
  split; cbn [bytewise g_zero g_less g_minus_key g_usize_key g_borrow g_ge g_le g_minus g_usize g_same]; intros;
    try apply signed_byte_range; try (intros w; reflexivity);
    try (intros w; eexists; split; [reflexivity|]; cbn [fst]).
  - reflexivity.
  - rewrite <- (signed_byte_minus _ _ 0) by assumption. f_equal. lia.
  - unfold signed_byte. rewrite <- Z.add_assoc, (Z.add_comm (256 * w)), Z.add_assoc, (Z.mul_comm 256), Z.mod_add by lia. reflexivity.
  - now apply signed_byte_minus.
Qed.

Definition byte_payload : list (Z * Z * Z) := [((1, 5), 10); ((-2, 6), -20); ((256, 7), 0); ((255, 8), -10)].
Definition byte_history : list (op Z Z) :=
  [OGet (-1); OGet 257; OContainsKey 2; OContainsKey (-3); OGetKeyValue 512; OGetMut 0 99; OIndex 256; OIndexMut 100 3;
   OGetManyMut [(1, 11); (254, -21)]; OGetManyMut [(1, 11); (257, 12)]; OIter; OLen].
Lemma ex_C82_lawful :
  sorter_ok by_insertion /\ lawful_integers bytewise (-128) 127 (fun k => signed_byte (fst k)) signed_byte /\
  (forall k : Z * Z, signed_byte (fst k) = signed_byte (fst k)) /\
  zlen byte_payload < 2 ^ 64 /\ zlen byte_payload - 1 <= 127 /\
  consecutive (map (fun e => signed_byte (fst (fst e))) byte_payload) /\
  match rg_from_vec bytewise by_insertion byte_payload 0 with
  | (Ok m, n) =>
     rg_run bytewise Checked m byte_history n =
       map Some [SawValue (Some (-10)); SawValue (Some 10); SawBool false; SawBool false; SawEntry (Some ((256, 7), 0));
         SawBool true; SawValue (Some 99); SawPanic; SawBool true; SawBool false;
         SawItems [((-2, 6), -21); ((255, 8), -10); ((256, 7), 99); ((1, 5), 11)]; SawNumber 4]
  | _ => False
  end /\
  fst (rg_from_vec bytewise by_insertion [((1, 5), 10); ((255, 8), -10)] 0) = Panic PAssert.
Proof.
  split; [apply by_insertion_ok|]. split; [apply bytewise_lawful|]. split; [reflexivity|].
  split; [vm_compute; reflexivity|]. split; [vm_compute; discriminate|].
  split.
  { exists (-2). change (Permutation [1; -2; 0; -1] [-2; -1; 0; 1]).
    apply (Permutation_trans (l' := [-2; 1; 0; -1])); [apply perm_swap|]. apply perm_skip.
    apply (Permutation_trans (l' := [0; 1; -1])); [apply perm_swap|].
    apply (Permutation_trans (l' := [0; -1; 1])); [apply perm_skip, perm_swap|]. apply perm_swap. }
  split; vm_compute; reflexivity.
Qed.
Lemma ex_C82_empty :
  match rg_from_vec (V := Z) bytewise by_insertion [] 5 with
  | (Ok m, n) => map (fun q => fst (rg_get bytewise m q n)) [0; 1; 256; -1] =
      [Panic PIndexOutOfBounds; Ok None; Panic PIndexOutOfBounds; Ok None]
  | _ => False
  end.
Proof. vm_compute. reflexivity. Qed.

(** Answers that change from call to call; every thirteenth call panics. *)
Definition whimsical {A} (a b : A) (n : Z) : option A * Z :=
  (if n mod 13 =? 12 then None else Some (if n mod 3 =? 0 then b else a), n + 1).
Definition whims : integers Z Z Z := {|
  g_zero := whimsical 0 7;
  g_less := fun a b => whimsical (a <? b) (b <? a);
  g_minus_key := fun a b => whimsical (a - b) 2;
  g_usize_key := fun k => whimsical (to_usize k) (Some 2);
  g_borrow := fun k => whimsical k (k + 1);
  g_ge := fun a b => whimsical true (b <=? a);
  g_le := fun a b => whimsical true (a <=? b);
  g_minus := fun a b => whimsical (a - b) 1;
  g_usize := fun q => whimsical (to_usize q) (Some 5);
  g_same := fun a b => whimsical (a =? b) true
|}.
Definition whims_entries : list (Z * Z) := [(30, 3); (10, 1); (20, 2)].
Lemma ex_C82_calls :
  let run n := rg_from_vec (overhear (V := Z) (BH := unit) whims) by_insertion whims_entries (n, []) in
  run 0 = (Ok {| rg_min := 20; rg_max := 30; rg_entries := [(20, 2); (10, 1); (30, 3)] |},
           (5, [AskLess 20 10 (Some true); AskLess 20 30 (Some true); AskLess 10 30 (Some true);
                AskMinusKey 30 20 (Some 2); AskUsizeKey 2 (Some (Some 2))])) /\
  run 1 = (Panic PAssert,
           (6, [AskLess 20 10 (Some false); AskLess 10 30 (Some true); AskLess 20 30 (Some false);
                AskMinusKey 20 10 (Some 10); AskUsizeKey 10 (Some (Some 10))])) /\
  run 2 = (Panic PUnwrapNone,
           (6, [AskLess 20 10 (Some false); AskLess 10 30 (Some false);
                AskMinusKey 20 30 (Some (-10)); AskUsizeKey (-10) (Some None)])) /\
  run 12 = (Panic PForeign, (13, [AskLess 20 10 None])) /\
  zlen whims_entries < 2 ^ 64 /\
  match rg_from_vec whims by_insertion whims_entries 0 with
  | (Ok m, n) =>
      map (fun q => rg_find (overhear (V := Z) (BH := unit) whims) m q (n, [])) [5; 25] =
        [(Ok None, (7, [AskBorrow 20 (Some 20); AskGe 5 20 (Some false)]));
         (Panic PIndexOutOfBounds,
          (12, [AskBorrow 20 (Some 20); AskGe 25 20 (Some true); AskBorrow 30 (Some 30); AskLe 25 30 (Some true);
                AskBorrow 20 (Some 21); AskMinus 25 21 (Some 4); AskUsize 4 (Some (Some 4))]))] /\
      rg_run whims Checked m byte_history n =
        [Some (SawValue None); None; Some (SawBool true); Some (SawBool false); None; Some (SawBool false);
         Some (SawValue (Some 1)); None; Some (SawBool false); Some (SawBool false);
         Some (SawItems [(20, 2); (10, 1); (30, 3)]); Some (SawNumber 3)]
  | _ => False
  end.
Proof. cbv zeta. do 5 (split; [vm_compute; reflexivity|]). vm_compute. split; reflexivity. Qed.

Definition byte_items : integers Z Z Z := {|
  g_zero := counted 0;
  g_less := fun a b => counted (signed_byte a <? signed_byte b);
  g_minus_key := fun a b => counted (a - b);
  g_usize_key := fun k => counted (to_usize (signed_byte k));
  g_borrow := fun k n => counted (k + 256 * n) n;
  g_ge := fun a b => counted (signed_byte b <=? signed_byte a);
  g_le := fun a b => counted (signed_byte a <=? signed_byte b);
  g_minus := fun a b n => counted (a - b - 256 * n) n;
  g_usize := fun q => counted (to_usize (signed_byte q));
  g_same := fun a b => counted (signed_byte a =? signed_byte b)
|}.
Lemma byte_items_lawful : lawful_integers byte_items (-128) 127 signed_byte signed_byte.
Proof.
  split; cbn [byte_items g_zero g_less g_minus_key g_usize_key g_borrow g_ge g_le g_minus g_usize g_same]; intros;
    try apply signed_byte_range; try (intros w; reflexivity);
    try (intros w; eexists; split; [reflexivity|]; cbn [fst]).
  - reflexivity.
  - rewrite <- (signed_byte_minus _ _ 0) by assumption. f_equal. lia.
  - unfold signed_byte. rewrite <- Z.add_assoc, (Z.add_comm (256 * w)), Z.add_assoc, (Z.mul_comm 256), Z.mod_add by lia. reflexivity.
  - now apply signed_byte_minus.
Qed.
Definition mixed_results :=
  match rs_from_vec byte_items by_insertion [1; -2; 256; 255] 0, rs_from_vec byte_items by_insertion [1; 258; 3] 0,
        st_from_vec checked_env modular_foreign u8 Scanning [1; 7; -1] 9 with
  | (Ok s1, n), (Ok s2, _), (Ok s3, _) =>
      let r1 := rs_running Checked byte_items s1 in
      let r2 := rs_running Checked byte_items s2 in
      let n1 := rs_running Checked (overhear (V := unit) (BH := Z) whims) s1 in
      let n3 := st_running checked_env (witness modular_foreign) s3 in
      let (os, x) := v_calls (v_intersection 9 n3 n1) (map aside (repeat (fun w => w) 4)) (v_op_new n3 n1, (0, [])) in
      Some (rs_items s1, fst (v_calls (v_difference 9 r1 r2) (repeat (fun w => w * w) 4) (v_op_new r1 r2, n)),
            fst (v_is_disjoint 9 r1 r2 n), fst (v_is_subset 9 r2 r1 n),
            fst (rg_eq byte_items (fun _ _ => counted true) s1 s1 n), os, snd (snd x))
  | _, _, _ => None
  end.
Lemma ex_C82_sets :
  lawful_integers byte_items (-128) 127 signed_byte signed_byte /\ consecutive (map signed_byte [1; 258; 3]) /\
  mixed_results =
    Some ([-2; 255; 256; 1], [Ok (Some (-2)); Ok (Some 255); Ok (Some 256); Ok None], Ok false, Ok false, Ok true,
          [Panic PIndexOutOfBounds; Panic PForeign; Ok (Some (-1)); Ok None],
          [AskBorrow (-2) (Some (-1)); AskGe 1 (-1) (Some true); AskBorrow 1 (Some 1); AskLe 1 1 (Some true);
           AskBorrow (-2) (Some (-2)); AskMinus 1 (-2) (Some 3); AskUsize 3 (Some (Some 5));
           AskBorrow (-2) (Some (-2)); AskGe 7 (-2) (Some true); AskBorrow 1 (Some 2); AskLe 7 2 (Some true);
           AskBorrow (-2) (Some (-2)); AskMinus 7 (-2) None;
           AskBorrow (-2) (Some (-2)); AskGe (-1) (-2) (Some true); AskBorrow 1 (Some 2); AskLe (-1) 2 (Some true);
           AskBorrow (-2) (Some (-2)); AskMinus (-1) (-2) (Some 1); AskUsize 1 (Some (Some 1))]).
Proof.
  split; [apply byte_items_lawful|]. split; [exists 1; apply Permutation_refl|]. vm_compute. reflexivity.
Qed.
End Ranges.

(** Programs with iterators and their clones. *)
Section IteratorPrograms.
Import IteratorUse IteratorUseSpec.
Definition cloned_use {A} (f : Z -> A -> Z) : list (iter_op A Z) :=
  [DoNext 0; DoClone 0; DoNext 1; DoNext 1; DoLen 0; DoHint 1; DoFmt 0; DoClone 0; DoFold 0 f 100;
   DoNext 0; DoCount 1; DoNext 2; DoFmt 2; DoCount 2; DoLen 5].
Lemma ex_C83 :
  iter_run (keys_iterator Checked) [Some (keys_new three)] (cloned_use Z.add) =
    [HeardItem (Some 1); HeardNothing; HeardItem (Some 2); HeardItem (Some 3); HeardNumber 2; HeardHint (0, Some 0);
     HeardList [2; 3]; HeardNothing; HeardResult 105; NotAllowed; HeardNumber 0; HeardItem (Some 2); HeardList [3];
     HeardNumber 1; NotAllowed] /\
  iter_run (set_iterator Checked) [Some (it_new (with_unit [1; 2; 3]))] (cloned_use Z.add) =
    [HeardItem (Some 1); HeardNothing; HeardItem (Some 2); HeardItem (Some 3); HeardNumber 2; HeardHint (0, Some 0);
     HeardList [2; 3]; HeardNothing; HeardResult 105; NotAllowed; HeardPanic; HeardItem (Some 2); HeardList [3];
     HeardPanic; NotAllowed] /\
  iter_run (union_iterator set_a set_b) [Some (pair_new set_a set_b)] (cloned_use Z.add) =
    [HeardItem (Some 1); HeardNothing; HeardItem (Some 2); HeardItem (Some 3); NotAllowed; HeardHint (4, Some 7);
     HeardList [2; 3; 4; 5]; HeardNothing; HeardResult 114; NotAllowed; HeardNumber 2; HeardItem (Some 2);
     HeardList [3; 4; 5]; HeardNumber 3; NotAllowed].
Proof. vm_compute. auto. Qed.
End IteratorPrograms.

(** References into specialized maps: a [LengthMap] of keys that are numbers with their number of
    digits as length, and an [IntegerRangeMap]. *)
Section SpecialReferences.
Import MapBorrows MapBorrowSpec.
Definition digits (k : Z) : Z := if k <? 10 then 1 else if k <? 100 then 2 else 3.
Definition plain_uses : list (phase Z) :=
  [Sharing [Walk; Look 12; Step 0; Fork 0; LookPair 7; ReadRef 0; Step 1; Step 0; ReadRef 2; ReadRef 1; Look 8; Step 0;
            ReadRef 0; ReadRef 5];
   Mutating 12 [true; false; true];
   Sharing [LookPair 7; ReadRef 1; ReadRef 0]].
Definition after_uses {A} (eqb : Z -> Z -> bool) (get_at : Z -> res (option nat)) (look : Z -> res lookup) (n : nat)
  (qs : list Z) (f : list nat -> list (res heap) -> A) : option (list (list cell) * A) :=
  match run_phases look 4 n plain_uses (boxed 4 n) with
  | Ok (cs, h) =>
      match many_mut_ref eqb look 4 qs h with
      | Ok (Some rs, h') => Some (cs, f (map snd rs) (map (fun r => write_value r h') rs))
      | _ => None
      end
  | _ => None
  end.
Lemma ex_C84 :
  (match lm_from_vec digits checked_env u8 [(7, 70); (12, 120); (345, 30)] with
   | Ok m =>
       map (lm_get_at Z.eqb (fun k => k) digits m) [12; 7; 8] = [Ok (Some 0); Ok (Some 1); Ok None]%nat /\
       after_uses Z.eqb (lm_get_at Z.eqb (fun k => k) digits m) (lm_look Z.eqb (fun k => k) digits m) 3 [345; 7] pair =
         Some ([[ValueOf 0; KeyOf 0; ValueOf 0; KeyOf 1; ValueOf 1; KeyOf 1; ValueOf 1; KeyOf 1; ValueOf 1; KeyOf 2; ValueOf 2];
                [ValueOf 0]; [KeyOf 1; ValueOf 1]]%nat,
               ([2; 1]%nat, [UB Aliasing; UB Aliasing]))
   | _ => False
   end) /\
  (match irm_from_vec Checked u8 [(8, 80); (7, 70)] with
   | Ok m =>
       map (irm_get_at Checked u8 m) [12; 7; 8] = [Ok None; Ok (Some 0); Ok (Some 1)]%nat /\
       after_uses Z.eqb (irm_get_at Checked u8 m) (irm_look Checked u8 m) 2 [8] pair =
         Some ([[KeyOf 0; ValueOf 0; KeyOf 0; ValueOf 0; KeyOf 1; ValueOf 1; KeyOf 1; ValueOf 1; ValueOf 1];
                []; [KeyOf 0; ValueOf 0]]%nat,
               ([1]%nat, [UB Aliasing]))
   | _ => False
   end).
Proof. vm_compute. repeat split. Qed.
End SpecialReferences.

(** A [LengthMap] with keys of type [Box<HashSet<_>>], asked for sets. *)
Section BoxedSets.
Import LenModel LenSpec.
Definition boxed_sets := sized (A := Z) (B := Z) mod_eqb (OfBox OfHashSet).
Definition plain_sets := sized (A := Z) (B := Z) mod_eqb OfHashSet.
Definition set_items_of (v : len_value Z Z) : list Z := match v with VSet l => l | _ => [] end.
Definition all_in (a b : list Z) : bool := forallb (fun x => existsb (mod_eqb x) b) a.
Definition sets_eqb (x y : plain_sets) : bool :=
  all_in (set_items_of (proj1_sig x)) (set_items_of (proj1_sig y)) && all_in (set_items_of (proj1_sig y)) (set_items_of (proj1_sig x)).
Definition plain_set (l : list Z) (H : distinctb mod_eqb l = true) : plain_sets := exist _ (VSet l) (distinctb_ok _ _ H).
Definition boxed_set (l : list Z) (H : distinctb mod_eqb l = true) : boxed_sets := exist _ (VPointer (VSet l)) (distinctb_ok _ _ H).
Lemma all_in_spec a b : all_in a b = true <-> forall x, member mod_eqb a x -> member mod_eqb b x.
Proof.
  unfold all_in. rewrite forallb_forall. split.
  - intros H x (y & Hy & Hxy). apply H in Hy. apply existsb_exists in Hy as (z & Hz & Hyz).
    exists z. split; [exact Hz|]. now apply (eq_trans_ok _ mod_eqb_equiv x y).
  - intros H x Hx. apply existsb_exists. apply H. exists x. split; [exact Hx|apply mod_eqb_equiv].
Qed.
Lemma sets_told : tells_equal mod_eqb Z.eqb sets_eqb.
Proof.
  intros ([b|b|l|l|l|v] & Hx) ([b'|b'|l'|l'|l'|v'] & Hy); cbn in Hx, Hy; try contradiction.
  unfold sets_eqb. cbn [proj1_sig set_items_of same_value]. rewrite andb_true_iff, !all_in_spec.
  split; [intros (H1 & H2) x; split; auto|intros H; split; intros x; apply H].
Qed.
Lemma ex_C85 :
  tells_equal mod_eqb Z.eqb sets_eqb /\
  let to := sized_pointee (B := Z) mod_eqb (OfBox OfHashSet) OfHashSet (or_introl eq_refl) in
  let payload := [(boxed_set [1; 2] eq_refl, 12);
                  (boxed_set [] eq_refl, 0);
                  (boxed_set [7] eq_refl, 7)] in
  distinct sets_eqb (map (fun e => to (fst e)) payload) /\
  match lm_from_vec (sized_len mod_eqb (OfBox OfHashSet)) checked_env u8 payload with
  | Ok m =>
      map (lm_get sets_eqb to (sized_len mod_eqb OfHashSet) m)
        [plain_set [1002; 1] eq_refl; plain_set [] eq_refl;
         plain_set [2] eq_refl; plain_set [1; 7] eq_refl]
      = [Ok (Some 12); Ok (Some 0); Ok None; Ok None]
  | _ => False
  end /\
  map (fun v => len_of OfCString (A := Z) (B := Z) (VCBytes v)) [[104; 105; 0]; [0]] = [2; 0].
Proof.
  split; [exact sets_told|]. cbv zeta. split; [|split; vm_compute; reflexivity].
  cbn [map fst distinct]. repeat split; intros k' H; repeat destruct H as [<-|H]; try reflexivity; destruct H.
Qed.
End BoxedSets.

(** ** C86: clones of specialized maps and sets *)

Section CopiedMaps.
Import VolatileMaps EffectSpec VolatileRange RangeSpec SpecialSets SpecialClone SpecialCloneSpec.
Definition careless : copying Z Z Z Z := {|
  d_key := fun k n => (if n mod 40 =? 33 then None else Some (k + 1000), n + 1);
  d_value := fun v n => (if n mod 50 =? 47 then None else Some (v + n), n + 1);
  d_hasher := fun bh n => (if n mod 60 =? 58 then None else Some (bh + n), n + 1)
|}.
Definition careless_clone (sh : shape Z) (n : Z) :=
  match sp_from_vec erratic checked_env usize sh [(5, 50); (17, 170); (103, 1030)] 0 with
  | (Ok m, _) =>
      let '(r, (n', log)) := sp_clone (noting_copies careless) m (n, []) in Some (m' <- r ;; Ok (sp_entries m'), n', log)
  | _ => None
  end.
Lemma ex_C86_copies :
  careless_clone (Common 3) 0 =
    Some (Ok [(1005, 51); (1017, 173); (1103, 1035)], 7,
      [(KeyPiece 5, Some (KeyPiece 1005)); (ValuePiece 50, Some (ValuePiece 51)); (KeyPiece 17, Some (KeyPiece 1017));
       (ValuePiece 170, Some (ValuePiece 173)); (KeyPiece 103, Some (KeyPiece 1103)); (ValuePiece 1030, Some (ValuePiece 1035));
       (HasherPiece 3, Some (HasherPiece 9))]) /\
  careless_clone (RightSlice 3 2 1) 52 =
    Some (Panic PForeign, 59,
      [(KeyPiece 103, Some (KeyPiece 1103)); (ValuePiece 1030, Some (ValuePiece 1083)); (KeyPiece 17, Some (KeyPiece 1017));
       (ValuePiece 170, Some (ValuePiece 225)); (KeyPiece 5, Some (KeyPiece 1005)); (ValuePiece 50, Some (ValuePiece 107));
       (HasherPiece 3, None)]) /\
  careless_clone Scanning 33 = Some (Panic PForeign, 34, [(KeyPiece 5, None)]) /\
  match rg_from_vec whims by_insertion whims_entries 0 with
  | (Ok m, n) => rg_clone (noting_copies careless) m (n, []) =
      (Ok {| rg_min := 1020; rg_max := 1030; rg_entries := [(1020, 10); (1010, 11); (1030, 15)] |},
       (13, [(KeyPiece 20, Some (KeyPiece 1020)); (KeyPiece 30, Some (KeyPiece 1030)); (KeyPiece 20, Some (KeyPiece 1020));
             (ValuePiece 2, Some (ValuePiece 10)); (KeyPiece 10, Some (KeyPiece 1010)); (ValuePiece 1, Some (ValuePiece 11));
             (KeyPiece 30, Some (KeyPiece 1030)); (ValuePiece 3, Some (ValuePiece 15))]))
  | _ => False
  end /\
  match st_from_vec checked_env erratic usize (LeftSlice 3 0 2) [5; 17; 103] 0 with
  | (Ok s, _) =>
      let '(r, (n', log)) := st_clone (noting_copies careless) s (0, []) in
      Some (s' <- r ;; Ok (st_items s'), n', log) =
      Some (Ok [1103; 1005; 1017], 4,
        [(KeyPiece 103, Some (KeyPiece 1103)); (KeyPiece 5, Some (KeyPiece 1005)); (KeyPiece 17, Some (KeyPiece 1017));
         (HasherPiece 3, Some (HasherPiece 6))])
  | _ => False
  end.
Proof. repeat split; vm_compute; reflexivity. Qed.

Lemma ex_C86_owned :
  (forall m n m' n', sp_from_vec erratic checked_env usize (Common 3) unlucky_payload 0 = (Ok m, n) ->
     sp_clone careless m 0 = (Ok m', n') -> owned_special erratic careless checked_env m') /\
  match sp_from_vec erratic checked_env usize (Common 3) unlucky_payload 0 with
  | (Ok m, _) => match sp_clone careless m 0 with
      | (Ok m', n) => sp_run erratic checked_env m' unlucky_history n =
          map Some [SawValue (Some 431); SawValue None; SawEntry None; SawBool false; SawBool false;
            SawBool false; SawPanic; SawValue (Some 1031);
            SawItems [(1103, 1031); (1017, 173); (1007, 75); (1998, 9987); (1005, 59); (1042, 431)]]
      | _ => False
      end
  | _ => False
  end /\
  (forall m n m' n', rg_from_vec whims by_insertion whims_entries 0 = (Ok m, n) ->
     rg_clone careless m 5 = (Ok m', n') -> owned_range whims careless by_insertion Checked m') /\
  match rg_from_vec whims by_insertion whims_entries 0 with
  | (Ok m, _) => match rg_clone careless m 5 with
      | (Ok m', n) => rg_run whims Checked m' [OGet 1020; OGet 1021; OIter; OLen] 5 =
          [Some (SawValue None); None; Some (SawItems [(1020, 10); (1010, 11); (1030, 15)]); Some (SawNumber 3)]
      | _ => False
      end
  | _ => False
  end.
Proof.
  split.
  { intros m n m' n' Hm Hc. refine (SpecialClone _ _ _ _ _ _ _ _ Hc).
    refine (SpecialNew _ _ _ _ _ _ _ _ _ _ _ Hm); reflexivity. }
  split; [vm_compute; reflexivity|]. split.
  { intros m n m' n' Hm Hc. refine (RangeClone _ _ _ _ _ _ _ _ _ Hc).
    refine (RangeNew _ _ _ _ _ _ _ _ _ Hm); reflexivity. }
  vm_compute. reflexivity.
Qed.

Definition orderly_copies : copying Z (Z * Z) Z Z := {|
  d_key := fun k => counted (fst k + 1000, snd k + 1);
  d_value := fun v => counted (v * 2);
  d_hasher := fun bh => counted bh
|}.
Definition orderly_clone (sh : shape Z) :=
  match sp_from_vec orderly_foreign checked_env usize sh orderly_payload 0 with
  | (Ok m, n) => match sp_clone orderly_copies m n with
                 | (Ok m', n') => Some (length (sp_entries m'), sp_run orderly_foreign checked_env m' orderly_history n')
                 | _ => None
                 end
  | _ => None
  end.
Lemma ex_C86_faithful :
  copies_as orderly_copies (fun k => (fst k + 1000, snd k + 1)) (fun v => v * 2) (fun bh => bh) /\
  true_copies orderly (fun k => (fst k + 1000, snd k + 1)) (fun bh => bh) /\
  map orderly_clone orderly_shapes = repeat (Some (6%nat,
    [Some (SawValue (Some 340)); Some (SawValue None); Some (SawBool true); Some (SawBool false); Some (SawBool true); Some (SawBool false);
     Some (SawBool true); Some (SawBool false); Some (SawEntry (Some ((1007, 7), 6))); Some SawPanic; Some (SawValue (Some 8))])) 6 /\
  let wide := {| d_key := fun k : Z * Z => counted (fst k + 256, snd k); d_value := counted; d_hasher := counted |} : copying Z (Z * Z) Z Z in
  copies_as wide (fun k => (fst k + 256, snd k)) (fun v => v) (fun bh => bh) /\
  (forall k : Z * Z, signed_byte (fst k + 256) = signed_byte (fst k)) /\
  match rg_from_vec bytewise by_insertion byte_payload 0 with
  | (Ok m, n) => match rg_clone wide m n with
      | (Ok m', n') => rg_run bytewise Checked m' byte_history n' =
          map Some [SawValue (Some (-10)); SawValue (Some 10); SawBool false; SawBool false; SawEntry (Some ((512, 7), 0));
            SawBool true; SawValue (Some 99); SawPanic; SawBool true; SawBool false;
            SawItems [((254, 6), -21); ((511, 8), -10); ((512, 7), 99); ((257, 5), 11)]; SawNumber 4]
      | _ => False
      end
  | _ => False
  end.
Proof.
  split; [now split|]. split.
  { split; intros; try reflexivity. cbn [a_eq a_borrow orderly fst]. apply Z.eqb_eq.
    replace (fst k + 1000) with (fst k + 1 * 1000) by lia. now rewrite Z.mod_add by lia. }
  split; [vm_compute; reflexivity|]. cbv zeta. split; [now split|]. split.
  { intros k. unfold signed_byte. replace (fst k + 256 + 128) with (fst k + 128 + 1 * 256) by lia. now rewrite Z.mod_add by lia. }
  vm_compute. reflexivity.
Qed.

Lemma ex_C86_equal :
  let by_thousand := {| d_key := fun k => counted (k + 1000); d_value := fun v : Z => counted (v + 10); d_hasher := counted |} : copying Z Z Z Z in
  let veq x y := counted (x mod 10 =? y mod 10) in
  copies_as by_thousand (fun k => k + 1000) (fun v => v + 10) (fun bh => bh) /\
  true_copies modular (fun k => k + 1000) (fun bh => bh) /\
  (forall v, (v mod 10 =? (v + 10) mod 10) = true) /\
  map (fun sh => match sp_from_vec modular_foreign checked_env usize sh [(5, 51); (17, 172); (103, 1033); (998, 9984); (42, 425)] 0 with
      | (Ok m, n) => match sp_clone by_thousand m n with
          | (Ok m', n') => Some (fst (sp_eq modular_foreign checked_env veq m m' n'), fst (sp_eq modular_foreign checked_env veq m' m n'))
          | _ => None
          end
      | _ => None
      end) orderly_shapes = repeat (Some (Ok true, Ok true)) 6.
Proof.
  cbv zeta. split; [now split|]. split.
  { split; intros; try reflexivity. cbn [a_eq a_borrow modular]. apply Z.eqb_eq.
    replace (k + 1000) with (k + 1 * 1000) by lia. now rewrite Z.mod_add by lia. }
  split.
  { intros v. apply Z.eqb_eq. replace (v + 10) with (v + 1 * 10) by lia. now rewrite Z.mod_add by lia. }
  vm_compute. reflexivity.
Qed.
Definition next_turn : copying Z Z Z Z := {| d_key := fun k => counted (k + 256); d_value := fun v => counted (v + 10); d_hasher := counted |}.
Lemma ex_C86_more :
  let veq x y := counted (x mod 10 =? y mod 10) in
  copies_as next_turn (fun k => k + 256) (fun v => v + 10) (fun bh => bh) /\
  (forall k, signed_byte (k + 256) = signed_byte k) /\
  match rg_from_vec byte_items by_insertion [(1, 10); (-2, -20); (256, 0); (255, -10)] 0 with
  | (Ok m, n) => match rg_clone next_turn m n with
      | (Ok m', n') =>
          let '(_, m2, n2) := rg_step byte_items Checked m' (OGetMut 257 3) n' in
          (fst (rg_eq byte_items veq m m' n'), fst (rg_eq byte_items veq m' m n'), fst (rg_eq byte_items veq m m2 n2)) =
          (Ok true, Ok true, Ok false)
      | _ => False
      end
  | _ => False
  end /\
  match rs_from_vec byte_items by_insertion [1; -2; 256; 255] 0 with
  | (Ok s, n) => match rs_clone next_turn s n with
      | (Ok s', n') => (rs_items s', map (fun q => fst (rs_contains byte_items s' q n')) [254; 2; 0]) =
          ([254; 511; 512; 257], [Ok true; Ok false; Ok true])
      | _ => False
      end
  | _ => False
  end /\
  map (fun sh => match st_from_vec checked_env modular_foreign usize sh [5; 17; 1005; 103] 0 with
      | (Ok s, n) => match st_clone {| d_key := fun k => counted (k + 1000); d_value := counted (A := Z); d_hasher := counted |} s n with
          | (Ok s', n') => Some (length (st_items s'), map (fun q => fst (st_contains checked_env modular_foreign s' q n')) [17; 5; 42])
          | _ => None
          end
      | _ => None
      end) orderly_shapes = repeat (Some (4%nat, [Ok true; Ok true; Ok false])) 6.
Proof.
  cbv zeta. split; [now split|]. split.
  { intros k. unfold signed_byte. replace (k + 256 + 128) with (k + 128 + 1 * 256) by lia. now rewrite Z.mod_add by lia. }
  repeat split; vm_compute; reflexivity.
Qed.
End CopiedMaps.

(** ** C87: a map and a set with duplicates, cloned twice *)
Section LawfulClones.
Import LawfulCloneSpec.

Definition twice_cloned : option (map_types Z Z * map_types Z Z * map_types Z Z * Z) :=
  match v_new counting checked_env KindOther (others [5; 17; 103; 998; 42]) sample_hasher 0 with
  | (Ok m, n) => match fm_clone careful m n with
      | (Ok m1, n1) =>
          let '(_, m2, n2) := v_step counting checked_env m1 (OGetMut (KOther 17) 8) n1 in
          match fm_clone careful m2 n2 with
          | (Ok m3, n3) => Some (m, m2, m3, n3)
          | _ => None
          end
      | _ => None
      end
  | _ => None
  end.
Definition number_eq (x y n : Z) : option bool * Z := counted (x =? y) n.
Lemma ex_C87_map :
  faithful_clones careful mod_eqb (fun x => x + 1000) (fun v => v) (fun b => b) /\
  (exists m, lawful_map counting careful mod_eqb checked_env KindOther m /\
     v_run counting checked_env m [OGet (KOther 17); OGetMut (KOther 5042) 1; OGet (KOther 42); OGet (KOther 18); OContainsKey (KOther 103);
       OGetManyMut [(KOther 5, 2); (KOther 998, 3)]; OIter] 0 =
     [Some (SawValue (Some 8)); Some (SawBool true); Some (SawValue (Some 1)); Some (SawValue None); Some (SawBool true); Some (SawBool true);
      Some (SawItems [(KOther 2017, 8); (KOther 2042, 1); (KOther 2005, 2); (KOther 2998, 3); (KOther 2103, 1030)])]) /\
  match twice_cloned with
  | Some (m, m2, m3, n) =>
      map (fun p => fst (v_eq counting checked_env number_eq (fst p) (snd p) n)) [(m, m2); (m2, m3); (m3, m2); (m3, m)] =
      [Ok false; Ok true; Ok true; Ok false]
  | None => False
  end.
Proof.
  split.
  { destruct ex_C78_faithful as (H1 & H2 & H3 & H4 & H5 & _). now split. }
  split; [|vm_compute; reflexivity].
  assert (H : match twice_cloned with
    | Some (_, _, m, _) => v_run counting checked_env m [OGet (KOther 17); OGetMut (KOther 5042) 1; OGet (KOther 42); OGet (KOther 18);
         OContainsKey (KOther 103); OGetManyMut [(KOther 5, 2); (KOther 998, 3)]; OIter] 0 =
       [Some (SawValue (Some 8)); Some (SawBool true); Some (SawValue (Some 1)); Some (SawValue None); Some (SawBool true); Some (SawBool true);
        Some (SawItems [(KOther 2017, 8); (KOther 2042, 1); (KOther 2005, 2); (KOther 2998, 3); (KOther 2103, 1030)])]
    | None => False
    end) by (vm_compute; reflexivity).
  unfold twice_cloned in H.
  destruct (v_new counting checked_env KindOther _ sample_hasher 0) as [[m| | |] n] eqn:Hm; try contradiction.
  destruct (fm_clone careful m n) as [[m1| | |] n1] eqn:Hc; try contradiction.
  destruct (v_step counting checked_env m1 _ n1) as [[b m2] n2] eqn:Hs.
  destruct (fm_clone careful m2 n2) as [[m3| | |] n3] eqn:Hc3; try contradiction.
  exists m3. split; [|exact H].
  eapply LawfulMapClone; [|exact Hc3]. eapply LawfulMapUse; [|intros k Hk|exact Hs].
  - eapply LawfulMapClone; [|exact Hc]. refine (LawfulMapNew _ _ _ _ _ _ _ _ _ _ sample_lawful _ _ _ _ Hm).
    + vm_compute. intuition discriminate.
    + reflexivity.
    + now apply typedb_ok.
    + now apply distinctb_ok.
  - destruct Hk as [<-|[]]. exact I.
Qed.

Lemma ex_C87_set :
  exists s n, v_fs_new counting checked_env KindOther (map KOther [5; 17; 1005; 103; 42; 998]) sample_hasher 0 = (Ok s, n) /\
    lawful_frozen_set counting careful mod_eqb checked_env KindOther s /\
    match fs_clone careful s n with
    | (Ok s', n') =>
        (fs_items s', map (fun q => fst (v_fs_contains counting checked_env s' (KOther q) n')) [17; 3005; 18],
         fst (v_set_eq 7 (v_fs_running counting checked_env s) (v_fs_running counting checked_env s') n'),
         fst (v_set_eq 7 (v_fs_running counting checked_env s') (v_fs_running counting checked_env s) n')) =
        (map KOther [2005; 1017; 1005; 1998; 1103; 1042], [Ok true; Ok true; Ok false], Ok true, Ok true)
    | _ => False
    end.
Proof.
  assert (H : match v_fs_new counting checked_env KindOther (map KOther [5; 17; 1005; 103; 42; 998]) sample_hasher 0 with
    | (Ok s, n) => match fs_clone careful s n with
      | (Ok s', n') =>
          (fs_items s', map (fun q => fst (v_fs_contains counting checked_env s' (KOther q) n')) [17; 3005; 18],
           fst (v_set_eq 7 (v_fs_running counting checked_env s) (v_fs_running counting checked_env s') n'),
           fst (v_set_eq 7 (v_fs_running counting checked_env s') (v_fs_running counting checked_env s) n')) =
          (map KOther [2005; 1017; 1005; 1998; 1103; 1042], [Ok true; Ok true; Ok false], Ok true, Ok true)
      | _ => False
      end
    | _ => False
    end) by (vm_compute; reflexivity).
  destruct (v_fs_new counting checked_env KindOther _ sample_hasher 0) as [[s| | |] n] eqn:Hs; try contradiction.
  exists s, n. split; [reflexivity|]. split; [|exact H].
  refine (LawfulFrozenSetNew _ _ _ _ _ _ _ _ _ _ sample_lawful _ _ _ _ Hs).
  - vm_compute. intuition discriminate.
  - reflexivity.
  - intros x Hx. cbn [map] in Hx. repeat destruct Hx as [<-|Hx]; try exact I. contradiction.
  - discriminate.
Qed.
End LawfulClones.

(** ** C88: standard sets after some changes *)
Section StdOperands.
Import StdSets StdSetSpec.

Fixpoint lexicographic (a b : list Z) : comparison :=
  match a, b with
  | [], [] => Eq
  | [], _ => Lt
  | _, [] => Gt
  | x :: a', y :: b' => match x ?= y with Eq => lexicographic a' b' | c => c end
  end.
Definition key_letters (k : key Z) : list Z :=
  match k with KU32 n => [0; n] | KStr s => 1 :: s | KOther x => [2; x mod 1000] end.
Definition key_order (a b : key Z) : comparison := lexicographic (key_letters a) (key_letters b).

Lemma lexicographic_eq a b : lexicographic a b = Eq <-> a = b.
Proof.
  revert b. induction a as [|x a IH]; intros [|y b]; cbn; try easy.
  destruct (Z.compare_spec x y) as [->|H|H].
  - rewrite IH. split; congruence.
  - split; [discriminate|]. intros H'. injection H' as -> _. lia.
  - split; [discriminate|]. intros H'. injection H' as -> _. lia.
Qed.
Lemma lexicographic_opp a b : lexicographic b a = CompOpp (lexicographic a b).
Proof.
  revert b. induction a as [|x a IH]; intros [|y b]; cbn; auto.
  rewrite (Z.compare_antisym x y). destruct (x ?= y); cbn; auto.
Qed.
Lemma lexicographic_trans c a b d : lexicographic a b = c -> lexicographic b d = c -> lexicographic a d = c.
Proof.
  intros <-. revert b d. induction a as [|x a IH]; intros [|y b] [|z d]; cbn; auto; try discriminate.
  destruct (Z.compare_spec x y) as [->|H1|H1], (Z.compare_spec y z) as [->|H2|H2]; cbn; auto; try discriminate; intros H.
  - apply Z.compare_lt_iff in H1. now rewrite H1.
  - assert (H3 : x < z) by lia. apply Z.compare_lt_iff in H3. now rewrite H3.
  - apply Z.compare_gt_iff in H1. now rewrite H1.
  - assert (H3 : z < x) by lia. apply Z.compare_gt_iff in H3. now rewrite H3.
Qed.

Definition set_history : list (set_change (key Z)) :=
  map SInsert (map KOther [5; 17; 42; 1017; 998]) ++ [SRemove (KOther 2042); SInsert (KOther 7); SRemove (KOther 8)].

Lemma ex_C88 :
  total_order (key_eqb mod_eqb) key_order /\
  btree_set key_order set_history = map KOther [5; 7; 17; 998] /\
  hash_set (key_eqb mod_eqb) (hash_one poor_hasher) set_history (map KOther [5; 17; 998; 7]) /\
  map (held (key_eqb mod_eqb) set_history) (map KOther [5; 1017; 42; 7; 8]) = [true; true; false; true; false] /\
  match fs_new checked_env KindOther (map KOther [1005; 2007; 42]) sample_hasher with
  | Ok s =>
      let f := fs_as_set mod_eqb checked_env s in
      let t := std_btree_set key_order (btree_set key_order set_history) in
      let u := std_hash_set (key_eqb mod_eqb) (hash_one poor_hasher) (map KOther [5; 17; 998; 7]) in
      Some (set_eq f t, is_subset f t, is_disjoint t f,
        r <- bitand (key_eqb mod_eqb) f t ;; Ok (s_items r), r <- bitxor (key_eqb mod_eqb) f u ;; Ok (s_items r))
  | _ => None
  end = Some (Ok false, Ok false, Ok false, Ok (map KOther [1005; 2007]), Ok (map KOther [42; 17; 998])).
Proof.
  split.
  { split; unfold key_order.
    - intros x y. rewrite lexicographic_eq. destruct x as [n|s|x], y as [n'|s'|y]; cbn; try easy.
      + rewrite Z.eqb_eq. split; congruence.
      + rewrite MapsProofs.bytes_eqb_eq. split; congruence.
      + unfold mod_eqb. rewrite Z.eqb_eq. split; congruence.
    - intros x y. apply lexicographic_opp.
    - intros c x y z. apply lexicographic_trans. }
  split; [vm_compute; reflexivity|]. split.
  { assert (H : forall history l, fold_left (hs_step (key_eqb mod_eqb) (hash_one poor_hasher)) history [] = l ->
      hash_set (key_eqb mod_eqb) (hash_one poor_hasher) history l).
    { intros history. induction history as [|c history IH] using rev_ind; intros l <-; [constructor|].
      rewrite fold_left_app. eapply HashSetStep; [apply IH; reflexivity|]. apply Permutation_refl. }
    apply H. vm_compute. reflexivity. }
  split; vm_compute; reflexivity.
Qed.
End StdOperands.

(** ** C89, C90: collisions and the tests of the project *)
Section Collisions.
Import ProjectTests CollisionSpec ProjectTestProofs.

Definition second_case : list (list Z) := map literal_bytes (fst (nth 1 slice_test_cases ([], SliceNormal))).

Lemma ex_C89 :
  collide_alike byte_code (fun w => 1000 - 7 * byte_code w) second_case /\
  analyze_slice_keys byte_code second_case = Ok (LeftHandSubslice 0 1) /\
  analyze_slice_keys (fun w => 1000 - 7 * byte_code w) second_case = Ok (LeftHandSubslice 0 1) /\
  analyze_slice_keys (fun _ => 5) second_case = Ok SliceNormal.
Proof. split; [intros s t a b _ _ _ _; lia|]. split; [|split]; vm_compute; reflexivity. Qed.

(** The sample hasher with other codes. *)
Definition other_codes : hasher Z :=
  {| hash_one := hash_one sample_hasher; hash_one_slice := fun w => 1000 - 7 * poly w; hash_write := hash_write sample_hasher |}.

Lemma ex_C89_construction :
  let ending bh l := match fm_new checked_env KindString (strs l) bh with Ok _ => 0 | Panic _ => 1 | UB _ => 2 | OutOfFuel => 3 end in
  (forall keys, collide_alike (hash_one_slice sample_hasher) (hash_one_slice other_codes) keys) /\
  map (ending sample_hasher) [lengths5; panic_keys; rev ub_keys] = [0; 1; 2] /\
  map (ending other_codes) [rev lengths5; rev panic_keys; ub_keys] = [0; 1; 2] /\
  map (ending poor_hasher) [lengths5; panic_keys; ub_keys] = [0; 1; 1].
Proof.
  split; [intros keys s t a b _ _ _ _; cbn [hash_one_slice sample_hasher other_codes]; lia|]. split; [|split]; vm_compute; reflexivity.
Qed.

Lemma ex_C90_separates :
  Forall (fun c => separates byte_code (map literal_bytes (fst c))) slice_test_cases /\
  separates byte_code (map literal_bytes example_keys).
Proof.
  assert (H : forall keys, separates byte_code (map literal_bytes keys)).
  { intros keys s t a b Hs Ht Ha Hb. apply in_map_iff in Hs, Ht. destruct Hs as (s' & <- & _), Ht as (t' & <- & _).
    apply byte_code_inj; eapply window_in_bytes; eauto. }
  split; [|apply H]. apply Forall_forall. intros c _. apply H.
Qed.

Lemma ex_C90_facades :
  env_ok checked_env /\ env_ok wrapping_env /\
  (exists s, fs_from_vec unstable_env KindOther sample_hasher (map KOther [0; 1; 2; 3; 4]) = Ok s /\ fs_len s = 5) /\
  Permutation [(KU32 2, 11); (KU32 0, 10); (KU32 6, 13); (KU32 4, 12)]
    (map (fun i => (@KU32 Z (Z.of_nat (i * 2)), 10 + Z.of_nat i)) (seq 0 4)) /\
  match fm_from_iter checked_env KindU32 sample_hasher list_next 5
          [(KU32 2, 11); (KU32 0, 10); (KU32 6, 13); (KU32 4, 12)] with
  | Ok m => fm_get Z.eqb checked_env m (KU32 6) = Ok (Some 13) /\ fm_get Z.eqb checked_env m (KU32 3) = Ok None
  | _ => False
  end.
Proof.
  split; [apply checked_env_ok|]. split; [apply wrapping_env_ok|]. split.
  { apply (ok_result (fs_from_vec unstable_env KindOther sample_hasher (map KOther [0; 1; 2; 3; 4])) (fun s => fs_len s = 5)).
    vm_compute. reflexivity. }
  split; [|vm_compute; auto]. cbn. change (KU32 0, 10) with (@KU32 Z 0, 10).
  eapply perm_trans; [apply perm_swap|]. apply perm_skip. apply perm_skip. apply perm_swap.
Qed.
End Collisions.

(** ** C91: the examples in the documentation *)
Section Documentation.
Import ProjectTests ProjectTestProofs DocExamples StdSets Constructors.

Definition datum_code (d : datum) : Z :=
  match d with
  | Number n => n
  | Text s => byte_code s
  | Viking n c => byte_code n + byte_code c
  | Warrior n p => byte_code n + p
  end.
Definition doc_hasher : hasher datum :=
  {| hash_one := fun k => match k with KU32 n => n | KStr s => byte_code s | KOther d => datum_code d end;
     hash_one_slice := byte_code; hash_write := byte_code |}.

(** The maps with String keys are chosen by length, the others are scanned. *)
Lemma ex_C91 :
  env_ok checked_env /\
  map (fun ex => match fm_from checked_env (me_kind ex) doc_hasher (me_payload ex) with
                 | Ok (MStringLengthSmall _) => 0 | Ok (MScanning _) => 1 | _ => 2
                 end) map_examples = [0; 1; 1; 1; 1; 0; 1; 1; 1] /\
  match fm_from checked_env KindString doc_hasher libraries with
  | Ok m => fm_get_many_mut datum_eqb checked_env m wanted_libraries = Ok (Some [2%nat; 1%nat])
  | _ => False
  end /\
  hash_set (key_eqb datum_eqb) (hash_one doc_hasher) (map (fun n => SInsert (i32_key n)) [4; 2; 3; 4]) (map i32_key [3; 4; 2]).
Proof.
  split; [apply checked_env_ok|]. split; [vm_compute; reflexivity|]. split; [vm_compute; reflexivity|].
  change [4; 2; 3; 4] with ((((nil ++ [4]) ++ [2]) ++ [3]) ++ [4]). rewrite !map_app.
  eapply HashSetStep with (l := map i32_key [3; 4; 2]); [|vm_compute; apply Permutation_refl].
  eapply HashSetStep; [eapply HashSetStep; [eapply HashSetStep; [constructor|]|]|]; [apply Permutation_refl..|].
  apply Permutation_sym, (Permutation_cons_append (map i32_key [4; 2])).
Qed.
End Documentation.

(** ** C92: walking over specialized maps and sets *)
Section Walking.
Import Walks WalkSpec ProjectTests ProjectTestProofs.

Definition walked : list (Z * Z) := [(3, 30); (12, 120); (5, 50); (20, 200)].
Definition walked_keys : list bytes := [[1; 7]; [1; 2]; [1; 5; 5]].

(** The entries are reordered by construction; an assignment is seen by the iterators. *)
Lemma ex_C92 :
  env_ok checked_env /\
  match im_from_vec checked_env u8 walked with
  | Ok m => w_iter (im_walk (changed (mo_write im_object) m [(2%nat, 9)])) = it_new [(5, 50); (3, 30); (20, 9); (12, 120)]
  | _ => False
  end /\
  match irm_from_vec Checked u32 [(6, 0); (4, 1); (5, 2)] with
  | Ok m => w_iter (irm_walk m) = it_new [(4, 1); (5, 2); (6, 0)]
  | _ => False
  end /\
  match lm_from_vec zlen checked_env u8 (map (fun k => (k, tt)) walked_keys) with
  | Ok m => map fst (entries (lm_table m)) = [[1; 2]; [1; 7]; [1; 5; 5]]
  | _ => False
  end /\
  match cm_from_vec (fun (bh : Z) (k : bytes) => bh + byte_code k) checked_env u8 (map (fun k => (k, tt)) walked_keys) 5 with
  | Ok m => cm_hasher m = 5
  | _ => False
  end /\
  match lsm_from_vec (fun (bh : Z) k => bh + byte_code k) checked_env u8 (map (fun k => (k, tt)) walked_keys) 1 2 5 with
  | Ok m => map fst (entries (slm_table m)) = [[1; 2]; [1; 5; 5]; [1; 7]]
  | _ => False
  end /\
  match rss_from_vec (fun (bh : Z) k => bh + byte_code k) checked_env u8 walked_keys 1 0 5 with
  | Ok s => sls_hasher s = 5
  | _ => False
  end.
Proof.
  split; [apply checked_env_ok|]. vm_compute.
  repeat split.
Qed.
End Walking.

(** ** C93: the code emitted by frozen_map! *)
Section Emission.
Import ProjectTests ProjectTestProofs MacroParse MacroEmit EmitSpec.

(** Keys and values are numbers standing for expressions; as keys they are literals. *)
Definition four_entries : parsed_map macro_type Z := {| pm_ty := TInt u32; pm_entries := [(4, 0); (8, 1); (15, 2); (16, 3)] |}.
Definition range_entries : parsed_map macro_type Z := {| pm_ty := TInt u32; pm_entries := [(4, 0); (5, 1); (6, 2)] |}.
Definition word_entries : parsed_map macro_type Z := {| pm_ty := TStr; pm_entries := [(1, 0); (2, 1); (3, 2); (4, 3)] |}.
Definition emitted_statement (literal_of : Z -> literal Z) (input : parsed_map macro_type Z) : option (statement macro_type Z) :=
  match emit (fun t => t) literal_of Checked byte_code input with Ok code => read_block code | _ => None end.
Definition as_bytes (e : Z) : literal Z := LStr [7; 7 + e; 1].

Lemma ex_C93 :
  frozen_map_macro Checked byte_code (TInt u32) (map (@LInt Z) [4; 8; 15; 16]) = Ok (XPlain NIntegerMap u8) /\
  emitted_statement LInt four_entries = Some (should_say (TInt u32) (TInt u32) (pm_entries four_entries) (XPlain NIntegerMap u8)) /\
  emitted_statement LInt range_entries =
    Some (should_say (TInt u32) (TInt u32) (pm_entries range_entries) (XPlain NIntegerRangeMap u8)) /\
  emitted_statement as_bytes word_entries =
    Some (should_say TStr TStr (pm_entries word_entries) (XRanged NLeftSliceMap u8 1 2)) /\
  option_map st_entries (emitted_statement as_bytes word_entries) = Some [(Converted 1, 0); (Converted 2, 1); (Converted 3, 2); (Converted 4, 3)] /\
  emit (fun t => t) (fun e => LExpr e) Checked byte_code four_entries = Panic PUnwrapNone.
Proof. vm_compute. repeat split. Qed.
End Emission.

(** ** C94: the benchmarks *)
Section Benchmarking.
Import ProjectTests CollisionSpec ProjectTestProofs DocExamples Benchmarks.

(** A hasher with which different strings have different codes, and one with which none have. *)
Definition telling_hasher : hasher datum :=
  {| hash_one := fun _ => 3; hash_one_slice := byte_code; hash_write := byte_code |}.
Definition constant_hasher : hasher datum :=
  {| hash_one := fun _ => 3; hash_one_slice := fun _ => 3; hash_write := fun _ => 3 |}.
Definition benchmark_outcome (rs : hasher datum) (b : benchmark) : option (storage * res (option Z)) :=
  match fm_from checked_env (bm_kind b) rs (bm_payload b) with
  | Ok m => Some (storage_of m, fm_get datum_eqb checked_env m (bm_query b))
  | _ => None
  end.

Lemma ex_C94 :
  separates (hash_one_slice telling_hasher) (str_keys (bm_payload string_keys_subslice)) /\
  map (benchmark_outcome telling_hasher) benchmarks =
    [Some (ByLength, Ok (Some 4)); Some (ByWindow 9 10, Ok (Some 4)); Some (ByNumber, Ok (Some 5)); Some (ByOffset, Ok (Some 4));
     Some (ByHash, Ok (Some 5))] /\
  ~ separates (hash_one_slice constant_hasher) (str_keys (bm_payload string_keys_subslice)) /\
  map (benchmark_outcome constant_hasher) benchmarks =
    [Some (ByLength, Ok (Some 4)); Some (ByHash, Ok (Some 4)); Some (ByNumber, Ok (Some 5)); Some (ByOffset, Ok (Some 4));
     Some (ByHash, Ok (Some 5))].
Proof.
  split; [|split; [vm_compute; reflexivity|split; [|vm_compute; reflexivity]]].
  - intros s t a b Is It Wa Wb H. unfold str_keys in Is, It. apply in_map_iff in Is, It.
    assert (Hl : forall e, In e (bm_payload string_keys_subslice) -> exists w, str_of (fst e) = literal_bytes w).
    { intros e He. cbn in He. repeat (destruct He as [<-|He]; [now eexists|]). destruct He. }
    destruct Is as (e & <- & He), It as (f & <- & Hf). destruct (Hl e He) as (u & Hu), (Hl f Hf) as (w & Hw).
    rewrite Hu in Wa. rewrite Hw in Wb. apply byte_code_inj; auto; eapply window_in_bytes; eauto.
  - intros H.
    assert (Hw : forall w : list Z, (1 <= length w <= 16)%nat -> CallSpec.window_of w w).
    { intros w Hl. split; [exact Hl|]. exists [], []. now rewrite app_nil_r. }
    set (u := nth 0 (str_keys (bm_payload string_keys_subslice)) []). set (w := nth 1 (str_keys (bm_payload string_keys_subslice)) []).
    assert (Huw : u = w); [|discriminate Huw].
    apply (H u w u w); [now left|right; now left|apply Hw; vm_compute; lia|apply Hw; vm_compute; lia|reflexivity].
Qed.
End Benchmarking.

(** ** C95: from a written call to the map that is built *)
Section Calls.
Import ProjectTests ProjectTestProofs MacroParse ParseSpec MacroEmit EmitSpec EmitRun WrittenSpec.

Definition number_entries : list ((Z * list Z) * (Z * list Z)) := [((4, []), (1, [])); ((8, []), (2, [43; 3])); ((15, []), (0, []))].
Definition near_entries : list ((Z * list Z) * (Z * list Z)) := [((4, []), (1, [])); ((5, []), (2, [])); ((6, []), (0, []))].
Definition name_entries : list ((Z * list Z) * (Z * list Z)) :=
  [((1, [20; 4]), (1, [])); ((1, [30; 4]), (2, [])); ((1, [40; 4]), (3, [])); ((1, [50; 4]), (4, []))].
Definition sample_value (e : Z * list Z) : Z := match e with (z, [43; y]) => z + y | (z, _) => z end.
Definition sample_bytes (e : Z * list Z) : list Z := fst e :: snd e.
Definition strings_for_others (t : macro_type) : macro_type := match t with TOther => TStr | _ => t end.
Definition sample_output (type_text : list (token Z)) (entries : list ((Z * list Z) * (Z * list Z))) :
  option (statement macro_type (Z * list Z)) :=
  match frozen_map_output sample_parse_type sample_parse_expr strings_for_others
          (fun e => match snd e with [] => @LInt Z (fst e) | _ => LStr (sample_bytes e) end) Checked byte_code
          (written_call sample_text type_text true entries) with
  | Some (Some (Ok code)) => read_block code
  | _ => None
  end.

Lemma ex_C95 :
  (forall ts x rest, sample_parse_expr ts = Some (x, rest) -> (length rest < length ts)%nat) /\
  frozen_map_output sample_parse_type sample_parse_expr strings_for_others (fun e => @LInt Z (fst e)) Checked byte_code
    [Tok 0; Comma; Tok 4; Comma] = Some None /\
  reads_back sample_parse_type sample_parse_expr sample_text [Tok 0] (TInt u8) /\
  written_call sample_text [Tok 0] true number_entries =
    [Tok 0; Comma; Tok 4; Colon; Tok 1; Comma; Tok 8; Colon; Tok 2; Tok 43; Tok 3; Comma; Tok 15; Colon; Tok 0; Comma] /\
  meaning fst sample_value number_entries = [(4, 1); (8, 5); (15, 0)] /\
  match sample_output [Tok 0] number_entries with
  | Some st => match execute_int checked_env tt u8 (fun _ z => z) fst sample_value st with
               | Some (Ok runs) => runs [OLen; OGet 8; OGetMut 15 7; OGet 15; OGet 16] | _ => [] end
  | _ => []
  end = [SawNumber 3; SawValue (Some 5); SawBool true; SawValue (Some 7); SawValue None] /\
  match sample_output [Tok 0] near_entries with
  | Some st => execute_int checked_env tt u8 (fun _ z => z) fst sample_value st = None
  | _ => False
  end /\
  match sample_output [Tok 1] name_entries with
  | Some st => match execute_str checked_env 7 (fun bh k => bh + byte_code k) (fun bh k => bh + byte_code k) sample_bytes sample_value st with
               | Some (Ok runs) => runs [OLen; OGet [1; 30; 4]; OContainsKey [1; 60; 4]; OIndex []] | _ => [] end
  | _ => []
  end = [SawNumber 4; SawValue (Some 2); SawBool false; SawPanic].
Proof.
  split; [exact sample_parse_shorter|]. split; [vm_compute; reflexivity|].
  split; [split; [reflexivity|split; [discriminate|exact sample_parse_text]]|].
  repeat split; vm_compute; reflexivity.
Qed.
End Calls.

(** ** C96: repeated keys *)
Section Repeated.
Import MapObjects HistorySpec RepeatedSpec ParseSpec MacroParse EmitSpec EmitRun WrittenSpec.

Definition repeated_numbers : list (Z * Z) := [(5, 1); (9, 2); (5, 3); (20, 4); (5, 6)].
Definition repeated_history : list (op Z Z) :=
  [OLen; OGet 5; OGetMut 5 7; OGet 5; OGet 6; OGetManyMut [(5, 8); (20, 9)]; OGetManyMut [(5, 8); (5, 9)]; OIter].
Definition after_run (E : env) : list (obs Z Z) :=
  match im_from_vec E u8 repeated_numbers with Ok m => mo_run (prof E) Z.eqb im_object m repeated_history | _ => [] end.
Definition repeated_entries : list ((Z * list Z) * (Z * list Z)) :=
  [((4, []), (1, [])); ((8, []), (2, [43; 3])); ((4, []), (0, []))].
Definition hidden_entries : list ((Z * list Z) * (Z * list Z)) :=
  [((4, []), (1, [])); ((6, []), (2, [])); ((4, []), (0, []))].

Lemma ex_C96 :
  fits u8 (zlen repeated_numbers) /\
  after_run checked_env = [SawNumber 5; SawValue (Some 6); SawBool true; SawValue (Some 7); SawValue None; SawBool true; SawBool false;
    SawItems [(9, 2); (5, 8); (20, 9); (5, 3); (5, 1)]] /\
  after_run unstable_env = [SawNumber 5; SawValue (Some 1); SawBool true; SawValue (Some 7); SawValue None; SawBool true; SawBool false;
    SawItems [(9, 2); (5, 8); (5, 3); (20, 9); (5, 6)]] /\
  first_run Z.eqb (fun k => k) [(9, 2); (5, 6); (20, 4); (5, 3); (5, 1)] repeated_history = after_run checked_env /\
  mo_run Checked Z.eqb (sm_object Z.eqb (fun k => k)) (sm_from_vec repeated_numbers) [OGet 5; OIndexMut 5 0; OIter] =
    [SawValue (Some 1); SawBool true; SawItems [(5, 0); (9, 2); (5, 3); (20, 4); (5, 6)]] /\
  (match fm_new checked_env KindString [(KStr [97; 98], 1); (KStr [99], 2); (KStr [97; 98], 3); (KStr [100], 4)] sample_hasher with
   | Ok m => run Z.eqb checked_env m [OLen; OGetKeyValue (KStr [97; 98]); OContainsKey (KStr [98])]
   | _ => []
   end = [SawNumber 4; SawEntry (Some (KStr [97; 98], 3)); SawBool false]) /\
  match sample_output [Tok 0] repeated_entries with
  | Some st => match execute_int checked_env tt u8 (fun _ z => z) fst sample_value st with
               | Some (Ok runs) => runs [OLen; OGet 8; OGet 4; OGet 5] | _ => [] end
  | _ => []
  end = [SawNumber 3; SawValue (Some 5); SawValue (Some 0); SawValue None] /\
  spanning (map fst (meaning fst sample_value hidden_entries)) /\
  match sample_output [Tok 0] hidden_entries with
  | Some st => execute_int checked_env tt u8 (fun _ z => z) fst sample_value st = None
  | _ => False
  end.
Proof.
  split; [repeat split; vm_compute; congruence|]. do 6 (split; [vm_compute; reflexivity|]). split; [|vm_compute; reflexivity].
  exists 4, 6. cbn. split; [auto|]. split; [auto|]. split; [intros k H; lia|reflexivity].
Qed.
End Repeated.

(** ** C97: looking up by place *)
Section Places.
Import MapObjects HistorySpec PlaceSpec.

Definition filled_range : list (Z * Z) := [(7, 20); (5, 10); (8, 40); (5, 30)].

Lemma ex_C97 :
  (forall x y, In x (map fst filled_range) -> In y (map fst filled_range) -> x - y <= imax u8 /\ x - y < 2 ^ 64) /\
  spans_from 5 (map fst filled_range) /\
  (match irm_from_vec Checked u8 filled_range with
   | Ok m => mo_run Checked Z.eqb (irm_object Checked u8) m
       [OLen; OGet 5; OGet 6; OGetKeyValue 6; OGet 9; OGetMut 6 31; OGetManyMut [(5, 11); (6, 32)]; OIter; OIndex 4]
   | _ => [] end =
   [SawNumber 4; SawValue (Some 10); SawValue (Some 30); SawEntry (Some (5, 30)); SawValue None; SawBool true; SawBool true;
    SawItems [(5, 11); (5, 32); (7, 20); (8, 40)]; SawPanic]) /\
  (match fm_new checked_env KindU32 (map (@from_u32_entry Z Z) filled_range) sample_hasher with
   | Ok m => run Z.eqb checked_env m [OContainsKey (KU32 6); OGetKeyValue (KU32 6); OGet (KU32 9)]
   | _ => [] end = [SawBool true; SawEntry (Some (KU32 5, 30)); SawValue None]) /\
  (match irs_from_vec Checked u8 [7; 5; 8; 5] with
   | Ok s => (irs_items s, irs_contains Checked u8 s 6, irs_get Checked u8 s 6, irs_contains Checked u8 s 9)
   | _ => ([], Ok false, Ok None, Ok false) end = ([5; 5; 7; 8], Ok true, Ok (Some 5), Ok false)) /\
  irm_from_vec Checked u8 [(5, 1); (7, 2)] = Panic PAssert.
Proof.
  split; [|split; [|split; [|split; [|split]]]; try (vm_compute; reflexivity)].
  - intros x y Hx Hy. cbn in Hx, Hy. change (imax u8) with 255. change (2 ^ 64) with 18446744073709551616. lia.
  - unfold spans_from. cbn. split; [auto|]. split; [intros k H; lia|]. split; [auto|]. intros k H. lia.
Qed.

(** All 256 keys of i8 fill a range, but the spread does not fit the type. *)
Lemma ex_C97_wide :
  let all := map (fun n => (Z.of_nat n - 128, tt)) (seq 0 256) in
  spans_from (-128) (map fst all) /\ zlen all - 1 > imax i8 /\
  irm_from_vec Checked i8 all = Panic POverflow /\ irm_from_vec Wrapping i8 all = Panic PUnwrapNone /\
  (match irm_from_vec Wrapping i8 (firstn 128 all) with Ok m => (irm_min m, irm_max m) | _ => (0, 0) end) = (-128, -1) /\
  irm_from_vec Wrapping i8 [(-100, tt); (100, tt)] = Panic PUnwrapNone.
Proof.
  intros all. assert (Hk : map fst all = map (fun n => Z.of_nat n - 128) (seq 0 256)) by (unfold all; rewrite map_map; reflexivity).
  split; [|split; [|split; [|split; [|split]]]; try (vm_compute; reflexivity)].
  unfold spans_from. rewrite Hk. repeat split.
  - apply in_map_iff. exists 0%nat. split; [reflexivity|]. apply in_seq. lia.
  - intros k H. apply in_map_iff in H. destruct H as (n & <- & _). lia.
  - apply in_map_iff. exists 255%nat. split; [vm_compute; reflexivity|]. apply in_seq. lia.
  - intros k H. apply in_map_iff in H. destruct H as (n & <- & Hn). apply in_seq in Hn. rewrite map_length, seq_length. lia.
Qed.
End Places.

(** ** C98: comparing collections with repeated keys *)
Section RepeatedComparisons.
Import PlaceSpec MapObjects.

Definition built_set (items : list (key Z)) : set_impl (key Z) :=
  match fs_new checked_env KindU32 items sample_hasher with
  | Ok s => fs_as_set Z.eqb checked_env s
  | _ => {| s_items := []; s_len := 0; s_contains := fun _ => Panic PAssert |}
  end.
Definition numbers_set (l : list Z) := built_set (map (@KU32 Z) l).
Definition numbers_map (l : list (Z * Z)) := fm_new checked_env KindU32 (map (@from_u32_entry Z Z) l) sample_hasher.
Definition compared (l l' : list (Z * Z)) : res bool :=
  m <- numbers_map l ;; m' <- numbers_map l' ;; fm_eq Z.eqb checked_env Z.eqb m m'.

Lemma ex_C98 :
  ~ full_span (map (fun x => (x, tt)) (map (@KU32 Z) [1; 1; 9; 20; 9])) /\
  is_subset (numbers_set [1; 1; 9; 20; 9]) (numbers_set [1; 9; 20; 40]) = Ok false /\
  set_eq (numbers_set [1; 1; 9; 20; 9]) (numbers_set [20; 40; 9; 1; 60]) = Ok true /\
  set_eq (numbers_set [20; 40; 9; 1; 60]) (numbers_set [1; 1; 9; 20; 9]) = Ok false /\
  compared [(1, 5); (9, 6); (1, 5); (30, 7)] [(1, 5); (9, 6); (1, 5); (30, 7)] = Ok true /\
  compared [(1, 5); (9, 6); (1, 4); (30, 7)] [(1, 5); (9, 6); (1, 4); (30, 7)] = Ok false /\
  compared [(1, 5); (9, 6); (1, 5); (30, 7)] [(1, 5); (9, 6); (40, 4); (30, 7)] = Ok true /\
  mo_eq Z.eqb (sm_object Z.eqb (fun k => k)) (sm_from_vec [(1, 5); (1, 4)]) (sm_from_vec [(1, 5); (1, 4)]) = Ok false /\
  mo_eq Z.eqb (sm_object Z.eqb (fun k => k)) (sm_from_vec [(1, 5); (1, 5)]) (sm_from_vec [(1, 5); (2, 4)]) = Ok true /\
  (m <- irm_from_vec Checked u8 filled_range ;; mo_eq Z.eqb (irm_object Checked u8) m m) = Ok false /\
  (m <- irm_from_vec Checked u8 [(5, 1); (5, 1); (7, 2)] ;; mo_eq Z.eqb (irm_object Checked u8) m m) = Ok true /\
  (m <- lsm_from_vec (fun (_ : unit) (s : list Z) => zlen s) checked_env u8 [([1; 2], 5); ([1; 2], 4)] 0 1 tt ;;
     mo_eq Z.eqb (lsm_object (fun (_ : unit) (s : list Z) => zlen s)) m m) = Ok false /\
  spans_from 5 (map u32_of (map (@KU32 Z) [7; 5; 8; 5])) /\
  s_contains (numbers_set [7; 5; 8; 5]) (KU32 6) = Ok true /\ s_items (numbers_set [7; 5; 8; 5]) = map (@KU32 Z) [5; 5; 7; 8].
Proof.
  split.
  { intros (mn & mx & H1 & H2 & H3 & H4). cbn in H1, H2. change (zlen _) with 5 in H4.
    pose proof (H3 20 ltac:(cbn; auto)). pose proof (H3 1 ltac:(cbn; auto)). lia. }
  do 11 (split; [vm_compute; reflexivity|]). split; [|split; vm_compute; reflexivity].
  unfold spans_from. cbn. split; [auto|]. split; [intros k H; lia|]. split; [auto|]. intros k H. lia.
Qed.
End RepeatedComparisons.
