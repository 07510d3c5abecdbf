(** Model of frozen-collections-core/src/facades/frozen_map.rs. *)
From Coq Require Import List ZArith Bool Lia.
From Verif Require Import Base HashCodeAnalyzer IntKeyAnalyzer SliceKeyAnalyzer HashTable Maps.
Import ListNotations.
Open Scope Z_scope.

(** ** Key types *)

(** The code distinguishes three classes of key types by their type name
    (facades/frozen_map.rs:216, 218).  [O] stands for an arbitrary type that is neither
    u32 nor String. *)
Inductive kind : Type := KindU32 | KindString | KindOther.

Inductive key (O : Type) : Type :=
| KU32 (n : Z)
| KStr (s : bytes)
| KOther (o : O).
Arguments KU32 {O} n.
Arguments KStr {O} s.
Arguments KOther {O} o.

(** A key value of the static type described by a kind. *)
Definition has_kind {O} (kd : kind) (k : key O) : Prop :=
  match kd, k with
  | KindU32, KU32 n => 0 <= n < 2 ^ 32
  | KindString, KStr s => zlen s < 2 ^ 64
  | KindOther, KOther _ => True
  | _, _ => False
  end.

(** [==] on keys: u32 and String have their standard equality. *)
Definition key_eqb {O} (eqbO : O -> O -> bool) (a b : key O) : bool :=
  match a, b with
  | KU32 x, KU32 y => x =? y
  | KStr x, KStr y => bytes_eqb x y
  | KOther x, KOther y => eqbO x y
  | _, _ => false
  end.

(** A [BuildHasher] value: [hash_one] on keys, [hash_one] on byte slices (used by the
    analyzer), and build_hasher / write / finish (used by SliceHash). *)
Record hasher (O : Type) : Type := {
  hash_one : key O -> Z;
  hash_one_slice : bytes -> Z;
  hash_write : bytes -> Z
}.
Arguments hash_one {O} h k.
Arguments hash_one_slice {O} h b.
Arguments hash_write {O} h b.

(** [transmute] of a key reference / owned key: undefined behaviour at a wrong type. *)
Definition as_u32 {O} (k : key O) : res Z := match k with KU32 n => Ok n | _ => UB WrongType end.
Definition as_string {O} (k : key O) : res bytes := match k with KStr s => Ok s | _ => UB WrongType end.

Section Facade.
Context {O V : Type}.
Variable eqbO : O -> O -> bool.
Variable E : env.

Notation hasher := (hasher O).
Notation key := (key O).

(** facades/frozen_map.rs:21-39 *)
Inductive map_types : Type :=
| MScanning (m : scanning_map key V)
| MCommonSmall (m : common_map key V hasher)
| MCommonLarge (m : common_map key V hasher)
| MU32Small (m : integer_map V)
| MU32Large (m : integer_map V)
| MU32Range (m : integer_range_map V)
| MLeftStringSliceSmall (m : slice_map V hasher)
| MLeftStringSliceLarge (m : slice_map V hasher)
| MRightStringSliceSmall (m : slice_map V hasher)
| MRightStringSliceLarge (m : slice_map V hasher)
| MStringLengthSmall (m : length_map bytes V).

(** [transmute] of the payload vector (facades/frozen_map.rs:228, 246). *)
Definition payload_as_u32 (payload : list (key * V)) : res (list (Z * V)) :=
  mapM (fun e => n <- as_u32 (fst e) ;; Ok (n, snd e)) payload.
Definition payload_as_string (payload : list (key * V)) : res (list (bytes * V)) :=
  mapM (fun e => s <- as_string (fst e) ;; Ok (s, snd e)) payload.

(** facades/frozen_map.rs:308-314 *)
Definition fm_new_common_map (payload : list (key * V)) (bh : hasher) : res map_types :=
  if zlen payload <=? imax u8 then
    m <- cm_from_vec hash_one E u8 payload bh ;; Ok (MCommonSmall m)
  else
    m <- cm_from_vec hash_one E usize payload bh ;; Ok (MCommonLarge m).

(** facades/frozen_map.rs:227-242 *)
Definition fm_new_u32_map (payload0 : list (key * V)) : res map_types :=
  payload <- payload_as_u32 payload0 ;;
  key_analysis <- analyze_int_keys (prof E) u32 (map fst payload) ;;
  match key_analysis with
  | IntRange => m <- irm_from_vec (prof E) u32 payload ;; Ok (MU32Range m)
  | IntNormal =>
      if zlen payload <=? imax u8 then
        m <- im_from_vec E u8 payload ;; Ok (MU32Small m)
      else
        m <- im_from_vec E usize payload ;; Ok (MU32Large m)
  end.

(** facades/frozen_map.rs:245-306. [payload0] is passed to CommonMap where the code transmutes
    the payload back. *)
Definition fm_new_string_map (payload0 : list (key * V)) (bh : hasher) : res map_types :=
  payload <- payload_as_string payload0 ;;
  key_analysis <- analyze_slice_keys (hash_one_slice bh) (map fst payload) ;;
  if zlen payload <=? imax u8 then
    match key_analysis with
    | SliceNormal => m <- cm_from_vec hash_one E u8 payload0 bh ;; Ok (MCommonSmall m)
    | LeftHandSubslice i l =>
        m <- lsm_from_vec hash_write E u8 payload i (i + l) bh ;; Ok (MLeftStringSliceSmall m)
    | RightHandSubslice i l =>
        m <- rsm_from_vec hash_write E u8 payload i (i + l) bh ;; Ok (MRightStringSliceSmall m)
    | SliceLength => m <- lm_from_vec zlen E u8 payload ;; Ok (MStringLengthSmall m)
    end
  else
    match key_analysis with
    | SliceLength | SliceNormal =>
        m <- cm_from_vec hash_one E usize payload0 bh ;; Ok (MCommonLarge m)
    | LeftHandSubslice i l =>
        m <- lsm_from_vec hash_write E usize payload i (i + l) bh ;; Ok (MLeftStringSliceLarge m)
    | RightHandSubslice i l =>
        m <- rsm_from_vec hash_write E usize payload i (i + l) bh ;; Ok (MRightStringSliceLarge m)
    end.

(** facades/frozen_map.rs:212-224; [kd] is the outcome of the type_name tests. All public
    constructors (175, 194, 208, 688, 697, 706) reduce to this function. *)
Definition fm_new (kd : kind) (payload : list (key * V)) (bh : hasher) : res map_types :=
  if zlen payload <? 4 then Ok (MScanning (sm_from_vec payload))
  else
    match kd with
    | KindU32 => fm_new_u32_map payload
    | KindString => fm_new_string_map payload bh
    | KindOther => fm_new_common_map payload bh
    end.

(** facades/frozen_map.rs:733-743 *)
Definition fm_default : map_types := MScanning (sm_from_vec []).

Definition id_key (k : key) : key := k.
Definition id_bytes (b : bytes) : bytes := b.

(** facades/frozen_map.rs:328-357, as the position of the entry referred to *)
Definition fm_get_at (m : map_types) (k : key) : res (option nat) :=
  match m with
  | MScanning m => sm_get_at (key_eqb eqbO) id_key m k
  | MCommonSmall m | MCommonLarge m => cm_get_at (key_eqb eqbO) id_key hash_one m k
  | MU32Small m | MU32Large m => n <- as_u32 k ;; im_get_at m n
  | MU32Range m => n <- as_u32 k ;; irm_get_at (prof E) u32 m n
  | MLeftStringSliceSmall m | MLeftStringSliceLarge m =>
      s <- as_string k ;; lsm_get_at hash_write m s
  | MRightStringSliceSmall m | MRightStringSliceLarge m =>
      s <- as_string k ;; rsm_get_at hash_write E m s
  | MStringLengthSmall m => s <- as_string k ;; lm_get_at bytes_eqb id_bytes zlen m s
  end.

(** facades/frozen_map.rs:328-357, reading through the reference *)
Definition fm_get (m : map_types) (k : key) : res (option V) :=
  match m with
  | MScanning m => sm_get (key_eqb eqbO) id_key m k
  | MCommonSmall m | MCommonLarge m => cm_get (key_eqb eqbO) id_key hash_one m k
  | MU32Small m | MU32Large m => n <- as_u32 k ;; im_get m n
  | MU32Range m => n <- as_u32 k ;; irm_get (prof E) u32 m n
  | MLeftStringSliceSmall m | MLeftStringSliceLarge m =>
      s <- as_string k ;; lsm_get hash_write m s
  | MRightStringSliceSmall m | MRightStringSliceLarge m =>
      s <- as_string k ;; rsm_get hash_write E m s
  | MStringLengthSmall m => s <- as_string k ;; lm_get bytes_eqb id_bytes zlen m s
  end.

(** [transmute] of the resulting pair in facades/frozen_map.rs:376-399 *)
Definition from_u32_entry (e : Z * V) : key * V := (KU32 (fst e), snd e).
Definition from_string_entry (e : bytes * V) : key * V := (KStr (fst e), snd e).

(** facades/frozen_map.rs:371-400 *)
Definition fm_get_key_value (m : map_types) (k : key) : res (option (key * V)) :=
  match m with
  | MScanning m => sm_get_key_value (key_eqb eqbO) id_key m k
  | MCommonSmall m | MCommonLarge m => cm_get_key_value (key_eqb eqbO) id_key hash_one m k
  | MU32Small m | MU32Large m =>
      n <- as_u32 k ;; r <- im_get_key_value m n ;; Ok (option_map from_u32_entry r)
  | MU32Range m =>
      n <- as_u32 k ;; r <- irm_get_key_value (prof E) u32 m n ;;
      Ok (option_map from_u32_entry r)
  | MLeftStringSliceSmall m | MLeftStringSliceLarge m =>
      s <- as_string k ;; r <- lsm_get_key_value hash_write m s ;;
      Ok (option_map from_string_entry r)
  | MRightStringSliceSmall m | MRightStringSliceLarge m =>
      s <- as_string k ;; r <- rsm_get_key_value hash_write E m s ;;
      Ok (option_map from_string_entry r)
  | MStringLengthSmall m =>
      s <- as_string k ;; r <- lm_get_key_value bytes_eqb id_bytes zlen m s ;;
      Ok (option_map from_string_entry r)
  end.

(** facades/frozen_map.rs:414-446 *)
Definition fm_get_mut (m : map_types) (k : key) : res (option nat) :=
  match m with
  | MScanning m => sm_get_mut (key_eqb eqbO) id_key m k
  | MCommonSmall m | MCommonLarge m => cm_get_mut (key_eqb eqbO) id_key hash_one m k
  | MU32Small m | MU32Large m => n <- as_u32 k ;; im_get_mut m n
  | MU32Range m => n <- as_u32 k ;; irm_get_mut (prof E) u32 m n
  | MLeftStringSliceSmall m | MLeftStringSliceLarge m =>
      s <- as_string k ;; lsm_get_mut hash_write m s
  | MRightStringSliceSmall m | MRightStringSliceLarge m =>
      s <- as_string k ;; rsm_get_mut hash_write E m s
  | MStringLengthSmall m => s <- as_string k ;; lm_get_mut bytes_eqb id_bytes zlen m s
  end.

(** facades/frozen_map.rs:493-513 *)
Definition fm_get_many_mut (m : map_types) (keys : list key) : res (option (list nat)) :=
  get_many_mut (key_eqb eqbO) (fm_get_at m) keys.

(** facades/frozen_map.rs:527-529 *)
Definition fm_contains_key (m : map_types) (k : key) : res bool := contains_key (fm_get m k).

(** facades/frozen_map.rs:589-603, 623-637, 657-671: the entry slice that [iter()], [keys()] and
    [values()] run over (see Iterators.v) *)
Definition fm_iter (m : map_types) : list (key * V) :=
  match m with
  | MScanning m => sm_entries m
  | MCommonSmall m | MCommonLarge m => entries (cm_table m)
  | MU32Small m | MU32Large m => map from_u32_entry (entries (im_table m))
  | MU32Range m => map from_u32_entry (irm_entries m)
  | MLeftStringSliceSmall m | MLeftStringSliceLarge m
  | MRightStringSliceSmall m | MRightStringSliceLarge m =>
      map from_string_entry (entries (slm_table m))
  | MStringLengthSmall m => map from_string_entry (entries (lm_table m))
  end.

(** facades/frozen_map.rs:541-555 *)
Definition fm_len (m : map_types) : Z :=
  match m with
  | MScanning m => zlen (sm_entries m)
  | MCommonSmall m | MCommonLarge m => ht_len (cm_table m)
  | MU32Small m | MU32Large m => ht_len (im_table m)
  | MU32Range m => zlen (irm_entries m)
  | MLeftStringSliceSmall m | MLeftStringSliceLarge m
  | MRightStringSliceSmall m | MRightStringSliceLarge m => ht_len (slm_table m)
  | MStringLengthSmall m => ht_len (lm_table m)
  end.

(** facades/frozen_map.rs:567-569 *)
Definition fm_is_empty (m : map_types) : bool := fm_len m =? 0.

(** facades/frozen_map.rs:711-731 *)
Definition fm_index (m : map_types) (k : key) : res V := index_of (fm_get m k).
Definition fm_index_mut (m : map_types) (k : key) : res nat := index_of (fm_get_mut m k).

(** facades/frozen_map.rs:767-781 *)
Definition fm_eq (veq : V -> V -> bool) (self other : map_types) : res bool :=
  if negb (fm_len self =? fm_len other) then Ok false
  else all_res (fun e =>
         r <- fm_get other (fst e) ;;
         Ok (match r with Some v => veq (snd e) v | None => false end)) (fm_iter self).

(** Effect of storing [v] through a [&mut V] into the entry at position [i]. *)
Definition write_table {K} (i : nat) (v : V) (t : hash_table K V) : hash_table K V :=
  {| num_slots := num_slots t; slots := slots t; entries := write_entry i v (entries t) |}.
Definition fm_write (i : nat) (v : V) (m : map_types) : map_types :=
  match m with
  | MScanning m => MScanning {| sm_entries := write_entry i v (sm_entries m) |}
  | MCommonSmall m => MCommonSmall {| cm_table := write_table i v (cm_table m); cm_bh := cm_bh m |}
  | MCommonLarge m => MCommonLarge {| cm_table := write_table i v (cm_table m); cm_bh := cm_bh m |}
  | MU32Small m => MU32Small {| im_table := write_table i v (im_table m) |}
  | MU32Large m => MU32Large {| im_table := write_table i v (im_table m) |}
  | MU32Range m =>
      MU32Range {| irm_min := irm_min m; irm_max := irm_max m;
                   irm_entries := write_entry i v (irm_entries m) |}
  | MLeftStringSliceSmall m =>
      MLeftStringSliceSmall {| slm_table := write_table i v (slm_table m); slm_bh := slm_bh m;
                               slm_start := slm_start m; slm_end := slm_end m |}
  | MLeftStringSliceLarge m =>
      MLeftStringSliceLarge {| slm_table := write_table i v (slm_table m); slm_bh := slm_bh m;
                               slm_start := slm_start m; slm_end := slm_end m |}
  | MRightStringSliceSmall m =>
      MRightStringSliceSmall {| slm_table := write_table i v (slm_table m); slm_bh := slm_bh m;
                                slm_start := slm_start m; slm_end := slm_end m |}
  | MRightStringSliceLarge m =>
      MRightStringSliceLarge {| slm_table := write_table i v (slm_table m); slm_bh := slm_bh m;
                                slm_start := slm_start m; slm_end := slm_end m |}
  | MStringLengthSmall m => MStringLengthSmall {| lm_table := write_table i v (lm_table m) |}
  end.

End Facade.
Arguments map_types : clear implicits.
