(** Model of frozen-collections-core/src/facades/frozen_set.rs. *)
From Coq Require Import List ZArith Bool.
From Verif Require Import Base HashCodeAnalyzer IntKeyAnalyzer SliceKeyAnalyzer HashTable Maps FrozenMap
  SetOps Sets.
Import ListNotations.
Open Scope Z_scope.

Section Facade.
Context {O : Type}.
Variable eqbO : O -> O -> bool.
Variable E : env.
Notation hasher := (hasher O).
Notation key := (key O).

(** facades/frozen_set.rs:20-38 *)
Inductive set_types : Type :=
| SScanning (s : scanning_set key)
| SCommonSmall (s : common_set key hasher)
| SCommonLarge (s : common_set key hasher)
| SU32Small (s : integer_set)
| SU32Large (s : integer_set)
| SU32Range (s : integer_range_set)
| SLeftStringSliceSmall (s : slice_set hasher)
| SLeftStringSliceLarge (s : slice_set hasher)
| SRightStringSliceSmall (s : slice_set hasher)
| SRightStringSliceLarge (s : slice_set hasher)
| SStringLengthSmall (s : length_set bytes).

(** [transmute] of the payload vector (facades/frozen_set.rs:213, 231). *)
Definition items_as_u32 (payload : list key) : res (list Z) := mapM as_u32 payload.
Definition items_as_string (payload : list key) : res (list bytes) := mapM as_string payload.

(** facades/frozen_set.rs:293-299 *)
Definition fs_new_common_set (payload : list key) (bh : hasher) : res set_types :=
  if zlen payload <=? imax u8 then
    s <- cs_from_vec hash_one E u8 payload bh ;; Ok (SCommonSmall s)
  else
    s <- cs_from_vec hash_one E usize payload bh ;; Ok (SCommonLarge s).

(** facades/frozen_set.rs:212-227 *)
Definition fs_new_u32_set (payload0 : list key) : res set_types :=
  payload <- items_as_u32 payload0 ;;
  key_analysis <- analyze_int_keys (prof E) u32 payload ;;
  match key_analysis with
  | IntRange => s <- irs_from_vec (prof E) u32 payload ;; Ok (SU32Range s)
  | IntNormal =>
      if zlen payload <=? imax u8 then
        s <- is_from_vec E u8 payload ;; Ok (SU32Small s)
      else
        s <- is_from_vec E usize payload ;; Ok (SU32Large s)
  end.

(** facades/frozen_set.rs:230-291; [payload0] is passed to CommonSet where the code transmutes
    the payload back. *)
Definition fs_new_string_set (payload0 : list key) (bh : hasher) : res set_types :=
  payload <- items_as_string payload0 ;;
  key_analysis <- analyze_slice_keys (hash_one_slice bh) payload ;;
  if zlen payload <=? imax u8 then
    match key_analysis with
    | SliceNormal => s <- cs_from_vec hash_one E u8 payload0 bh ;; Ok (SCommonSmall s)
    | LeftHandSubslice i l =>
        s <- lss_from_vec hash_write E u8 payload i (i + l) bh ;; Ok (SLeftStringSliceSmall s)
    | RightHandSubslice i l =>
        s <- rss_from_vec hash_write E u8 payload i (i + l) bh ;; Ok (SRightStringSliceSmall s)
    | SliceLength => s <- ls_from_vec zlen E u8 payload ;; Ok (SStringLengthSmall s)
    end
  else
    match key_analysis with
    | SliceLength | SliceNormal =>
        s <- cs_from_vec hash_one E usize payload0 bh ;; Ok (SCommonLarge s)
    | LeftHandSubslice i l =>
        s <- lss_from_vec hash_write E usize payload i (i + l) bh ;; Ok (SLeftStringSliceLarge s)
    | RightHandSubslice i l =>
        s <- rss_from_vec hash_write E usize payload i (i + l) bh ;; Ok (SRightStringSliceLarge s)
    end.

(** facades/frozen_set.rs:197-209; all public constructors (155, 176, 192, 446, 455, 464) reduce
    to this function. *)
Definition fs_new (kd : kind) (payload : list key) (bh : hasher) : res set_types :=
  if zlen payload <? 4 then Ok (SScanning (ss_from_vec payload))
  else
    match kd with
    | KindU32 => fs_new_u32_set payload
    | KindString => fs_new_string_set payload bh
    | KindOther => fs_new_common_set payload bh
    end.

(** facades/frozen_set.rs:469-478 *)
Definition fs_default : set_types := SScanning (ss_from_vec []).

(** facades/frozen_set.rs:312-340 *)
Definition fs_contains (s : set_types) (value : key) : res bool :=
  match s with
  | SScanning s => ss_contains (key_eqb eqbO) id_key s value
  | SCommonSmall s | SCommonLarge s => cs_contains (key_eqb eqbO) id_key hash_one s value
  | SU32Small s | SU32Large s => n <- as_u32 value ;; is_contains s n
  | SU32Range s => n <- as_u32 value ;; irs_contains (prof E) u32 s n
  | SLeftStringSliceSmall s | SLeftStringSliceLarge s =>
      v <- as_string value ;; lss_contains hash_write s v
  | SRightStringSliceSmall s | SRightStringSliceLarge s =>
      v <- as_string value ;; rss_contains hash_write E s v
  | SStringLengthSmall s => v <- as_string value ;; ls_contains bytes_eqb id_bytes zlen s v
  end.

(** facades/frozen_set.rs:399-427 *)
Definition fs_get (s : set_types) (value : key) : res (option key) :=
  match s with
  | SScanning s => ss_get (key_eqb eqbO) id_key s value
  | SCommonSmall s | SCommonLarge s => cs_get (key_eqb eqbO) id_key hash_one s value
  | SU32Small s | SU32Large s => n <- as_u32 value ;; r <- is_get s n ;; Ok (option_map KU32 r)
  | SU32Range s =>
      n <- as_u32 value ;; r <- irs_get (prof E) u32 s n ;; Ok (option_map KU32 r)
  | SLeftStringSliceSmall s | SLeftStringSliceLarge s =>
      v <- as_string value ;; r <- lss_get hash_write s v ;; Ok (option_map KStr r)
  | SRightStringSliceSmall s | SRightStringSliceLarge s =>
      v <- as_string value ;; r <- rss_get hash_write E s v ;; Ok (option_map KStr r)
  | SStringLengthSmall s =>
      v <- as_string value ;; r <- ls_get bytes_eqb id_bytes zlen s v ;; Ok (option_map KStr r)
  end.

(** facades/frozen_set.rs:372-386: the items [iter()] runs over *)
Definition fs_items (s : set_types) : list key :=
  match s with
  | SScanning s => ss_items s
  | SCommonSmall s | SCommonLarge s => cs_items s
  | SU32Small s | SU32Large s => map KU32 (is_items s)
  | SU32Range s => map KU32 (irs_items s)
  | SLeftStringSliceSmall s | SLeftStringSliceLarge s
  | SRightStringSliceSmall s | SRightStringSliceLarge s => map KStr (sls_items s)
  | SStringLengthSmall s => map KStr (ls_items s)
  end.

(** facades/frozen_set.rs:590-606 *)
Definition fs_len (s : set_types) : Z :=
  match s with
  | SScanning s => ss_len s
  | SCommonSmall s | SCommonLarge s => cs_len s
  | SU32Small s | SU32Large s => is_len s
  | SU32Range s => irs_len s
  | SLeftStringSliceSmall s | SLeftStringSliceLarge s
  | SRightStringSliceSmall s | SRightStringSliceLarge s => sls_len s
  | SStringLengthSmall s => ls_len s
  end.

(** facades/frozen_set.rs:353-355 *)
Definition fs_is_empty (s : set_types) : bool := fs_len s =? 0.

(** facades/frozen_set.rs:504-516 *)
Definition fs_eq (self other : set_types) : res bool :=
  if negb (fs_len self =? fs_len other) then Ok false
  else all_res (fun value => set_contains_of (fs_get other value)) (fs_items self).

(** facades/frozen_set.rs:608-625: what the set algebra sees *)
Definition fs_as_set (s : set_types) : set_impl key :=
  {| s_items := fs_items s; s_len := fs_len s; s_contains := fs_contains s |}.
End Facade.
Arguments set_types : clear implicits.
