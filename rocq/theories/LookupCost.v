(** The number of calls of [==] on keys made by [get].  The functions follow the [get] of each
    map as modelled in Maps.v and FrozenMap.v, returning the count instead of the result. *)
From Coq Require Import List ZArith Bool Lia.
From Verif Require Import Base HashTable Maps FrozenMap.
Import ListNotations.
Open Scope Z_scope.

(** [for entry in entries { if key.eq(&entry.0) { return .. } }], e.g. common_map.rs:75-79:
    comparisons made before the loop is left. *)
Fixpoint comparisons {A} (matches : A -> bool) (l : list A) : Z :=
  match l with
  | [] => 0
  | x :: l' => 1 + (if matches x then 0 else comparisons matches l')
  end.

(** The same loop over the entries of a slot, e.g. common_map.rs:73-81. *)
Definition ht_probe_cost {K V} (t : hash_table K V) (range : Z * Z) (matches : K -> bool) : res Z :=
  es <- slice_unchecked (fst range) (snd range) (entries t) ;;
  Ok (comparisons (fun e => matches (fst e)) es).

(** scanning_map.rs:31-43 *)
Definition sm_get_cost {K V Q} (eqb : Q -> Q -> bool) (borrow : K -> Q) (m : scanning_map K V) (key : Q) : res Z :=
  Ok (comparisons (fun e => eqb key (borrow (fst e))) (sm_entries m)).

(** common_map.rs:67-82 *)
Definition cm_get_cost {K V Q BH} (eqb : Q -> Q -> bool) (borrow : K -> Q) (hash_query : BH -> Q -> Z)
    (m : common_map K V BH) (key : Q) : res Z :=
  range <- cm_get_hash_info hash_query m key ;;
  ht_probe_cost (cm_table m) range (fun k => eqb key (borrow k)).

(** integer_map.rs:51-65 *)
Definition im_get_cost {V} (m : integer_map V) (key : Z) : res Z :=
  range <- im_get_hash_info m key ;;
  ht_probe_cost (im_table m) range (fun k => key =? k).

(** length_map.rs:53-67 *)
Definition lm_get_cost {K V Q} (eqb : Q -> Q -> bool) (borrow : K -> Q) (len_query : Q -> Z)
    (m : length_map K V) (key : Q) : res Z :=
  range <- lm_get_hash_info len_query m key ;;
  ht_probe_cost (lm_table m) range (fun k => eqb key (borrow k)).

(** left_slice_map.rs:90-104 *)
Definition lsm_get_cost {V BH} (hash_write : BH -> bytes -> Z) (m : slice_map V BH) (key : bytes) : res Z :=
  range <- lsm_get_hash_info hash_write m key ;;
  ht_probe_cost (slm_table m) range (fun k => bytes_eqb key k).

(** right_slice_map.rs:93-107 *)
Definition rsm_get_cost {V BH} (hash_write : BH -> bytes -> Z) (E : env) (m : slice_map V BH) (key : bytes) : res Z :=
  range <- rsm_get_hash_info hash_write E m key ;;
  ht_probe_cost (slm_table m) range (fun k => bytes_eqb key k).

(** integer_range_map.rs:59-70: only order comparisons with the two ends. *)
Definition irm_get_cost {V} (pr : profile) (ty : int_type) (m : integer_range_map V) (key : Z) : res Z :=
  r <- irm_get_at pr ty m key ;; Ok 0.

(** facades/frozen_map.rs:328-357 *)
Definition fm_get_cost {O V} (eqbO : O -> O -> bool) (E : env) (m : map_types O V) (k : key O) : res Z :=
  match m with
  | MScanning m => sm_get_cost (key_eqb eqbO) id_key m k
  | MCommonSmall m | MCommonLarge m => cm_get_cost (key_eqb eqbO) id_key hash_one m k
  | MU32Small m | MU32Large m => n <- as_u32 k ;; im_get_cost m n
  | MU32Range m => n <- as_u32 k ;; irm_get_cost (prof E) u32 m n
  | MLeftStringSliceSmall m | MLeftStringSliceLarge m =>
      s <- as_string k ;; lsm_get_cost hash_write m s
  | MRightStringSliceSmall m | MRightStringSliceLarge m =>
      s <- as_string k ;; rsm_get_cost hash_write E m s
  | MStringLengthSmall m => s <- as_string k ;; lm_get_cost bytes_eqb id_bytes zlen m s
  end.
