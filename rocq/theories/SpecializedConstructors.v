(** Model of the remaining public constructors of the specialized maps and sets.  An
    [IntoIterator] is the iterator it turns into: a [next] function and a state; [fuel] bounds
    the number of calls.  An array is iterated with [list_next].  [rs] is [RandomState::new()]. *)
From Coq Require Import List ZArith Bool.
From Verif Require Import Base HashTable Maps Sets Constructors.
Import ListNotations.
Open Scope Z_scope.

(** [iter.map(|x| (x, ()))], as used by the sets, e.g. common_set.rs:55 *)
Definition unit_next {St T} (next : St -> res (option T * St)) (st : St) : res (option (T * unit) * St) :=
  r <- next st ;; Ok (option_map (fun x => (x, tt)) (fst r), snd r).

(** ** ScanningMap and ScanningSet *)
Section Scanning.
Context {K V St : Type}.
(** scanning_map.rs:213-215 *)
Definition sm_from_iter (next : St -> res (option (K * V) * St)) (fuel : nat) (iter : St) : res (scanning_map K V) :=
  payload <- vec_from_iter next fuel iter ;; Ok (sm_from_vec payload).
(** scanning_map.rs:204-206 *)
Definition sm_from (payload : list (K * V)) : res (scanning_map K V) :=
  payload' <- vec_from_iter list_next (S (length payload)) payload ;; Ok (sm_from_vec payload').
End Scanning.
Section ScanningSets.
Context {T St : Type}.
(** scanning_set.rs:24-28: [payload.into_iter().map(|x| (x, ())).collect()], i.e.
    ScanningMap::from_iter *)
Definition ss_collect (payload : list T) : res (scanning_set T) :=
  sm_from_iter (unit_next list_next) (S (length payload)) payload.
(** scanning_set.rs:95-97 *)
Definition ss_from (payload : list T) : res (scanning_set T) :=
  payload' <- vec_from_iter list_next (S (length payload)) payload ;; ss_collect payload'.
(** scanning_set.rs:104-106 *)
Definition ss_from_iter (next : St -> res (option T * St)) (fuel : nat) (iter : St) : res (scanning_set T) :=
  payload <- vec_from_iter next fuel iter ;; ss_collect payload.
End ScanningSets.

(** ** CommonMap and CommonSet *)
Section Common.
Context {K V BH St : Type}.
Variable hash_key : BH -> K -> Z.
Variable E : env.
Variable S_ty : int_type.
(** common_map.rs:41-43 *)
Definition cm_from_iter_with_hasher (next : St -> res (option (K * V) * St)) (fuel : nat) (iter : St) (bh : BH)
  : res (common_map K V BH) :=
  payload <- vec_from_iter next fuel iter ;; cm_from_vec hash_key E S_ty payload bh.
(** common_map.rs:46-48 *)
Definition cm_with_hasher (payload : list (K * V)) (bh : BH) : res (common_map K V BH) :=
  payload' <- vec_from_iter list_next (S (length payload)) payload ;; cm_from_vec hash_key E S_ty payload' bh.
(** common_map.rs:186-188; [cm_from_vec] is [from_vec_with_hasher] *)
Definition cm_from_vec_random (rs : BH) (payload : list (K * V)) : res (common_map K V BH) :=
  cm_from_vec hash_key E S_ty payload rs.
(** common_map.rs:273-275 *)
Definition cm_from (rs : BH) (payload : list (K * V)) : res (common_map K V BH) :=
  payload' <- vec_from_iter list_next (S (length payload)) payload ;; cm_from_vec_random rs payload'.
(** common_map.rs:283-285 *)
Definition cm_from_iter (rs : BH) (next : St -> res (option (K * V) * St)) (fuel : nat) (iter : St)
  : res (common_map K V BH) :=
  payload <- vec_from_iter next fuel iter ;; cm_from_vec_random rs payload.
End Common.
Section CommonSets.
Context {T BH St : Type}.
Variable hash_key : BH -> T -> Z.
Variable E : env.
Variable S_ty : int_type.
(** common_set.rs:53-57 *)
Definition cs_from_vec_with_hasher (payload : list T) (bh : BH) : res (common_set T BH) :=
  cm_from_iter_with_hasher hash_key E S_ty (unit_next list_next) (S (length payload)) payload bh.
(** common_set.rs:81-85 *)
Definition cs_from_iter_with_hasher (next : St -> res (option T * St)) (fuel : nat) (iter : St) (bh : BH)
  : res (common_set T BH) := cm_from_iter_with_hasher hash_key E S_ty (unit_next next) fuel iter bh.
(** common_set.rs:108-112 *)
Definition cs_with_hasher (payload : list T) (bh : BH) : res (common_set T BH) :=
  cm_from_iter_with_hasher hash_key E S_ty (unit_next list_next) (S (length payload)) payload bh.
(** common_set.rs:188-190 *)
Definition cs_from_vec_random (rs : BH) (payload : list T) : res (common_set T BH) :=
  cs_from_vec_with_hasher payload rs.
(** common_set.rs:243-250 *)
Definition cs_from (rs : BH) (payload : list T) : res (common_set T BH) :=
  cm_from_iter_with_hasher hash_key E S_ty (unit_next list_next) (S (length payload)) payload rs.
(** common_set.rs:258-265 *)
Definition cs_from_iter (rs : BH) (next : St -> res (option T * St)) (fuel : nat) (iter : St)
  : res (common_set T BH) := cm_from_iter_with_hasher hash_key E S_ty (unit_next next) fuel iter rs.
End CommonSets.

(** ** IntegerMap and IntegerSet *)
Section Integer.
Context {V St : Type}.
Variable E : env.
Variable S_ty : int_type.
(** integer_map.rs:236-238 *)
Definition im_from (payload : list (Z * V)) : res (integer_map V) :=
  payload' <- vec_from_iter list_next (S (length payload)) payload ;; im_from_vec E S_ty payload'.
(** integer_map.rs:246-248 *)
Definition im_from_iter (next : St -> res (option (Z * V) * St)) (fuel : nat) (iter : St) : res (integer_map V) :=
  payload <- vec_from_iter next fuel iter ;; im_from_vec E S_ty payload.
End Integer.
Section IntegerSets.
Context {St : Type}.
Variable E : env.
Variable S_ty : int_type.
(** integer_set.rs:25-29: [.collect()], i.e. IntegerMap::from_iter *)
Definition is_collect (payload : list Z) : res integer_set :=
  im_from_iter E S_ty (unit_next list_next) (S (length payload)) payload.
(** integer_set.rs:97-99 *)
Definition is_from (payload : list Z) : res integer_set :=
  payload' <- vec_from_iter list_next (S (length payload)) payload ;; is_collect payload'.
(** integer_set.rs:107-109 *)
Definition is_from_iter (next : St -> res (option Z * St)) (fuel : nat) (iter : St) : res integer_set :=
  payload <- vec_from_iter next fuel iter ;; is_collect payload.
End IntegerSets.

(** ** IntegerRangeMap and IntegerRangeSet *)
Section Range_.
Context {V St : Type}.
Variable pr : profile.
Variable ty : int_type.
(** integer_range_map.rs:229-231 *)
Definition irm_from (payload : list (Z * V)) : res (integer_range_map V) :=
  payload' <- vec_from_iter list_next (S (length payload)) payload ;; irm_from_vec pr ty payload'.
(** integer_range_map.rs:238-240 *)
Definition irm_from_iter (next : St -> res (option (Z * V) * St)) (fuel : nat) (iter : St) : res (integer_range_map V) :=
  payload <- vec_from_iter next fuel iter ;; irm_from_vec pr ty payload.
End Range_.
Section RangeSets.
Context {St : Type}.
Variable pr : profile.
Variable ty : int_type.
(** integer_range_set.rs:24-28: [.collect()], i.e. IntegerRangeMap::from_iter *)
Definition irs_collect (payload : list Z) : res integer_range_set :=
  irm_from_iter pr ty (unit_next list_next) (S (length payload)) payload.
(** integer_range_set.rs:95-97 *)
Definition irs_from (payload : list Z) : res integer_range_set :=
  payload' <- vec_from_iter list_next (S (length payload)) payload ;; irs_collect payload'.
(** integer_range_set.rs:104-106 *)
Definition irs_from_iter (next : St -> res (option Z * St)) (fuel : nat) (iter : St) : res integer_range_set :=
  payload <- vec_from_iter next fuel iter ;; irs_collect payload.
End RangeSets.

(** ** LengthMap (whose From and FromIterator exist for the default [S = u8] only) and LengthSet *)
Section Length_.
Context {K V St : Type}.
Variable len_key : K -> Z.
Variable E : env.
(** length_map.rs:237-239 *)
Definition lm_from (payload : list (K * V)) : res (length_map K V) :=
  payload' <- vec_from_iter list_next (S (length payload)) payload ;; lm_from_vec len_key E u8 payload'.
(** length_map.rs:246-248 *)
Definition lm_from_iter (next : St -> res (option (K * V) * St)) (fuel : nat) (iter : St) : res (length_map K V) :=
  payload <- vec_from_iter next fuel iter ;; lm_from_vec len_key E u8 payload.
End Length_.
Section LengthSets.
Context {T St : Type}.
Variable len_key : T -> Z.
Variable E : env.
Variable S_ty : int_type.
(** length_set.rs:25-29: collected into a Vec, then LengthMap::from_vec *)
Definition ls_collect (payload : list T) : res (length_set T) :=
  payload' <- vec_from_iter (unit_next list_next) (S (length payload)) payload ;; lm_from_vec len_key E S_ty payload'.
(** length_set.rs:102-104 *)
Definition ls_from (payload : list T) : res (length_set T) :=
  payload' <- vec_from_iter list_next (S (length payload)) payload ;; ls_collect payload'.
(** length_set.rs:112-114 *)
Definition ls_from_iter (next : St -> res (option T * St)) (fuel : nat) (iter : St) : res (length_set T) :=
  payload <- vec_from_iter next fuel iter ;; ls_collect payload.
End LengthSets.

(** ** LeftSliceMap, RightSliceMap and their sets.  [make] is [from_vec_with_hasher], that is
    [lsm_from_vec] or [rsm_from_vec]; the two files agree line by line in this part. *)
Section Slices.
Context {V BH St : Type}.
Variable make : list (bytes * V) -> Z -> Z -> BH -> res (slice_map V BH).
(** left_slice_map.rs:54-60, right_slice_map.rs:54-60 *)
Definition slm_from_iter_with_hasher (next : St -> res (option (bytes * V) * St)) (fuel : nat) (iter : St)
  (start end_ : Z) (bh : BH) : res (slice_map V BH) :=
  payload <- vec_from_iter next fuel iter ;; make payload start end_ bh.
(** left_slice_map.rs:63-65, right_slice_map.rs:63-65 *)
Definition slm_with_hasher (payload : list (bytes * V)) (start end_ : Z) (bh : BH) : res (slice_map V BH) :=
  payload' <- vec_from_iter list_next (S (length payload)) payload ;; make payload' start end_ bh.
(** left_slice_map.rs:208-210, right_slice_map.rs:211-213 *)
Definition slm_from_vec_random (rs : BH) (payload : list (bytes * V)) (start end_ : Z) : res (slice_map V BH) :=
  make payload start end_ rs.
(** left_slice_map.rs:213-215, right_slice_map.rs:216-218 *)
Definition slm_from_iter (rs : BH) (next : St -> res (option (bytes * V) * St)) (fuel : nat) (iter : St)
  (start end_ : Z) : res (slice_map V BH) := slm_from_iter_with_hasher next fuel iter start end_ rs.
(** left_slice_map.rs:218-220, right_slice_map.rs:221-223 *)
Definition slm_from (rs : BH) (payload : list (bytes * V)) (start end_ : Z) : res (slice_map V BH) :=
  slm_with_hasher payload start end_ rs.
End Slices.
Section SliceSets.
Context {BH St : Type}.
Variable make : list (bytes * unit) -> Z -> Z -> BH -> res (slice_map unit BH).
(** left_slice_set.rs:27-35, right_slice_set.rs:27-35 *)
Definition sls_from_vec_with_hasher (payload : list bytes) (start end_ : Z) (bh : BH) : res (slice_set BH) :=
  slm_from_iter_with_hasher make (unit_next list_next) (S (length payload)) payload start end_ bh.
(** left_slice_set.rs:38-46, right_slice_set.rs:38-46 *)
Definition sls_from_iter_with_hasher (next : St -> res (option bytes * St)) (fuel : nat) (iter : St)
  (start end_ : Z) (bh : BH) : res (slice_set BH) :=
  slm_from_iter_with_hasher make (unit_next next) fuel iter start end_ bh.
(** left_slice_set.rs:49-51, right_slice_set.rs:49-51 *)
Definition sls_with_hasher (payload : list bytes) (start end_ : Z) (bh : BH) : res (slice_set BH) :=
  payload' <- vec_from_iter list_next (S (length payload)) payload ;; sls_from_vec_with_hasher payload' start end_ bh.
(** left_slice_set.rs:98-100, right_slice_set.rs:98-100 *)
Definition sls_from_vec_random (rs : BH) (payload : list bytes) (start end_ : Z) : res (slice_set BH) :=
  sls_from_vec_with_hasher payload start end_ rs.
(** left_slice_set.rs:102-104, right_slice_set.rs:102-104 *)
Definition sls_from_iter (rs : BH) (next : St -> res (option bytes * St)) (fuel : nat) (iter : St)
  (start end_ : Z) : res (slice_set BH) := sls_from_iter_with_hasher next fuel iter start end_ rs.
(** left_slice_set.rs:106-108, right_slice_set.rs:106-108 *)
Definition sls_from (rs : BH) (payload : list bytes) (start end_ : Z) : res (slice_set BH) :=
  sls_with_hasher payload start end_ rs.
End SliceSets.
