(** Model of the specialized sets in frozen-collections-core/src/specialized_sets/.
    Every set is a wrapper around the map of the same name with values of type (). *)
From Coq Require Import List ZArith Bool.
From Verif Require Import Base HashTable Maps SetOps.
Import ListNotations.
Open Scope Z_scope.

(** [payload.into_iter().map(|x| (x, ()))], e.g. common_set.rs:55. *)
Definition with_unit {T} (payload : list T) : list (T * unit) := map (fun x => (x, tt)) payload.

(** [Some(self.map.get_key_value(value)?.0)], e.g. common_set.rs:139. *)
Definition set_get_of {T} (got : res (option (T * unit))) : res (option T) :=
  r <- got ;; Ok (option_map fst r).

(** [self.get(value).is_some()], e.g. common_set.rs:161. *)
Definition set_contains_of {T} (got : res (option T)) : res bool :=
  r <- got ;; Ok (match r with Some _ => true | None => false end).

(** ScanningSet (scanning_set.rs:15-17) *)
Section Scanning.
Context {T Q : Type}.
Variable eqb : Q -> Q -> bool.
Variable borrow : T -> Q.
Definition scanning_set : Type := scanning_map T unit.
(** scanning_set.rs:24-28 *)
Definition ss_from_vec (payload : list T) : scanning_set := sm_from_vec (with_unit payload).
(** scanning_set.rs:34-40, 44-50 *)
Definition ss_get (s : scanning_set) (value : Q) : res (option T) :=
  set_get_of (sm_get_key_value eqb borrow s value).
Definition ss_contains (s : scanning_set) (value : Q) : res bool := set_contains_of (ss_get s value).
(** scanning_set.rs:59-61 and 53-55 *)
Definition ss_len (s : scanning_set) : Z := zlen (sm_entries s).
Definition ss_items (s : scanning_set) : list T := map fst (sm_entries s).
End Scanning.
Arguments scanning_set : clear implicits.

(** CommonSet (common_set.rs:23-25) *)
Section Common.
Context {T Q BH : Type}.
Variable eqb : Q -> Q -> bool.
Variable borrow : T -> Q.
Variable hash_key : BH -> T -> Z.
Variable hash_query : BH -> Q -> Z.
Definition common_set : Type := common_map T unit BH.
(** common_set.rs:53-57 *)
Definition cs_from_vec (E : env) (S_ty : int_type) (payload : list T) (bh : BH) : res common_set :=
  cm_from_vec hash_key E S_ty (with_unit payload) bh.
(** common_set.rs:134-140, 156-162 *)
Definition cs_get (s : common_set) (value : Q) : res (option T) :=
  set_get_of (cm_get_key_value eqb borrow hash_query s value).
Definition cs_contains (s : common_set) (value : Q) : res bool := set_contains_of (cs_get s value).
(** common_set.rs:194-196 and 280-282 *)
Definition cs_len (s : common_set) : Z := ht_len (cm_table s).
Definition cs_items (s : common_set) : list T := map fst (entries (cm_table s)).
End Common.
Arguments common_set : clear implicits.

(** IntegerSet (integer_set.rs:15-17) *)
Definition integer_set : Type := integer_map unit.
(** integer_set.rs:25-29 *)
Definition is_from_vec (E : env) (S_ty : int_type) (payload : list Z) : res integer_set :=
  im_from_vec E S_ty (with_unit payload).
(** integer_set.rs:33-39, 43-49 *)
Definition is_get (s : integer_set) (value : Z) : res (option Z) := set_get_of (im_get_key_value s value).
Definition is_contains (s : integer_set) (value : Z) : res bool := set_contains_of (is_get s value).
(** integer_set.rs:60-62 and 54-56 *)
Definition is_len (s : integer_set) : Z := ht_len (im_table s).
Definition is_items (s : integer_set) : list Z := map fst (entries (im_table s)).

(** IntegerRangeSet (integer_range_set.rs:15-17) *)
Definition integer_range_set : Type := integer_range_map unit.
(** integer_range_set.rs:24-28 *)
Definition irs_from_vec (pr : profile) (ty : int_type) (payload : list Z) : res integer_range_set :=
  irm_from_vec pr ty (with_unit payload).
(** integer_range_set.rs:32-38, 42-48 *)
Definition irs_get (pr : profile) (ty : int_type) (s : integer_range_set) (value : Z) : res (option Z) :=
  set_get_of (irm_get_key_value pr ty s value).
Definition irs_contains (pr : profile) (ty : int_type) (s : integer_range_set) (value : Z) : res bool :=
  set_contains_of (irs_get pr ty s value).
(** integer_range_set.rs:59-61 and 53-55 *)
Definition irs_len (s : integer_range_set) : Z := zlen (irm_entries s).
Definition irs_items (s : integer_range_set) : list Z := map fst (irm_entries s).

(** LengthSet (length_set.rs:15-17) *)
Section Length.
Context {T Q : Type}.
Variable eqb : Q -> Q -> bool.
Variable borrow : T -> Q.
Variable len_key : T -> Z.
Variable len_query : Q -> Z.
Definition length_set : Type := length_map T unit.
(** length_set.rs:25-29 *)
Definition ls_from_vec (E : env) (S_ty : int_type) (payload : list T) : res length_set :=
  lm_from_vec len_key E S_ty (with_unit payload).
(** length_set.rs:38-44, 48-54 *)
Definition ls_get (s : length_set) (value : Q) : res (option T) :=
  set_get_of (lm_get_key_value eqb borrow len_query s value).
Definition ls_contains (s : length_set) (value : Q) : res bool := set_contains_of (ls_get s value).
(** length_set.rs:65-67 and 59-61 *)
Definition ls_len (s : length_set) : Z := ht_len (lm_table s).
Definition ls_items (s : length_set) : list T := map fst (entries (lm_table s)).
End Length.
Arguments length_set : clear implicits.

(** LeftSliceSet and RightSliceSet (left_slice_set.rs:16-18, right_slice_set.rs:16-18) *)
Section SliceSets.
Context {BH : Type}.
Variable hash_write : BH -> bytes -> Z.
Definition slice_set : Type := slice_map unit BH.
(** left_slice_set.rs:27-35, right_slice_set.rs:27-35 *)
Definition lss_from_vec (E : env) (S_ty : int_type) (payload : list bytes) (start end_ : Z) (bh : BH)
  : res slice_set := lsm_from_vec hash_write E S_ty (with_unit payload) start end_ bh.
Definition rss_from_vec (E : env) (S_ty : int_type) (payload : list bytes) (start end_ : Z) (bh : BH)
  : res slice_set := rsm_from_vec hash_write E S_ty (with_unit payload) start end_ bh.
(** left_slice_set.rs:61-67, 71-77, right_slice_set.rs:61-67, 71-77 *)
Definition lss_get (s : slice_set) (value : bytes) : res (option bytes) :=
  set_get_of (lsm_get_key_value hash_write s value).
Definition lss_contains (s : slice_set) (value : bytes) : res bool := set_contains_of (lss_get s value).
Definition rss_get (E : env) (s : slice_set) (value : bytes) : res (option bytes) :=
  set_get_of (rsm_get_key_value hash_write E s value).
Definition rss_contains (E : env) (s : slice_set) (value : bytes) : res bool :=
  set_contains_of (rss_get E s value).
(** left_slice_set.rs:112-114 and 82-84, right_slice_set.rs:112-114 and 82-84 *)
Definition sls_len (s : slice_set) : Z := ht_len (slm_table s).
Definition sls_items (s : slice_set) : list bytes := map fst (entries (slm_table s)).
End SliceSets.
Arguments slice_set : clear implicits.
