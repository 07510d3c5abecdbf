(** Model of the specialized maps in frozen-collections-core/src/specialized_maps/.
    For each map: [_from_vec] builds it, [_get_at] is [get] returning the position of the
    entry the resulting reference points into, [_get] reads through that reference,
    [_get_mut] is [get_mut] (a position as well).  [V] is the value type. *)
From Coq Require Import List ZArith Bool Lia.
From Verif Require Import Base HashCodeAnalyzer HashTable.
Import ListNotations.
Open Scope Z_scope.

(** Byte strings; element values are irrelevant to the model. *)
Notation bytes := (list Z) (only parsing).
Fixpoint bytes_eqb (a b : bytes) : bool :=
  match a, b with
  | [], [] => true
  | x :: a', y :: b' => (x =? y) && bytes_eqb a' b'
  | _, _ => false
  end.

(** ** Code repeated verbatim in every map *)

(** The uniqueness check at the start of every [get_many_mut], e.g. common_map.rs:127-133:
    is some [keys[j]] equal to [keys[i]] with [j < i]?  [seen] holds [keys[0..i]]. *)
Fixpoint has_duplicate_key {Q} (eqb : Q -> Q -> bool) (seen keys : list Q) : bool :=
  match keys with
  | [] => false
  | k :: keys' => existsb (fun j => eqb j k) seen || has_duplicate_key eqb (seen ++ [k]) keys'
  end.

(** common_map.rs:135-144: fill the array, returning [None] at the first missing key. *)
Fixpoint get_each {Q} (get_at : Q -> res (option nat)) (keys : list Q) : res (option (list nat)) :=
  match keys with
  | [] => Ok (Some [])
  | k :: keys' =>
      r <- get_at k ;;
      match r with
      | None => Ok None
      | Some i =>
          rs <- get_each get_at keys' ;;
          Ok (option_map (cons i) rs)
      end
  end.

(** [get_many_mut]: common_map.rs:121-145, integer_map.rs:86-110, length_map.rs:106-130,
    left_slice_map.rs:143-167, right_slice_map.rs:146-170, integer_range_map.rs:88-112,
    scanning_map.rs:78-102, facades/frozen_map.rs:493-513 are the same code. *)
Definition get_many_mut {Q} (eqb : Q -> Q -> bool) (get_at : Q -> res (option nat))
    (keys : list Q) : res (option (list nat)) :=
  if has_duplicate_key eqb [] keys then Ok None else get_each get_at keys.

(** [contains_key]: [self.get(key).is_some()], e.g. common_map.rs:149-155. *)
Definition contains_key {A} (got : res (option A)) : res bool :=
  r <- got ;; Ok (match r with Some _ => true | None => false end).

(** [Index::index] / [IndexMut::index_mut]: [self.get(&index).unwrap()],
    e.g. common_map.rs:216-218 and 228-230. *)
Definition index_of {A} (got : res (option A)) : res A := r <- got ;; unwrap r.

(** [PartialEq::eq]: lengths equal and every entry of [self] found in [other] with an
    equal value, e.g. common_map.rs:249-256, facades/frozen_map.rs:773-780. *)
Definition map_eq {K V} (veq : V -> V -> bool) (self other : list (K * V))
    (other_get : K -> res (option V)) : res bool :=
  if negb (zlen self =? zlen other) then Ok false
  else all_res (fun e =>
         r <- other_get (fst e) ;;
         Ok (match r with Some v => veq (snd e) v | None => false end)) self.

(** ** ScanningMap (scanning_map.rs:12-14) *)

Section Scanning.
Context {K V Q : Type}.
Variable eqb : Q -> Q -> bool.   (* Q: Eq *)
Variable borrow : K -> Q.        (* K: Borrow<Q> *)

Record scanning_map : Type := { sm_entries : list (K * V) }.

(** scanning_map.rs:21-25 *)
Definition sm_from_vec (payload : list (K * V)) : scanning_map := {| sm_entries := payload |}.

(** scanning_map.rs:31-43 *)
Definition sm_get_at (m : scanning_map) (key : Q) : res (option nat) :=
  Ok (find_pos (fun e => eqb key (borrow (fst e))) (sm_entries m)).
Definition sm_get (m : scanning_map) (key : Q) : res (option V) :=
  r <- sm_get_at m key ;; deref (sm_entries m) r.

(** scanning_map.rs:47-59 *)
Definition sm_get_mut (m : scanning_map) (key : Q) : res (option nat) :=
  Ok (find_pos (fun e => eqb key (borrow (fst e))) (sm_entries m)).

(** scanning_map.rs:63-75 *)
Definition sm_get_key_value (m : scanning_map) (key : Q) : res (option (K * V)) :=
  Ok (find (fun e => eqb key (borrow (fst e))) (sm_entries m)).
End Scanning.
Arguments scanning_map : clear implicits.

(** ** CommonMap (common_map.rs:19-22) *)

Section Common.
Context {K V Q BH : Type}.
Variable eqb : Q -> Q -> bool.
Variable borrow : K -> Q.
Variable hash_key : BH -> K -> Z.   (* bh.hash_one at type K *)
Variable hash_query : BH -> Q -> Z. (* bh.hash_one at type Q *)

Record common_map : Type := { cm_table : hash_table K V; cm_bh : BH }.

(** common_map.rs:31-38 *)
Definition cm_from_vec (E : env) (S_ty : int_type) (payload : list (K * V)) (bh : BH)
  : res common_map :=
  analysis <- analyze_hash_codes (map (fun e => hash_key bh (fst e)) payload) ;;
  t <- ht_new E S_ty payload (fst analysis) (fun k => Ok (hash_key bh k)) ;;
  Ok {| cm_table := t; cm_bh := bh |}.

(** common_map.rs:58-64 *)
Definition cm_get_hash_info (m : common_map) (key : Q) : res (Z * Z) :=
  ht_get_hash_info (cm_table m) (hash_query (cm_bh m) key).

(** common_map.rs:68-82 *)
Definition cm_get_at (m : common_map) (key : Q) : res (option nat) :=
  range <- cm_get_hash_info m key ;;
  ht_probe (cm_table m) range (fun k => eqb key (borrow k)).
Definition cm_get (m : common_map) (key : Q) : res (option V) :=
  r <- cm_get_at m key ;; deref (entries (cm_table m)) r.

(** common_map.rs:104-118 *)
Definition cm_get_mut (m : common_map) (key : Q) : res (option nat) :=
  range <- cm_get_hash_info m key ;;
  ht_probe (cm_table m) range (fun k => eqb key (borrow k)).

(** common_map.rs:86-100 *)
Definition cm_get_key_value (m : common_map) (key : Q) : res (option (K * V)) :=
  range <- cm_get_hash_info m key ;;
  ht_probe_entry (cm_table m) range (fun k => eqb key (borrow k)).
End Common.
Arguments common_map : clear implicits.

(** ** IntegerMap (integer_map.rs:17-19); keys are mathematical integers *)

Section Integer.
Context {V : Type}.

Record integer_map : Type := { im_table : hash_table Z V }.

(** [key.as_()] to u64: integer_map.rs:28, 30, 45 *)
Definition int_code (key : Z) : Z := wrap u64 key.

(** integer_map.rs:27-32 *)
Definition im_from_vec (E : env) (S_ty : int_type) (payload : list (Z * V)) : res integer_map :=
  analysis <- analyze_hash_codes (map (fun e => int_code (fst e)) payload) ;;
  t <- ht_new E S_ty payload (fst analysis) (fun k => Ok (int_code k)) ;;
  Ok {| im_table := t |}.

(** integer_map.rs:41-47 *)
Definition im_get_hash_info (m : integer_map) (key : Z) : res (Z * Z) :=
  ht_get_hash_info (im_table m) (int_code key).

(** integer_map.rs:51-65 *)
Definition im_get_at (m : integer_map) (key : Z) : res (option nat) :=
  range <- im_get_hash_info m key ;;
  ht_probe (im_table m) range (fun k => key =? k).
Definition im_get (m : integer_map) (key : Z) : res (option V) :=
  r <- im_get_at m key ;; deref (entries (im_table m)) r.

(** integer_map.rs:69-83 *)
Definition im_get_mut (m : integer_map) (key : Z) : res (option nat) :=
  range <- im_get_hash_info m key ;;
  ht_probe (im_table m) range (fun k => key =? k).

(** integer_map.rs:114-128 *)
Definition im_get_key_value (m : integer_map) (key : Z) : res (option (Z * V)) :=
  range <- im_get_hash_info m key ;;
  ht_probe_entry (im_table m) range (fun k => key =? k).
End Integer.
Arguments integer_map : clear implicits.

(** ** LengthMap (length_map.rs:18-20) *)

Section Length.
Context {K V Q : Type}.
Variable eqb : Q -> Q -> bool.
Variable borrow : K -> Q.
Variable len_key : K -> Z.    (* K: Len *)
Variable len_query : Q -> Z.  (* Q: Len *)

Record length_map : Type := { lm_table : hash_table K V }.

(** length_map.rs:28-34 *)
Definition lm_from_vec (E : env) (S_ty : int_type) (payload : list (K * V)) : res length_map :=
  analysis <- analyze_hash_codes (map (fun e => len_key (fst e)) payload) ;;
  t <- ht_new E S_ty payload (fst analysis) (fun k => Ok (len_key k)) ;;
  Ok {| lm_table := t |}.

(** length_map.rs:43-49 *)
Definition lm_get_hash_info (m : length_map) (key : Q) : res (Z * Z) :=
  ht_get_hash_info (lm_table m) (len_query key).

(** length_map.rs:53-67 *)
Definition lm_get_at (m : length_map) (key : Q) : res (option nat) :=
  range <- lm_get_hash_info m key ;;
  ht_probe (lm_table m) range (fun k => eqb key (borrow k)).
Definition lm_get (m : length_map) (key : Q) : res (option V) :=
  r <- lm_get_at m key ;; deref (entries (lm_table m)) r.

(** length_map.rs:89-103 *)
Definition lm_get_mut (m : length_map) (key : Q) : res (option nat) :=
  range <- lm_get_hash_info m key ;;
  ht_probe (lm_table m) range (fun k => eqb key (borrow k)).

(** length_map.rs:71-85 *)
Definition lm_get_key_value (m : length_map) (key : Q) : res (option (K * V)) :=
  range <- lm_get_hash_info m key ;;
  ht_probe_entry (lm_table m) range (fun k => eqb key (borrow k)).
End Length.
Arguments length_map : clear implicits.

(** ** LeftSliceMap and RightSliceMap (left_slice_map.rs:20-24, right_slice_map.rs:20-24).
    Keys are the bytes of a String or [u8]; [hash_write] is build_hasher / write / finish. *)

Section SliceMaps.
Context {V BH : Type}.
Variable hash_write : BH -> bytes -> Z.

(** traits/slice_hash.rs:13-18 and 22-28 *)
Definition slice_hash (bh : BH) (key : bytes) (a b : Z) : res Z :=
  s <- slice_unchecked a b key ;; Ok (hash_write bh s).

Record slice_map : Type := {
  slm_table : hash_table bytes V;
  slm_bh : BH;
  slm_start : Z;  (* range.start *)
  slm_end : Z     (* range.end *)
}.

(** left_slice_map.rs:33-51 *)
Definition lsm_from_vec (E : env) (S_ty : int_type) (payload : list (bytes * V))
    (start end_ : Z) (bh : BH) : res slice_map :=
  codes <- mapM (fun e =>
             let key := fst e in
             if end_ <=? zlen key then slice_hash bh key start end_ else Ok 0) payload ;;
  analysis <- analyze_hash_codes codes ;;
  t <- ht_new E S_ty payload (fst analysis) (fun k => slice_hash bh k start end_) ;;
  Ok {| slm_table := t; slm_bh := bh; slm_start := start; slm_end := end_ |}.

(** left_slice_map.rs:75-86 *)
Definition lsm_get_hash_info (m : slice_map) (key : bytes) : res (Z * Z) :=
  code <- (if slm_end m <=? zlen key then slice_hash (slm_bh m) key (slm_start m) (slm_end m)
           else Ok 0) ;;
  ht_get_hash_info (slm_table m) code.

(** left_slice_map.rs:90-104 *)
Definition lsm_get_at (m : slice_map) (key : bytes) : res (option nat) :=
  range <- lsm_get_hash_info m key ;;
  ht_probe (slm_table m) range (fun k => bytes_eqb key k).
Definition lsm_get (m : slice_map) (key : bytes) : res (option V) :=
  r <- lsm_get_at m key ;; deref (entries (slm_table m)) r.

(** left_slice_map.rs:126-140 *)
Definition lsm_get_mut (m : slice_map) (key : bytes) : res (option nat) :=
  range <- lsm_get_hash_info m key ;;
  ht_probe (slm_table m) range (fun k => bytes_eqb key k).

(** left_slice_map.rs:108-122 *)
Definition lsm_get_key_value (m : slice_map) (key : bytes) : res (option (bytes * V)) :=
  range <- lsm_get_hash_info m key ;;
  ht_probe_entry (slm_table m) range (fun k => bytes_eqb key k).

(** [key.hash(&bh, key.len() - range.start..key.len() - range.end)]
    (right_slice_map.rs:37, 46, 80-83), with usize subtraction. *)
Definition right_hash (pr : profile) (bh : BH) (key : bytes) (start end_ : Z) : res Z :=
  a <- arith pr usize (zlen key - start) ;;
  b <- arith pr usize (zlen key - end_) ;;
  slice_hash bh key a b.

(** right_slice_map.rs:33-51 *)
Definition rsm_from_vec (E : env) (S_ty : int_type) (payload : list (bytes * V))
    (start end_ : Z) (bh : BH) : res slice_map :=
  codes <- mapM (fun e =>
             let key := fst e in
             if end_ <=? zlen key then right_hash (prof E) bh key start end_ else Ok 0) payload ;;
  analysis <- analyze_hash_codes codes ;;
  t <- ht_new E S_ty payload (fst analysis) (fun k => right_hash (prof E) bh k start end_) ;;
  Ok {| slm_table := t; slm_bh := bh; slm_start := start; slm_end := end_ |}.

(** right_slice_map.rs:75-89 *)
Definition rsm_get_hash_info (E : env) (m : slice_map) (key : bytes) : res (Z * Z) :=
  code <- (if slm_start m <=? zlen key
           then right_hash (prof E) (slm_bh m) key (slm_start m) (slm_end m)
           else Ok 0) ;;
  ht_get_hash_info (slm_table m) code.

(** right_slice_map.rs:93-107 *)
Definition rsm_get_at (E : env) (m : slice_map) (key : bytes) : res (option nat) :=
  range <- rsm_get_hash_info E m key ;;
  ht_probe (slm_table m) range (fun k => bytes_eqb key k).
Definition rsm_get (E : env) (m : slice_map) (key : bytes) : res (option V) :=
  r <- rsm_get_at E m key ;; deref (entries (slm_table m)) r.

(** right_slice_map.rs:129-143 *)
Definition rsm_get_mut (E : env) (m : slice_map) (key : bytes) : res (option nat) :=
  range <- rsm_get_hash_info E m key ;;
  ht_probe (slm_table m) range (fun k => bytes_eqb key k).

(** right_slice_map.rs:111-125 *)
Definition rsm_get_key_value (E : env) (m : slice_map) (key : bytes)
  : res (option (bytes * V)) :=
  range <- rsm_get_hash_info E m key ;;
  ht_probe_entry (slm_table m) range (fun k => bytes_eqb key k).
End SliceMaps.
Arguments slice_map : clear implicits.

(** ** IntegerRangeMap (integer_range_map.rs:14-18); [ty] is the key type [K] *)

Section IntegerRange.
Context {V : Type}.

Record integer_range_map : Type := {
  irm_min : Z;
  irm_max : Z;
  irm_entries : list (Z * V)
}.

(** [entries[i]], bounds-checked. *)
Definition index_checked {A} (l : list A) (i : Z) : res A :=
  match (if 0 <=? i then nth_error l (Z.to_nat i) else None) with
  | Some a => Ok a
  | None => Panic PIndexOutOfBounds
  end.

(** integer_range_map.rs:28-53 *)
Definition irm_from_vec (pr : profile) (ty : int_type) (payload : list (Z * V))
  : res integer_range_map :=
  match payload with
  | [] => Ok {| irm_min := 0; irm_max := 0; irm_entries := [] |}
  | _ :: _ =>
      let sorted := stable_sort fst payload in
      first <- index_checked sorted 0 ;;
      final <- index_checked sorted (zlen sorted - 1) ;;
      spread <- arith pr ty (fst final - fst first) ;;
      spread' <- unwrap (to_usize spread) ;;
      if spread' =? zlen sorted - 1
      then Ok {| irm_min := fst first; irm_max := fst final; irm_entries := sorted |}
      else Panic PAssert
  end.

(** integer_range_map.rs:59-70. [self.entries[index]] is bounds-checked. *)
Definition irm_get_at (pr : profile) (ty : int_type) (m : integer_range_map) (key : Z)
  : res (option nat) :=
  if (irm_min m <=? key) && (key <=? irm_max m) then
    d <- arith pr ty (key - irm_min m) ;;
    match to_usize d with
    | None => Ok None
    | Some index =>
        _ <- index_checked (irm_entries m) index ;;
        Ok (Some (Z.to_nat index))
    end
  else Ok None.
Definition irm_get (pr : profile) (ty : int_type) (m : integer_range_map) (key : Z)
  : res (option V) :=
  r <- irm_get_at pr ty m key ;; deref (irm_entries m) r.

(** integer_range_map.rs:74-85 *)
Definition irm_get_mut (pr : profile) (ty : int_type) (m : integer_range_map) (key : Z)
  : res (option nat) :=
  if (irm_min m <=? key) && (key <=? irm_max m) then
    d <- arith pr ty (key - irm_min m) ;;
    match to_usize d with
    | None => Ok None
    | Some index =>
        _ <- index_checked (irm_entries m) index ;;
        Ok (Some (Z.to_nat index))
    end
  else Ok None.

(** integer_range_map.rs:116-127 *)
Definition irm_get_key_value (pr : profile) (ty : int_type) (m : integer_range_map) (key : Z)
  : res (option (Z * V)) :=
  if (irm_min m <=? key) && (key <=? irm_max m) then
    d <- arith pr ty (key - irm_min m) ;;
    match to_usize d with
    | None => Ok None
    | Some index => e <- index_checked (irm_entries m) index ;; Ok (Some e)
    end
  else Ok None.
End IntegerRange.
Arguments integer_range_map : clear implicits.
