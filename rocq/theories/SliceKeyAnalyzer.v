(** Model of frozen-collections-core/src/analyzers/slice_key_analyzer.rs.
    [T] is the slice element type, [hash_slice] is [bh.hash_one] on slices. *)
From Coq Require Import List ZArith Bool Lia.
From Verif Require Import Base.
Import ListNotations.
Open Scope Z_scope.

(** slice_key_analyzer.rs:7-25 *)
Inductive slice_key_analysis : Type :=
| SliceNormal
| LeftHandSubslice (subslice_index subslice_len : Z)
| RightHandSubslice (subslice_index subslice_len : Z)
| SliceLength.

(** [HashMap::get] / [HashMap::insert] on an association list (last insert first). *)
Fixpoint assoc_get (k : Z) (m : list (Z * Z)) : option Z :=
  match m with
  | [] => None
  | (k', v) :: m' => if k =? k' then Some v else assoc_get k m'
  end.

Section WithElements.
Context {T : Type}.

(** slice_key_analyzer.rs:68-80: the loop of [analyze_lengths]. *)
Fixpoint count_lengths (keys : list (list T)) (lengths : list (Z * Z)) : slice_key_analysis :=
  match keys with
  | [] => SliceLength
  | s :: keys' =>
      match assoc_get (zlen s) lengths with
      | Some count =>
          if count =? 3 then SliceNormal
          else count_lengths keys' ((zlen s, count + 1) :: lengths)
      | None => count_lengths keys' ((zlen s, 1) :: lengths)
      end
  end.

(** slice_key_analyzer.rs:59-83 *)
Definition analyze_lengths (keys : list (list T)) : slice_key_analysis :=
  if 255 <? zlen keys then SliceNormal else count_lengths keys [].

Variable hash_slice : list T -> Z.

(** slice_key_analyzer.rs:194-199. The subtractions are usize subtractions; an
    underflow is reported as [POverflow] in both profiles (it is unreachable: the
    callers keep [subslice_index < min_len]). *)
Definition take_subslice (left_justified : bool) (subslice_index subslice_len : Z)
    (s : list T) : res (list T) :=
  if left_justified then slice_checked subslice_index (subslice_index + subslice_len) s
  else
    let start := zlen s - subslice_index - 1 in
    if start <? 0 then Panic POverflow
    else slice_checked start (start + subslice_len) s.

(** slice_key_analyzer.rs:192-210: the loop of [is_sufficiently_unique];
    [set] lists the hash codes inserted so far. *)
Fixpoint uniqueness_loop (left_justified : bool) (subslice_index subslice_len : Z)
    (keys : list (list T)) (set : list Z) (acceptable_duplicates : Z) : res bool :=
  match keys with
  | [] => Ok true
  | s :: keys' =>
      subslice <- take_subslice left_justified subslice_index subslice_len s ;;
      let code := hash_slice subslice in
      if existsb (Z.eqb code) set then
        if acceptable_duplicates =? 0 then Ok false
        else uniqueness_loop left_justified subslice_index subslice_len keys' set
               (acceptable_duplicates - 1)
      else uniqueness_loop left_justified subslice_index subslice_len keys' (code :: set)
             acceptable_duplicates
  end.

(** slice_key_analyzer.rs:177-211 *)
Definition is_sufficiently_unique (keys : list (list T)) (subslice_index subslice_len : Z)
    (left_justified : bool) (acceptable_duplicates : Z) : res bool :=
  uniqueness_loop left_justified subslice_index subslice_len keys [] acceptable_duplicates.

(** slice_key_analyzer.rs:118-140 and 149-167: the inner while loops over
    [subslice_index], [remaining] being the number of indices left to try. *)
Fixpoint find_index (keys : list (list T)) (subslice_len : Z) (left_justified : bool)
    (acceptable_duplicates : Z) (remaining : nat) (subslice_index : Z) : res (option Z) :=
  match remaining with
  | O => Ok None
  | S remaining' =>
      b <- is_sufficiently_unique keys subslice_index subslice_len left_justified
             acceptable_duplicates ;;
      if b : bool then Ok (Some subslice_index)
      else find_index keys subslice_len left_justified acceptable_duplicates remaining'
             (subslice_index + 1)
  end.

(** slice_key_analyzer.rs:114-174: the outer while loop over [subslice_len],
    [remaining] being the number of lengths left to try. *)
Fixpoint find_subslice (keys : list (list T)) (min_len max_len acceptable_duplicates : Z)
    (remaining : nat) (subslice_len : Z) : res slice_key_analysis :=
  match remaining with
  | O => Ok SliceNormal
  | S remaining' =>
      let indices := Z.to_nat (min_len - subslice_len + 1) in
      l <- find_index keys subslice_len true acceptable_duplicates indices 0 ;;
      match l with
      | Some subslice_index =>
          Ok (if subslice_len =? max_len then SliceNormal
              else LeftHandSubslice subslice_index subslice_len)
      | None =>
          r <- (if min_len =? max_len then Ok None
                else find_index keys subslice_len false acceptable_duplicates indices 0) ;;
          match r with
          | Some subslice_index => Ok (RightHandSubslice subslice_index subslice_len)
          | None =>
              find_subslice keys min_len max_len acceptable_duplicates remaining'
                (subslice_len + 1)
          end
      end
  end.

(** slice_key_analyzer.rs:89-175 *)
Definition analyze_subslices (keys : list (list T)) : res slice_key_analysis :=
  let min_len := fold_left (fun m s => Z.min m (zlen s)) keys (imax usize) in
  let max_len := fold_left (fun m s => Z.max m (zlen s)) keys 0 in
  let acceptable_duplicates := f64_five_percent (zlen keys) in
  let max_subslice_len := Z.min min_len 16 in
  find_subslice keys min_len max_len acceptable_duplicates (Z.to_nat max_subslice_len) 1.

(** slice_key_analyzer.rs:39-56 *)
Definition analyze_slice_keys (keys : list (list T)) : res slice_key_analysis :=
  match analyze_lengths keys with
  | SliceNormal => analyze_subslices keys
  | result => Ok result
  end.

End WithElements.
