(** The analysis of slice keys again, counting the work done: the number of windows tried and
    the number of subslices hashed.  The counts are kept when the analysis panics. *)
From Coq Require Import List ZArith Bool.
From Verif Require Import Base SliceKeyAnalyzer.
Import ListNotations.
Open Scope Z_scope.

Section WithElements.
Context {T : Type}.
Variable hash_slice : list T -> Z.

(** slice_key_analyzer.rs:192-210; [hashes] counts the calls of [hash_one]. *)
Fixpoint uniqueness_steps (left_justified : bool) (subslice_index subslice_len : Z)
    (keys : list (list T)) (set : list Z) (acceptable_duplicates hashes : Z) : res bool * Z :=
  match keys with
  | [] => (Ok true, hashes)
  | s :: keys' =>
      match take_subslice left_justified subslice_index subslice_len s with
      | Ok subslice =>
          let code := hash_slice subslice in
          if existsb (Z.eqb code) set then
            if acceptable_duplicates =? 0 then (Ok false, hashes + 1)
            else uniqueness_steps left_justified subslice_index subslice_len keys' set
                   (acceptable_duplicates - 1) (hashes + 1)
          else uniqueness_steps left_justified subslice_index subslice_len keys' (code :: set)
                 acceptable_duplicates (hashes + 1)
      | Panic p => (Panic p, hashes)
      | UB u => (UB u, hashes)
      | OutOfFuel => (OutOfFuel, hashes)
      end
  end.

(** slice_key_analyzer.rs:118-140 and 149-167; [windows] counts the calls of
    [is_sufficiently_unique]. *)
Fixpoint find_index_steps (keys : list (list T)) (subslice_len : Z) (left_justified : bool)
    (acceptable_duplicates : Z) (remaining : nat) (subslice_index windows hashes : Z)
  : res (option Z) * (Z * Z) :=
  match remaining with
  | O => (Ok None, (windows, hashes))
  | S remaining' =>
      let '(b, hashes') := uniqueness_steps left_justified subslice_index subslice_len keys []
                             acceptable_duplicates hashes in
      match b with
      | Ok true => (Ok (Some subslice_index), (windows + 1, hashes'))
      | Ok false =>
          find_index_steps keys subslice_len left_justified acceptable_duplicates remaining'
            (subslice_index + 1) (windows + 1) hashes'
      | Panic p => (Panic p, (windows + 1, hashes'))
      | UB u => (UB u, (windows + 1, hashes'))
      | OutOfFuel => (OutOfFuel, (windows + 1, hashes'))
      end
  end.

(** slice_key_analyzer.rs:114-174 *)
Fixpoint find_subslice_steps (keys : list (list T)) (min_len max_len acceptable_duplicates : Z)
    (remaining : nat) (subslice_len windows hashes : Z) : res slice_key_analysis * (Z * Z) :=
  match remaining with
  | O => (Ok SliceNormal, (windows, hashes))
  | S remaining' =>
      let indices := Z.to_nat (min_len - subslice_len + 1) in
      let '(l, (w1, h1)) :=
        find_index_steps keys subslice_len true acceptable_duplicates indices 0 windows hashes in
      match l with
      | Ok (Some subslice_index) =>
          (Ok (if subslice_len =? max_len then SliceNormal
               else LeftHandSubslice subslice_index subslice_len), (w1, h1))
      | Ok None =>
          let '(r, (w2, h2)) :=
            if min_len =? max_len then (Ok None, (w1, h1))
            else find_index_steps keys subslice_len false acceptable_duplicates indices 0 w1 h1 in
          match r with
          | Ok (Some subslice_index) =>
              (Ok (RightHandSubslice subslice_index subslice_len), (w2, h2))
          | Ok None =>
              find_subslice_steps keys min_len max_len acceptable_duplicates remaining'
                (subslice_len + 1) w2 h2
          | Panic p => (Panic p, (w2, h2))
          | UB u => (UB u, (w2, h2))
          | OutOfFuel => (OutOfFuel, (w2, h2))
          end
      | Panic p => (Panic p, (w1, h1))
      | UB u => (UB u, (w1, h1))
      | OutOfFuel => (OutOfFuel, (w1, h1))
      end
  end.

(** slice_key_analyzer.rs:39-56 and 89-175.  Returns the outcome, the windows tried and the
    subslices hashed. *)
Definition analyze_slice_keys_steps (keys : list (list T)) : res slice_key_analysis * (Z * Z) :=
  match analyze_lengths keys with
  | SliceNormal =>
      let min_len := fold_left (fun m s => Z.min m (zlen s)) keys (imax usize) in
      let max_len := fold_left (fun m s => Z.max m (zlen s)) keys 0 in
      let acceptable_duplicates := f64_five_percent (zlen keys) in
      find_subslice_steps keys min_len max_len acceptable_duplicates (Z.to_nat (Z.min min_len 16)) 1 0 0
  | result => (Ok result, (0, 0))
  end.

End WithElements.
