(** The inputs of the unit tests of the project, as far as they are more than a few numbers: the
    test cases of the analysis of slices (slice_key_analyzer.rs:226-286) and the generator of random
    numbers from which the test of the analysis of hash codes takes its codes
    (hash_code_analyzer.rs:217-229). *)
From Coq Require Import List ZArith Bool String Ascii.
From Verif Require Import Base SliceKeyAnalyzer.
Import ListNotations.
Open Scope Z_scope.

(** The bytes of a literal. *)
Definition literal_bytes (s : string) : list Z := map (fun c => Z.of_N (N_of_ascii c)) (list_ascii_of_string s).

Local Open Scope string_scope.

(** slice_key_analyzer.rs:226-286: the slices of a case and the result expected. *)
Definition slice_test_cases : list (list string * slice_key_analysis) := [
  (["AAA"; "ABB"; "ACC"; "ADD"; "AEE"; "AFF"; "AGG"; "AHH"; "AII"; "AJJ"; "AKK"; "ALL"; "AMM"; "ANN";
    "AOO"; "APP"; "AQQ"; "ARR"; "ASS"; "ATT"; "AUU"], LeftHandSubslice 1 1);
  (["A00"; "B00"; "C00"; "D00"], LeftHandSubslice 0 1);
  (["A"; "B"; "C"; "D"; "E2"], LeftHandSubslice 0 1);
  (["A"; "B"; "C"; "D"; "E2"; ""], SliceNormal);
  (["XA"; "XB"; "XC"; "XD"; "XE2"], LeftHandSubslice 1 1);
  (["XXA"; "XXB"; "XXC"; "XXD"; "XXX"; "XXXE"], RightHandSubslice 0 1);
  (["ABC"; "DEFG"; "HIJKL"; "MNOPQR"; "STUVWX"; "YZ"], SliceLength);
  (["ABC"; "DEFG"; "HIJKL"; "MNOPQR"; "STUVWX"; "YZ"; "D2"; "D3"; "D4"], LeftHandSubslice 1 1);
  (["AAA"; "1AA"; "A1A"; "AA1"; "BBB"; "1BB"; "B1B"; "BB1"], SliceNormal)].

Local Close Scope string_scope.

(** [StdRng::seed_from_u64(42)] and [rng.gen::<u64>()] of the crate rand (version 0.9.0-alpha.1 in
    frozen-collections-core/Cargo.toml:23), which is not part of /repo: the seed is expanded by PCG32 to
    the key of ChaCha with 12 rounds, whose words are taken in pairs, the lower half first. *)
Definition w32 (x : Z) : Z := Z.land x 4294967295.
Definition rotate_left (x n : Z) : Z := Z.lor (w32 (Z.shiftl x n)) (Z.shiftr x (32 - n)).

Definition pcg32 (state : Z) : Z * Z :=
  let state := (state * 6364136223846793005 + 11634580027462260723) mod 2 ^ 64 in
  let xorshifted := w32 (Z.shiftr (Z.lxor (Z.shiftr state 18) state) 27) in
  let rot := Z.shiftr state 59 in
  (rotate_left xorshifted (Z.land (32 - rot) 31), state).

Fixpoint expand_seed (n : nat) (state : Z) : list Z :=
  match n with
  | O => []
  | S n' => let (x, state') := pcg32 state in x :: expand_seed n' state'
  end.

Definition quarter (a b c d : Z) : Z * Z * Z * Z :=
  let a := w32 (a + b) in let d := rotate_left (Z.lxor d a) 16 in
  let c := w32 (c + d) in let b := rotate_left (Z.lxor b c) 12 in
  let a := w32 (a + b) in let d := rotate_left (Z.lxor d a) 8 in
  let c := w32 (c + d) in let b := rotate_left (Z.lxor b c) 7 in
  (a, b, c, d).

Definition double_round (s : list Z) : list Z :=
  match s with
  | [x0; x1; x2; x3; x4; x5; x6; x7; x8; x9; x10; x11; x12; x13; x14; x15] =>
      let '(x0, x4, x8, x12) := quarter x0 x4 x8 x12 in
      let '(x1, x5, x9, x13) := quarter x1 x5 x9 x13 in
      let '(x2, x6, x10, x14) := quarter x2 x6 x10 x14 in
      let '(x3, x7, x11, x15) := quarter x3 x7 x11 x15 in
      let '(x0, x5, x10, x15) := quarter x0 x5 x10 x15 in
      let '(x1, x6, x11, x12) := quarter x1 x6 x11 x12 in
      let '(x2, x7, x8, x13) := quarter x2 x7 x8 x13 in
      let '(x3, x4, x9, x14) := quarter x3 x4 x9 x14 in
      [x0; x1; x2; x3; x4; x5; x6; x7; x8; x9; x10; x11; x12; x13; x14; x15]
  | _ => s
  end.

Definition chacha12_block (key : list Z) (counter : Z) : list Z :=
  let s := [1634760805; 857760878; 2036477234; 1797285236] ++ key ++ [w32 counter; Z.shiftr counter 32; 0; 0] in
  map (fun p => w32 (fst p + snd p))
    (combine s (double_round (double_round (double_round (double_round (double_round (double_round s))))))).

Fixpoint in_pairs (l : list Z) : list Z :=
  match l with
  | lo :: hi :: l' => lo + Z.shiftl hi 32 :: in_pairs l'
  | _ => []
  end.

(** The first [8 * blocks] numbers. *)
Definition random_numbers (blocks : nat) : list Z :=
  let key := expand_seed 8 42 in
  flat_map (fun i => in_pairs (chacha12_block key (Z.of_nat i))) (seq 0 blocks).

(** hash_code_analyzer.rs:220-223 *)
Definition random_codes (n : nat) : list Z := firstn n (random_numbers (n / 8 + 1)).

(** macros/frozen_map.rs:243-249 (and macros/frozen_set.rs:245-251): the keys of the call. *)
Definition macro_test_keys : list string :=
  ["first_key"; "second_key"; "third_key"; "fourth_key"; "fifth_key"]%string.

(** examples/frozen_map.rs:17-23: the keys of the call. *)
Definition example_keys : list string :=
  ["first_key"; "second_key"; "third_key"; "fourth_key"; "fifth_key"; "sixth_key"; "seventh_key"]%string.

(** length_map.rs:264-303: the keys of the tests. *)
Definition test_key1 : list Z := literal_bytes "key1".
Definition test_key2 : list Z := literal_bytes "key2".
Definition test_key3 : list Z := literal_bytes "key3".

(** scanning_map.rs:283, integer_range_map.rs:284: the texts expected. *)
Definition scanning_test_text : list Z := literal_bytes "{10: 20}".
Definition range_test_text : list Z :=
  literal_bytes "{-11: 0, -10: 1, -9: 2, -8: 3, -7: 4, -6: 5, -5: 6, -4: 7, -3: 8, -2: 9}".
