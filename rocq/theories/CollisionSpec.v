(** What an analysis of slices may depend on, and what the tests of the project expect. *)
From Coq Require Import List ZArith Bool String DecimalString.
From Verif Require Import Base HistorySpec CallSpec ProjectTests.
Import ListNotations.
Open Scope Z_scope.

(** The hash functions give the same code to the same pairs of windows of the keys. *)
Definition collide_alike {A} (h1 h2 : list A -> Z) (keys : list (list A)) : Prop :=
  forall s t a b, In s keys -> In t keys -> window_of s a -> window_of t b -> (h1 a = h1 b <-> h2 a = h2 b).

(** Different windows of the keys have different codes. *)
Definition separates {A} (h : list A -> Z) (keys : list (list A)) : Prop :=
  forall s t a b, In s keys -> In t keys -> window_of s a -> window_of t b -> h a = h b -> a = b.

(** Both computations return, or both end with the same panic or the same undefined behaviour. *)
Definition ends_alike {A B} (r1 : res A) (r2 : res B) : Prop :=
  match r1, r2 with
  | Ok _, Ok _ => True
  | Panic p1, Panic p2 => p1 = p2
  | UB u1, UB u2 => u1 = u2
  | _, _ => False
  end.

(** The operations and results of integer_range_map.rs:262-281 for a range of ten keys that starts at
    [min]; a value is read by [get_mut] and written back. *)
Definition range_test (min : Z) : list (op Z Z * obs Z Z) :=
  (OLen, SawNumber 10) ::
  flat_map (fun i => [(OGet (min + i), SawValue (Some i)); (OGetMut (min + i) i, SawBool true);
                      (OGetKeyValue (min + i), SawEntry (Some (min + i, i)))]) [0; 1; 2; 3; 4; 5; 6; 7; 8] ++
  flat_map (fun k => [(OGet k, SawValue None); (OGetMut k 0, SawBool false); (OGetKeyValue k, SawEntry None)])
    [min - 1; min + 10].

Definition decimal (z : Z) : list Z := literal_bytes (NilZero.string_of_int (Z.to_int z)).
