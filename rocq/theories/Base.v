(** Vocabulary shared by all model files: outcomes, overflow profiles, machine
    integers, slicing, environment oracles.  No source file corresponds to this one;
    it models the Rust language and library features the crate relies on. *)
From Coq Require Import List ZArith Bool Lia Permutation Sorted.
Import ListNotations.
Open Scope Z_scope.

(** ** Outcomes *)

(** Why a computation panicked. *)
Inductive panic : Type :=
| PCapacity          (* explicit panic!("Too many payload entries ...") *)
| POverflow          (* arithmetic overflow with overflow checks on *)
| PUnwrapNone        (* Option::unwrap on None / Result::unwrap on Err *)
| PIndexOutOfBounds  (* checked indexing or slicing out of range *)
| PDivByZero         (* division or remainder by zero *)
| PAssert            (* assert_eq! failed *)
| PForeign.          (* a panic inside code supplied by the caller *)

(** Where undefined behaviour comes from. *)
Inductive ub : Type :=
| OutOfBounds        (* unchecked indexing or slicing out of range *)
| WrongType          (* transmute of a value to a different type *)
| Uninitialized      (* assume_init of uninitialized memory *)
| Aliasing.          (* access through a reference that does not permit it *)

(** Outcome of running a piece of Rust code. [UB] is undefined behaviour.
    [OutOfFuel] is produced only by loops without a structural measure. *)
Inductive res (A : Type) : Type :=
| Ok (a : A)
| Panic (p : panic)
| UB (u : ub)
| OutOfFuel.
Arguments Ok {A} a.
Arguments Panic {A} p.
Arguments UB {A} u.
Arguments OutOfFuel {A}.

Definition bind {A B} (x : res A) (f : A -> res B) : res B :=
  match x with
  | Ok a => f a
  | Panic p => Panic p
  | UB u => UB u
  | OutOfFuel => OutOfFuel
  end.

Notation "x <- e ;; f" := (bind e (fun x => f))
  (at level 61, e at next level, right associativity).

(** [Option::unwrap]. *)
Definition unwrap {A} (o : option A) : res A :=
  match o with Some a => Ok a | None => Panic PUnwrapNone end.

(** Run a fallible function over a list, left to right, stopping at the first failure
    (a lazy iterator being collected). *)
Fixpoint mapM {A B} (f : A -> res B) (l : list A) : res (list B) :=
  match l with
  | [] => Ok []
  | a :: l' => b <- f a ;; bs <- mapM f l' ;; Ok (b :: bs)
  end.

(** [Iterator::all] with a fallible predicate: stops at the first [false]. *)
Fixpoint all_res {A} (f : A -> res bool) (l : list A) : res bool :=
  match l with
  | [] => Ok true
  | a :: l' => b <- f a ;; if b : bool then all_res f l' else Ok false
  end.

(** ** Machine integers *)

(** Whether overflow checks are on (debug) or off (release). *)
Inductive profile : Type := Checked | Wrapping.

Record int_type : Type := { bits : Z; signed : bool }.

Definition imin (t : int_type) : Z := if signed t then - 2 ^ (bits t - 1) else 0.
Definition imax (t : int_type) : Z :=
  if signed t then 2 ^ (bits t - 1) - 1 else 2 ^ bits t - 1.
Definition in_type (t : int_type) (z : Z) : bool := (imin t <=? z) && (z <=? imax t).

(** Two's complement reduction of a mathematical integer ([as] casts, wrapping ops). *)
Definition wrap (t : int_type) (z : Z) : Z :=
  let m := z mod 2 ^ bits t in
  if signed t && (2 ^ (bits t - 1) <=? m) then m - 2 ^ bits t else m.

(** Result of an arithmetic operator of type [t] whose mathematical result is [z]. *)
Definition arith (pr : profile) (t : int_type) (z : Z) : res Z :=
  if in_type t z then Ok z
  else match pr with Checked => Panic POverflow | Wrapping => Ok (wrap t z) end.

Definition u8 := {| bits := 8; signed := false |}.
Definition u16 := {| bits := 16; signed := false |}.
Definition u32 := {| bits := 32; signed := false |}.
Definition u64 := {| bits := 64; signed := false |}.
Definition u128 := {| bits := 128; signed := false |}.
Definition usize := {| bits := 64; signed := false |}.
Definition i8 := {| bits := 8; signed := true |}.
Definition i16 := {| bits := 16; signed := true |}.
Definition i32 := {| bits := 32; signed := true |}.
Definition i64 := {| bits := 64; signed := true |}.
Definition i128 := {| bits := 128; signed := true |}.
Definition isize := {| bits := 64; signed := true |}.

(** num_traits [ToPrimitive::to_usize] and [NumCast::from]: value-preserving or [None]. *)
Definition to_usize (z : Z) : option Z := if in_type usize z then Some z else None.
Definition num_cast (t : int_type) (z : Z) : option Z := if in_type t z then Some z else None.

(** ** Lists *)

Definition zlen {A} (l : list A) : Z := Z.of_nat (length l).
Arguments zlen {A} l : simpl never.

(** The elements at positions [a, b). *)
Definition sub {A} (a b : Z) (l : list A) : list A :=
  firstn (Z.to_nat (b - a)) (skipn (Z.to_nat a) l).

Definition range_ok {A} (a b : Z) (l : list A) : bool :=
  (0 <=? a) && (a <=? b) && (b <=? zlen l).

(** [&s[a..b]]: panics when the range is not within the slice. *)
Definition slice_checked {A} (a b : Z) (l : list A) : res (list A) :=
  if range_ok a b l then Ok (sub a b l) else Panic PIndexOutOfBounds.

(** [s.get_unchecked(a..b)]: undefined behaviour when the range is not within the slice. *)
Definition slice_unchecked {A} (a b : Z) (l : list A) : res (list A) :=
  if range_ok a b l then Ok (sub a b l) else UB OutOfBounds.

(** Position of the first element satisfying [p]. *)
Fixpoint find_pos {A} (p : A -> bool) (l : list A) : option nat :=
  match l with
  | [] => None
  | a :: l' => if p a then Some O else option_map S (find_pos p l')
  end.

(** Replace the element at a position (nothing happens when out of range). *)
Fixpoint set_nth {A} (i : nat) (a : A) (l : list A) : list A :=
  match l, i with
  | [], _ => []
  | _ :: l', O => a :: l'
  | x :: l', S i' => x :: set_nth i' a l'
  end.

(** Write through a [&mut V] that points into entry [i]. *)
Definition write_entry {K V} (i : nat) (v : V) (l : list (K * V)) : list (K * V) :=
  match nth_error l i with
  | Some e => set_nth i (fst e, v) l
  | None => l
  end.

(** Stable sort by an integer key ([slice::sort_by_key]): insertion sort. *)
Fixpoint insert_by {A} (key : A -> Z) (x : A) (l : list A) : list A :=
  match l with
  | [] => [x]
  | y :: l' => if key x <=? key y then x :: l else y :: insert_by key x l'
  end.
Fixpoint stable_sort {A} (key : A -> Z) (l : list A) : list A :=
  match l with
  | [] => []
  | x :: l' => insert_by key x (stable_sort key l')
  end.

(** ** Environment *)

(** What the build and the standard library leave open: the overflow profile and the
    algorithm behind [slice::sort_unstable_by]. *)
Record env : Type := {
  prof : profile;
  usort : forall A : Type, (A -> Z) -> list A -> list A
}.

Definition sorted_by {A} (key : A -> Z) (l : list A) : Prop :=
  StronglySorted (fun x y => key x <= key y) l.

(** The documented contract of [sort_unstable_by]. *)
Definition env_ok (E : env) : Prop :=
  forall (A : Type) (key : A -> Z) (l : list A),
    Permutation l (usort E A key l) /\ sorted_by key (usort E A key l).

(** ** IEEE-754 binary64, round to nearest even, on non-negative values *)

(** [round53 n]: the integer [n] rounded to 53 significant bits, ties to even. *)
Definition round53 (n : Z) : Z :=
  if n <? 2 ^ 53 then n
  else
    let e := Z.log2 n - 52 in
    let m := n / 2 ^ e in
    let r := n mod 2 ^ e in
    let half := 2 ^ (e - 1) in
    let m' := if (half <? r) || ((half =? r) && Z.odd m) then m + 1 else m in
    m' * 2 ^ e.

(** [((n as f64) * 0.05) as usize]. The literal 0.05 is 0x1.999999999999ap-5
    = 7205759403792794 * 2^-57, so the product is a dyadic number over 2^57. *)
Definition f64_five_percent (n : Z) : Z :=
  round53 (round53 n * 7205759403792794) / 2 ^ 57.

(** [f64::sqrt(c as f64) as u64]. The square root is computed to 64 fractional bits,
    one sticky bit below records inexactness, and the result is rounded to 53 bits. *)
Definition f64_sqrt (c : Z) : Z :=
  let c' := round53 c in
  let s := Z.sqrt (c' * 2 ^ 128) in
  let sticky := if s * s =? c' * 2 ^ 128 then 0 else 1 in
  round53 (2 * s + sticky) / 2 ^ 65.
