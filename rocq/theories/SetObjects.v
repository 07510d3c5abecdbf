(** What the set algebra sees of each specialized set: the implementations of [Set<T>] and
    [Len].  The trait looks elements up as they are ([Q = T]). *)
From Coq Require Import List ZArith Bool.
From Verif Require Import Base HashTable Maps SetOps Sets.
Import ListNotations.
Open Scope Z_scope.

(** scanning_set.rs:109-124, 58-62 *)
Definition ss_as_set {T} (eqb : T -> T -> bool) (s : scanning_set T) : set_impl T :=
  {| s_items := ss_items s; s_len := ss_len s; s_contains := ss_contains eqb (fun x => x) s |}.

(** common_set.rs:268-287, 193-197 *)
Definition cs_as_set {T BH} (eqb : T -> T -> bool) (hash : BH -> T -> Z) (s : common_set T BH) : set_impl T :=
  {| s_items := cs_items s; s_len := cs_len s; s_contains := cs_contains eqb (fun x => x) hash s |}.

(** integer_set.rs:112-129, 59-63 *)
Definition is_as_set (s : integer_set) : set_impl Z :=
  {| s_items := is_items s; s_len := is_len s; s_contains := is_contains s |}.

(** integer_range_set.rs:109-124, 58-62 *)
Definition irs_as_set (pr : profile) (ty : int_type) (s : integer_range_set) : set_impl Z :=
  {| s_items := irs_items s; s_len := irs_len s; s_contains := irs_contains pr ty s |}.

(** length_set.rs:117-134, 64-68 *)
Definition ls_as_set {T} (eqb : T -> T -> bool) (len : T -> Z) (s : length_set T) : set_impl T :=
  {| s_items := ls_items s; s_len := ls_len s; s_contains := ls_contains eqb (fun x => x) len s |}.

(** left_slice_set.rs:144-163, 111-115 *)
Definition lss_as_set {BH} (hash_write : BH -> bytes -> Z) (s : slice_set BH) : set_impl bytes :=
  {| s_items := sls_items s; s_len := sls_len s; s_contains := lss_contains hash_write s |}.

(** right_slice_set.rs:144-163, 111-115 *)
Definition rss_as_set {BH} (hash_write : BH -> bytes -> Z) (E : env) (s : slice_set BH) : set_impl bytes :=
  {| s_items := sls_items s; s_len := sls_len s; s_contains := rss_contains hash_write E s |}.
