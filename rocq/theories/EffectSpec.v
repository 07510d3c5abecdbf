(** Code of the caller that gives the same answer to the same question at all times and does not
    panic.  It may still have side effects: it may read and write its state as it likes. *)
From Coq Require Import List ZArith Bool.
From Verif Require Import Base FrozenMap SetRunning Volatile VolatileSets VolatileMaps.
Open Scope Z_scope.

(** The answer is always [a]. *)
Definition always {W A} (f : W -> option A * W) (a : A) : Prop := forall w, fst (f w) = Some a.

(** For FrozenMap and FrozenSet: the answers are those of [eqbO] and of the hashers. *)
Definition regular {W O} (F : conduct W O) (eqbO : O -> O -> bool) : Prop :=
  (forall a b, always (on_eq F a b) (eqbO a b)) /\
  (forall bh k, always (on_hash F bh k) (hash_one bh k)) /\
  (forall bh s, always (on_hash_slice F bh s) (hash_one_slice bh s)) /\
  (forall bh s, always (on_hash_write F bh s) (hash_write bh s)).

(** The answers that the specialized maps ask for. *)
Record oracle (K Q BH : Type) : Type := {
  a_eq : Q -> Q -> bool;
  a_borrow : K -> Q;
  a_hash_key : BH -> K -> Z;
  a_hash_query : BH -> Q -> Z;
  a_len_key : K -> Z;
  a_len_query : Q -> Z;
  a_as_key : K -> Z;
  a_as_query : Q -> Z;
  a_slice_hash_key : BH -> K -> Z -> Z -> Z;
  a_slice_hash_query : BH -> Q -> Z -> Z -> Z
}.
Arguments a_eq {K Q BH}. Arguments a_borrow {K Q BH}. Arguments a_hash_key {K Q BH}. Arguments a_hash_query {K Q BH}.
Arguments a_len_key {K Q BH}. Arguments a_len_query {K Q BH}. Arguments a_as_key {K Q BH}. Arguments a_as_query {K Q BH}.
Arguments a_slice_hash_key {K Q BH}. Arguments a_slice_hash_query {K Q BH}.

Definition regular_foreign {W K Q BH} (F : foreign W K Q BH) (a : oracle K Q BH) : Prop :=
  (forall x y, always (f_eq F x y) (a_eq a x y)) /\
  (forall k, always (f_borrow F k) (a_borrow a k)) /\
  (forall bh k, always (f_hash_key F bh k) (a_hash_key a bh k)) /\
  (forall bh q, always (f_hash_query F bh q) (a_hash_query a bh q)) /\
  (forall k, always (f_len_key F k) (a_len_key a k)) /\
  (forall q, always (f_len_query F q) (a_len_query a q)) /\
  (forall k, always (f_as_key F k) (a_as_key a k)) /\
  (forall q, always (f_as_query F q) (a_as_query a q)) /\
  (forall bh k x y, always (f_slice_hash_key F bh k x y) (a_slice_hash_key a bh k x y)) /\
  (forall bh q x y, always (f_slice_hash_query F bh q x y) (a_slice_hash_query a bh q x y)).

(** The answers obey the laws that a map of the given shape relies on: a key and its borrowed form
    have the same code, and so have equal keys.  [keys] are those of the map. *)
Definition fitting {K Q BH} (a : oracle K Q BH) (sh : shape BH) (keys : list K) : Prop :=
  match sh with
  | Scanning => True
  | Common bh =>
      (forall k, a_hash_key a bh k = a_hash_query a bh (a_borrow a k)) /\
      (forall x y, a_eq a x y = true -> a_hash_query a bh x = a_hash_query a bh y)
  | Length =>
      (forall k, a_len_key a k = a_len_query a (a_borrow a k)) /\
      (forall x y, a_eq a x y = true -> a_len_query a x = a_len_query a y)
  | Integer =>
      (forall k, a_as_key a k = a_as_query a (a_borrow a k)) /\
      (forall x y, a_eq a x y = true -> a_as_query a x = a_as_query a y)
  | LeftSlice bh start end_ =>
      (forall k, a_len_key a k = a_len_query a (a_borrow a k)) /\
      (forall x y, a_eq a x y = true -> a_len_query a x = a_len_query a y) /\
      (forall k, a_slice_hash_key a bh k start end_ = a_slice_hash_query a bh (a_borrow a k) start end_) /\
      (forall x y, a_eq a x y = true -> a_slice_hash_query a bh x start end_ = a_slice_hash_query a bh y start end_) /\
      (forall k, In k keys -> end_ <= a_len_key a k)
  | RightSlice bh start end_ =>
      (forall k, a_len_key a k = a_len_query a (a_borrow a k)) /\
      (forall x y, a_eq a x y = true -> a_len_query a x = a_len_query a y) /\
      (forall k i j, a_slice_hash_key a bh k i j = a_slice_hash_query a bh (a_borrow a k) i j) /\
      (forall x y i j, a_eq a x y = true -> a_slice_hash_query a bh x i j = a_slice_hash_query a bh y i j) /\
      0 <= end_ <= start /\ (forall q, a_len_query a q < 2 ^ 64) /\
      (forall k, In k keys -> start <= a_len_key a k)
  end.
