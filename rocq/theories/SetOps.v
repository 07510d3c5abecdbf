(** Model of specialized_sets/set.rs (the Set trait), set_ops.rs, the set algebra iterators
    of specialized_sets/iterators.rs, and the operators of every set type. *)
From Coq Require Import List ZArith Bool Lia.
From Verif Require Import Base.
Import ListNotations.
Open Scope Z_scope.

Section Sets.
Context {T : Type}.

(** set.rs:9-32: what the set algebra sees of an implementation of [Set<T>].
    [s_items] are the items [iter()] yields, in order; an iterator in progress is the list
    of items still to come.  (SetRunning.v and theorem C68 justify this for every iterator that yields its items and then
    [None] for ever, as those of this library do; for std HashSet and BTreeSet it is an assumption.)
    [s_len] is [Len::len]. *)
Record set_impl : Type := {
  s_items : list T;
  s_len : Z;
  s_contains : T -> res bool
}.

(** The loop [loop { let item = iter.next()?; if test(item) { return Some(item) } }]. *)
Fixpoint next_where (test : T -> res bool) (it : list T) : res (option T * list T) :=
  match it with
  | [] => Ok (None, [])
  | item :: it' =>
      b <- test item ;;
      if b then Ok (Some item, it') else next_where test it'
  end.
Definition not_in (s : set_impl) (x : T) : res bool := b <- s_contains s x ;; Ok (negb b).

(** The state of the four iterators: what is left of [s1_iter] and of [s2_iter]. *)
Definition pair_state : Type := (list T * list T)%type.
(** specialized_sets/iterators.rs:139-146, 244-251, 425-432 *)
Definition pair_new (s1 s2 : set_impl) : pair_state := (s_items s1, s_items s2).

(** specialized_sets/iterators.rs:156-182 *)
Definition union_next (s1 s2 : set_impl) (st : pair_state) : res (option T * pair_state) :=
  let (i1, i2) := st in
  if s_len s2 <? s_len s1 then
    match i1 with
    | item :: i1' => Ok (Some item, (i1', i2))
    | [] => r <- next_where (not_in s1) i2 ;; Ok (fst r, ([], snd r))
    end
  else
    match i2 with
    | item :: i2' => Ok (Some item, (i1, i2'))
    | [] => r <- next_where (not_in s2) i1 ;; Ok (fst r, (snd r, []))
    end.

(** [usize::checked_add] *)
Definition checked_add (a b : Z) : option Z := if in_type usize (a + b) then Some (a + b) else None.

(** specialized_sets/iterators.rs:184-186 *)
Definition union_size_hint (s1 s2 : set_impl) : Z * option Z :=
  (s_len s1, checked_add (s_len s1) (s_len s2)).

(** specialized_sets/iterators.rs:261-280 *)
Definition symmetric_difference_next (s1 s2 : set_impl) (st : pair_state)
  : res (option T * pair_state) :=
  let (i1, i2) := st in
  r1 <- next_where (not_in s2) i1 ;;
  match fst r1 with
  | Some item => Ok (Some item, (snd r1, i2))
  | None => r2 <- next_where (not_in s1) i2 ;; Ok (fst r2, (snd r1, snd r2))
  end.
(** specialized_sets/iterators.rs:282-284 *)
Definition symmetric_difference_size_hint (s1 s2 : set_impl) : Z * option Z :=
  (0, checked_add (s_len s1) (s_len s2)).

(** specialized_sets/iterators.rs:341-347: only the first iterator *)
Definition difference_new (s1 s2 : set_impl) : list T := s_items s1.
(** specialized_sets/iterators.rs:357-364 *)
Definition difference_next (s1 s2 : set_impl) (st : list T) : res (option T * list T) :=
  next_where (not_in s2) st.
(** specialized_sets/iterators.rs:366-368 *)
Definition difference_size_hint (s1 s2 : set_impl) : Z * option Z := (0, Some (s_len s1)).

(** specialized_sets/iterators.rs:442-458 *)
Definition intersection_next (s1 s2 : set_impl) (st : pair_state) : res (option T * pair_state) :=
  let (i1, i2) := st in
  if s_len s1 <? s_len s2 then
    r <- next_where (s_contains s2) i1 ;; Ok (fst r, (snd r, i2))
  else
    r <- next_where (s_contains s1) i2 ;; Ok (fst r, (i1, snd r)).
(** specialized_sets/iterators.rs:460-462 *)
Definition intersection_size_hint (s1 s2 : set_impl) : Z * option Z :=
  (0, Some (Z.max (s_len s1) (s_len s2))).

(** set_ops.rs:3-14; the comparison of s1.len() with itself is as in the code. *)
Definition is_disjoint (s1 s2 : set_impl) : res bool :=
  if s_len s1 <=? s_len s1 then all_res (not_in s2) (s_items s1)
  else all_res (not_in s1) (s_items s2).

(** set_ops.rs:16-27 *)
Definition is_subset (s1 s2 : set_impl) : res bool :=
  if s_len s1 <=? s_len s2 then all_res (s_contains s2) (s_items s1) else Ok false.

(** set_ops.rs:29-40 *)
Definition is_superset (s1 s2 : set_impl) : res bool :=
  if s_len s2 <=? s_len s1 then all_res (s_contains s1) (s_items s2) else Ok false.

(** [PartialEq<ST>] of every specialized set: common_set.rs:352-358, integer_set.rs:189-195, integer_range_set.rs and
    scanning_set.rs:179-185, length_set.rs:194-200, left_slice_set.rs and right_slice_set.rs:228-234. *)
Definition set_eq (self other : set_impl) : res bool :=
  if negb (s_len self =? s_len other) then Ok false
  else all_res (s_contains other) (s_items self).

(** ** std HashSet, as produced by [collect] *)

Variable eqb : T -> T -> bool.

(** HashSet::insert keeps the present element if there is an equal one. *)
Definition hs_insert (l : list T) (x : T) : list T := if existsb (eqb x) l then l else l ++ [x].
Definition hash_set_of (l : list T) : set_impl :=
  {| s_items := l; s_len := zlen l; s_contains := fun x => Ok (existsb (eqb x) l) |}.

(** [iter.cloned().collect::<HashSet<_>>()]: call [next] until [None], inserting.
    [fuel] bounds the number of calls. *)
Fixpoint collect {St} (next : St -> res (option T * St)) (fuel : nat) (acc : list T) (st : St)
  : res (list T) :=
  match fuel with
  | O => OutOfFuel
  | S fuel' =>
      r <- next st ;;
      match fst r with
      | None => Ok acc
      | Some x => collect next fuel' (hs_insert acc x) (snd r)
      end
  end.
Definition pair_fuel (s1 s2 : set_impl) : nat := S (length (s_items s1) + length (s_items s2)).

(** The operators |, &, ^, - of every set type: common_set.rs:298-300, 312-314,
    326-328, 340-342, facades/frozen_set.rs:525-575, and with the same bodies integer_set.rs:139-141, 152-154, 165-167,
    178-180, integer_range_set.rs and scanning_set.rs:133-135, 145-147, 157-159, 169-171, length_set.rs:144-146, 157-159,
    170-172, 183-185, left_slice_set.rs and right_slice_set.rs:174-176, 188-190, 202-204, 216-218. *)
Definition bitor (s1 s2 : set_impl) : res set_impl :=
  l <- collect (union_next s1 s2) (pair_fuel s1 s2) [] (pair_new s1 s2) ;; Ok (hash_set_of l).
Definition bitand (s1 s2 : set_impl) : res set_impl :=
  l <- collect (intersection_next s1 s2) (pair_fuel s1 s2) [] (pair_new s1 s2) ;; Ok (hash_set_of l).
Definition bitxor (s1 s2 : set_impl) : res set_impl :=
  l <- collect (symmetric_difference_next s1 s2) (pair_fuel s1 s2) [] (pair_new s1 s2) ;;
  Ok (hash_set_of l).
Definition set_sub (s1 s2 : set_impl) : res set_impl :=
  l <- collect (difference_next s1 s2) (pair_fuel s1 s2) [] (difference_new s1 s2) ;; Ok (hash_set_of l).
End Sets.
Arguments set_impl : clear implicits.
