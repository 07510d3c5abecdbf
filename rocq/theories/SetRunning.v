(** The set operations run on the iterators of their operands.  SetOps.v represents an iterator in
    progress by the items still to come; here it is any state with a [next] method. *)
From Coq Require Import List ZArith Bool.
From Verif Require Import Base HashTable FrozenMap Iterators SetOps Sets FrozenSet.
Import ListNotations.
Open Scope Z_scope.

(** set.rs:9-32: the members of [Set<T>] the operations use, [St] being the type of its iterators. *)
Record running_set (T St : Type) : Type := {
  r_iter : St;
  r_next : St -> res (option T * St);
  r_len : Z;
  r_contains : T -> res bool
}.
Arguments r_iter {T St}. Arguments r_next {T St}. Arguments r_len {T St}. Arguments r_contains {T St}.

Section Running.
Context {T St1 St2 : Type}.
(** Bound on the iterations of each loop. *)
Variable fuel : nat.
Variable s1 : running_set T St1.
Variable s2 : running_set T St2.

(** [loop { let item = iter.next()?; if test(item) { return Some(item) } }] *)
Fixpoint loop_where {St} (next : St -> res (option T * St)) (test : T -> res bool) (fuel : nat) (it : St)
  : res (option T * St) :=
  match fuel with
  | O => OutOfFuel
  | S fuel' =>
      r <- next it ;;
      match fst r with
      | None => Ok (None, snd r)
      | Some item => b <- test item ;; if b : bool then Ok (Some item, snd r) else loop_where next test fuel' (snd r)
      end
  end.

(** [Iterator::all] *)
Fixpoint all_loop {St} (next : St -> res (option T * St)) (test : T -> res bool) (fuel : nat) (it : St) : res bool :=
  match fuel with
  | O => OutOfFuel
  | S fuel' =>
      r <- next it ;;
      match fst r with
      | None => Ok true
      | Some item => b <- test item ;; if b : bool then all_loop next test fuel' (snd r) else Ok false
      end
  end.

Definition r_lacks {St} (s : running_set T St) (x : T) : res bool := b <- r_contains s x ;; Ok (negb b).

(** specialized_sets/iterators.rs:139-146, 244-251, 425-432 *)
Definition run_new : St1 * St2 := (r_iter s1, r_iter s2).

(** specialized_sets/iterators.rs:156-182 *)
Definition run_union (st : St1 * St2) : res (option T * (St1 * St2)) :=
  if r_len s2 <? r_len s1 then
    r <- r_next s1 (fst st) ;;
    match fst r with
    | Some item => Ok (Some item, (snd r, snd st))
    | None => q <- loop_where (r_next s2) (r_lacks s1) fuel (snd st) ;; Ok (fst q, (snd r, snd q))
    end
  else
    r <- r_next s2 (snd st) ;;
    match fst r with
    | Some item => Ok (Some item, (fst st, snd r))
    | None => q <- loop_where (r_next s1) (r_lacks s2) fuel (fst st) ;; Ok (fst q, (snd q, snd r))
    end.

(** specialized_sets/iterators.rs:261-280 *)
Definition run_symmetric_difference (st : St1 * St2) : res (option T * (St1 * St2)) :=
  r <- loop_where (r_next s1) (r_lacks s2) fuel (fst st) ;;
  match fst r with
  | Some item => Ok (Some item, (snd r, snd st))
  | None => q <- loop_where (r_next s2) (r_lacks s1) fuel (snd st) ;; Ok (fst q, (snd r, snd q))
  end.

(** specialized_sets/iterators.rs:357-364 *)
Definition run_difference (st : St1) : res (option T * St1) := loop_where (r_next s1) (r_lacks s2) fuel st.

(** specialized_sets/iterators.rs:442-458 *)
Definition run_intersection (st : St1 * St2) : res (option T * (St1 * St2)) :=
  if r_len s1 <? r_len s2 then
    r <- loop_where (r_next s1) (r_contains s2) fuel (fst st) ;; Ok (fst r, (snd r, snd st))
  else
    r <- loop_where (r_next s2) (r_contains s1) fuel (snd st) ;; Ok (fst r, (fst st, snd r)).

(** set_ops.rs:3-14 *)
Definition run_is_disjoint : res bool :=
  if r_len s1 <=? r_len s1 then all_loop (r_next s1) (r_lacks s2) fuel (r_iter s1)
  else all_loop (r_next s2) (r_lacks s1) fuel (r_iter s2).
(** set_ops.rs:16-27 *)
Definition run_is_subset : res bool :=
  if r_len s1 <=? r_len s2 then all_loop (r_next s1) (r_contains s2) fuel (r_iter s1) else Ok false.
(** set_ops.rs:29-40 *)
Definition run_is_superset : res bool :=
  if r_len s2 <=? r_len s1 then all_loop (r_next s2) (r_contains s1) fuel (r_iter s2) else Ok false.
(** common_set.rs:352-358 and the same lines of the other sets *)
Definition run_eq : res bool :=
  if negb (r_len s1 =? r_len s2) then Ok false else all_loop (r_next s1) (r_contains s2) fuel (r_iter s1).
End Running.

(** facades/frozen_set.rs:608-625 with the iterator of 372-386, specialized_sets/iterators.rs:14-30. *)
Definition fs_running {O} (eqbO : O -> O -> bool) (E : env) (s : set_types O) : running_set (key O) (iter (key O * unit)) :=
  {| r_iter := it_new (with_unit (fs_items s)); r_next := keys_next (prof E);
     r_len := fs_len s; r_contains := fs_contains eqbO E s |}.
