(** Model of the public constructors of FrozenMap and FrozenSet: facades/frozen_map.rs:174-210,
    687-709 and facades/frozen_set.rs:155-195, 445-467. An [IntoIterator] is the iterator it
    turns into: a [next] function and a state. [RandomState::new()] is the argument [rs].
    A [Vec] or an array is the list of its elements, whose iterator is [list_next]. *)
From Coq Require Import List ZArith Bool.
From Verif Require Import Base HashTable Maps FrozenMap Sets FrozenSet.
Import ListNotations.
Open Scope Z_scope.

(** [Vec::from_iter]: [next] is called until it returns [None]; [fuel] bounds the calls. *)
Fixpoint vec_from_iter {St A} (next : St -> res (option A * St)) (fuel : nat) (st : St) : res (list A) :=
  match fuel with
  | O => OutOfFuel
  | S fuel' =>
      r <- next st ;;
      match fst r with
      | None => Ok []
      | Some x => rest <- vec_from_iter next fuel' (snd r) ;; Ok (x :: rest)
      end
  end.

(** [<[A; N]>::into_iter().next()] and the iterator of a [Vec] *)
Definition list_next {A} (l : list A) : res (option A * list A) :=
  match l with [] => Ok (None, []) | x :: l' => Ok (Some x, l') end.

Section Map.
Context {O V : Type}.
Variable E : env.
Variable kd : kind.
Notation entry := (key O * V)%type.

(** facades/frozen_map.rs:175-177 *)
Definition fm_from_vec_with_hasher (payload : list entry) (bh : hasher O) : res (map_types O V) :=
  fm_new E kd payload bh.
(** facades/frozen_map.rs:192-194 *)
Definition fm_from_iter_with_hasher {St} (next : St -> res (option entry * St)) (fuel : nat) (iter : St)
  (bh : hasher O) : res (map_types O V) :=
  payload <- vec_from_iter next fuel iter ;; fm_new E kd payload bh.
(** facades/frozen_map.rs:208-210 *)
Definition fm_with_hasher (payload : list entry) (bh : hasher O) : res (map_types O V) :=
  fm_from_iter_with_hasher list_next (S (length payload)) payload bh.
(** facades/frozen_map.rs:688-690 *)
Definition fm_from_vec (rs : hasher O) (payload : list entry) : res (map_types O V) :=
  fm_new E kd payload rs.
(** facades/frozen_map.rs:697-699 *)
Definition fm_from (rs : hasher O) (payload : list entry) : res (map_types O V) :=
  fm_from_iter_with_hasher list_next (S (length payload)) payload rs.
(** facades/frozen_map.rs:706-708 *)
Definition fm_from_iter {St} (rs : hasher O) (next : St -> res (option entry * St)) (fuel : nat) (iter : St)
  : res (map_types O V) :=
  fm_from_iter_with_hasher next fuel iter rs.
End Map.

Section Set_.
Context {O : Type}.
Variable E : env.
Variable kd : kind.
Notation item := (key O).

(** facades/frozen_set.rs:156-158 *)
Definition fs_from_vec_with_hasher (payload : list item) (bh : hasher O) : res (set_types O) :=
  fs_new E kd payload bh.
(** facades/frozen_set.rs:177-179 *)
Definition fs_from_iter_with_hasher {St} (next : St -> res (option item * St)) (fuel : nat) (iter : St)
  (bh : hasher O) : res (set_types O) :=
  payload <- vec_from_iter next fuel iter ;; fs_new E kd payload bh.
(** facades/frozen_set.rs:193-195 *)
Definition fs_with_hasher (payload : list item) (bh : hasher O) : res (set_types O) :=
  payload' <- vec_from_iter list_next (S (length payload)) payload ;; fs_new E kd payload' bh.
(** facades/frozen_set.rs:446-448 *)
Definition fs_from_vec (rs : hasher O) (payload : list item) : res (set_types O) :=
  fs_new E kd payload rs.
(** facades/frozen_set.rs:455-457 *)
Definition fs_from (rs : hasher O) (payload : list item) : res (set_types O) :=
  payload' <- vec_from_iter list_next (S (length payload)) payload ;; fs_new E kd payload' rs.
(** facades/frozen_set.rs:464-466 *)
Definition fs_from_iter {St} (rs : hasher O) (next : St -> res (option item * St)) (fuel : nat) (iter : St)
  : res (set_types O) :=
  payload <- vec_from_iter next fuel iter ;; fs_new E kd payload rs.
End Set_.
