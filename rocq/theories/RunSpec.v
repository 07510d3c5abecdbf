(** Vocabulary for the set operations run on actual iterators. *)
From Coq Require Import List ZArith Bool.
From Verif Require Import Base Iterators IterSpec SetOps SetRunning.
Import ListNotations.

(** From state [s] an iterator returns the items [l], then [None] for ever, however often it is called. *)
Definition runs_through {St A : Type} (next : St -> res (option A * St)) (s : St) (l : list A) : Prop :=
  forall n, exists s', calls next n s = Ok (results n l, s').

(** [r] is the set [s] with an iterator that runs through its items. *)
Record runs_as {T St : Type} (r : running_set T St) (s : set_impl T) : Prop := {
  ra_len : r_len r = s_len s;
  ra_contains : forall x, r_contains r x = s_contains s x;
  ra_iter : runs_through (r_next r) (r_iter r) (s_items s)
}.

(** What [n] calls of [next] return, or how they fail. *)
Definition observed {St A : Type} (next : St -> res (option A * St)) (n : nat) (s : St) : res (list (option A)) :=
  r <- calls next n s ;; Ok (fst r).
