(** Vocabulary for iterators. *)
From Coq Require Import List ZArith Bool.
From Verif Require Import Base.
Import ListNotations.

(** From state [s] an iterator returns exactly the items [l] and then [None]. *)
Inductive yields {St A : Type} (next : St -> res (option A * St)) : St -> list A -> Prop :=
| yields_end s s' : next s = Ok (None, s') -> yields next s []
| yields_item s a s' l : next s = Ok (Some a, s') -> yields next s' l -> yields next s (a :: l).

(** What [n] calls of [next] return when the items to come are [l]:
    the items, then [None] for ever. *)
Fixpoint results {A : Type} (n : nat) (l : list A) : list (option A) :=
  match n with
  | O => []
  | S n' =>
      match l with
      | [] => None :: results n' []
      | a :: l' => Some a :: results n' l'
      end
  end.
