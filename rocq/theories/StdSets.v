(** The standard HashSet and BTreeSet, as operands of the set operations. They are modelled by their
    documented behaviour, not by their code, which is not part of the library. *)
From Coq Require Import List ZArith Bool Permutation.
From Verif Require Import Base SetOps.
Import ListNotations.
Open Scope Z_scope.

Section StdSets.
Context {T : Type}.

Inductive set_change := SInsert (x : T) | SRemove (x : T) | SClear.

(** ** HashSet *)

(** [hash] is the hash code under the hasher of the set; [eqb] is [==]. *)
Variable eqb : T -> T -> bool.
Variable hash : T -> Z.

(** An item is found if it has the hash code and is equal. *)
Definition hs_same (x y : T) : bool := (hash y =? hash x) && eqb x y.
(** An item that is present is not replaced. *)
Definition hs_step (l : list T) (c : set_change) : list T :=
  match c with
  | SInsert x => if existsb (hs_same x) l then l else l ++ [x]
  | SRemove x =>
      match find_pos (hs_same x) l with
      | Some i => firstn i l ++ skipn (S i) l
      | None => l
      end
  | SClear => []
  end.
(** The items after the changes, in the order of the iterator, which may be another one after each
    change. *)
Inductive hash_set : list set_change -> list T -> Prop :=
| HashSetNew : hash_set [] []
| HashSetStep history l c l' : hash_set history l -> Permutation (hs_step l c) l' -> hash_set (history ++ [c]) l'.

(** specialized_sets/set.rs:183-200 and traits/len.rs (HashSet): [iter], [contains] and [len] are those
    of the type itself, which have precedence over those of the trait. *)
Definition std_hash_set (l : list T) : set_impl T :=
  {| s_items := l; s_len := zlen l; s_contains := fun x => Ok (existsb (hs_same x) l) |}.

(** ** BTreeSet *)

Variable cmp : T -> T -> comparison.

(** The search compares the value with one item after the other. *)
Fixpoint bt_contains (x : T) (l : list T) : bool :=
  match l with
  | [] => false
  | y :: l' => match cmp x y with Eq => true | Lt => false | Gt => bt_contains x l' end
  end.
Fixpoint bt_insert (x : T) (l : list T) : list T :=
  match l with
  | [] => [x]
  | y :: l' => match cmp x y with Eq => l | Lt => x :: l | Gt => y :: bt_insert x l' end
  end.
Fixpoint bt_remove (x : T) (l : list T) : list T :=
  match l with
  | [] => []
  | y :: l' => match cmp x y with Eq => l' | Lt => l | Gt => y :: bt_remove x l' end
  end.
Definition bt_step (l : list T) (c : set_change) : list T :=
  match c with
  | SInsert x => bt_insert x l
  | SRemove x => bt_remove x l
  | SClear => []
  end.
Definition btree_set (history : list set_change) : list T := fold_left bt_step history [].

(** specialized_sets/set.rs:202-218 and traits/len.rs (BTreeSet) *)
Definition std_btree_set (l : list T) : set_impl T :=
  {| s_items := l; s_len := zlen l; s_contains := fun x => Ok (bt_contains x l) |}.
End StdSets.
Arguments set_change : clear implicits.
