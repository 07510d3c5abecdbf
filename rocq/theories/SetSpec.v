(** Vocabulary for sets. *)
From Coq Require Import List ZArith Bool.
From Verif Require Import Spec Base SetOps.
Import ListNotations.
Open Scope Z_scope.

(** A correct implementation of the Set trait for the element type described by [D]:
    the items belong to the type, [len] counts them and [contains] decides membership. *)
Record lawful_set {T : Type} (eqb : T -> T -> bool) (D : T -> Prop) (s : set_impl T) : Prop := {
  ls_typed : forall x, In x (s_items s) -> D x;
  ls_len : s_len s = zlen (s_items s);
  ls_contains : forall x, D x ->
    exists b, s_contains s x = Ok b /\ (b = true <-> member eqb (s_items s) x)
}.

(** [n] lies within the bounds of a size hint. *)
Definition within (n : Z) (hint : Z * option Z) : Prop :=
  fst hint <= n /\ match snd hint with Some hi => n <= hi | None => True end.

(** [get] and [contains] answer every value of the type [D] according to the supplied [items]:
    [get] returns one of the supplied items equal to the value, if there is any. *)
Definition exact_set {T Q : Type} (eqb : Q -> Q -> bool) (borrow : T -> Q) (D : Q -> Prop) (items : list T)
    (get : Q -> res (option T)) (contains : Q -> res bool) : Prop :=
  forall q, D q ->
    (exists x, In x items /\ eqb q (borrow x) = true /\ get q = Ok (Some x) /\ contains q = Ok true) \/
    ((forall x, In x items -> eqb q (borrow x) = false) /\ get q = Ok None /\ contains q = Ok false).
