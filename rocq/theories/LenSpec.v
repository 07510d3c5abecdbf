(** Which values a type with a length has, when two of them are equal, and what they contain. *)
From Coq Require Import List ZArith.
From Verif Require Import Base Spec LenModel.
Import ListNotations.
Open Scope Z_scope.

Section Values.
Context {A B : Type}.
Variable eqA : A -> A -> bool.       (* [==] of items and keys *)
Variable eqB : B -> B -> bool.       (* [==] of the values in maps *)

(** The values of a type: a C string ends in its only zero byte, and the items of a set and the keys
    of a map are distinct. *)
Fixpoint value_of (t : len_type) (v : len_value A B) : Prop :=
  match t, v with
  | (OfString | OfStr | OfOsStr | OfOsString), VBytes _ => True
  | (OfCStr | OfCString), VCBytes b => exists c, b = c ++ [0] /\ ~ In 0 c
  | (OfSlice | OfVec | OfVecDeque | OfLinkedList | OfBinaryHeap), VItems _ => True
  | (OfHashSet | OfBTreeSet), VSet l => distinct eqA l
  | (OfHashMap | OfBTreeMap), VMap l => distinct eqA (map fst l)
  | (OfBox t' | OfRc t' | OfArc t'), VPointer w => value_of t' w
  | _, _ => False
  end.

(** Equal values of one type.  ([BinaryHeap] has no [==]; it cannot be a key.) *)
Fixpoint same_value (v w : len_value A B) : Prop :=
  match v, w with
  | VBytes a, VBytes b | VCBytes a, VCBytes b => a = b
  | VItems a, VItems b => Forall2 (fun x y => eqA x y = true) a b
  | VSet a, VSet b => forall x, member eqA a x <-> member eqA b x
  | VMap a, VMap b => same_map eqA eqB a b
  | VPointer v', VPointer w' => same_value v' w'
  | _, _ => False
  end.

(** The number of bytes, items or pairs that a value contains. *)
Fixpoint holds (v : len_value A B) (n : nat) : Prop :=
  match v with
  | VBytes b => length b = n
  | VCBytes b => exists c, b = c ++ [0] /\ length c = n
  | VItems l | VSet l => length l = n
  | VMap l => length l = n
  | VPointer w => holds w n
  end.

(** A value together with the fact that it has the type [t]. *)
Definition sized (t : len_type) : Type := { v : len_value A B | value_of t v }.
Definition tells_equal {t} (eqb : sized t -> sized t -> bool) : Prop :=
  forall x y, eqb x y = true <-> same_value (proj1_sig x) (proj1_sig y).

(** The pointer types and what they point to. *)
Definition points_to (p t : len_type) : Prop := p = OfBox t \/ p = OfRc t \/ p = OfArc t.
End Values.

(** The length of such a value, and what a pointer points to. *)
Definition sized_len {A B} (eqA : A -> A -> bool) (t : len_type) (x : sized (B := B) eqA t) : Z := len_of t (proj1_sig x).

Lemma pointee_sized {A B} (eqA : A -> A -> bool) (p t : len_type) (v : len_value A B) :
  points_to p t -> value_of eqA p v -> value_of eqA t (pointee v).
Proof. intros [->|[->| ->]] Hv; destruct v; try contradiction; exact Hv. Qed.
Definition sized_pointee {A B} (eqA : A -> A -> bool) (p t : len_type) (Hp : points_to p t) (x : sized (B := B) eqA p)
  : sized (B := B) eqA t :=
  exist _ (pointee (proj1_sig x)) (pointee_sized eqA p t (proj1_sig x) Hp (proj2_sig x)).
