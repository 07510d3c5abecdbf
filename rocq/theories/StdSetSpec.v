(** Vocabulary for standard sets as operands. *)
From Coq Require Import List Bool.
From Verif Require Import Spec SetOps StdSets.
Import ListNotations.

(** Whether the last change that concerns [x] has inserted it. *)
Definition held {T} (eqb : T -> T -> bool) (history : list (set_change T)) (x : T) : bool :=
  fold_left (fun b c =>
    match c with
    | SInsert y => b || eqb x y
    | SRemove y => b && negb (eqb x y)
    | SClear => false
    end) history false.

(** The values that a program inserts. *)
Definition inserted {T} (history : list (set_change T)) : list T :=
  flat_map (fun c => match c with SInsert x => [x] | _ => [] end) history.

(** [cmp] is a total order for which the values that are [==] are equal. *)
Record total_order {T} (eqb : T -> T -> bool) (cmp : T -> T -> comparison) : Prop := {
  to_eq : forall x y, cmp x y = Eq <-> eqb x y = true;
  to_opp : forall x y, cmp y x = CompOpp (cmp x y);
  to_trans : forall c x y z, cmp x y = c -> cmp y z = c -> cmp x z = c
}.

(** A HashSet or a BTreeSet after the changes. *)
Inductive std_operand {T} (eqb : T -> T -> bool) (history : list (set_change T)) : set_impl T -> Prop :=
| StdHashSet hash items :
    (forall x y, eqb x y = true -> hash x = hash y) -> hash_set eqb hash history items ->
    std_operand eqb history (std_hash_set eqb hash items)
| StdBTreeSet cmp : total_order eqb cmp -> std_operand eqb history (std_btree_set cmp (btree_set cmp history)).
