(** How a program uses the references a FrozenMap hands out. *)
From Coq Require Import List ZArith Bool Arith.
From Verif Require Import Base FrozenMap Borrows.
Import ListNotations.
Local Open Scope nat_scope.

(** The memory of [n] entries, held by a box with tag [box] that nobody else refers to. *)
Definition boxed (box n : nat) : heap := {|
  stacks := fun c =>
    match c with
    | KeyOf i | ValueOf i => if i <? n then [{| permits := Unique; tag := box |}] else []
    end;
  fresh := S box |}.

Section Uses.
Context {O V : Type}.
Variable eqbO : O -> O -> bool.
Variable E : env.
Variable box : nat.
Variable m : map_types O V.

(** Reads through references kept in a list, by position in that list. *)
Fixpoint reads (rs : list value_ref) (order : list nat) (h : heap) : res heap :=
  match order with
  | [] => Ok h
  | i :: order' => h' <- match nth_error rs i with Some r => read_value r h | None => Ok h end ;; reads rs order' h'
  end.

(** Writes ([true]) and reads ([false]) through one reference. *)
Fixpoint accesses (r : value_ref) (acts : list bool) (h : heap) : res heap :=
  match acts with
  | [] => Ok h
  | w :: acts' => h' <- (if w : bool then write_value r h else read_value r h) ;; accesses r acts' h'
  end.

Inductive use : Type :=
| Gets (ks : list (key O)) (order : list nat)    (* [get] each key, then read the values found, in any order *)
| GetMut (k : key O) (acts : list bool).         (* [get_mut], then use the reference *)

(** References found by [get], one after the other, all kept. *)
Fixpoint gets (ks : list (key O)) (h : heap) : res (list value_ref * heap) :=
  match ks with
  | [] => Ok ([], h)
  | k :: ks' =>
      r <- fm_get_ref eqbO E box m k h ;;
      rs <- gets ks' (snd r) ;;
      Ok (match fst r with Some v => v :: fst rs | None => fst rs end, snd rs)
  end.

Definition run_use (u : use) (h : heap) : res heap :=
  match u with
  | Gets ks order => r <- gets ks h ;; reads (fst r) order (snd r)
  | GetMut k acts =>
      r <- fm_get_mut_ref eqbO E box m k h ;;
      match fst r with Some v => accesses v acts (snd r) | None => Ok (snd r) end
  end.

Fixpoint run_uses (us : list use) (h : heap) : res heap :=
  match us with
  | [] => Ok h
  | u :: us' => h' <- run_use u h ;; run_uses us' h'
  end.

Definition keys_used (u : use) : list (key O) := match u with Gets ks _ => ks | GetMut k _ => [k] end.
End Uses.
