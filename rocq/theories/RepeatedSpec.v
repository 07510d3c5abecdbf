(** A sequence of entries in which several may have equal keys; the observable results of operations that
    go to the first entry with the key.  This file does not depend on the model. *)
From Coq Require Import List ZArith Bool.
From Verif Require Import HistorySpec ObjectSpec.
Import ListNotations.
Open Scope Z_scope.

Section Sequence.
Context {K V Q : Type}.
Variable eqb : Q -> Q -> bool.
Variable borrow : K -> Q.

(** The first entry with the key gets the value; entries after it stay as they are. *)
Fixpoint assign_first (p : list (K * V)) (q : Q) (w : V) : list (K * V) :=
  match p with
  | [] => []
  | e :: p' => if eqb q (borrow (fst e)) then (fst e, w) :: p' else e :: assign_first p' q w
  end.

Definition first_step (p : list (K * V)) (o : op Q V) : obs K V * list (K * V) :=
  let first q := find (fun e => eqb q (borrow (fst e))) p in
  let has q := existsb (fun e => eqb q (borrow (fst e))) p in
  match o with
  | OGet q => (SawValue (option_map snd (first q)), p)
  | OGetKeyValue q => (SawEntry (first q), p)
  | OContainsKey q => (SawBool (has q), p)
  | OIndex q => (match first q with Some e => SawValue (Some (snd e)) | None => SawPanic end, p)
  | OLen => (SawNumber (Z.of_nat (length p)), p)
  | OIsEmpty => (SawBool (match p with [] => true | _ => false end), p)
  | OIter => (SawItems p, p)
  | OGetMut q w => (SawBool (has q), assign_first p q w)
  | OIndexMut q w => if has q then (SawBool true, assign_first p q w) else (SawPanic, p)
  | OGetManyMut qws =>
      if all_different eqb (map fst qws) && forallb has (map fst qws)
      then (SawBool true, fold_left (fun p qw => assign_first p (fst qw) (snd qw)) qws p)
      else (SawBool false, p)
  end.

Fixpoint first_run (p : list (K * V)) (os : list (op Q V)) : list (obs K V) :=
  match os with
  | [] => []
  | o :: os' => let (b, p') := first_step p o in b :: first_run p' os'
  end.
End Sequence.

(** Answers every history exactly as some arrangement of the entries supplied does. *)
Definition laid_out {K V Q} (eqb : Q -> Q -> bool) (borrow : K -> Q) (D : Q -> Prop)
    (payload es : list (K * V)) (runs : list (op Q V) -> list (obs K V)) : Prop :=
  Permutation.Permutation payload es /\
  forall history, queries D history -> runs history = first_run eqb borrow es history.

(** There are as many keys, counted with repetitions, as integers from the least to the greatest. *)
Definition spanning (keys : list Z) : Prop :=
  exists mn mx, In mn keys /\ In mx keys /\ (forall k, In k keys -> mn <= k <= mx) /\ mx - mn = Z.of_nat (length keys) - 1.
