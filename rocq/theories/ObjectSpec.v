(** A finite map with a fixed key set whose keys of type [K] are looked up by a borrowed
    form [Q]; the observable results of operations on it.  Generalizes HistorySpec.v, where
    [K] and [Q] coincide.  This file does not depend on the model. *)
From Coq Require Import List ZArith Bool.
From Verif Require Import HistorySpec.
Import ListNotations.
Open Scope Z_scope.

Section Abstract.
Context {K V Q : Type}.
Variable eqb : Q -> Q -> bool.
Variable borrow : K -> Q.

Definition names (q : Q) (e : K * V) : bool := eqb q (borrow (fst e)).
Definition entry_of (p : list (K * V)) (q : Q) : option (K * V) := find (names q) p.
Definition has_entry (p : list (K * V)) (q : Q) : bool := existsb (names q) p.
Definition assign (p : list (K * V)) (q : Q) (w : V) : list (K * V) :=
  map (fun e => if names q e then (fst e, w) else e) p.

Definition object_step (p : list (K * V)) (o : op Q V) : obs K V * list (K * V) :=
  match o with
  | OGet q => (SawValue (option_map snd (entry_of p q)), p)
  | OGetKeyValue q => (SawEntry (entry_of p q), p)
  | OContainsKey q => (SawBool (has_entry p q), p)
  | OIndex q =>
      (match entry_of p q with Some e => SawValue (Some (snd e)) | None => SawPanic end, p)
  | OLen => (SawNumber (Z.of_nat (length p)), p)
  | OIsEmpty => (SawBool (match p with [] => true | _ => false end), p)
  | OIter => (SawItems p, p)
  | OGetMut q w => (SawBool (has_entry p q), assign p q w)
  | OIndexMut q w => if has_entry p q then (SawBool true, assign p q w) else (SawPanic, p)
  | OGetManyMut qws =>
      if all_different eqb (map fst qws) && forallb (has_entry p) (map fst qws)
      then (SawBool true, fold_left (fun p qw => assign p (fst qw) (snd qw)) qws p)
      else (SawBool false, p)
  end.

Fixpoint object_run (p : list (K * V)) (os : list (op Q V)) : list (obs K V) :=
  match os with
  | [] => []
  | o :: os' => let (b, p') := object_step p o in b :: object_run p' os'
  end.
End Abstract.

(** Every key mentioned by the history belongs to [D]. *)
Definition queries {Q V} (D : Q -> Prop) (os : list (op Q V)) : Prop :=
  forall o q, In o os -> In q (op_keys o) -> D q.
