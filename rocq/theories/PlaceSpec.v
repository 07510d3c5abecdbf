(** A sequence of entries that are looked up by their place, whatever their keys are.  This file does not
    depend on the model. *)
From Coq Require Import List ZArith Bool Sorted Permutation.
From Verif Require Import HistorySpec ObjectSpec.
Import ListNotations.
Open Scope Z_scope.

Section Places.
Context {K V Q : Type}.
Variable eqb : Q -> Q -> bool.
Variable spot : Q -> option nat.   (* the place that belongs to a key *)

Fixpoint put (i : nat) (w : V) (p : list (K * V)) : list (K * V) :=
  match p, i with
  | [], _ => []
  | e :: p', O => (fst e, w) :: p'
  | e :: p', S j => e :: put j w p'
  end.

Definition place_step (p : list (K * V)) (o : op Q V) : obs K V * list (K * V) :=
  let at_spot q := match spot q with Some i => nth_error p i | None => None end in
  let has q := match spot q with Some _ => true | None => false end in
  let set q w p := match spot q with Some i => put i w p | None => p end in
  match o with
  | OGet q => (SawValue (option_map snd (at_spot q)), p)
  | OGetKeyValue q => (SawEntry (at_spot q), p)
  | OContainsKey q => (SawBool (has q), p)
  | OIndex q => (match at_spot q with Some e => SawValue (Some (snd e)) | None => SawPanic end, p)
  | OLen => (SawNumber (Z.of_nat (length p)), p)
  | OIsEmpty => (SawBool (match p with [] => true | _ => false end), p)
  | OIter => (SawItems p, p)
  | OGetMut q w => (SawBool (has q), set q w p)
  | OIndexMut q w => if has q then (SawBool true, set q w p) else (SawPanic, p)
  | OGetManyMut qws =>
      if all_different eqb (map fst qws) && forallb has (map fst qws)
      then (SawBool true, fold_left (fun p qw => set (fst qw) (snd qw) p) qws p)
      else (SawBool false, p)
  end.

Fixpoint place_run (p : list (K * V)) (os : list (op Q V)) : list (obs K V) :=
  match os with
  | [] => []
  | o :: os' => let (b, p') := place_step p o in b :: place_run p' os'
  end.
End Places.

(** The place of the integer [k] among [n] places, the first of which belongs to [mn]. *)
Definition offset_from (mn : Z) (n : nat) (k : Z) : option nat :=
  if (mn <=? k) && (k <? mn + Z.of_nat n) then Some (Z.to_nat (k - mn)) else None.

(** [es] is [payload] sorted by keys, entries with equal keys in the order given. *)
Definition sorted_entries {K V} (num : K -> Z) (payload es : list (K * V)) : Prop :=
  Permutation payload es /\
  StronglySorted (fun a b => num (fst a) <= num (fst b)) es /\
  forall k, filter (fun e => num (fst e) =? k) es = filter (fun e => num (fst e) =? k) payload.

(** The least key is [mn], and there are as many entries as integers from the least to the greatest key. *)
Definition spans_from (mn : Z) (keys : list Z) : Prop :=
  In mn keys /\ (forall k, In k keys -> mn <= k) /\ In (mn + Z.of_nat (length keys) - 1) keys /\
  forall k, In k keys -> k <= mn + Z.of_nat (length keys) - 1.
