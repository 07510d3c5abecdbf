(** Vocabulary for the cost of lookups.  Apart from the kinds of keys this file does not depend
    on the model. *)
From Coq Require Import List ZArith Bool.
From Verif Require Import Spec MapSpec FrozenMap.
Import ListNotations.
Open Scope Z_scope.

(** How many of the codes fall into the slot of [code] in a table of [size] slots. *)
Definition sharing (size code : Z) (codes : list Z) : nat :=
  length (filter (fun c => c mod size =? code mod size) codes).

Definition total (l : list Z) : Z := fold_right Z.add 0 l.

(** How a map with keys of kind [kd] may derive a code from a key: integers are their own code,
    strings use their hash, their length or the hash of a window (0 if the string is too short
    for it), other keys use their hash. *)
Definition code_choice {O} (kd : kind) (bh : hasher O) (code_of : key O -> Z) : Prop :=
  match kd with
  | KindU32 => forall n, code_of (KU32 n) = n
  | KindOther => forall k, code_of k = hash_one bh k
  | KindString =>
      (forall k, code_of k = hash_one bh k) \/
      (forall s, code_of (KStr s) = Z.of_nat (length s)) \/
      (exists i l, forall s, code_of (KStr s) =
         if (i + l <=? length s)%nat then hash_write bh (left_win i l s) else 0)
  end.

(** The windows of at most 16 elements that fit in [m] elements. *)
Definition windows_within (m : Z) : Z := if m <? 16 then m * (m + 1) / 2 else 16 * m - 120.
