(** Vocabulary for the calls that the set operations make of the caller's code (see CallSpec.v and
    VolatileSetSpec.v). *)
From Coq Require Import List ZArith Bool.
From Verif Require Import Base FrozenMap Volatile CallSpec VolatileSets VolatileSetSpec.
Import ListNotations.
Open Scope Z_scope.

(** The calls made by one question to [contains], with its answer. *)
Definition asked {O} (kd : kind) (bh : hasher O) (items : list (key O)) (x : key O) (answer : bool + panic)
    (calls : list (event O)) : Prop :=
  exists r, lookup_asks kd bh x (map (fun y => (y, tt)) items) r calls /\
    match answer, r with
    | inl true, Ok (Some _) | inl false, Ok None | inr PForeign, Panic PForeign => True
    | _, _ => False
    end.

(** The calls made by a sequence of questions to two sets are those of each question in turn;
    [asks1] and [asks2] tell what calls a question to the first and to the second set makes. *)
Definition answered {T Ev} (asks1 asks2 : T -> bool + panic -> list Ev -> Prop) (log : notes T) (calls : list Ev) : Prop :=
  exists each, calls = concat each /\
    Forall2 (fun n c => match fst (fst n) with
      | First => asks1 (snd (fst n)) (snd n) c
      | Second => asks2 (snd (fst n)) (snd n) c
      end) log each.

(** For two FrozenSets each with its own hasher. *)
Definition all_asked {O} (kd : kind) (bh1 bh2 : hasher O) (items1 items2 : list (key O))
    : notes (key O) -> list (event O) -> Prop :=
  answered (asked kd bh1 items1) (asked kd bh2 items2).

Section Joint.
Context {W T Ev : Type}.

(** As [sifting] and [checking], together with the record [calls] of what goes on in [contains]. *)
Definition sifting_with {S1 S2} (next : M (S1 * S2 * (W * list Ev)) (option T)) (st : S1 * S2)
    (lead : list T) (questions : list (question T)) (wanted : bool) (per : notes T -> list Ev -> Prop) : Prop :=
  forall (between : list (W -> W)) (w : W),
  let (os, x) := v_calls next (map aside between) (st, (w, [])) in
  length os = length between /\ exists log, sifts lead questions wanted os log /\ per log (snd (snd x)).

Definition checking_with (m : M (W * list Ev) bool) (questions : list (question T)) (wanted : bool)
    (per : notes T -> list Ev -> Prop) : Prop :=
  forall w : W, let (r, x) := m (w, []) in exists log, checks questions wanted r log /\ per log (snd x).
End Joint.

(** No more than [c] comparisons and [h] calls of a hasher. *)
Definition at_most {O} (c h : Z) (calls : list (event O)) : Prop := comparisons_in calls <= c /\ hashes_in calls <= h.
