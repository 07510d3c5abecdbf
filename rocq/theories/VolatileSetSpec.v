(** Vocabulary for the set operations when [contains] may answer differently each time, and panic. *)
From Coq Require Import List ZArith Bool.
From Verif Require Import Base SetRunning CallSpec Volatile VolatileSets.
Import ListNotations.
Open Scope Z_scope.

(** The two operands of an operation. *)
Inductive side : Type := First | Second.

Section Notes.
Context {W T : Type}.

(** A question: whether this operand contains this item; and a record of questions with the answers,
    [inr] a panic when there was one instead. *)
Definition question : Type := side * T.
Definition notes : Type := list (question * (bool + panic)).

(** An answer as it is taken down; [contains] ends in no other way. *)
Definition outcome (r : res bool) : bool + panic :=
  match r with Ok b => inl b | Panic p => inr p | _ => inr PForeign end.

(** The set, taking down what it is asked and what it answers. *)
Definition noted {St} (which : side) (s : vol_set W T St) : vol_set (W * notes) T St := {|
  vs_iter := vs_iter s; vs_next := vs_next s; vs_len := vs_len s;
  vs_contains := fun item wn =>
    let (r, w) := vs_contains s item (fst wn) in
    (r, (w, snd wn ++ [(which, item, outcome r)]))
|}.

End Notes.
Arguments question : clear implicits. Arguments notes : clear implicits.

(** The rest of the program leaves the notes, or another record [L], alone. *)
Definition aside {W L} (f : W -> W) (wn : W * L) : W * L := (f (fst wn), snd wn).

Section Sifting.
Context {T : Type}.

(** What a caller of [next] gets for an answer: the item when the answer is the one [wanted], nothing
    when it is the other, a panic when there was one. *)
Definition reply (wanted : bool) (n : question T * (bool + panic)) : list (res (option T)) :=
  match snd n with
  | inl b => if Bool.eqb b wanted then [Ok (Some (snd (fst n)))] else []
  | inr p => [Panic p]
  end.

(** Calls of [next] with results [os] and notes [log]: first the items [lead], for which no
    question is asked; then the [questions] are asked in order, no more than needed; then [None]. *)
Definition sifts (lead : list T) (questions : list (question T)) (wanted : bool)
    (os : list (res (option T))) (log : notes T) : Prop :=
  let given := map (fun x => Ok (Some x)) lead ++ flat_map (reply wanted) log in
  os = firstn (length os) given ++ repeat (Ok None) (length os - length given) /\
  prefix (map fst log) questions /\
  ((length given < length os)%nat -> map fst log = questions) /\
  ((length os <= length given)%nat -> log = [] \/
     length os = length given /\ exists log' n, log = log' ++ [n] /\ reply wanted n <> []).

(** A function that wants the same answer to all the [questions], with its result and notes: it
    stops at the first other answer. *)
Definition checks (questions : list (question T)) (wanted : bool) (r : res bool) (log : notes T) : Prop :=
  match r with
  | Ok true => log = map (fun q => (q, inl wanted)) questions
  | Ok false => exists before q after, questions = before ++ q :: after /\
      log = map (fun q => (q, inl wanted)) before ++ [(q, inl (negb wanted))]
  | Panic p => exists before q after, questions = before ++ q :: after /\
      log = map (fun q => (q, inl wanted)) before ++ [(q, inr p)]
  | _ => False
  end.

(** The same questions about all the items of a list. *)
Definition ask (which : side) (l : list T) : list (question T) := map (fun x => (which, x)) l.

(** The calls of [next] of an operation that starts from [st], and a function with an answer, for any
    foreign state and whatever the rest of the program does to it between the calls. *)
Definition sifting {W S1 S2} (next : M (S1 * S2 * (W * notes T)) (option T)) (st : S1 * S2)
    (lead : list T) (questions : list (question T)) (wanted : bool) : Prop :=
  forall (between : list (W -> W)) (w : W),
  let (os, x) := v_calls next (map aside between) (st, (w, [])) in
  length os = length between /\ sifts lead questions wanted os (snd (snd x)).

Definition checking {W} (m : M (W * notes T) bool) (questions : list (question T)) (wanted : bool) : Prop :=
  forall w : W, let (r, wn) := m (w, []) in checks questions wanted r (snd wn).
End Sifting.

(** A set whose [contains] always gives the same answers and never panics, with side effects perhaps. *)
Definition acts_like {W T St} (v : vol_set W T St) (r : running_set T St) : Prop :=
  vs_iter v = r_iter r /\ (forall st, vs_next v st = r_next r st) /\ vs_len v = r_len r /\
  forall x w, fst (vs_contains v x w) = r_contains r x.

(** Same outcome as a function without foreign state; after a success also the same state. *)
Definition plays {W S1 S2 A} (m : M (S1 * S2 * W) A) (f : S1 * S2 -> res (A * (S1 * S2))) : Prop :=
  forall st w, match f st with
  | Ok (a, st') => exists w', m (st, w) = (Ok a, (st', w'))
  | Panic p => fst (m (st, w)) = Panic p
  | UB u => fst (m (st, w)) = UB u
  | OutOfFuel => fst (m (st, w)) = OutOfFuel
  end.
