(** What programs that use iterators should see: an iterator is the list of the items it has
    delivered and the list of those still to come. *)
From Coq Require Import List ZArith.
From Verif Require Import Base IteratorUse.
Import ListNotations.
Open Scope Z_scope.

Definition deliver {A} (s : list A * list A) : option A * (list A * list A) :=
  match snd s with
  | [] => (None, s)
  | a :: l => (Some a, (fst s ++ [a], l))
  end.

(** [len] (if there is one), [size_hint] and [count] in terms of the items delivered and those to come. *)
Record manner (A : Type) : Type := {
  c_len : option (list A -> list A -> Z);
  c_hint : list A -> list A -> Z * option Z;
  c_count : list A -> list A -> option Z        (* [None]: a panic *)
}.
Arguments c_len {A}. Arguments c_hint {A}. Arguments c_count {A}.

Definition number_left {A} (_ left : list A) : Z := zlen left.
Definition exactly_left {A} (_ left : list A) : Z * option Z := (zlen left, Some (zlen left)).

(** An iterator that knows how many items are left. *)
Definition exact_iterator {A} : manner A :=
  {| c_len := Some number_left; c_hint := exactly_left; c_count := fun _ left => Some (zlen left) |}.

(** The same, but [count] subtracts the number of items delivered once more. *)
Definition miscounting_iterator {A} (pr : profile) : manner A :=
  {| c_len := Some number_left; c_hint := exactly_left;
     c_count := fun gone left =>
       if zlen gone <=? zlen left then Some (zlen left - zlen gone)
       else match pr with Checked => None | Wrapping => Some (zlen left - zlen gone + 2 ^ 64) end |}.

(** An iterator whose size hint never changes. *)
Definition vague_iterator {A} (hint : Z * option Z) : manner A :=
  {| c_len := None; c_hint := fun _ _ => hint; c_count := fun _ left => Some (zlen left) |}.

(** The iterator that a step is about. *)
Definition subject {A B} (o : iter_op A B) : nat :=
  match o with
  | DoNext i | DoClone i | DoLen i | DoHint i | DoCount i | DoFold i _ _ | DoFmt i => i
  end.

(** What is heard of an iterator that has delivered [gone] and has [left] to come. *)
Definition reply {A B} (c : manner A) (o : iter_op A B) (gone left : list A) : heard A B :=
  match o with
  | DoNext _ => HeardItem (hd_error left)
  | DoClone _ => HeardNothing
  | DoLen _ => match c_len c with Some len => HeardNumber (len gone left) | None => NotAllowed end
  | DoHint _ => HeardHint (c_hint c gone left)
  | DoCount _ => match c_count c gone left with Some n => HeardNumber n | None => HeardPanic end
  | DoFold _ f b => HeardResult (fold_left f left b)
  | DoFmt _ => HeardList left
  end.

(** The iterators after the step: only [next] and the steps that consume the iterator change it, no
    step changes another one, and a clone starts where the original is. *)
Definition replaced {X} (i : nat) (x : X) (l : list X) : list X := firstn i l ++ x :: skipn (S i) l.
Definition thereafter {A B} (o : iter_op A B) (gone left : list A) (pool : list (option (list A * list A)))
  : list (option (list A * list A)) :=
  match o with
  | DoNext i => replaced i (Some (snd (deliver (gone, left)))) pool
  | DoClone _ => pool ++ [Some (gone, left)]
  | DoCount i | DoFold i _ _ => replaced i None pool
  | DoLen _ | DoHint _ | DoFmt _ => pool
  end.

(** A program with iterators in these states ([None]: consumed). *)
Fixpoint should_see {A B} (c : manner A) (pool : list (option (list A * list A))) (os : list (iter_op A B)) : list (heard A B) :=
  match os with
  | [] => []
  | o :: os' =>
      match nth_error pool (subject o) with
      | Some (Some (gone, rest)) => reply c o gone rest :: should_see c (thereafter o gone rest pool) os'
      | _ => NotAllowed :: should_see c pool os'
      end
  end.

(** A program that starts with one iterator over the items. *)
Definition sees {St A} (I : iterator St A) (start : St) (c : manner A) (items : list A) : Prop :=
  forall (B : Type) (os : list (iter_op A B)),
  iter_run I [Some start] os = should_see c [Some ([], items)] os.
