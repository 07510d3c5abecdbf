(** Programs that use iterators: an iterator and its clones are advanced, measured, folded and printed
    in any order.  Every [Clone] copies all the fields of the iterator (specialized_maps/iterators.rs:17-24,
    83-89, 147-153, specialized_sets/iterators.rs:44-51, 189-204, 287-302, 371-385, 465-480), so a clone is
    one more iterator in the same state.  The derived [clone] of [IntoIter] (specialized_sets/iterators.rs:71)
    also clones the items, which are taken to be copied faithfully. *)
From Coq Require Import List ZArith Bool.
From Verif Require Import Base HashTable Maps FrozenMap Iterators SetOps DebugModel.
Import ListNotations.
Open Scope Z_scope.

(** What can be done with an iterator; [i_len] is present for an ExactSizeIterator. *)
Record iterator (St A : Type) : Type := {
  i_next : St -> res (option A * St);
  i_len : option (St -> res Z);
  i_size_hint : St -> res (Z * option Z);
  i_count : St -> res Z;
  i_fold : forall B : Type, (B -> A -> B) -> B -> St -> res B;
  i_fmt : St -> res (list A)
}.
Arguments i_next {St A}. Arguments i_len {St A}. Arguments i_size_hint {St A}.
Arguments i_count {St A}. Arguments i_fold {St A}. Arguments i_fmt {St A}.

Section Instances.
Variable pr : profile.

Section Maps.
Context {K V : Type}.
Definition enough (it : iter (K * V)) : nat := S (length (it_entries it)).

(** specialized_maps/iterators.rs:26-67; [fold] is the default *)
Definition iter_iterator : iterator (iter (K * V)) (K * V) := {|
  i_next := it_next pr;
  i_len := Some (it_len pr);
  i_size_hint := it_size_hint pr;
  i_count := it_count pr;
  i_fold := fun B f b it => fold_iter (it_next pr) (enough it) f b it;
  i_fmt := fun it => DebugModel.collect (it_next pr) (enough it) it
|}.
(** specialized_maps/iterators.rs:91-131 *)
Definition keys_iterator : iterator (iter (K * V)) K := {|
  i_next := keys_next pr;
  i_len := Some (it_len pr);
  i_size_hint := it_size_hint pr;
  i_count := it_count pr;
  i_fold := fun B f b it => keys_fold pr f b it;
  i_fmt := fun it => DebugModel.collect (keys_next pr) (enough it) it
|}.
(** specialized_maps/iterators.rs:155-195 *)
Definition values_iterator : iterator (iter (K * V)) V := {|
  i_next := values_next pr;
  i_len := Some (it_len pr);
  i_size_hint := it_size_hint pr;
  i_count := it_count pr;
  i_fold := fun B f b it => values_fold pr f b it;
  i_fmt := fun it => DebugModel.collect (values_next pr) (enough it) it
|}.
End Maps.

Section Sets.
Context {T : Type}.
(** specialized_sets/iterators.rs:19-68; [fold] is the default *)
Definition set_iterator : iterator (iter (T * unit)) T := {|
  i_next := keys_next pr;
  i_len := Some (it_len pr);
  i_size_hint := it_size_hint pr;
  i_count := set_it_count pr;
  i_fold := fun B f b it => fold_iter (keys_next pr) (enough it) f b it;
  i_fmt := fun it => DebugModel.collect (keys_next pr) (enough it) it
|}.
(** specialized_sets/iterators.rs:84-119 *)
Definition into_iterator : iterator (list (T * unit)) T := {|
  i_next := into_iter_next;
  i_len := Some (fun s => Ok (into_iter_len s));
  i_size_hint := fun s => Ok (into_iter_size_hint s);
  i_count := fun s => Ok (into_iter_count s);
  i_fold := fun B f b s => fold_iter into_iter_next (S (length s)) f b s;
  i_fmt := fun s => DebugModel.collect into_iter_next (S (length s)) s
|}.

(** The iterators of the set operations: [count] and [fold] are the defaults. *)
Definition operation_iterator {St} (next : St -> res (option T * St)) (hint : Z * option Z) (fuel : nat)
  : iterator St T := {|
  i_next := next;
  i_len := None;
  i_size_hint := fun _ => Ok hint;
  i_count := fold_iter next fuel (fun n _ => n + 1) 0;
  i_fold := fun B f b st => fold_iter next fuel f b st;
  i_fmt := DebugModel.collect next fuel
|}.
(** specialized_sets/iterators.rs:149-187 *)
Definition union_iterator (s1 s2 : set_impl T) :=
  operation_iterator (union_next s1 s2) (union_size_hint s1 s2) (pair_fuel s1 s2).
(** specialized_sets/iterators.rs:254-285 *)
Definition symmetric_difference_iterator (s1 s2 : set_impl T) :=
  operation_iterator (symmetric_difference_next s1 s2) (symmetric_difference_size_hint s1 s2) (pair_fuel s1 s2).
(** specialized_sets/iterators.rs:350-369 *)
Definition difference_iterator (s1 s2 : set_impl T) :=
  operation_iterator (difference_next s1 s2) (difference_size_hint s1 s2) (pair_fuel s1 s2).
(** specialized_sets/iterators.rs:435-463 *)
Definition intersection_iterator (s1 s2 : set_impl T) :=
  operation_iterator (intersection_next s1 s2) (intersection_size_hint s1 s2) (pair_fuel s1 s2).
End Sets.
End Instances.

(** ** Programs *)

(** One step: what is done to the iterator at a position of the pool. *)
Inductive iter_op (A B : Type) : Type :=
| DoNext (i : nat)
| DoClone (i : nat)                         (* the clone goes to the end of the pool *)
| DoLen (i : nat)
| DoHint (i : nat)
| DoCount (i : nat)                         (* consumes the iterator *)
| DoFold (i : nat) (f : B -> A -> B) (b : B) (* consumes the iterator *)
| DoFmt (i : nat).
Arguments DoNext {A B}. Arguments DoClone {A B}. Arguments DoLen {A B}. Arguments DoHint {A B}.
Arguments DoCount {A B}. Arguments DoFold {A B}. Arguments DoFmt {A B}.

Inductive heard (A B : Type) : Type :=
| HeardItem (o : option A)
| HeardNumber (n : Z)
| HeardHint (h : Z * option Z)
| HeardResult (b : B)
| HeardList (l : list A)
| HeardNothing
| HeardPanic
| HeardFailure          (* undefined behaviour, or no end *)
| NotAllowed.           (* the compiler rejects the step *)
Arguments HeardItem {A B}. Arguments HeardNumber {A B}. Arguments HeardHint {A B}. Arguments HeardResult {A B}.
Arguments HeardList {A B}. Arguments HeardNothing {A B}. Arguments HeardPanic {A B}. Arguments HeardFailure {A B}.
Arguments NotAllowed {A B}.

Definition hear {A B X} (r : res X) (f : X -> heard A B) : heard A B :=
  match r with Ok x => f x | Panic _ => HeardPanic | _ => HeardFailure end.

Fixpoint put {X} (i : nat) (x : X) (l : list X) : list X :=
  match l, i with
  | [], _ => []
  | _ :: l', O => x :: l'
  | y :: l', S i' => y :: put i' x l'
  end.

Section Run.
Context {St A B : Type}.
Variable I : iterator St A.

(** [None] in the pool: the iterator was consumed. *)
Definition use_at (pool : list (option St)) (i : nat) (f : St -> heard A B * list (option St)) :=
  match nth_error pool i with
  | Some (Some s) => f s
  | _ => (NotAllowed, pool)
  end.

Definition iter_step (pool : list (option St)) (o : iter_op A B) : heard A B * list (option St) :=
  match o with
  | DoNext i => use_at pool i (fun s =>
      match i_next I s with
      | Ok (o, s') => (HeardItem o, put i (Some s') pool)
      | r => (hear r (fun _ => HeardNothing), pool)
      end)
  | DoClone i => use_at pool i (fun s => (HeardNothing, pool ++ [Some s]))
  | DoLen i => use_at pool i (fun s =>
      (match i_len I with Some len => hear (len s) HeardNumber | None => NotAllowed end, pool))
  | DoHint i => use_at pool i (fun s => (hear (i_size_hint I s) HeardHint, pool))
  | DoCount i => use_at pool i (fun s => (hear (i_count I s) HeardNumber, put i None pool))
  | DoFold i f b => use_at pool i (fun s => (hear (i_fold I B f b s) HeardResult, put i None pool))
  | DoFmt i => use_at pool i (fun s => (hear (i_fmt I s) HeardList, pool))
  end.

Fixpoint iter_run (pool : list (option St)) (os : list (iter_op A B)) : list (heard A B) :=
  match os with
  | [] => []
  | o :: os' => let (h, pool') := iter_step pool o in h :: iter_run pool' os'
  end.
End Run.
