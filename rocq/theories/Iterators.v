(** Model of the iterators in specialized_maps/iterators.rs and specialized_sets/iterators.rs. *)
From Coq Require Import List ZArith Bool Lia.
From Verif Require Import Base HashTable Maps FrozenMap.
Import ListNotations.
Open Scope Z_scope.

(** ** Driving an iterator *)

(** [n] consecutive calls of [next]: the results and the final state. *)
Fixpoint calls {St A} (next : St -> res (option A * St)) (n : nat) (s : St)
  : res (list (option A) * St) :=
  match n with
  | O => Ok ([], s)
  | S n' =>
      r <- next s ;;
      rest <- calls next n' (snd r) ;;
      Ok (fst r :: fst rest, snd rest)
  end.

(** The default [Iterator::fold]: call [next] until it returns [None]. *)
Fixpoint fold_iter {St A B} (next : St -> res (option A * St)) (fuel : nat)
    (f : B -> A -> B) (acc : B) (s : St) : res B :=
  match fuel with
  | O => OutOfFuel
  | S fuel' =>
      r <- next s ;;
      match fst r with
      | None => Ok acc
      | Some a => fold_iter next fuel' f (f acc a) (snd r)
      end
  end.

(** ** specialized_maps/iterators.rs *)

Section MapIter.
Context {A : Type}.    (* the entry type, (K, V) *)
Variable pr : profile.

(** specialized_maps/iterators.rs:5-8 and specialized_sets/iterators.rs:8-11 *)
Record iter : Type := { it_entries : list A; it_index : Z }.

(** specialized_maps/iterators.rs:12-14 *)
Definition it_new (entries : list A) : iter := {| it_entries := entries; it_index := 0 |}.

(** specialized_maps/iterators.rs:29-37 *)
Definition it_next (it : iter) : res (option A * iter) :=
  if it_index it <? zlen (it_entries it) then
    entry <- index_checked (it_entries it) (it_index it) ;;
    index' <- arith pr usize (it_index it + 1) ;;
    Ok (Some entry, {| it_entries := it_entries it; it_index := index' |})
  else Ok (None, it).

(** specialized_maps/iterators.rs:51-55 *)
Definition it_len (it : iter) : res Z := arith pr usize (zlen (it_entries it) - it_index it).

(** specialized_maps/iterators.rs:39-41 *)
Definition it_size_hint (it : iter) : res (Z * option Z) :=
  a <- it_len it ;; b <- it_len it ;; Ok (a, Some b).

(** specialized_maps/iterators.rs:43-48 *)
Definition it_count (it : iter) : res Z := it_len it.

(** specialized_sets/iterators.rs:36-41: the count of a *set* iterator subtracts the
    index a second time. *)
Definition set_it_count (it : iter) : res Z :=
  n <- it_len it ;; arith pr usize (n - it_index it).
End MapIter.
Arguments iter : clear implicits.

Section KeysValues.
Context {K V : Type}.
Variable pr : profile.

(** specialized_maps/iterators.rs:70-81 and 134-145: [Keys] and [Values] wrap an [Iter]. *)
Definition keys_new (entries : list (K * V)) : iter (K * V) := it_new entries.
Definition values_new (entries : list (K * V)) : iter (K * V) := it_new entries.

(** specialized_maps/iterators.rs:94-96 and 158-160; also the set iterators
    specialized_sets/iterators.rs:22-30 *)
Definition keys_next (it : iter (K * V)) : res (option K * iter (K * V)) :=
  r <- it_next pr it ;; Ok (option_map fst (fst r), snd r).
Definition values_next (it : iter (K * V)) : res (option V * iter (K * V)) :=
  r <- it_next pr it ;; Ok (option_map snd (fst r), snd r).

(** specialized_maps/iterators.rs:106-112 and 170-176: [self.inner.fold(init, ...)] with
    the default [fold] of the inner [Iter]. *)
Definition keys_fold {B} (f : B -> K -> B) (init : B) (it : iter (K * V)) : res B :=
  fold_iter (it_next pr) (S (length (it_entries it))) (fun acc e => f acc (fst e)) init it.
Definition values_fold {B} (f : B -> V -> B) (init : B) (it : iter (K * V)) : res B :=
  fold_iter (it_next pr) (S (length (it_entries it))) (fun acc e => f acc (snd e)) init it.
End KeysValues.

(** ** IntoIter of sets (specialized_sets/iterators.rs:71-108): it wraps the standard
    [vec::IntoIter], modelled as the list of entries still to come. *)

Section IntoIter.
Context {T : Type}.
Definition into_iter_new (entries : list (T * unit)) : list (T * unit) := entries.
Definition into_iter_next (s : list (T * unit)) : res (option T * list (T * unit)) :=
  match s with
  | [] => Ok (None, [])
  | item :: s' => Ok (Some (fst item), s')
  end.
Definition into_iter_len (s : list (T * unit)) : Z := zlen s.
Definition into_iter_size_hint (s : list (T * unit)) : Z * option Z := (zlen s, Some (zlen s)).
Definition into_iter_count (s : list (T * unit)) : Z := zlen s.
End IntoIter.

(** ** The iterators of the facade *)

Section Facade.
Context {O V : Type}.
(** facades/frozen_map.rs:589-603, 623-637, 657-671 *)
Definition fm_iter_new (m : map_types O V) : iter (key O * V) := it_new (fm_iter m).
Definition fm_keys_new (m : map_types O V) : iter (key O * V) := keys_new (fm_iter m).
Definition fm_values_new (m : map_types O V) : iter (key O * V) := values_new (fm_iter m).
End Facade.
