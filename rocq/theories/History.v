(** Running a sequence of operations on a FrozenMap. *)
From Coq Require Import List ZArith Bool.
From Verif Require Import Base HashTable Maps FrozenMap Iterators HistorySpec.
Import ListNotations.
Open Scope Z_scope.

Section Run.
Context {O V : Type}.
Variable eqbO : O -> O -> bool.
Variable E : env.

(** What the caller sees of a call that returns, panics on a missing key, or goes wrong. *)
Definition observe {A} (r : res A) (f : A -> obs (key O) V) : obs (key O) V :=
  match r with
  | Ok a => f a
  | Panic PUnwrapNone => SawPanic
  | _ => SawFailure
  end.

(** Writing [ws] through the references designated by [ps], in order. *)
Definition write_all (ps : list nat) (ws : list V) (m : map_types O V) : map_types O V :=
  fold_left (fun m pw => fm_write (fst pw) (snd pw) m) (combine ps ws) m.

(** One operation of facades/frozen_map.rs: get 328, get_key_value 371, contains_key 527,
    Index 711, len 541, is_empty 567, iter 589, get_mut 414, IndexMut 721, get_many_mut 493.
    [None.is_some()] is reported for the conditional writes. *)
Definition step (m : map_types O V) (o : op (key O) V) : obs (key O) V * map_types O V :=
  match o with
  | OGet k => (observe (fm_get eqbO E m k) SawValue, m)
  | OGetKeyValue k => (observe (fm_get_key_value eqbO E m k) SawEntry, m)
  | OContainsKey k => (observe (fm_contains_key eqbO E m k) SawBool, m)
  | OIndex k => (observe (fm_index eqbO E m k) (fun v => SawValue (Some v)), m)
  | OLen => (SawNumber (fm_len m), m)
  | OIsEmpty => (SawBool (fm_is_empty m), m)
  | OIter =>
      (observe (fold_iter (it_next (prof E)) (S (length (fm_iter m))) (fun acc e => acc ++ [e]) []
                  (fm_iter_new m)) SawItems, m)
  | OGetMut k w =>
      match fm_get_mut eqbO E m k with
      | Ok (Some i) => (SawBool true, fm_write i w m)
      | r => (observe r (fun _ => SawBool false), m)
      end
  | OIndexMut k w =>
      match fm_index_mut eqbO E m k with
      | Ok i => (SawBool true, fm_write i w m)
      | r => (observe r (fun _ => SawBool false), m)
      end
  | OGetManyMut kws =>
      match fm_get_many_mut eqbO E m (map fst kws) with
      | Ok (Some ps) => (SawBool true, write_all ps (map snd kws) m)
      | r => (observe r (fun _ => SawBool false), m)
      end
  end.

Fixpoint run (m : map_types O V) (os : list (op (key O) V)) : list (obs (key O) V) :=
  match os with
  | [] => []
  | o :: os' => let (b, m') := step m o in b :: run m' os'
  end.
End Run.
