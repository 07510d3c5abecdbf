(** A finite map with a fixed key set, as an association list, and the observable results
    of operations on it.  This file does not depend on the model. *)
From Coq Require Import List ZArith Bool Permutation.
Import ListNotations.
Open Scope Z_scope.

Inductive op (K V : Type) : Type :=
| OGet (k : K)                        (* get *)
| OGetKeyValue (k : K)                (* get_key_value *)
| OContainsKey (k : K)                (* contains_key *)
| OIndex (k : K)                      (* map[k] *)
| OLen | OIsEmpty
| OIter                               (* collect iter() *)
| OGetMut (k : K) (w : V)             (* if let Some(r) = get_mut(k) { *r = w } *)
| OIndexMut (k : K) (w : V)           (* map[k] = w *)
| OGetManyMut (kws : list (K * V)).   (* if let Some(rs) = get_many_mut(keys) { *rs[i] = w_i } *)
Arguments OGet {K V}. Arguments OGetKeyValue {K V}. Arguments OContainsKey {K V}.
Arguments OIndex {K V}. Arguments OLen {K V}. Arguments OIsEmpty {K V}. Arguments OIter {K V}.
Arguments OGetMut {K V}. Arguments OIndexMut {K V}. Arguments OGetManyMut {K V}.

(** What the caller sees. *)
Inductive obs (K V : Type) : Type :=
| SawValue (v : option V)
| SawEntry (e : option (K * V))
| SawBool (b : bool)
| SawNumber (n : Z)
| SawItems (l : list (K * V))
| SawPanic                            (* the panic documented for indexing *)
| SawFailure.                         (* anything else going wrong *)
Arguments SawValue {K V}. Arguments SawEntry {K V}. Arguments SawBool {K V}. Arguments SawNumber {K V}.
Arguments SawItems {K V}. Arguments SawPanic {K V}. Arguments SawFailure {K V}.

(** Equal observations; the order of iteration is not fixed. *)
Definition same_obs {K V} (a b : obs K V) : Prop :=
  match a, b with
  | SawItems l, SawItems l' => Permutation l l'
  | _, _ => a = b
  end.

Section Abstract.
Context {K V : Type}.
Variable eqb : K -> K -> bool.

Definition lookup (p : list (K * V)) (k : K) : option (K * V) := find (fun e => eqb k (fst e)) p.
Definition update (p : list (K * V)) (k : K) (w : V) : list (K * V) :=
  map (fun e => if eqb k (fst e) then (fst e, w) else e) p.
Definition present (p : list (K * V)) (k : K) : bool := existsb (fun e => eqb k (fst e)) p.
Fixpoint all_different (l : list K) : bool :=
  match l with
  | [] => true
  | k :: l' => negb (existsb (eqb k) l') && all_different l'
  end.

Definition abstract_step (p : list (K * V)) (o : op K V) : obs K V * list (K * V) :=
  match o with
  | OGet k => (SawValue (option_map snd (lookup p k)), p)
  | OGetKeyValue k => (SawEntry (lookup p k), p)
  | OContainsKey k => (SawBool (present p k), p)
  | OIndex k =>
      (match lookup p k with Some e => SawValue (Some (snd e)) | None => SawPanic end, p)
  | OLen => (SawNumber (Z.of_nat (length p)), p)
  | OIsEmpty => (SawBool (match p with [] => true | _ => false end), p)
  | OIter => (SawItems p, p)
  | OGetMut k w => (SawBool (present p k), update p k w)
  | OIndexMut k w => if present p k then (SawBool true, update p k w) else (SawPanic, p)
  | OGetManyMut kws =>
      if all_different (map fst kws) && forallb (present p) (map fst kws)
      then (SawBool true, fold_left (fun p kw => update p (fst kw) (snd kw)) kws p)
      else (SawBool false, p)
  end.

Fixpoint abstract_run (p : list (K * V)) (os : list (op K V)) : list (obs K V) :=
  match os with
  | [] => []
  | o :: os' => let (b, p') := abstract_step p o in b :: abstract_run p' os'
  end.

(** The keys an operation mentions. *)
Definition op_keys (o : op K V) : list K :=
  match o with
  | OGet k | OGetKeyValue k | OContainsKey k | OIndex k | OGetMut k _ | OIndexMut k _ => [k]
  | OLen | OIsEmpty | OIter => []
  | OGetManyMut kws => map fst kws
  end.
End Abstract.

(** ** What may be seen when nothing is known about equality and hashing

    Whatever the outcome of the lookups, the values seen were supplied or written before,
    the keys seen were supplied, and only indexing panics. *)
Section Sanity.
(** [Q] is the type of the keys asked for, [K] that of the keys stored. *)
Context {Q K V : Type}.

Definition op_writes (o : op Q V) : list V :=
  match o with
  | OGetMut _ w | OIndexMut _ w => [w]
  | OGetManyMut kws => map snd kws
  | _ => []
  end.

Definition sane (payload : list (K * V)) (written : list V) (o : op Q V) (b : obs K V) : Prop :=
  match o, b with
  | OGet _, SawValue None => True
  | OGet _, SawValue (Some v) | OIndex _, SawValue (Some v) => In v (map snd payload ++ written)
  | OGetKeyValue _, SawEntry None => True
  | OGetKeyValue _, SawEntry (Some e) =>
      In (fst e) (map fst payload) /\ In (snd e) (map snd payload ++ written)
  | OContainsKey _, SawBool _ => True
  | OIndex _, SawPanic => True
  | OLen, SawNumber n => n = Z.of_nat (length payload)
  | OIsEmpty, SawBool b => b = true <-> payload = []
  | OIter, SawItems l =>
      Permutation (map fst l) (map fst payload) /\ incl (map snd l) (map snd payload ++ written)
  | OGetMut _ _, SawBool _ | OGetManyMut _, SawBool _ => True
  | OIndexMut _ _, SawBool true | OIndexMut _ _, SawPanic => True
  | _, _ => False
  end.

Fixpoint sane_run (payload : list (K * V)) (written : list V) (os : list (op Q V)) (bs : list (obs K V))
  : Prop :=
  match os, bs with
  | [], [] => True
  | o :: os', b :: bs' =>
      sane payload written o b /\ sane_run payload (written ++ op_writes o) os' bs'
  | _, _ => False
  end.

(** The same when calls may also end in a panic of code supplied by the caller ([None]), which is
    caught: such a call writes nothing, and calls that involve no key do not end so. *)
Fixpoint sane_run_caught (payload : list (K * V)) (written : list V) (os : list (op Q V))
    (bs : list (option (obs K V))) : Prop :=
  match os, bs with
  | [], [] => True
  | o :: os', None :: bs' => op_keys o <> [] /\ sane_run_caught payload written os' bs'
  | o :: os', Some b :: bs' =>
      sane payload written o b /\ sane_run_caught payload (written ++ op_writes o) os' bs'
  | _, _ => False
  end.
End Sanity.
