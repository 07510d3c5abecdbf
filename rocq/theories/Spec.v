(** Vocabulary of the property statements.  This file does not depend on the model:
    everything is stated with standard library lists and integers. *)
From Coq Require Import List ZArith Bool Arith Permutation.
Import ListNotations.
Open Scope Z_scope.

(** ** Equality tests and keys *)

(** A lawful [Eq] implementation. *)
Record equivalence {K : Type} (eqb : K -> K -> bool) : Prop := {
  eq_refl_ok : forall a, eqb a a = true;
  eq_sym_ok : forall a b, eqb a b = true -> eqb b a = true;
  eq_trans_ok : forall a b c, eqb a b = true -> eqb b c = true -> eqb a c = true
}.

(** No two elements of the list are equal. *)
Fixpoint distinct {K : Type} (eqb : K -> K -> bool) (l : list K) : Prop :=
  match l with
  | [] => True
  | k :: l' => (forall k', In k' l' -> eqb k k' = false) /\ distinct eqb l'
  end.

(** Some element of the list is equal to [x]. *)
Definition member {K : Type} (eqb : K -> K -> bool) (l : list K) (x : K) : Prop :=
  exists y, In y l /\ eqb x y = true.

(** Some pair of the payload has a key equal to [k] and the value [v]. *)
Definition supplied {K V : Type} (eqb : K -> K -> bool) (payload : list (K * V)) (k : K) (v : V) : Prop :=
  exists k', In (k', v) payload /\ eqb k k' = true.
(** No pair of the payload has a key equal to [k]. *)
Definition not_supplied {K V : Type} (eqb : K -> K -> bool) (payload : list (K * V)) (k : K) : Prop :=
  forall k' v, In (k', v) payload -> eqb k k' = false.

(** Two payloads with distinct keys describe the same map: the same keys, with equal values. *)
Definition same_map {K V : Type} (eqb : K -> K -> bool) (veq : V -> V -> bool) (p1 p2 : list (K * V)) : Prop :=
  (forall k v1, supplied eqb p1 k v1 -> exists v2, supplied eqb p2 k v2 /\ veq v1 v2 = true) /\
  (forall k v2, supplied eqb p2 k v2 -> exists v1, supplied eqb p1 k v1 /\ veq v1 v2 = true).

(** ** Integers *)

(** The integers a, a+1, ..., a+n-1. *)
Definition interval (a : Z) (n : nat) : list Z := map (fun i => a + Z.of_nat i) (seq 0 n).

(** The list consists of the integers of some interval, each once, in any order. *)
Definition consecutive (keys : list Z) : Prop :=
  exists a, Permutation keys (interval a (length keys)).

Definition is_min (m : Z) (l : list Z) : Prop := In m l /\ forall x, In x l -> m <= x.
Definition is_max (m : Z) (l : list Z) : Prop := In m l /\ forall x, In x l -> x <= m.

(** ** Repeated hash values *)

(** Number of elements that repeat an earlier one. *)
Definition repeated (codes : list Z) : nat :=
  (length codes - length (nodup Z.eq_dec codes))%nat.

(** Collisions when the codes are reduced modulo a table size. *)
Definition collisions (size : Z) (codes : list Z) : nat :=
  repeated (map (fun c => c mod size) codes).

(** The documented limits of the hash table size search for [n] codes: the number of
    collisions tolerated and the largest size. *)
Definition tolerated (n : Z) : Z := if n <? 128 then 0 else 5 * (n / 100).
Definition size_limit (n : Z) : Z := if n <? 128 then 16 * n else if n <? 1000 then 10 * n else 3 * n.

(** ** Strings (lists of bytes) *)

(** The [l] elements starting at position [i] from the left. *)
Definition left_win {T} (i l : nat) (s : list T) : list T := firstn l (skipn i s).
(** The single element at position [i] counted from the right end. *)
Definition right_win {T} (i : nat) (s : list T) : list T := firstn 1 (skipn (length s - 1 - i) s).

(** The hashes of the windows repeat for at most one key in twenty. *)
Definition distinctive {T} (h : list T -> Z) (w : list T -> list T) (keys : list (list T)) : Prop :=
  (20 * repeated (map (fun s => h (w s)) keys) <= length keys)%nat.

(** At most 255 keys and no length occurs more than three times. *)
Definition few_equal_lengths {T} (keys : list (list T)) : Prop :=
  (length keys <= 255)%nat /\
  forall L, (length (filter (fun s => Nat.eqb (length s) L) keys) <= 3)%nat.

Definition some_left_window {T} (h : list T -> Z) (l : nat) (keys : list (list T)) : Prop :=
  exists i, (forall s, In s keys -> (i + l <= length s)%nat) /\ distinctive h (left_win i l) keys.
Definition some_right_byte {T} (h : list T -> Z) (keys : list (list T)) : Prop :=
  exists i, (forall s, In s keys -> (i + 1 <= length s)%nat) /\ distinctive h (right_win i) keys.

(** The situation in which construction from strings goes wrong ... *)
Definition string_trouble (h : list Z -> Z) (keys : list (list Z)) : Prop :=
  (4 <= length keys)%nat /\ ~ few_equal_lengths keys /\
  (exists s s', In s keys /\ In s' keys /\ length s <> length s') /\
  (forall s, In s keys -> s <> []) /\
  ~ some_left_window h 1 keys.
(** ... with undefined behaviour ... *)
Definition string_ub (h : list Z -> Z) (keys : list (list Z)) : Prop :=
  string_trouble h keys /\ some_right_byte h keys.
(** ... or with a panic. *)
Definition string_panic (h : list Z -> Z) (keys : list (list Z)) : Prop :=
  string_trouble h keys /\ ~ some_right_byte h keys /\
  (forall s, In s keys -> (2 <= length s)%nat) /\ ~ some_left_window h 2 keys.
