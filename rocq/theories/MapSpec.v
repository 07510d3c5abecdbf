(** Vocabulary of the property statements that mentions the key, hasher and overflow
    profile types of the model. *)
From Coq Require Import List ZArith Bool.
From Verif Require Import Spec Base FrozenMap.
Import ListNotations.
Open Scope Z_scope.

(** Equal keys of an ordinary type hash alike.  (u32 and String are lawful already:
    their equality is the identity.) *)
Definition lawful_hash {O} (eqbO : O -> O -> bool) (bh : hasher O) : Prop :=
  forall a b, eqbO a b = true -> hash_one bh (KOther a) = hash_one bh (KOther b).

(** The static typing of a payload. *)
Definition typed {O V} (kd : kind) (payload : list (key O * V)) : Prop :=
  forall e, In e payload -> has_kind kd (fst e).

(** Size limit: none with overflow checks on, 2^32 entries otherwise. *)
Definition countable (pr : profile) (n : Z) : Prop := pr = Checked \/ n < 2 ^ 32.

(** The index type [S] of a hashed map is unsigned, at most 64 bits wide and can count [n]
    entries, and there are fewer than 2^31 of them. *)
Definition fits (S_ty : int_type) (n : Z) : Prop :=
  imin S_ty = 0 /\ imax S_ty < 2 ^ 64 /\ n <= imax S_ty /\ n < 2 ^ 31.

(** The u32 keys span exactly as many integers as there are entries. *)
Definition full_span {O V} (payload : list (key O * V)) : Prop :=
  exists mn mx, In (KU32 mn) (map fst payload) /\ In (KU32 mx) (map fst payload) /\
    (forall n, In (KU32 n) (map fst payload) -> mn <= n <= mx) /\ mx - mn = zlen payload - 1.

(** The content of u32 and String keys. *)
Definition u32_of {O} (k : key O) : Z := match k with KU32 n => n | _ => 0 end.
Definition str_of {O} (k : key O) : list Z := match k with KStr s => s | _ => [] end.
Definition str_keys {O V} (payload : list (key O * V)) : list (list Z) :=
  map (fun e => str_of (fst e)) payload.

(** A lookup function that answers every key of the type [D] exactly: it always returns,
    it returns a value exactly when the payload supplies it, and nothing exactly when the
    payload does not mention the key. *)
Definition exact_get {K V : Type} (eqb : K -> K -> bool) (D : K -> Prop) (payload : list (K * V))
    (get : K -> res (option V)) : Prop :=
  forall k, D k ->
    (exists r, get k = Ok r) /\
    (forall v, get k = Ok (Some v) <-> supplied eqb payload k v) /\
    (get k = Ok None <-> not_supplied eqb payload k).
