(** Vocabulary of the property about the names of key types. *)
From Coq Require Import List ZArith Bool String.
From Verif Require Import Base FrozenMap.

(** The names of types. *)
Definition naming : Type := kind -> string.

(** The names that the compiler gives to u32 and to String. *)
Definition standard (name : naming) : Prop :=
  name KindU32 = "u32"%string /\ name KindString = "alloc::string::String"%string.

(** The keys are taken for what they are not: there are at least four, and their type is
    another type that is named like u32 or like String. *)
Definition mistaken (name : naming) (kd : kind) (n : nat) : Prop :=
  (4 <= n)%nat /\ kd = KindOther /\ (name KindOther = name KindU32 \/ name KindOther = name KindString).

(** A crate may be called alloc, with a module string and a type String in it. *)
Definition colliding : naming :=
  fun kd => match kd with KindU32 => "u32" | KindString | KindOther => "alloc::string::String" end%string.
