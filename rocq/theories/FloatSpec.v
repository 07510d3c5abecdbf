(** IEEE-754 binary64 on non-negative integers: what rounding to nearest even means. *)
From Coq Require Import ZArith.
Open Scope Z_scope.

(** An integer with at most 53 significant bits. *)
Definition representable (x : Z) : Prop := exists m e, 0 <= m < 2 ^ 53 /\ 0 <= e /\ x = m * 2 ^ e.

(** [r] is a representable number closest to [n]; if another one is as close, the last of the 53
    bits of [r] is 0. *)
Definition nearest_even (n r : Z) : Prop :=
  representable r /\
  (forall x, representable x -> Z.abs (n - r) <= Z.abs (n - x)) /\
  (forall x, representable x -> x <> r -> Z.abs (n - r) = Z.abs (n - x) ->
     exists m e, 2 ^ 52 <= m < 2 ^ 53 /\ 0 <= e /\ r = m * 2 ^ e /\ Z.even m = true).

(** [r] is a representable number closest to the square root of [c]: no representable number lies
    between the two, or nearer on the other side. *)
Definition nearest_root (c r : Z) : Prop :=
  representable r /\
  (forall x, representable x -> 0 <= x < r -> (x + r) * (x + r) <= 4 * c) /\
  (forall x, representable x -> r < x -> 4 * c <= (x + r) * (x + r)).
