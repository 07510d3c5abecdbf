(** What may end a call on a specialized map early when the code of the caller is arbitrary. *)
From Verif Require Import Base VolatileMaps.

(** The panics to be expected: those of the caller's code, and in a map over slices counted from the
    right those of its subtractions. *)
Definition expected {BH} (sh : shape BH) (p : panic) : Prop :=
  p = PForeign \/ p = POverflow /\ match sh with RightSlice _ _ _ => True | _ => False end.

