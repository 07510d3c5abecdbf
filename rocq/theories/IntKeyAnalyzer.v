(** Model of frozen-collections-core/src/analyzers/int_key_analyzer.rs. *)
From Coq Require Import List ZArith Bool Lia.
From Verif Require Import Base.
Import ListNotations.
Open Scope Z_scope.

(** int_key_analyzer.rs:5-11 *)
Inductive int_key_analysis : Type := IntNormal | IntRange.

(** int_key_analyzer.rs:22-26: the loop; [ty] is the integer type [K]. *)
Fixpoint scan_int_keys (pr : profile) (ty : int_type) (keys : list Z) (mn mx count : Z)
  : res (Z * Z * Z) :=
  match keys with
  | [] => Ok (mn, mx, count)
  | key :: keys' =>
      count' <- arith pr ty (count + 1) ;;
      scan_int_keys pr ty keys' (Z.min mn key) (Z.max mx key) count'
  end.

(** int_key_analyzer.rs:14-35 *)
Definition analyze_int_keys (pr : profile) (ty : int_type) (keys : list Z)
  : res int_key_analysis :=
  st <- scan_int_keys pr ty keys (imax ty) (imin ty) 0 ;;
  let '(mn, mx, count) := st in
  if count =? 0 then Ok IntNormal
  else
    spread <- arith pr ty (mx - mn) ;;
    count1 <- arith pr ty (count - 1) ;;
    Ok (if spread =? count1 then IntRange else IntNormal).
