(** Model of the choice of a representation by the name of the key type
    (facades/frozen_map.rs:212-224 and facades/frozen_set.rs:197-209).  [FrozenMap.fm_new] and
    [FrozenSet.fs_new] take the outcome of the two name tests; here the tests are made.
    [name] is std::any::type_name: the names of u32, of String and, at [KindOther], of the key
    type [O].  The compiler does not promise that different types have different names. *)
From Coq Require Import List ZArith Bool String.
From Verif Require Import Base FrozenMap FrozenSet.
Import ListNotations.
Open Scope Z_scope.

Section Naming.
Context {O V : Type}.
Variable E : env.
Variable name : kind -> string.

(** facades/frozen_map.rs:212-224; [kd] is the type K of the keys. *)
Definition fm_new_by_name (kd : kind) (payload : list (key O * V)) (bh : hasher O) : res (@map_types O V) :=
  if zlen payload <? 4 then Ok (MScanning (Maps.sm_from_vec payload))
  else if String.eqb (name kd) (name KindU32) then fm_new_u32_map E payload
  else if String.eqb (name kd) (name KindString) then fm_new_string_map E payload bh
  else fm_new_common_map E payload bh.

(** facades/frozen_set.rs:197-209; [kd] is the type T of the items. *)
Definition fs_new_by_name (kd : kind) (payload : list (key O)) (bh : hasher O) : res (@set_types O) :=
  if zlen payload <? 4 then Ok (SScanning (Sets.ss_from_vec payload))
  else if String.eqb (name kd) (name KindU32) then fs_new_u32_set E payload
  else if String.eqb (name kd) (name KindString) then fs_new_string_set E payload bh
  else fs_new_common_set E payload bh.
End Naming.
