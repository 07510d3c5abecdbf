(** Vocabulary for maps and sets that are built, cloned and used with lawful code. *)
From Coq Require Import List ZArith Bool.
From Verif Require Import Spec MapSpec Base FrozenMap FrozenSet HistorySpec Volatile VolatileSets Cloning CloneSpec.
Import ListNotations.
Open Scope Z_scope.

(** The answers of [clone] are those of [cO], [cV] and [cB]; keys are copied to equal ones and
    hashers to ones that hash alike. *)
Record faithful_clones {W O V} (C : cloning W O V) (eqbO : O -> O -> bool)
    (cO : O -> O) (cV : V -> V) (cB : hasher O -> hasher O) : Prop := {
  fc_key : clones_as (on_clone C) cO;
  fc_value : clones_as (on_clone_value C) cV;
  fc_hasher : clones_as (on_clone_hasher C) cB;
  fc_equal : forall x, eqbO x (cO x) = true;
  fc_alike : forall b, hash_alike b (cB b)
}.

(** A FrozenMap with distinct keys and a lawful hasher, its clones, and what they are after a
    call of a method. *)
Inductive lawful_map {W O V : Type} (F : conduct W O) (C : cloning W O V) (eqbO : O -> O -> bool) (E : env) (kd : kind)
  : map_types O V -> Prop :=
| LawfulMapNew payload bh w m w' :
    lawful_hash eqbO bh -> countable (prof E) (zlen payload) -> zlen payload < 2 ^ 64 -> typed kd payload ->
    distinct (key_eqb eqbO) (map fst payload) -> v_new F E kd payload bh w = (Ok m, w') -> lawful_map F C eqbO E kd m
| LawfulMapClone m w m' w' :
    lawful_map F C eqbO E kd m -> fm_clone C m w = (Ok m', w') -> lawful_map F C eqbO E kd m'
| LawfulMapUse m o w b m' w' :
    lawful_map F C eqbO E kd m -> (forall k, In k (op_keys o) -> has_kind kd k) -> v_step F E m o w = (b, m', w') ->
    lawful_map F C eqbO E kd m'.

(** A FrozenSet, which may contain duplicates if the items are not u32, and its clones. *)
Inductive lawful_frozen_set {W O V : Type} (F : conduct W O) (C : cloning W O V) (eqbO : O -> O -> bool) (E : env) (kd : kind)
  : set_types O -> Prop :=
| LawfulFrozenSetNew items bh w s w' :
    lawful_hash eqbO bh -> countable (prof E) (zlen items) -> zlen items < 2 ^ 64 ->
    (forall x, In x items -> has_kind kd x) -> (kd = KindU32 -> distinct (key_eqb eqbO) items) ->
    v_fs_new F E kd items bh w = (Ok s, w') -> lawful_frozen_set F C eqbO E kd s
| LawfulFrozenSetClone s w s' w' :
    lawful_frozen_set F C eqbO E kd s -> fs_clone C s w = (Ok s', w') -> lawful_frozen_set F C eqbO E kd s'.
