(** The five programs of benches/frozen_map.rs. *)
From Coq Require Import String List ZArith Bool.
From Verif Require Import Base Maps FrozenMap ProjectTests DocExamples.
Import ListNotations.
Open Scope Z_scope.

(** How a map is kept, which is what the name of a benchmark announces. *)
Inductive storage : Type :=
| ByScanning | ByHash | ByNumber | ByOffset | ByLength
| ByWindow (start stop : Z)   (* from the left *)
| ByRightWindow (start stop : Z).

Definition storage_of {O V} (m : map_types O V) : storage :=
  match m with
  | MScanning _ => ByScanning
  | MCommonSmall _ | MCommonLarge _ => ByHash
  | MU32Small _ | MU32Large _ => ByNumber
  | MU32Range _ => ByOffset
  | MStringLengthSmall _ => ByLength
  | MLeftStringSliceSmall m | MLeftStringSliceLarge m => ByWindow (slm_start m) (slm_end m)
  | MRightStringSliceSmall m | MRightStringSliceLarge m => ByRightWindow (slm_start m) (slm_end m)
  end.

(** The value the standard HashMap built by [HashMap::from(payload)] has for a key: entries are
    inserted in order, so that the last one counts. *)
Definition std_lookup {V} (payload : list (key datum * V)) (k : key datum) : option V :=
  option_map snd (find (fun e => key_eqb datum_eqb (fst e) k) (rev payload)).

Record benchmark : Type := {
  bm_kind : kind;
  bm_payload : list (key datum * Z);
  bm_query : key datum;
  bm_kept : storage
}.

(** benches/frozen_map.rs:7-26 *)
Definition u32_keys : benchmark :=
  {| bm_kind := KindU32; bm_payload := [(KU32 0, 1); (KU32 2, 3); (KU32 4, 5); (KU32 6, 7); (KU32 8, 9)];
     bm_query := KU32 4; bm_kept := ByNumber |}.

(** benches/frozen_map.rs:28-47 *)
Definition u32_keys_range : benchmark :=
  {| bm_kind := KindU32; bm_payload := [(KU32 0, 0); (KU32 1, 1); (KU32 2, 2); (KU32 3, 3); (KU32 4, 4)];
     bm_query := KU32 4; bm_kept := ByOffset |}.

(** benches/frozen_map.rs:49-68 *)
Definition i32_keys : benchmark :=
  {| bm_kind := KindOther; bm_payload := [(i32_key 0, 1); (i32_key 2, 3); (i32_key 4, 5); (i32_key 6, 7); (i32_key 8, 9)];
     bm_query := i32_key 4; bm_kept := ByHash |}.

(** benches/frozen_map.rs:70-102. "Green" occurs twice, where [keys] has "Blue". *)
Definition string_keys_length : benchmark :=
  {| bm_kind := KindString;
     bm_payload := [(string_key "Red", 1); (string_key "Green", 2); (string_key "Green", 3); (string_key "Cyan", 4);
                    (string_key "Magenta", 5); (string_key "Purple", 6)];
     bm_query := string_key "Cyan"; bm_kept := ByLength |}.

(** benches/frozen_map.rs:104-137 *)
Definition string_keys_subslice : benchmark :=
  {| bm_kind := KindString;
     bm_payload := [(string_key "abcdefghi0", 1); (string_key "abcdefghi1", 2); (string_key "abcdefghi2", 3);
                    (string_key "abcdefghi3", 4); (string_key "abcdefghi4", 5); (string_key "abcdefghi5", 6)];
     bm_query := string_key "abcdefghi3"; bm_kept := ByWindow 9 10 |}.

(** benches/frozen_map.rs:139-147 *)
Definition benchmarks : list benchmark := [string_keys_length; string_keys_subslice; u32_keys; u32_keys_range; i32_keys].
