(** Model of frozen-collections-core/src/macros/frozen_map.rs, the body of the exported
    macro [frozen_map!] (frozen-collections-macros/src/lib.rs:7-11).

    The model starts from the parsed key type and literals; parsing of the macro arguments
    (32-53, 66-70) is in MacroParse.v.  Left out: the suffix of an integer literal, which
    [base10_parse] ignores. *)
From Coq Require Import List ZArith Bool Lia.
From Verif Require Import Base IntKeyAnalyzer SliceKeyAnalyzer HashTable Maps.
Import ListNotations.
Open Scope Z_scope.

(** The type named by the first macro argument, as classified by the match on its text
    (macros/frozen_map.rs:93-122).  usize, isize and lifetime-qualified string types fall
    under [TOther]. *)
Inductive macro_type : Type :=
| TInt (ty : int_type)
| TStr
| TOther.

(** A key expression. *)
Inductive literal (O : Type) : Type :=
| LInt (z : Z)
| LStr (s : bytes)
| LExpr (o : O).
Arguments LInt {O} z.
Arguments LStr {O} s.
Arguments LExpr {O} o.

(** macros/frozen_map.rs:55-60 *)
Inductive key_variety : Type := VCommon | VInteger | VString.

(** The map types the expansion may name (macros/frozen_map.rs:124-149). *)
Inductive map_name : Type :=
| NCommonMap | NIntegerMap | NIntegerRangeMap | NLengthMap | NLeftSliceMap | NRightSliceMap.

(** The shape of the generated code: macros/frozen_map.rs:75-82, 189-197, 166-187. *)
Inductive expansion : Type :=
| XScanning
| XPlain (name : map_name) (S_ty : int_type)
| XRanged (name : map_name) (S_ty : int_type) (start end_ : Z).

(** macros/frozen_map.rs:201-215; a literal that does not parse is an Err. *)
Definition process_int_keys {O} (pr : profile) (ty : int_type) (keys : list (literal O))
  : res int_key_analysis :=
  parsed <- mapM (fun k => match k with
                           | LInt z => if in_type ty z then Ok z else Panic PUnwrapNone
                           | _ => Panic PUnwrapNone
                           end) keys ;;
  analyze_int_keys pr ty parsed.

(** macros/frozen_map.rs:217-229; [h] is the hash function of the macro's own
    RandomState. *)
Definition process_string_keys {O} (h : bytes -> Z) (keys : list (literal O))
  : res slice_key_analysis :=
  parsed <- mapM (fun k => match k with LStr s => Ok s | _ => Panic PUnwrapNone end) keys ;;
  analyze_slice_keys h parsed.

(** macros/frozen_map.rs:93-122 *)
Definition analyze_literals {O} (pr : profile) (h : bytes -> Z) (ty : macro_type)
    (keys : list (literal O)) : res (key_variety * int_key_analysis * slice_key_analysis) :=
  match ty with
  | TInt t => int_analysis <- process_int_keys pr t keys ;; Ok (VInteger, int_analysis, SliceNormal)
  | TStr => slice_analysis <- process_string_keys h keys ;; Ok (VString, IntNormal, slice_analysis)
  | TOther => Ok (VCommon, IntNormal, SliceNormal)
  end.

(** macros/frozen_map.rs:124-149 *)
Definition choose_map (variety : key_variety) (int_analysis : int_key_analysis)
    (slice_analysis : slice_key_analysis) : map_name :=
  match variety with
  | VInteger => match int_analysis with IntRange => NIntegerRangeMap | IntNormal => NIntegerMap end
  | VString =>
      match slice_analysis with
      | SliceNormal => NCommonMap
      | SliceLength => NLengthMap
      | LeftHandSubslice _ _ => NLeftSliceMap
      | RightHandSubslice _ _ => NRightSliceMap
      end
  | VCommon => NCommonMap
  end.

(** macros/frozen_map.rs:151-160 *)
Definition payload_size (n : Z) : int_type :=
  if n <=? imax u8 then u8 else if n <=? imax u16 then u16 else usize.

(** macros/frozen_map.rs:65-199.  The result is that of compiling the macro call: a panic
    aborts the compilation. *)
Definition frozen_map_macro {O} (pr : profile) (h : bytes -> Z) (ty : macro_type)
    (keys : list (literal O)) : res expansion :=
  if zlen keys <? 3 then Ok XScanning
  else
    a <- analyze_literals pr h ty keys ;;
    let '(variety, int_analysis, slice_analysis) := a in
    let name := choose_map variety int_analysis slice_analysis in
    let size := payload_size (zlen keys) in
    Ok match slice_analysis with
       | LeftHandSubslice i l | RightHandSubslice i l => XRanged name size i (i + l)
       | _ => XPlain name size
       end.

(** ** Running the generated code

    [None] means that rustc rejects the generated code.  The expansion gives every map
    three generic arguments (macros/frozen_map.rs:191) but IntegerRangeMap declares two
    (specialized_maps/integer_range_map.rs:14).  The result is the [get] method of the
    map built. *)
Section Run.
Context {V : Type}.

(** Integer keys.  IntegerMap::from_vec: specialized_maps/integer_map.rs:27-32. *)
Definition run_int (E : env) (ty : int_type) (x : expansion) (payload : list (Z * V))
  : option (res (Z -> res (option V))) :=
  match x with
  | XScanning => Some (Ok (sm_get Z.eqb (fun k => k) (sm_from_vec payload)))
  | XPlain NIntegerMap S_ty => Some (m <- im_from_vec E S_ty payload ;; Ok (im_get m))
  | _ => None
  end.

(** String keys, with a hasher drawn at run time: [hash_string] for whole keys and
    [hash_write] for subslices. *)
Definition run_str {BH} (hash_string hash_write : BH -> bytes -> Z) (E : env) (bh : BH)
    (x : expansion) (payload : list (bytes * V)) : option (res (bytes -> res (option V))) :=
  match x with
  | XScanning => Some (Ok (sm_get bytes_eqb (fun k => k) (sm_from_vec payload)))
  | XPlain NCommonMap S_ty =>
      Some (m <- cm_from_vec hash_string E S_ty payload bh ;;
            Ok (cm_get bytes_eqb (fun k => k) hash_string m))
  | XPlain NLengthMap S_ty =>
      Some (m <- lm_from_vec zlen E S_ty payload ;; Ok (lm_get bytes_eqb (fun k => k) zlen m))
  | XRanged NLeftSliceMap S_ty a b =>
      Some (m <- lsm_from_vec hash_write E S_ty payload a b bh ;; Ok (lsm_get hash_write m))
  | XRanged NRightSliceMap S_ty a b =>
      Some (m <- rsm_from_vec hash_write E S_ty payload a b bh ;; Ok (rsm_get hash_write E m))
  | _ => None
  end.

(** Keys of any other type [O]. *)
Definition run_other {O BH} (eqbO : O -> O -> bool) (hash : BH -> O -> Z) (E : env) (bh : BH)
    (x : expansion) (payload : list (O * V)) : option (res (O -> res (option V))) :=
  match x with
  | XScanning => Some (Ok (sm_get eqbO (fun k => k) (sm_from_vec payload)))
  | XPlain NCommonMap S_ty =>
      Some (m <- cm_from_vec hash E S_ty payload bh ;; Ok (cm_get eqbO (fun k => k) hash m))
  | _ => None
  end.
End Run.
