(** The code emitted by [frozen_map!]: the [quote!] parts of macros/frozen_map.rs:23-30, 75-82, 105-119 and
    151-198 (macros/frozen_set.rs is a copy).

    A type or an expression of the caller is one token: how rustc reads it back is not modelled.  [::] and
    [..] are single tokens. *)
From Coq Require Import String List ZArith Bool.
From Verif Require Import Base IntKeyAnalyzer SliceKeyAnalyzer HashTable Maps MacroModel MacroParse.
Import ListNotations.
Open Scope Z_scope.

(** Tokens of the generated code. *)
Inductive code_token (ty expr : Type) : Type :=
| Word (w : string)
| Sym (w : string)
| Index (n : Z)                                  (* a literal of type usize *)
| TypeToken (t : ty)
| ExprToken (e : expr)
| Paren (l : list (code_token ty expr))
| Bracket (l : list (code_token ty expr))
| Brace (l : list (code_token ty expr)).
Arguments Word {ty expr}. Arguments Sym {ty expr}. Arguments Index {ty expr}. Arguments TypeToken {ty expr}.
Arguments ExprToken {ty expr}. Arguments Paren {ty expr}. Arguments Bracket {ty expr}. Arguments Brace {ty expr}.

Section Emit.
Context {ty expr : Type}.
Notation code := (list (code_token ty expr)).

(** macros/frozen_map.rs:16, 23-30: an entry is emitted as key, comma, value.  The expressions of an [Entry] are
    given by their tokens. *)
Definition entry_code (e : code * code) : code := fst e ++ [Sym ","%string] ++ snd e.

(** macros/frozen_map.rs:76-80, 168-172, 181-185, 191-195: [vec!\[#( (#kv_pairs), )*\]] *)
Definition vec_code (kv_pairs : list (code * code)) : code :=
  [Word "vec"%string; Sym "!"%string;
   Bracket (flat_map (fun e => [Paren (entry_code e); Sym ","%string]) kv_pairs)].

(** [::frozen_collections::specialized_maps::#map_type] *)
Definition map_path (map_type : string) : code :=
  [Sym "::"%string; Word "frozen_collections"%string; Sym "::"%string; Word "specialized_maps"%string;
   Sym "::"%string; Word map_type].

(** macros/frozen_map.rs:75-82 *)
Definition emit_scanning (kv_pairs : list (code * code)) : code :=
  [Brace ([Word "let"%string; Word "m"%string; Sym "="%string] ++ map_path "ScanningMap"%string ++
          [Sym "::"%string; Word "from_vec"%string; Paren (vec_code kv_pairs); Sym ";"%string; Word "m"%string])].

(** macros/frozen_map.rs:189-197 *)
Definition emit_plain (map_type : string) (t : code) (payload_size : string) (kv_pairs : list (code * code)) : code :=
  [Brace ([Word "let"%string; Word "m"%string; Sym ":"%string] ++ map_path map_type ++
          [Sym "<"%string] ++ t ++ [Sym ","%string; Word "_"%string; Sym ","%string; Word payload_size; Sym ">"%string; Sym "="%string] ++
          map_path map_type ++
          [Sym "::"%string; Word "from_vec"%string; Paren (vec_code kv_pairs); Sym ";"%string; Word "m"%string])].

(** macros/frozen_map.rs:163-174 and, with the same text, 176-187 *)
Definition emit_ranged (map_type : string) (t : code) (payload_size : string) (kv_pairs : list (code * code))
    (subslice_index subslice_len : Z) : code :=
  [Brace ([Word "let"%string; Word "m"%string; Sym ":"%string] ++ map_path map_type ++
          [Sym "<"%string] ++ t ++
          [Sym ","%string; Word "_"%string; Sym ","%string; Word payload_size; Sym ","%string;
           Sym "::"%string; Word "std"%string; Sym "::"%string; Word "hash"%string; Sym "::"%string; Word "RandomState"%string;
           Sym ">"%string; Sym "="%string] ++
          map_path map_type ++
          [Sym "::"%string; Word "from_vec"%string;
           Paren (vec_code kv_pairs ++
                  [Sym ","%string; Index subslice_index; Sym ".."%string; Index subslice_index; Sym "+"%string; Index subslice_len]);
           Sym ";"%string; Word "m"%string])].

(** macros/frozen_map.rs:124-149 *)
Definition map_ident (n : map_name) : string :=
  match n with
  | NCommonMap => "CommonMap"%string
  | NIntegerMap => "IntegerMap"%string
  | NIntegerRangeMap => "IntegerRangeMap"%string
  | NLengthMap => "LengthMap"%string
  | NLeftSliceMap => "LeftSliceMap"%string
  | NRightSliceMap => "RightSliceMap"%string
  end.

(** macros/frozen_map.rs:151-160 *)
Definition size_ident (n : Z) : string :=
  if n <=? imax u8 then "u8"%string else if n <=? imax u16 then "u16"%string else "usize"%string.

(** macros/frozen_map.rs:113: [quote!(String::from(#original))] *)
Definition owned_key (original : code) : code :=
  [Word "String"%string; Sym "::"%string; Word "from"%string; Paren original].

(** macros/frozen_map.rs:72-199 *)
Definition emit {O} (classify : ty -> macro_type) (literal_of : expr -> literal O) (pr : profile) (h : bytes -> Z)
    (input : parsed_map ty expr) : res code :=
  let kv_pairs := map (fun e => ([ExprToken (fst e)], [ExprToken (snd e)])) (pm_entries input) in
  if zlen kv_pairs <? 3 then Ok (emit_scanning kv_pairs)
  else
    a <- analyze_literals pr h (classify (pm_ty input)) (map (fun e => literal_of (fst e)) (pm_entries input)) ;;
    let '(variety, int_analysis, slice_analysis) := a in
    let '(kv_pairs, t) :=
      match classify (pm_ty input) with
      | TStr => (map (fun kv => (owned_key (fst kv), snd kv)) kv_pairs, [Word "String"%string])
      | _ => (kv_pairs, [TypeToken (pm_ty input)])
      end in
    let map_type := map_ident (choose_map variety int_analysis slice_analysis) in
    let payload_size := size_ident (zlen kv_pairs) in
    Ok match slice_analysis with
       | LeftHandSubslice subslice_index subslice_len => emit_ranged map_type t payload_size kv_pairs subslice_index subslice_len
       | RightHandSubslice subslice_index subslice_len => emit_ranged map_type t payload_size kv_pairs subslice_index subslice_len
       | _ => emit_plain map_type t payload_size kv_pairs
       end.
End Emit.

(** The declarations that the code refers to: the number of generic parameters without a default, the number of all of
    them, and whether [from_vec] takes a range beside the Vec.
    scanning_map.rs:12, 21; common_map.rs:19, 186; integer_map.rs:17, 27; integer_range_map.rs:14, 28; length_map.rs:18, 28;
    left_slice_map.rs:20, 208; right_slice_map.rs:20, 211 *)
Definition declarations : list (string * (nat * nat * bool)) :=
  [("ScanningMap"%string, (2, 2, false)%nat); ("CommonMap"%string, (2, 4, false)%nat); ("IntegerMap"%string, (2, 3, false)%nat);
   ("IntegerRangeMap"%string, (2, 2, false)%nat); ("LengthMap"%string, (2, 3, false)%nat);
   ("LeftSliceMap"%string, (2, 4, true)%nat); ("RightSliceMap"%string, (2, 4, true)%nat)].
