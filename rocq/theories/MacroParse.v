(** Model of the argument parser of [frozen_map!]: macros/frozen_map.rs:32-53 and the call of it
    at 66-70 (macros/frozen_set.rs:32-53 is a copy), and of a whole macro call.

    [parse_type] and [parse_expr] stand for [input.parse::<Type>()] and [input.parse::<Expr>()] of
    the syn crate: they return what was parsed and the tokens left, or an error. *)
From Coq Require Import List ZArith Bool.
From Verif Require Import Base HashTable Maps Iterators HistorySpec MapObjects MacroModel.
Import ListNotations.
Open Scope Z_scope.

Section Parse.
Context {T ty expr : Type}.

(** The tokens of the argument. *)
Inductive token : Type := Comma | Colon | Tok (t : T).

Variable parse_type : list token -> option (ty * list token).
Variable parse_expr : list token -> option (expr * list token).

(** macros/frozen_map.rs:13-18 *)
Record parsed_map : Type := { pm_ty : ty; pm_entries : list (expr * expr) }.

(** [input.parse::<Token![,]>()?], [input.parse::<Token![:]>()?] *)
Definition parse_comma (input : list token) : option (list token) :=
  match input with Comma :: rest => Some rest | _ => None end.
Definition parse_colon (input : list token) : option (list token) :=
  match input with Colon :: rest => Some rest | _ => None end.

(** macros/frozen_map.rs:43-47 *)
Definition parse_entry (input : list token) : option ((expr * expr) * list token) :=
  match parse_expr input with
  | None => None
  | Some (key, input1) =>
      match parse_colon input1 with
      | None => None
      | Some input2 =>
          match parse_expr input2 with
          | None => None
          | Some (value, input3) => Some ((key, value), input3)
          end
      end
  end.

(** macros/frozen_map.rs:48-50 *)
Definition skip_comma (input : list token) : list token :=
  match input with Comma :: rest => rest | _ => input end.

(** macros/frozen_map.rs:42-51; the [while] loop, with [fuel] bounding the rounds.  The inner
    [option] is [None] for an error. *)
Fixpoint parse_entries (fuel : nat) (input : list token) : option (option (list (expr * expr))) :=
  match fuel with
  | O => None
  | S fuel' =>
      match input with
      | [] => Some (Some [])
      | _ =>
          match parse_entry input with
          | None => Some None
          | Some (e, rest) =>
              match parse_entries fuel' (skip_comma rest) with
              | None => None
              | Some None => Some None
              | Some (Some es) => Some (Some (e :: es))
              end
          end
      end
  end.

(** macros/frozen_map.rs:33-53.  [None]: out of fuel; [Some None]: a syntax error. *)
Definition parse_map (input : list token) : option (option parsed_map) :=
  match parse_type input with
  | None => Some None
  | Some (t, input1) =>
      match parse_comma input1 with
      | None => Some None
      | Some input2 =>
          match parse_entries (S (length input2)) input2 with
          | None => None
          | Some None => Some None
          | Some (Some es) => Some (Some {| pm_ty := t; pm_entries := es |})
          end
      end
  end.

(** The outcome of a macro call: macros/frozen_map.rs:66-70. *)
Inductive call_result : Type :=
| SyntaxError
| Expanded (r : res expansion)
| ParserOutOfFuel.

(** macros/frozen_map.rs:65-199.  [classify] is the match on the type's text (93-122),
    [literal_of] what [parse2::<LitInt>] or [parse2::<LitStr>] make of a key. *)
Definition frozen_map_call {O} (classify : ty -> macro_type) (literal_of : expr -> literal O)
    (pr : profile) (h : bytes -> Z) (args : list token) : call_result :=
  match parse_map args with
  | None => ParserOutOfFuel
  | Some None => SyntaxError
  | Some (Some m) =>
      Expanded (frozen_map_macro pr h (classify (pm_ty m)) (map (fun e => literal_of (fst e)) (pm_entries m)))
  end.

(** macros/frozen_set.rs:67-201 (marked "TODO: make this work!", not exported by
    frozen-collections-macros/src/lib.rs): apart from its name a copy of macros/frozen_map.rs:65-199,
    with the parser 32-53 also copied.  It expands to a map. *)
Definition frozen_set_call {O} (classify : ty -> macro_type) (literal_of : expr -> literal O)
    (pr : profile) (h : bytes -> Z) (args : list token) : call_result :=
  frozen_map_call classify literal_of pr h args.
End Parse.
Arguments token : clear implicits.
Arguments parsed_map : clear implicits.

(** ** The map an expansion builds, as the results of any sequence of operations on it

    As [run_int], [run_str] and [run_other] of MacroModel.v, for the whole interface. *)
Section Start.
Context {V : Type}.

Definition start_int (E : env) (ty : int_type) (x : expansion) (payload : list (Z * V))
  : option (res (list (op Z V) -> list (obs Z V))) :=
  match x with
  | XScanning => Some (Ok (mo_run (prof E) Z.eqb (sm_object Z.eqb (fun k => k)) (sm_from_vec payload)))
  | XPlain NIntegerMap S_ty => Some (m <- im_from_vec E S_ty payload ;; Ok (mo_run (prof E) Z.eqb im_object m))
  | _ => None
  end.

Definition start_str {BH} (hash_string hash_write : BH -> bytes -> Z) (E : env) (bh : BH)
    (x : expansion) (payload : list (bytes * V)) : option (res (list (op bytes V) -> list (obs bytes V))) :=
  match x with
  | XScanning => Some (Ok (mo_run (prof E) bytes_eqb (sm_object bytes_eqb (fun k => k)) (sm_from_vec payload)))
  | XPlain NCommonMap S_ty =>
      Some (m <- cm_from_vec hash_string E S_ty payload bh ;;
            Ok (mo_run (prof E) bytes_eqb (cm_object bytes_eqb (fun k => k) hash_string) m))
  | XPlain NLengthMap S_ty =>
      Some (m <- lm_from_vec zlen E S_ty payload ;;
            Ok (mo_run (prof E) bytes_eqb (lm_object bytes_eqb (fun k => k) zlen) m))
  | XRanged NLeftSliceMap S_ty a b =>
      Some (m <- lsm_from_vec hash_write E S_ty payload a b bh ;;
            Ok (mo_run (prof E) bytes_eqb (lsm_object hash_write) m))
  | XRanged NRightSliceMap S_ty a b =>
      Some (m <- rsm_from_vec hash_write E S_ty payload a b bh ;;
            Ok (mo_run (prof E) bytes_eqb (rsm_object hash_write E) m))
  | _ => None
  end.

Definition start_other {O BH} (eqbO : O -> O -> bool) (hash : BH -> O -> Z) (E : env) (bh : BH)
    (x : expansion) (payload : list (O * V)) : option (res (list (op O V) -> list (obs O V))) :=
  match x with
  | XScanning => Some (Ok (mo_run (prof E) eqbO (sm_object eqbO (fun k => k)) (sm_from_vec payload)))
  | XPlain NCommonMap S_ty =>
      Some (m <- cm_from_vec hash E S_ty payload bh ;;
            Ok (mo_run (prof E) eqbO (cm_object eqbO (fun k => k) hash) m))
  | _ => None
  end.
End Start.
