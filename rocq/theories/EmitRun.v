(** A whole call of [frozen_map!], from the tokens of the argument to the tokens emitted, and what a generated
    block does when it is compiled and run. *)
From Coq Require Import String List ZArith Bool Arith.
From Verif Require Import Base HashTable Maps Iterators HistorySpec MapObjects MacroModel MacroParse MacroEmit EmitSpec.
Import ListNotations.
Open Scope Z_scope.

(** macros/frozen_map.rs:65-199: [parse2(args)?], then the code.  [None]: out of fuel; [Some None]: a syntax error. *)
Definition frozen_map_output {T ty expr O} (parse_type : list (token T) -> option (ty * list (token T)))
    (parse_expr : list (token T) -> option (expr * list (token T)))
    (classify : ty -> macro_type) (literal_of : expr -> literal O) (pr : profile) (h : bytes -> Z) (args : list (token T))
  : option (option (res (list (code_token ty expr)))) :=
  match parse_map parse_type parse_expr args with
  | None => None
  | Some None => Some None
  | Some (Some input) => Some (Some (emit classify literal_of pr h input))
  end.

(** ** Compiling and running a block

    Of the work of rustc these parts are modelled: the type called exists, it has the generic parameters given, [from_vec] takes
    the arguments given (declarations cited at [declarations]), the annotated type is the type called, and the
    keys are of the annotated type. [None] below means that rustc rejects the block. *)
Section Execute.
Context {ty expr : Type}.

Definition declared (n : string) : option (nat * nat * bool) :=
  option_map snd (find (fun d => String.eqb (fst d) n) declarations).

Definition is_some {A} (o : option A) : bool := match o with Some _ => true | None => false end.
Definition is_converted (k : key_code expr) : bool := match k with Converted _ => true | Verbatim _ => false end.

Definition compiles (st : statement ty expr) : bool :=
  match declared (st_builder st) with
  | None => false
  | Some (least, most, ranged) =>
      Bool.eqb ranged (is_some (st_range st)) &&
      match st_annotation st with
      | None => true
      | Some (n, gs) =>
          String.eqb n (st_builder st) && (least <=? length gs)%nat && (length gs <=? most)%nat &&
          match gs with
          | GUser _ :: _ => forallb (fun e => negb (is_converted (fst e))) (st_entries st)
          | GName [s] :: _ => String.eqb s "String"%string && forallb (fun e => is_converted (fst e)) (st_entries st)
          | _ => true
          end
      end
  end.

(** The third generic argument. *)
Definition size_type (st : statement ty expr) : option int_type :=
  match st_annotation st with
  | Some (_, _ :: _ :: GName [s] :: _) =>
      if String.eqb s "u8"%string then Some u8
      else if String.eqb s "u16"%string then Some u16
      else if String.eqb s "usize"%string then Some usize else None
  | _ => None
  end.

Definition key_expr (k : key_code expr) : expr := match k with Verbatim e | Converted e => e end.

Context {K V BH : Type}.
Variable E : env.
Variable bh : BH.   (* RandomState::default() *)

(** The Vec given to [from_vec]; [key_of] and [value_of] evaluate expressions. *)
Definition vec_of (key_of : expr -> K) (value_of : expr -> V) (st : statement ty expr) : list (K * V) :=
  map (fun e => (key_of (key_expr (fst e)), value_of (snd e))) (st_entries st).

Notation runs k := (list (op k V) -> list (obs k V)).

Definition execute_scanning (eqb : K -> K -> bool) (vec : list (K * V)) : res (runs K) :=
  Ok (mo_run (prof E) eqb (sm_object eqb (fun k => k)) (sm_from_vec vec)).
Definition execute_common (eqb : K -> K -> bool) (hash : BH -> K -> Z) (S_ty : int_type) (vec : list (K * V)) : res (runs K) :=
  m <- cm_from_vec hash E S_ty vec bh ;; Ok (mo_run (prof E) eqb (cm_object eqb (fun k => k) hash) m).
End Execute.

(** Keys of any type with Hash and Eq: ScanningMap, CommonMap. *)
Definition execute_other {ty expr K V BH} (E : env) (bh : BH) (eqb : K -> K -> bool) (hash : BH -> K -> Z)
    (key_of : expr -> K) (value_of : expr -> V) (st : statement ty expr)
  : option (res (list (op K V) -> list (obs K V))) :=
  if compiles st then
    let vec := vec_of key_of value_of st in
    if String.eqb (st_builder st) "ScanningMap"%string then Some (execute_scanning E eqb vec)
    else match size_type st with
         | Some S_ty =>
             if String.eqb (st_builder st) "CommonMap"%string then Some (execute_common E bh eqb hash S_ty vec) else None
         | None => None
         end
  else None.

(** Integers of type [it] also IntegerMap and IntegerRangeMap. *)
Definition execute_int {ty expr V BH} (E : env) (bh : BH) (it : int_type) (hash : BH -> Z -> Z)
    (key_of : expr -> Z) (value_of : expr -> V) (st : statement ty expr)
  : option (res (list (op Z V) -> list (obs Z V))) :=
  if compiles st then
    let vec := vec_of key_of value_of st in
    if String.eqb (st_builder st) "ScanningMap"%string then Some (execute_scanning E Z.eqb vec)
    else if String.eqb (st_builder st) "IntegerRangeMap"%string then
      Some (m <- irm_from_vec (prof E) it vec ;; Ok (mo_run (prof E) Z.eqb (irm_object (prof E) it) m))
    else match size_type st with
         | Some S_ty =>
             if String.eqb (st_builder st) "CommonMap"%string then Some (execute_common E bh Z.eqb hash S_ty vec)
             else if String.eqb (st_builder st) "IntegerMap"%string then
               Some (m <- im_from_vec E S_ty vec ;; Ok (mo_run (prof E) Z.eqb im_object m))
             else None
         | None => None
         end
  else None.

(** Strings also LengthMap and the slice maps. *)
Definition execute_str {ty expr V BH} (E : env) (bh : BH) (hash_string hash_write : BH -> bytes -> Z)
    (key_of : expr -> bytes) (value_of : expr -> V) (st : statement ty expr)
  : option (res (list (op bytes V) -> list (obs bytes V))) :=
  if compiles st then
    let vec := vec_of key_of value_of st in
    if String.eqb (st_builder st) "ScanningMap"%string then Some (execute_scanning E bytes_eqb vec)
    else match size_type st with
         | Some S_ty =>
             if String.eqb (st_builder st) "CommonMap"%string then Some (execute_common E bh bytes_eqb hash_string S_ty vec)
             else if String.eqb (st_builder st) "LengthMap"%string then
               Some (m <- lm_from_vec zlen E S_ty vec ;; Ok (mo_run (prof E) bytes_eqb (lm_object bytes_eqb (fun k => k) zlen) m))
             else match st_range st with
                  | Some (a, b) =>
                      if String.eqb (st_builder st) "LeftSliceMap"%string then
                        Some (m <- lsm_from_vec hash_write E S_ty vec a b bh ;;
                              Ok (mo_run (prof E) bytes_eqb (lsm_object hash_write) m))
                      else if String.eqb (st_builder st) "RightSliceMap"%string then
                        Some (m <- rsm_from_vec hash_write E S_ty vec a b bh ;;
                              Ok (mo_run (prof E) bytes_eqb (rsm_object hash_write E) m))
                      else None
                  | None => None
                  end
         | None => None
         end
  else None.
