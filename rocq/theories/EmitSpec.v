(** How rustc reads the code emitted by [frozen_map!]: a reader for blocks of the form

      { let m [: PATH<ARGUMENT, ...>] = PATH::from_vec(vec![(KEY, VALUE), ...] [, FROM .. FROM + LEN]); m }

    where PATH is a type of [::frozen_collections::specialized_maps]. *)
From Coq Require Import String List ZArith Bool Arith.
From Verif Require Import Base MacroModel MacroEmit.
Import ListNotations.
Open Scope Z_scope.

Section Read.
Context {ty expr : Type}.
Notation tok := (code_token ty expr).

(** A generic argument. *)
Inductive generic : Type :=
| GUser (t : ty)                       (* the type given by the caller *)
| GHole                                (* _ *)
| GName (path : list string).   (* a name, or names after [::] *)

(** A key: the expression of the caller, or [String::from] applied to it. *)
Inductive key_code : Type := Verbatim (e : expr) | Converted (e : expr).

Record statement : Type := {
  st_annotation : option (string * list generic);
  st_builder : string;
  st_entries : list (key_code * expr);
  st_range : option (Z * Z)
}.

Definition word (t : tok) (w : string) : bool := match t with Word v => String.eqb v w | _ => false end.
Definition sym (t : tok) (w : string) : bool := match t with Sym v => String.eqb v w | _ => false end.

(** Names each preceded by [::]. *)
Fixpoint read_path (l : list tok) : list string * list tok :=
  match l with
  | a :: ((Word w :: l') as l0) =>
      if sym a "::"%string then let (ws, rest) := read_path l' in (w :: ws, rest) else ([], l)
  | _ => ([], l)
  end.

Definition in_library (path : list string) : option (string * list string) :=
  match path with
  | a :: b :: n :: rest =>
      if (String.eqb a "frozen_collections"%string && String.eqb b "specialized_maps"%string)%bool then Some (n, rest) else None
  | _ => None
  end.

Definition read_generic (l : list tok) : option (generic * list tok) :=
  match l with
  | TypeToken t :: l' => Some (GUser t, l')
  | Word w :: l' => Some (if String.eqb w "_"%string then GHole else GName [w], l')
  | _ => match read_path l with ([], _) => None | (p, l') => Some (GName p, l') end
  end.

(** Arguments separated by commas, up to [>]. *)
Fixpoint read_generics (fuel : nat) (l : list tok) : option (list generic * list tok) :=
  match fuel with
  | O => None
  | S fuel' =>
      match read_generic l with
      | Some (g, t :: l') =>
          if sym t ">"%string then Some ([g], l')
          else if sym t ","%string then
            match read_generics fuel' l' with Some (gs, rest) => Some (g :: gs, rest) | None => None end
          else None
      | _ => None
      end
  end.

Definition read_entry (l : list tok) : option (key_code * expr) :=
  match l with
  | [ExprToken k; c; ExprToken v] => if sym c ","%string then Some (Verbatim k, v) else None
  | [s; p; f; Paren [ExprToken k]; c; ExprToken v] =>
      if (word s "String"%string && sym p "::"%string && word f "from"%string && sym c ","%string)%bool
      then Some (Converted k, v) else None
  | _ => None
  end.

(** Tuples, each followed by a comma. *)
Fixpoint read_entries (l : list tok) : option (list (key_code * expr)) :=
  match l with
  | [] => Some []
  | Paren e :: c :: l' =>
      if sym c ","%string then
        match read_entry e, read_entries l' with Some x, Some xs => Some (x :: xs) | _, _ => None end
      else None
  | _ => None
  end.

Definition read_arguments (l : list tok) : option (list (key_code * expr) * option (Z * Z)) :=
  match l with
  | v :: b :: Bracket es :: more =>
      if (word v "vec"%string && sym b "!"%string)%bool then
        match read_entries es, more with
        | Some xs, [] => Some (xs, None)
        | Some xs, [c; Index from; d; Index from'; p; Index len] =>
            if (sym c ","%string && sym d ".."%string && sym p "+"%string)%bool then Some (xs, Some (from, from' + len)) else None
        | _, _ => None
        end
      else None
  | _ => None
  end.

(** After [=]: the call, a semicolon and the result of the block. *)
Definition read_call (annotation : option (string * list generic)) (l : list tok) : option statement :=
  match read_path l with
  | (path, [Paren args; s; r]) =>
      match in_library path, read_arguments args with
      | Some (n, [f]), Some (es, range) =>
          if (String.eqb f "from_vec"%string && sym s ";"%string && word r "m"%string)%bool then
            Some {| st_annotation := annotation; st_builder := n; st_entries := es; st_range := range |}
          else None
      | _, _ => None
      end
  | _ => None
  end.

Definition read_block (l : list tok) : option statement :=
  match l with
  | [Brace (k :: m :: e :: l')] =>
      if (word k "let"%string && word m "m"%string)%bool then
        if sym e "="%string then read_call None l'
        else if sym e ":"%string then
          let (path, l1) := read_path l' in
          match in_library path, l1 with
          | Some (n, []), o :: l2 =>
              if sym o "<"%string then
                match read_generics (length l2) l2 with
                | Some (gs, q :: l3) => if sym q "="%string then read_call (Some (n, gs)) l3 else None
                | _ => None
                end
              else None
          | _, _ => None
          end
        else None
      else None
  | _ => None
  end.
End Read.
Arguments generic : clear implicits.
Arguments key_code : clear implicits.
Arguments statement : clear implicits.

(** The statement agrees with the declarations: known type, as many generic arguments as it admits, the arguments that
    [from_vec] takes, and an annotation of the type that is built. *)
Definition agrees {ty expr} (st : statement ty expr) : Prop :=
  exists least most ranged,
    In (st_builder st, (least, most, ranged)) declarations /\
    (ranged = true <-> st_range st <> None) /\
    (forall n gs, st_annotation st = Some (n, gs) -> n = st_builder st /\ (least <= length gs <= most)%nat).

(** The names in the generated code. *)
Definition title (n : map_name) : string :=
  match n with
  | NCommonMap => "CommonMap"%string
  | NIntegerMap => "IntegerMap"%string
  | NIntegerRangeMap => "IntegerRangeMap"%string
  | NLengthMap => "LengthMap"%string
  | NLeftSliceMap => "LeftSliceMap"%string
  | NRightSliceMap => "RightSliceMap"%string
  end.
Definition size_name {ty} (t : int_type) : generic ty :=
  GName [if bits t =? 8 then "u8"%string else if bits t =? 16 then "u16"%string else "usize"%string].
Definition scanning_name : string := "ScanningMap"%string.
Definition string_name {ty} : generic ty := GName ["String"%string].
Definition random_state_name {ty} : generic ty := GName ["std"%string; "hash"%string; "RandomState"%string].

(** What the code for an expansion should say. *)
Definition should_say {ty expr} (t : macro_type) (input_ty : ty) (entries : list (expr * expr)) (x : expansion) : statement ty expr :=
  let as_given := map (fun e => (Verbatim (fst e), snd e)) entries in
  let converted := map (fun e => (match t with TStr => Converted (fst e) | _ => Verbatim (fst e) end, snd e)) entries in
  let key_type := match t with TStr => string_name | _ => GUser input_ty end in
  match x with
  | XScanning => {| st_annotation := None; st_builder := scanning_name; st_entries := as_given; st_range := None |}
  | XPlain n S_ty =>
      {| st_annotation := Some (title n, [key_type; GHole; size_name S_ty]); st_builder := title n;
         st_entries := converted; st_range := None |}
  | XRanged n S_ty a b =>
      {| st_annotation := Some (title n, [key_type; GHole; size_name S_ty; random_state_name]); st_builder := title n;
         st_entries := converted; st_range := Some (a, b) |}
  end.
