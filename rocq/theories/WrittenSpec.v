(** Written calls of [frozen_map!]. *)
From Coq Require Import List.
From Verif Require Import MacroParse ParseSpec.
Import ListNotations.

(** The parser takes [type_text], followed by a comma, for the type [t], and takes the text of an expression, up to a comma, a
    colon or the end, for that expression. *)
Definition reads_back {T ty expr} (parse_type : list (token T) -> option (ty * list (token T)))
    (parse_expr : list (token T) -> option (expr * list (token T)))
    (text : expr -> list (token T)) (type_text : list (token T)) (t : ty) : Prop :=
  (forall rest, parse_type (type_text ++ Comma :: rest) = Some (t, Comma :: rest)) /\
  (forall e, text e <> []) /\
  (forall e rest, ends_here rest -> parse_expr (text e ++ rest) = Some (e, rest)).

(** The argument: the type, a comma, and the entries separated by commas. *)
Definition written_call {T expr} (text : expr -> list (token T)) (type_text : list (token T)) (trailing : bool)
    (entries : list (expr * expr)) : list (token T) :=
  type_text ++ Comma :: entries_text text trailing entries.

(** What the entries mean. *)
Definition meaning {expr K V} (key_of : expr -> K) (value_of : expr -> V) (entries : list (expr * expr)) : list (K * V) :=
  map (fun e => (key_of (fst e), value_of (snd e))) entries.
