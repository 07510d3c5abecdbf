(** How calls of [frozen_map!] are written. *)
From Coq Require Import List.
From Verif Require Import MacroParse.
Import ListNotations.

Section Text.
Context {T expr : Type}.
Notation token := (token T).

(** The text of the entries: [key : value], each followed by at most one comma. *)
Definition entry_text (text : expr -> list token) (comma : bool) (e : expr * expr) : list token :=
  text (fst e) ++ Colon :: text (snd e) ++ (if comma then [Comma] else []).

(** All entries, with commas between them and possibly one at the end. *)
Fixpoint entries_text (text : expr -> list token) (trailing : bool) (es : list (expr * expr)) : list token :=
  match es with
  | [] => []
  | [e] => entry_text text trailing e
  | e :: es' => entry_text text true e ++ entries_text text trailing es'
  end.

(** Items with commas between them and possibly one at the end, as one would write a set. *)
Fixpoint items_text (text : expr -> list token) (trailing : bool) (items : list expr) : list token :=
  match items with
  | [] => []
  | [x] => text x ++ (if trailing then [Comma] else [])
  | x :: items' => text x ++ Comma :: items_text text trailing items'
  end.

(** What may follow an expression in such a text. *)
Definition ends_here (rest : list token) : Prop :=
  match rest with [] => True | Comma :: _ => True | Colon :: _ => True | Tok _ :: _ => False end.
End Text.

(** [reads_entries parse_expr ts es]: [ts] consists of the entries [es], each a key, a colon, a
    value and a comma, which may be missing; [parse_expr] tells where an expression ends. *)
Inductive reads_entries {T expr} (parse_expr : list (token T) -> option (expr * list (token T)))
  : list (token T) -> list (expr * expr) -> Prop :=
| reads_none : reads_entries parse_expr [] []
| reads_entry : forall ts k v after_key after_value rest es,
    parse_expr ts = Some (k, Colon :: after_key) ->
    parse_expr after_key = Some (v, after_value) ->
    (after_value = Comma :: rest \/ after_value = rest /\ forall r, after_value <> Comma :: r) ->
    reads_entries parse_expr rest es -> reads_entries parse_expr ts ((k, v) :: es).
