(** The examples in the documentation of the library (the code blocks of its doc comments), as data: what is
    put into a collection, what is asked of it, and the answers that the example asserts or announces. *)
From Coq Require Import String List ZArith Bool.
From Verif Require Import Base Maps FrozenMap HistorySpec ProjectTests.
Import ListNotations.
Open Scope Z_scope.

(** The keys and values of the examples: numbers, texts and the structs that the examples declare
    (facades/frozen_map.rs:127-138, facades/frozen_set.rs:109-113). *)
Inductive datum : Type :=
| Number (n : Z)
| Text (s : bytes)
| Viking (name country : bytes)
| Warrior (name : bytes) (power : Z).

(** The derived [==]. *)
Definition datum_eqb (a b : datum) : bool :=
  match a, b with
  | Number m, Number n => m =? n
  | Text s, Text t => bytes_eqb s t
  | Viking m c, Viking n d => bytes_eqb m n && bytes_eqb c d
  | Warrior m p, Warrior n q => bytes_eqb m n && (p =? q)
  | _, _ => false
  end.

Definition doc_text (s : string) : datum := Text (literal_bytes s).
(** A key of type String, of type i32 and of type &str. *)
Definition string_key (s : string) : key datum := KStr (literal_bytes s).
Definition i32_key (n : Z) : key datum := KOther (Number n).
Definition ref_str (s : string) : key datum := KOther (doc_text s).

Record map_example := {
  me_kind : kind;
  me_payload : list (key datum * datum);
  me_story : list (op (key datum) datum * obs (key datum) datum)
}.

Local Open Scope string_scope.

Definition book_reviews : list (key datum * datum) := [
  (string_key "Adventures of Huckleberry Finn", doc_text "My favorite book.");
  (string_key "Grimms' Fairy Tales", doc_text "Masterpiece.");
  (string_key "Pride and Prejudice", doc_text "Very enjoyable.");
  (string_key "The Adventures of Sherlock Holmes", doc_text "Eye lyked it alot.")].
Definition vikings : list (key datum * datum) :=
  map (fun e => (KOther (Viking (literal_bytes (fst (fst e))) (literal_bytes (snd (fst e)))), Number (snd e)))
    [(("Einar", "Norway"), 25); (("Olaf", "Denmark"), 24); (("Harald", "Iceland"), 12)].
Definition libraries : list (key datum * datum) := [
  (string_key "Bodleian Library", Number 1602); (string_key "Athenæum", Number 1807);
  (string_key "Herzogin-Anna-Amalia-Bibliothek", Number 1691); (string_key "Library of Congress", Number 1800)].
Definition one_a : list (key datum * datum) := [(i32_key 1, doc_text "a")].
Definition abc : list (key datum * datum) := [(ref_str "a", Number 1); (ref_str "b", Number 2); (ref_str "c", Number 3)].

(** facades/frozen_map.rs:80-114, 124-151, 168-173, 184-190, 201-206, 320-326, 363-369, 406-412, 456-491,
    519-526, 535-540, 561-566, 576-588, 610-622, 644-656, 682-686. A value is read by [get_mut] and
    written back. *)
Definition map_examples : list map_example := [
  {| me_kind := KindString; me_payload := book_reviews; me_story := [
       (OContainsKey (string_key "Les Misérables"), SawBool false);
       (OLen, SawNumber 4);
       (OGet (string_key "Pride and Prejudice"), SawValue (Some (doc_text "Very enjoyable.")));
       (OGet (string_key "Alice's Adventure in Wonderland"), SawValue None);
       (OIndex (string_key "Pride and Prejudice"), SawValue (Some (doc_text "Very enjoyable.")));
       (OIter, SawItems book_reviews)] |};
  {| me_kind := KindOther; me_payload := vikings; me_story := [(OIter, SawItems vikings)] |};
  {| me_kind := KindOther; me_payload := [(i32_key 1, Number 2); (i32_key 3, Number 4)]; me_story := [] |};
  {| me_kind := KindOther; me_payload := [(i32_key 0, Number 1); (i32_key 2, Number 3)]; me_story := [] |};
  {| me_kind := KindOther; me_payload := one_a; me_story := [
       (OGet (i32_key 1), SawValue (Some (doc_text "a"))); (OGet (i32_key 2), SawValue None);
       (OGetKeyValue (i32_key 1), SawEntry (Some (i32_key 1, doc_text "a"))); (OGetKeyValue (i32_key 2), SawEntry None);
       (OGetMut (i32_key 1) (doc_text "a"), SawBool true); (OGetMut (i32_key 2) (doc_text "a"), SawBool false);
       (OContainsKey (i32_key 1), SawBool true); (OContainsKey (i32_key 2), SawBool false)] |};
  {| me_kind := KindString; me_payload := libraries; me_story := [
       (OGet (string_key "Athenæum"), SawValue (Some (Number 1807)));
       (OGet (string_key "Library of Congress"), SawValue (Some (Number 1800)));
       (OGetManyMut [(string_key "Athenæum", Number 1807); (string_key "Library of Congress", Number 1800)], SawBool true);
       (OGetManyMut [(string_key "Athenæum", Number 1); (string_key "New York Public Library", Number 2)], SawBool false);
       (OGetManyMut [(string_key "Athenæum", Number 1); (string_key "Athenæum", Number 2)], SawBool false);
       (OIter, SawItems libraries)] |};
  {| me_kind := KindOther; me_payload := [(i32_key 1, Number 2)]; me_story := [(OLen, SawNumber 1)] |};
  {| me_kind := KindOther; me_payload := [(i32_key 0, Number 1)]; me_story := [(OIsEmpty, SawBool false)] |};
  {| me_kind := KindOther; me_payload := abc; me_story := [(OIter, SawItems abc)] |}].

Definition wanted_libraries : list (key datum) := [string_key "Athenæum"; string_key "Library of Congress"].

Record set_example := {
  se_kind : kind;
  se_items : list (key datum);
  se_held : list (key datum);
  se_missing : list (key datum)
}.

Definition doc_books : list (key datum) :=
  [string_key "A Dance With Dragons"; string_key "To Kill a Mockingbird"; string_key "The Odyssey"; string_key "The Great Gatsby"].

(** facades/frozen_set.rs:79-100, 106-124, 145-154, 165-175, 186-191, 305-311, 347-352, 362-371, 392-398,
    440-444; specialized_sets/set.rs:20-29 *)
Definition set_examples : list set_example := [
  {| se_kind := KindString; se_items := doc_books; se_held := []; se_missing := [string_key "The Winds of Winter"] |};
  {| se_kind := KindOther;
     se_items := map (fun e => KOther (Warrior (literal_bytes (fst e)) (snd e))) [("Einar", 9); ("Olaf", 4); ("Harald", 8)];
     se_held := []; se_missing := [] |};
  {| se_kind := KindOther; se_items := map i32_key [1; 2; 3]; se_held := map i32_key [1; 2]; se_missing := [i32_key 4] |};
  {| se_kind := KindString; se_items := [string_key "a"; string_key "b"]; se_held := []; se_missing := [] |}].

Local Close Scope string_scope.
