(** Vocabulary for IntegerRangeMap and IntegerRangeSet over keys whose arithmetic and order are code of
    the caller. *)
From Coq Require Import List ZArith Bool Permutation Sorted.
From Verif Require Import Spec Base RunSpec Volatile VolatileSets VolatileSetSpec EffectSpec VolatileMaps VolatileRange SpecialCallSpec.
Import ListNotations.
Open Scope Z_scope.

(** ** The sort of the standard library *)

(** How it may end and what it may compare, for some answers. *)
Inductive may_end {A} : sorting A -> option (list A) -> Prop :=
| ends_here r : may_end (Ended r) r
| ends_later a b next answer r : may_end (next answer) r -> may_end (Compare a b next) r.
Inductive may_compare {A} : sorting A -> A -> A -> Prop :=
| compares_here a b next : may_compare (Compare a b next) a b
| compares_later a b next answer c d : may_compare (next answer) c d -> may_compare (Compare a b next) c d.
(** How it ends when the answers are those of [less]. *)
Fixpoint ends_as {A} (less : A -> A -> bool) (s : sorting A) : option (list A) :=
  match s with
  | Ended r => r
  | Compare a b next => ends_as less (next (less a b))
  end.

(** It only rearranges the elements; it compares only elements of the list; it sorts by integers. *)
Record sorter_ok (srt : sorter) : Prop := {
  so_permutes : forall A (l l' : list A), may_end (srt A l) (Some l') -> Permutation l l';
  so_within : forall A (l : list A) a b, may_compare (srt A l) a b -> In a l /\ In b l;
  so_sorts : forall A (key : A -> Z) (l : list A), exists l',
    ends_as (fun a b => key a <? key b) (srt A l) = Some l' /\ StronglySorted Z.le (map key l')
}.

(** ** Calls *)

(** Arithmetic and order, taking down what they are asked and what they answer. *)
Definition overhear {W K Q V BH} (G : integers W K Q) : integers (W * list (request K Q V BH)) K Q := {|
  g_zero := witnessed AskZero (g_zero G);
  g_less := fun a b => witnessed (AskLess a b) (g_less G a b);
  g_minus_key := fun a b => witnessed (AskMinusKey a b) (g_minus_key G a b);
  g_usize_key := fun k => witnessed (AskUsizeKey k) (g_usize_key G k);
  g_borrow := fun k => witnessed (AskBorrow k) (g_borrow G k);
  g_ge := fun a b => witnessed (AskGe a b) (g_ge G a b);
  g_le := fun a b => witnessed (AskLe a b) (g_le G a b);
  g_minus := fun a b => witnessed (AskMinus a b) (g_minus G a b);
  g_usize := fun q => witnessed (AskUsize q) (g_usize G q);
  g_same := fun a b => witnessed (AskEq a b) (g_same G a b)
|}.

Section Asked.
Context {K Q V BH : Type}.
Notation requests := (list (request K Q V BH)).

(** Comparisons of keys among [ks], all of them answered. *)
Definition keys_compared (ks : list K) (log : requests) : Prop :=
  Forall (fun e => exists a b r, e = AskLess a b (Some r) /\ In a ks /\ In b ks) log.

(** The check that [max - min] is one less than the number [n] of entries. *)
Inductive spread_asked (min max : K) (n : Z) : res unit -> requests -> Prop :=
| minus_fails : spread_asked min max n (Panic PForeign) [AskMinusKey max min None]
| usize_fails d : spread_asked min max n (Panic PForeign) [AskMinusKey max min (Some d); AskUsizeKey d None]
| not_usize d : spread_asked min max n (Panic PUnwrapNone) [AskMinusKey max min (Some d); AskUsizeKey d (Some None)]
| other_spread d s : s <> n - 1 ->
    spread_asked min max n (Panic PAssert) [AskMinusKey max min (Some d); AskUsizeKey d (Some (Some s))]
| right_spread d :
    spread_asked min max n (Ok tt) [AskMinusKey max min (Some d); AskUsizeKey d (Some (Some (n - 1)))].

(** Construction; [gives_up]: the sort may panic by itself. *)
Inductive range_built (gives_up : Prop) : list (K * V) -> res (range_map K V) -> requests -> Prop :=
| first_zero_fails : range_built gives_up [] (Panic PForeign) [AskZero None]
| second_zero_fails a : range_built gives_up [] (Panic PForeign) [AskZero (Some a); AskZero None]
| built_empty a b :
    range_built gives_up [] (Ok {| rg_min := a; rg_max := b; rg_entries := [] |}) [AskZero (Some a); AskZero (Some b)]
| comparison_fails payload log a b : payload <> [] ->
    keys_compared (map fst payload) log -> In a (map fst payload) -> In b (map fst payload) ->
    range_built gives_up payload (Panic PForeign) (log ++ [AskLess a b None])
| sort_gives_up payload log : payload <> [] ->
    keys_compared (map fst payload) log -> gives_up -> range_built gives_up payload (Panic PForeign) log
| built_sorted payload log sorted min max r log' : payload <> [] ->
    keys_compared (map fst payload) log -> Permutation payload sorted ->
    hd_error (map fst sorted) = Some min -> hd_error (rev (map fst sorted)) = Some max ->
    spread_asked min max (zlen payload) r log' ->
    range_built gives_up payload (over (fun _ => {| rg_min := min; rg_max := max; rg_entries := sorted |}) r) (log ++ log').

(** The request with a panic in place of its answer. *)
Definition unanswered (e : request K Q V BH) : request K Q V BH :=
  match e with
  | AskEq a b _ => AskEq a b None
  | AskValues a b _ => AskValues a b None
  | AskBorrow k _ => AskBorrow k None
  | AskHash bh x _ => AskHash bh x None
  | AskLen x _ => AskLen x None
  | AskInteger x _ => AskInteger x None
  | AskSliceHash bh x a b _ => AskSliceHash bh x a b None
  | AskZero _ => AskZero None
  | AskLess a b _ => AskLess a b None
  | AskMinusKey a b _ => AskMinusKey a b None
  | AskUsizeKey k _ => AskUsizeKey k None
  | AskGe a b _ => AskGe a b None
  | AskLe a b _ => AskLe a b None
  | AskMinus a b _ => AskMinus a b None
  | AskUsize q _ => AskUsize q None
  end.

(** The requests of a lookup in full: [q] is compared with the borrowed form of [min] and of [max], and
    the former is then asked for again and subtracted. *)
Definition lookup_requests (min max : K) (q b1 b2 b3 d : Q) (i : Z) : requests :=
  [AskBorrow min (Some b1); AskGe q b1 (Some true); AskBorrow max (Some b2); AskLe q b2 (Some true);
   AskBorrow min (Some b3); AskMinus q b3 (Some d); AskUsize d (Some (Some i))].

(** A lookup of [q] among [n] entries. *)
Inductive range_searched (min max : K) (n : Z) (q : Q) : res (option nat) -> requests -> Prop :=
| in_range b1 b2 b3 d i : 0 <= i < n ->
    range_searched min max n q (Ok (Some (Z.to_nat i))) (lookup_requests min max q b1 b2 b3 d i)
| out_of_bounds b1 b2 b3 d i : ~ 0 <= i < n ->
    range_searched min max n q (Panic PIndexOutOfBounds) (lookup_requests min max q b1 b2 b3 d i)
| not_above b1 :
    range_searched min max n q (Ok None) [AskBorrow min (Some b1); AskGe q b1 (Some false)]
| not_below b1 b2 :
    range_searched min max n q (Ok None)
      [AskBorrow min (Some b1); AskGe q b1 (Some true); AskBorrow max (Some b2); AskLe q b2 (Some false)]
| no_index b1 b2 b3 d :
    range_searched min max n q (Ok None)
      [AskBorrow min (Some b1); AskGe q b1 (Some true); AskBorrow max (Some b2); AskLe q b2 (Some true);
       AskBorrow min (Some b3); AskMinus q b3 (Some d); AskUsize d (Some None)]
| lookup_interrupted b1 b2 b3 d i before e after : lookup_requests min max q b1 b2 b3 d i = before ++ e :: after ->
    range_searched min max n q (Panic PForeign) (before ++ [unanswered e]).
End Asked.

(** The map after writes through references to values. *)
Definition after_range_writes {K V} (ws : list (nat * V)) (m : range_map K V) : range_map K V :=
  fold_left (fun m pv => rg_write (fst pv) (snd pv) m) ws m.

(** The calls made by one question to [contains] of a set, with its answer. *)
Definition range_set_asked {T BH} (min max : T) (n : Z) (x : T) (answer : bool + panic)
    (calls : list (request T T unit BH)) : Prop :=
  exists r, range_searched min max n x r calls /\
    match answer, r with
    | inl true, Ok (Some _) | inl false, Ok None => True
    | inr a, Panic b => a = b
    | _, _ => False
    end.

(** A set to run the set operations on: it has these items, and [asks] tells what calls of the caller's
    code a question to it makes. *)
Record operand {W T St Ev} (v : vol_set (W * list Ev) T St) (items : list T)
    (asks : T -> bool + panic -> list Ev -> Prop) : Prop := {
  od_len : vs_len v = zlen items;
  od_iter : runs_through (vs_next v) (vs_iter v) items;
  od_contains : forall x w log, exists r w' calls,
    vs_contains v x (w, log) = (r, (w', log ++ calls)) /\ asks x (outcome r) calls /\
    ((exists p, r = Panic p) \/ exists b, r = Ok b)
}.

(** ** Integers that behave as such *)

(** The answer always has the property [P]. *)
Definition answering {W A} (f : W -> option A * W) (P : A -> Prop) : Prop := forall w, exists a, fst (f w) = Some a /\ P a.

(** Each key and each borrowed form stands for an integer between [lo] and [hi], and the answers are
    those to the same question about integers; differences outside this range are left open. *)
Record lawful_integers {W K Q} (G : integers W K Q) (lo hi : Z) (key_value : K -> Z) (value : Q -> Z) : Prop := {
  li_key : forall k, lo <= key_value k <= hi;
  li_query : forall q, lo <= value q <= hi;
  li_zero : answering (g_zero G) (fun k => key_value k = 0);
  li_less : forall a b, always (g_less G a b) (key_value a <? key_value b);
  li_minus_key : forall a b, lo <= key_value a - key_value b <= hi ->
    answering (g_minus_key G a b) (fun d => key_value d = key_value a - key_value b);
  li_usize_key : forall k, always (g_usize_key G k) (to_usize (key_value k));
  li_borrow : forall k, answering (g_borrow G k) (fun q => value q = key_value k);
  li_ge : forall a b, always (g_ge G a b) (value b <=? value a);
  li_le : forall a b, always (g_le G a b) (value a <=? value b);
  li_minus : forall a b, lo <= value a - value b <= hi ->
    answering (g_minus G a b) (fun d => value d = value a - value b);
  li_usize : forall q, always (g_usize G q) (to_usize (value q));
  li_same : forall a b, always (g_same G a b) (value a =? value b)
}.
