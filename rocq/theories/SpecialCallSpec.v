(** Vocabulary for the calls that the specialized maps make of the caller's code: a foreign
    (VolatileMaps.v) that behaves like [F] and takes down what it is asked and what it answers, in
    order.  [None] is a panic. *)
From Coq Require Import List ZArith Bool.
From Verif Require Import Spec MapSpec Base VolatileMaps.
Import ListNotations.
Open Scope Z_scope.

Inductive request (K Q V BH : Type) : Type :=
| AskEq (a b : Q) (r : option bool)                             (* a == b *)
| AskValues (a b : V) (r : option bool)                         (* a == b, for values *)
| AskBorrow (k : K) (r : option Q)                              (* k.borrow() *)
| AskHash (bh : BH) (x : K + Q) (r : option Z)                  (* bh.hash_one(x) *)
| AskLen (x : K + Q) (r : option Z)                             (* x.len() *)
| AskInteger (x : K + Q) (r : option Z)                         (* x.as_() *)
| AskSliceHash (bh : BH) (x : K + Q) (a b : Z) (r : option Z)   (* x.hash(bh, a..b) *)
(* the map over a range of integers (RangeSpec.v) *)
| AskZero (r : option K)                                        (* K::zero() *)
| AskLess (a b : K) (r : option bool)                           (* a < b *)
| AskMinusKey (a b : K) (r : option K)                          (* a - b *)
| AskUsizeKey (k : K) (r : option (option Z))                   (* k.to_usize() *)
| AskGe (a b : Q) (r : option bool)                             (* a >= b *)
| AskLe (a b : Q) (r : option bool)                             (* a <= b *)
| AskMinus (a b : Q) (r : option Q)                             (* a - b *)
| AskUsize (q : Q) (r : option (option Z)).                     (* q.to_usize() *)
Arguments AskEq {K Q V BH}. Arguments AskValues {K Q V BH}. Arguments AskBorrow {K Q V BH}.
Arguments AskHash {K Q V BH}. Arguments AskLen {K Q V BH}. Arguments AskInteger {K Q V BH}.
Arguments AskSliceHash {K Q V BH}. Arguments AskZero {K Q V BH}. Arguments AskLess {K Q V BH}.
Arguments AskMinusKey {K Q V BH}. Arguments AskUsizeKey {K Q V BH}. Arguments AskGe {K Q V BH}.
Arguments AskLe {K Q V BH}. Arguments AskMinus {K Q V BH}. Arguments AskUsize {K Q V BH}.

Definition witnessed {W A R} (e : option A -> R) (f : W -> option A * W) (s : W * list R) : option A * (W * list R) :=
  let (a, w) := f (fst s) in (a, (w, snd s ++ [e a])).

Definition witness {W K Q V BH} (F : foreign W K Q BH) : foreign (W * list (request K Q V BH)) K Q BH := {|
  f_eq := fun a b => witnessed (AskEq a b) (f_eq F a b);
  f_borrow := fun k => witnessed (AskBorrow k) (f_borrow F k);
  f_hash_key := fun bh k => witnessed (AskHash bh (inl k)) (f_hash_key F bh k);
  f_hash_query := fun bh q => witnessed (AskHash bh (inr q)) (f_hash_query F bh q);
  f_len_key := fun k => witnessed (AskLen (inl k)) (f_len_key F k);
  f_len_query := fun q => witnessed (AskLen (inr q)) (f_len_query F q);
  f_as_key := fun k => witnessed (AskInteger (inl k)) (f_as_key F k);
  f_as_query := fun q => witnessed (AskInteger (inr q)) (f_as_query F q);
  f_slice_hash_key := fun bh k a b => witnessed (AskSliceHash bh (inl k) a b) (f_slice_hash_key F bh k a b);
  f_slice_hash_query := fun bh q a b => witnessed (AskSliceHash bh (inr q) a b) (f_slice_hash_query F bh q a b)
|}.
Definition witness_values {W K Q V BH} (veq : V -> V -> W -> option bool * W) (a b : V)
  : W * list (request K Q V BH) -> option bool * (W * list (request K Q V BH)) :=
  witnessed (AskValues a b) (veq a b).

(** An answer that is a panic ends the operation. *)
Definition answer {A} (r : option A) : res A := match r with Some a => Ok a | None => Panic PForeign end.

(** The outcome [r] with what [f] makes of a value. *)
Definition over {A B} (f : A -> B) (r : res A) : res B :=
  match r with Ok a => Ok (f a) | Panic p => Panic p | UB u => UB u | OutOfFuel => OutOfFuel end.

Section Asked.
Context {K Q V BH : Type}.
Notation requests := (list (request K Q V BH)).

(** The requests made for the hash code of [x], and the code. *)
Inductive hash_asks (p : profile) (x : K + Q) : shape BH -> res Z -> requests -> Prop :=
| by_hash bh r : hash_asks p x (Common bh) (answer r) [AskHash bh x r]
| by_length r : hash_asks p x Length (answer r) [AskLen x r]
| by_integer r : hash_asks p x Integer (answer r) [AskInteger x r]
| by_left bh a b r : hash_asks p x (LeftSlice bh a b) (answer r) [AskSliceHash bh x a b r]
| right_start_fails bh a b : hash_asks p x (RightSlice bh a b) (Panic PForeign) [AskLen x None]
| right_start_beyond bh a b l pn :
    arith p usize (l - a) = Panic pn -> hash_asks p x (RightSlice bh a b) (Panic pn) [AskLen x (Some l)]
| right_end_fails bh a b l start :
    arith p usize (l - a) = Ok start ->
    hash_asks p x (RightSlice bh a b) (Panic PForeign) [AskLen x (Some l); AskLen x None]
| right_end_beyond bh a b l start l' pn :
    arith p usize (l - a) = Ok start -> arith p usize (l' - b) = Panic pn ->
    hash_asks p x (RightSlice bh a b) (Panic pn) [AskLen x (Some l); AskLen x (Some l')]
| by_right bh a b l start l' end_ r :
    arith p usize (l - a) = Ok start -> arith p usize (l' - b) = Ok end_ ->
    hash_asks p x (RightSlice bh a b) (answer r)
      [AskLen x (Some l); AskLen x (Some l'); AskSliceHash bh x start end_ r].

(** The same where the code is 0 for what is shorter than [least]. *)
Inductive guarded_asks (p : profile) (sh : shape BH) (x : K + Q) : option Z -> res Z -> requests -> Prop :=
| unguarded r log : hash_asks p x sh r log -> guarded_asks p sh x None r log
| guard_fails least : guarded_asks p sh x (Some least) (Panic PForeign) [AskLen x None]
| too_short least l : l < least -> guarded_asks p sh x (Some least) (Ok 0) [AskLen x (Some l)]
| long_enough least l r log : least <= l -> hash_asks p x sh r log ->
    guarded_asks p sh x (Some least) r (AskLen x (Some l) :: log).

(** The maps over slices ask for the length of a key before they analyze it, and for that of a key in
    a query. *)
Definition least_key (sh : shape BH) : option Z :=
  match sh with LeftSlice _ _ b | RightSlice _ _ b => Some b | _ => None end.
Definition least_query (sh : shape BH) : option Z :=
  match sh with LeftSlice _ _ b => Some b | RightSlice _ a _ => Some a | _ => None end.

(** The codes of several keys one after the other, up to the first that cannot be had. *)
Inductive every_asked (asks : K -> res Z -> requests -> Prop) : list K -> res (list Z) -> requests -> Prop :=
| all_done : every_asked asks [] (Ok []) []
| all_next k ks c log r log' :
    asks k (Ok c) log -> every_asked asks ks r log' -> every_asked asks (k :: ks) (over (cons c) r) (log ++ log')
| all_fails k ks p log : asks k (Panic p) log -> every_asked asks (k :: ks) (Panic p) log.

(** Construction, up to what is stored: the codes of all keys for the analysis, then those for the
    table. *)
Definition codes_asked (p : profile) (sh : shape BH) (ks : list K) (r : res (list Z)) (log : requests) : Prop :=
  (exists pn, r = Panic pn /\ every_asked (fun k => guarded_asks p sh (inl k) (least_key sh)) ks (Panic pn) log) \/
  exists first log1 log2, log = log1 ++ log2 /\
    every_asked (fun k => guarded_asks p sh (inl k) (least_key sh)) ks (Ok first) log1 /\
    every_asked (fun k => hash_asks p (inl k) sh) ks r log2.

(** The comparisons of [q] with the keys at certain positions, up to the first that is equal. *)
Inductive compared_with (q : Q) : list (nat * K) -> res (option nat) -> requests -> Prop :=
| none_left : compared_with q [] (Ok None) []
| equal_here i k l b : compared_with q ((i, k) :: l) (Ok (Some i)) [AskBorrow k (Some b); AskEq q b (Some true)]
| further_on i k l b r log :
    compared_with q l r log ->
    compared_with q ((i, k) :: l) r (AskBorrow k (Some b) :: AskEq q b (Some false) :: log)
| borrow_fails i k l : compared_with q ((i, k) :: l) (Panic PForeign) [AskBorrow k None]
| eq_fails i k l b : compared_with q ((i, k) :: l) (Panic PForeign) [AskBorrow k (Some b); AskEq q b None].

(** The positions and keys of the entries whose code is congruent to [c] modulo the number of slots. *)
Definition candidates (n c : Z) (placed : list (Z * K)) : list (nat * K) :=
  map (fun x => (fst x, snd (snd x)))
    (filter (fun x => fst (snd x) mod n =? c mod n) (combine (seq 0 (length placed)) placed)).

(** A lookup in a map with [n] slots that holds the keys [placed], with their codes. *)
Definition search_asked (p : profile) (sh : shape BH) (n : Z) (placed : list (Z * K)) (q : Q)
    (r : res (option nat)) (log : requests) : Prop :=
  match sh with
  | Scanning => compared_with q (combine (seq 0 (length placed)) (map snd placed)) r log
  | _ =>
      (exists pn, r = Panic pn /\ guarded_asks p sh (inr q) (least_query sh) (Panic pn) log) \/
      exists c log1 log2, log = log1 ++ log2 /\
        guarded_asks p sh (inr q) (least_query sh) (Ok c) log1 /\ compared_with q (candidates n c placed) r log2
  end.

(** All pairs of an earlier and a later element. *)
Definition earlier_pairs {A} (l : list A) : list (A * A) :=
  flat_map (fun i => flat_map (fun a => map (pair a) (firstn 1 (skipn i l))) (firstn i l)) (seq 0 (length l)).

(** The comparisons of keys with each other, up to an equal pair; [true]: there is one. *)
Definition pairs_asked (qs : list Q) (r : res bool) (log : requests) : Prop :=
  let unequal := map (fun p => AskEq (fst p) (snd p) (Some false)) in
  r = Ok false /\ log = unequal (earlier_pairs qs) \/
  exists before a b after,
    earlier_pairs qs = before ++ (a, b) :: after /\
    (r = Ok true /\ log = unequal before ++ [AskEq a b (Some true)] \/
     r = Panic PForeign /\ log = unequal before ++ [AskEq a b None]).

(** Several lookups one after the other, up to the first key that is missing. *)
Inductive lookups_asked (asks : Q -> res (option nat) -> requests -> Prop)
  : list Q -> res (option (list nat)) -> requests -> Prop :=
| lookups_done : lookups_asked asks [] (Ok (Some [])) []
| lookup_found q qs i log r log' :
    asks q (Ok (Some i)) log -> lookups_asked asks qs r log' ->
    lookups_asked asks (q :: qs) (over (option_map (cons i)) r) (log ++ log')
| lookup_missing q qs log : asks q (Ok None) log -> lookups_asked asks (q :: qs) (Ok None) log
| lookup_fails q qs p log : asks q (Panic p) log -> lookups_asked asks (q :: qs) (Panic p) log.

(** get_many_mut *)
Definition many_looked_up (asks : Q -> res (option nat) -> requests -> Prop) (qs : list Q)
    (r : res (option (list nat))) (log : requests) : Prop :=
  (pairs_asked qs (Ok true) log /\ r = Ok None) \/ (pairs_asked qs (Panic PForeign) log /\ r = Panic PForeign) \/
  exists log1 log2, log = log1 ++ log2 /\ pairs_asked qs (Ok false) log1 /\ lookups_asked asks qs r log2.
End Asked.

(** ==: each entry of the one map, up to the first that the other, with entries [es], does not hold. *)
Inductive entries_asked {K V BH} (asks : K -> res (option nat) -> list (request K K V BH) -> Prop) (es : list (K * V))
  : list (K * V) -> res bool -> list (request K K V BH) -> Prop :=
| entries_done : entries_asked asks es [] (Ok true) []
| key_missing k v self log : asks k (Ok None) log -> entries_asked asks es ((k, v) :: self) (Ok false) log
| key_fails k v self p log : asks k (Panic p) log -> entries_asked asks es ((k, v) :: self) (Panic p) log
| value_differs k v self i k' v' log :
    asks k (Ok (Some i)) log -> nth_error es i = Some (k', v') ->
    entries_asked asks es ((k, v) :: self) (Ok false) (log ++ [AskValues v v' (Some false)])
| value_fails k v self i k' v' log :
    asks k (Ok (Some i)) log -> nth_error es i = Some (k', v') ->
    entries_asked asks es ((k, v) :: self) (Panic PForeign) (log ++ [AskValues v v' None])
| entry_same k v self i k' v' log r log' :
    asks k (Ok (Some i)) log -> nth_error es i = Some (k', v') -> entries_asked asks es self r log' ->
    entries_asked asks es ((k, v) :: self) r (log ++ AskValues v v' (Some true) :: log').

(** The map after writes through references to values. *)
Definition after_writes {K V BH} (ws : list (nat * V)) (m : special K V BH) : special K V BH :=
  fold_left (fun m pv => sp_write (fst pv) (snd pv) m) ws m.

(** The entry at a position. *)
Definition entry_at {K V} (es : list (K * V)) (o : option nat) : option (K * V) :=
  match o with Some i => nth_error es i | None => None end.
Definition unwrapped {A} (r : res (option A)) : res A :=
  match r with Ok (Some a) => Ok a | Ok None => Panic PUnwrapNone | Panic p => Panic p | UB u => UB u | OutOfFuel => OutOfFuel end.

(** The map [m], of [n] slots, answers as one should that holds the keys [placed], with their codes, in
    this order. *)
Definition answers_as {K V BH} (E : env) (sh : shape BH) (n : Z) (placed : list (Z * K)) (m : special K V BH) : Prop :=
  (forall W Q (F : foreign W K Q BH) q w, exists r w' log,
     sp_find (witness F) E m q (w, []) = (r, (w', log)) /\ search_asked (V := V) (prof E) sh n placed q r log /\
     sp_find F E m q w = (r, w') /\
     sp_get F E m q w = (over (fun o => option_map snd (entry_at (sp_entries m) o)) r, w') /\
     sp_get_key_value F E m q w = (over (entry_at (sp_entries m)) r, w') /\
     sp_contains_key F E m q w = (over (fun o => match o with Some _ => true | None => false end) r, w') /\
     sp_index F E m q w = (unwrapped (over (fun o => option_map snd (entry_at (sp_entries m) o)) r), w') /\
     sp_index_mut F E m q w = (unwrapped r, w')) /\
  (forall W Q (F : foreign W K Q BH) qs w, exists r w' log,
     sp_get_many_mut (witness F) E m qs (w, []) = (r, (w', log)) /\ sp_get_many_mut F E m qs w = (r, w') /\
     many_looked_up (V := V) (search_asked (prof E) sh n placed) qs r log) /\
  (forall W (F : foreign W K K BH) veq (self : special K V BH) w, exists r w' log,
     sp_eq (witness F) E (witness_values veq) self m (w, []) = (r, (w', log)) /\ sp_eq F E veq self m w = (r, w') /\
     (zlen (sp_entries self) <> zlen (sp_entries m) -> r = Ok false /\ log = []) /\
     (zlen (sp_entries self) = zlen (sp_entries m) ->
      entries_asked (search_asked (prof E) sh n placed) (sp_entries m) (sp_entries self) r log)).
