(** Vocabulary for the calls that a FrozenMap makes of the caller's code: a conduct (Volatile.v)
    that behaves like [F] and takes down what it is asked, in order. *)
From Coq Require Import List ZArith Bool.
From Verif Require Import Spec MapSpec Base FrozenMap Volatile.
Import ListNotations.
Open Scope Z_scope.

Inductive event (O : Type) : Type :=
| Compared (a b : O)                          (* a == b *)
| Hashed (bh : hasher O) (k : key O)          (* bh.hash_one(k) *)
| HashedSlice (bh : hasher O) (s : list Z)    (* bh.hash_one(s), s: &[u8] *)
| HashedPart (bh : hasher O) (s : list Z).    (* build_hasher, write(s), finish *)
Arguments Compared {O}. Arguments Hashed {O}. Arguments HashedSlice {O}. Arguments HashedPart {O}.

Section Recording.
Context {W O : Type}.

Definition noting {A} (e : event O) (f : W -> option A * W) (s : W * list (event O))
  : option A * (W * list (event O)) :=
  let (a, w) := f (fst s) in (a, (w, snd s ++ [e])).

Definition recording (F : conduct W O) : conduct (W * list (event O)) O := {|
  on_eq := fun a b => noting (Compared a b) (on_eq F a b);
  on_hash := fun bh k => noting (Hashed bh k) (on_hash F bh k);
  on_hash_slice := fun bh s => noting (HashedSlice bh s) (on_hash_slice F bh s);
  on_hash_write := fun bh s => noting (HashedPart bh s) (on_hash_write F bh s)
|}.
End Recording.

Definition is_comparison {O} (e : event O) : bool := match e with Compared _ _ => true | _ => false end.
Definition comparisons_in {O} (l : list (event O)) : Z := Z.of_nat (length (filter is_comparison l)).
Definition hashes_in {O} (l : list (event O)) : Z :=
  Z.of_nat (length (filter (fun e => negb (is_comparison e)) l)).

Definition prefix {A} (l full : list A) : Prop := exists rest, full = l ++ rest.

(** [w] consists of 1 to 16 consecutive elements of [s]. *)
Definition window_of {A} (s w : list A) : Prop :=
  (1 <= length w <= 16)%nat /\ exists before after, s = before ++ w ++ after.

(** The call of [==] made when a key in a query is compared with the key of an entry; u32 and String
    keys have their standard equality. *)
Definition comparing {O V} (k : key O) (e : key O * V) : list (event O) :=
  match k, fst e with KOther x, KOther y => [Compared x y] | _, _ => [] end.

(** A function that leaves the record alone. *)
Definition quietly {W A B} (f : W -> option A * W) (s : W * B) : option A * (W * B) :=
  let (a, w) := f (fst s) in (a, (w, snd s)).

Definition hash_all {O V} (bh : hasher O) (payload : list (key O * V)) : list (event O) :=
  map (fun e => Hashed bh (fst e)) payload.

(** The calls made for string keys after their analysis: none, or all keys hashed twice, or one
    window of all keys hashed twice. *)
Definition string_calls {O V} (bh : hasher O) (payload : list (key O * V)) (full : list (event O)) : Prop :=
  full = [] \/ full = hash_all bh payload ++ hash_all bh payload \/
  exists i l, (1 <= l <= 16)%nat /\ (forall s, In s (str_keys payload) -> (i + l <= length s)%nat) /\
    let parts := map (fun s => HashedPart bh (left_win i l s)) (str_keys payload) in full = parts ++ parts.

(** What a lookup asks of the hasher in a map with [n] entries. *)
Definition code_asked {O} (kd : kind) (n : Z) (bh : hasher O) (k : key O) (code : list (event O)) : Prop :=
  if n <? 4 then code = []
  else
    match kd with
    | KindU32 => code = []
    | KindOther => code = [Hashed bh k]
    | KindString =>
        code = [] \/ code = [Hashed bh k] \/
        exists s i l, k = KStr s /\ (i + l <= length s)%nat /\ code = [HashedPart bh (left_win i l s)]
    end.

(** What a lookup among the entries [es] asks: one code at most, then comparisons with consecutive
    entries, the last of which is the one found. *)
Definition lookup_asks {O V} (kd : kind) (bh : hasher O) (k : key O) (es : list (key O * V))
    (r : res (option nat)) (calls : list (event O)) : Prop :=
  exists code start n, calls = code ++ flat_map (comparing k) (firstn n (skipn start es)) /\
    (start + n <= length es)%nat /\ (forall i, r = Ok (Some i) -> (i + 1 = start + n /\ 1 <= n)%nat) /\
    code_asked kd (zlen es) bh k code.

(** The call of [==] between two keys. *)
Definition compared {O} (a b : key O) : list (event O) :=
  match a, b with KOther x, KOther y => [Compared x y] | _, _ => [] end.

(** Each key compared with those before it. *)
Definition pairs_compared {O} (keys : list (key O)) : list (event O) :=
  flat_map (fun i => flat_map (fun a => flat_map (compared a) (firstn 1 (skipn i keys))) (firstn i keys))
    (seq 0 (length keys)).

(** No value has come out. *)
Definition failed {A} (r : res A) : Prop := forall a, r <> Ok a.

(** Lookups of several keys one after the other, up to the first that is not found. *)
Inductive lookups_ask {O V} (kd : kind) (bh : hasher O) (es : list (key O * V)) :
    list (key O) -> res (option (list nat)) -> list (event O) -> Prop :=
| asked_all : lookups_ask kd bh es [] (Ok (Some [])) []
| asked_found k keys i c r c' :
    lookup_asks kd bh k es (Ok (Some i)) c -> lookups_ask kd bh es keys (Ok r) c' ->
    lookups_ask kd bh es (k :: keys) (Ok (option_map (cons i) r)) (c ++ c')
| asked_then_failed k keys i c r r' c' :
    lookup_asks kd bh k es (Ok (Some i)) c -> lookups_ask kd bh es keys r c' -> failed r -> failed r' ->
    lookups_ask kd bh es (k :: keys) r' (c ++ c')
| asked_missing k keys c :
    lookup_asks kd bh k es (Ok None) c -> lookups_ask kd bh es (k :: keys) (Ok None) c
| asked_failed k keys r r' c :
    lookup_asks kd bh k es r c -> failed r -> failed r' -> lookups_ask kd bh es (k :: keys) r' c.

(** get_many_mut: the keys are compared with each other, up to an equal pair; if there is none, they
    are looked up. *)
Definition many_asked {O V} (kd : kind) (bh : hasher O) (es : list (key O * V)) (keys : list (key O))
    (r : res (option (list nat))) (calls : list (event O)) : Prop :=
  (prefix calls (pairs_compared keys) /\ forall ps, r <> Ok (Some ps)) \/
  exists looked, calls = pairs_compared keys ++ looked /\ lookups_ask kd bh es keys r looked.

(** ==: the keys of the entries [self] are looked up one after the other, up to the first that is
    missing or has another value. *)
Inductive entries_ask {O V} (kd : kind) (bh : hasher O) (es : list (key O * V)) :
    list (key O * V) -> res bool -> list (event O) -> Prop :=
| asked_each : entries_ask kd bh es [] (Ok true) []
| asked_same e self i c r c' :
    lookup_asks kd bh (fst e) es (Ok (Some i)) c -> entries_ask kd bh es self r c' ->
    entries_ask kd bh es (e :: self) r (c ++ c')
| asked_other e self r0 r c :
    lookup_asks kd bh (fst e) es r0 c -> r <> Ok true -> entries_ask kd bh es (e :: self) r c.
