(** Vocabulary for clones: which copies are made, in which order. *)
From Coq Require Import List ZArith Bool.
From Verif Require Import Spec MapSpec Base FrozenMap FrozenSet Volatile VolatileSets HistorySpec History Cloning.
Import ListNotations.
Open Scope Z_scope.

(** A call of somebody's [clone] with its answer, [None] for a panic. *)
Inductive copy (O V : Type) : Type :=
| CopiedKey (x : O) (answer : option O)
| CopiedValue (v : V) (answer : option V)
| CopiedHasher (bh : hasher O) (answer : option (hasher O)).
Arguments CopiedKey {O V}. Arguments CopiedValue {O V}. Arguments CopiedHasher {O V}.

Section Recording.
Context {W O V : Type}.

Definition with_copy {A} (f : W -> option A * W) (c : option A -> copy O V) (s : W * list (copy O V))
  : option A * (W * list (copy O V)) :=
  let (a, w) := f (fst s) in (a, (w, snd s ++ [c a])).

(** Clones like [C] and takes down the copies made. *)
Definition recording_copies (C : cloning W O V) : cloning (W * list (copy O V)) O V := {|
  on_clone := fun x => with_copy (on_clone C x) (CopiedKey x);
  on_clone_value := fun v => with_copy (on_clone_value C v) (CopiedValue v);
  on_clone_hasher := fun bh => with_copy (on_clone_hasher C bh) (CopiedHasher bh)
|}.
End Recording.

Section Copies.
Context {O V : Type}.

(** [k'] is the copy of the key [k]: u32 and String keys are copied by the standard library. *)
Definition key_copied (k k' : key O) (log : list (copy O V)) : Prop :=
  match k with
  | KOther x => exists x', k' = KOther x' /\ log = [CopiedKey x (Some x')]
  | _ => k' = k /\ log = []
  end.

(** The entries [es'] are the copies of the entries [es], one after the other, the key first. *)
Inductive all_copied : list (key O * V) -> list (key O * V) -> list (copy O V) -> Prop :=
| NoneCopied : all_copied [] [] []
| OneCopied k v k' v' es es' log1 log2 :
    key_copied k k' log1 -> all_copied es es' log2 ->
    all_copied ((k, v) :: es) ((k', v') :: es') (log1 ++ [CopiedValue v (Some v')] ++ log2).

(** After the copies of some entries comes one that panics: of a key or of a value. *)
Inductive some_copied (es : list (key O * V)) : list (copy O V) -> Prop :=
| KeyPanics es1 x v es2 es1' log : es = es1 ++ (KOther x, v) :: es2 -> all_copied es1 es1' log ->
    some_copied es (log ++ [CopiedKey x None])
| ValuePanics es1 k v es2 es1' log k' log1 : es = es1 ++ (k, v) :: es2 -> all_copied es1 es1' log ->
    key_copied k k' log1 -> some_copied es (log ++ log1 ++ [CopiedValue v None]).

(** Maps with [n] entries that hold a hasher, as far as the number and the type of the keys tell;
    with String keys it depends on the keys. *)
Definition may_hold_hasher (kd : kind) (n : Z) : Prop := 4 <= n /\ kd <> KindU32.
Definition holds_hasher (kd : kind) (n : Z) : Prop := 4 <= n /\ kd = KindOther.

(** The hasher is copied last, if there is one. *)
Definition hasher_copied (kd : kind) (n : Z) (bh : hasher O) (log : list (copy O V)) : Prop :=
  (log = [] /\ ~ holds_hasher kd n) \/
  (may_hold_hasher kd n /\ exists bh', log = [CopiedHasher bh (Some bh')]).

(** All that can come of copying a map with the entries [es] and the hasher [bh]; [items] are the
    entries of the copy. *)
Definition copies_made (kd : kind) (bh : hasher O) (es : list (key O * V)) (r : res (list (key O * V)))
    (log : list (copy O V)) : Prop :=
  match r with
  | Ok items => exists log1 log2, log = log1 ++ log2 /\ all_copied es items log1 /\ hasher_copied kd (zlen es) bh log2
  | Panic p => p = PForeign /\
      (some_copied es log \/
       exists items log1, all_copied es items log1 /\ may_hold_hasher kd (zlen es) /\ log = log1 ++ [CopiedHasher bh None])
  | _ => False
  end.

(** The hasher that the copy of a map with the hasher [bh] has. *)
Fixpoint hasher_in (bh : hasher O) (log : list (copy O V)) : hasher O :=
  match log with
  | [] => bh
  | CopiedHasher _ (Some bh') :: _ => bh'
  | _ :: log' => hasher_in bh log'
  end.
End Copies.

(** The same for sets. *)
Section SetCopies.
Context {O V : Type}.

Inductive items_copied : list (key O) -> list (key O) -> list (copy O V) -> Prop :=
| NoItemCopied : items_copied [] [] []
| ItemCopied k k' items items' log1 log2 :
    key_copied k k' log1 -> items_copied items items' log2 ->
    items_copied (k :: items) (k' :: items') (log1 ++ log2).

Definition set_copies_made (kd : kind) (bh : hasher O) (items : list (key O)) (r : res (list (key O)))
    (log : list (copy O V)) : Prop :=
  match r with
  | Ok items' => exists log1 log2, log = log1 ++ log2 /\ items_copied items items' log1 /\ hasher_copied kd (zlen items) bh log2
  | Panic p => p = PForeign /\
      ((exists before x after before' log1, items = before ++ KOther x :: after /\ items_copied before before' log1 /\
          log = log1 ++ [CopiedKey x None]) \/
       exists items' log1, items_copied items items' log1 /\ may_hold_hasher kd (zlen items) /\ log = log1 ++ [CopiedHasher bh None])
  | _ => False
  end.
End SetCopies.

(** ** Maps and sets that a caller can have *)

(** Built, cloned, or after a call of one of the methods in HistorySpec.v; [bh] is the hasher. *)
Inductive owned {W O V : Type} (F : conduct W O) (C : cloning W O V) (E : env) (kd : kind)
  : hasher O -> map_types O V -> Prop :=
| OwnedNew payload bh w m w' :
    zlen payload < 2 ^ 64 -> typed kd payload -> v_new F E kd payload bh w = (Ok m, w') ->
    owned F C E kd bh m
| OwnedClone bh m w m' w' log :
    owned F C E kd bh m -> fm_clone (recording_copies C) m (w, []) = (Ok m', (w', log)) ->
    owned F C E kd (hasher_in bh log) m'
| OwnedUse bh m o w b m' w' :
    owned F C E kd bh m -> (forall k, In k (op_keys o) -> has_kind kd k) -> v_step F E m o w = (b, m', w') ->
    owned F C E kd bh m'.

(** Sets do not change. *)
Inductive owned_set {W O V : Type} (F : conduct W O) (C : cloning W O V) (E : env) (kd : kind)
  : hasher O -> set_types O -> Prop :=
| OwnedSetNew payload bh w s w' :
    zlen payload < 2 ^ 64 -> (forall x, In x payload -> has_kind kd x) -> v_fs_new F E kd payload bh w = (Ok s, w') ->
    owned_set F C E kd bh s
| OwnedSetClone bh s w s' w' log :
    owned_set F C E kd bh s -> fs_clone (recording_copies C) s (w, []) = (Ok s', (w', log)) ->
    owned_set F C E kd (hasher_in bh log) s'.

(** Code that always answers alike; it may have effects. *)
Definition clones_as {W A} (f : A -> W -> option A * W) (c : A -> A) : Prop :=
  forall a w, exists w', f a w = (Some (c a), w').

Definition copied_key {O} (cO : O -> O) (k : key O) : key O :=
  match k with KOther x => KOther (cO x) | k => k end.

(** The hashers answer alike. *)
Definition hash_alike {O} (bh bh' : hasher O) : Prop :=
  (forall k, hash_one bh' k = hash_one bh k) /\ forall s, hash_write bh' s = hash_write bh s.
