(** Vocabulary for clones of the specialized maps and sets. *)
From Coq Require Import List ZArith Bool.
From Verif Require Import Spec MapSpec Base HistorySpec Volatile VolatileMaps VolatileRange EffectSpec RangeSpec SpecialSets SpecialClone.
Import ListNotations.
Open Scope Z_scope.

(** ** What is copied, and in which order *)

(** The parts of a map that the caller's code copies. *)
Inductive piece (K V BH : Type) : Type :=
| KeyPiece (k : K)
| ValuePiece (v : V)
| HasherPiece (bh : BH).
Arguments KeyPiece {K V BH}. Arguments ValuePiece {K V BH}. Arguments HasherPiece {K V BH}.

Section Pieces.
Context {K V BH : Type}.

Definition entry_pieces (es : list (K * V)) : list (piece K V BH) :=
  flat_map (fun e => [KeyPiece (fst e); ValuePiece (snd e)]) es.
Definition hasher_pieces {V'} (m : special K V' BH) : list (piece K V BH) :=
  match m with
  | InTable (Common bh) _ | InTable (LeftSlice bh _ _) _ | InTable (RightSlice bh _ _) _ => [HasherPiece bh]
  | _ => []
  end.
Definition special_pieces (m : special K V BH) : list (piece K V BH) := entry_pieces (sp_entries m) ++ hasher_pieces m.
Definition range_pieces (m : range_map K V) : list (piece K V BH) :=
  KeyPiece (rg_min m) :: KeyPiece (rg_max m) :: entry_pieces (rg_entries m).
(** The same without values. *)
Definition special_set_pieces (s : special K unit BH) : list (piece K V BH) :=
  map (fun e => KeyPiece (fst e)) (sp_entries s) ++ hasher_pieces s.
Definition range_set_pieces (s : range_map K unit) : list (piece K V BH) :=
  KeyPiece (rg_min s) :: KeyPiece (rg_max s) :: map (fun e => KeyPiece (fst e)) (rg_entries s).

(** A piece with the answer of its [clone], [None] for a panic. *)
Definition piece_copy : Type := piece K V BH * option (piece K V BH).

(** The pieces [plan] are copied one after the other up to the first panic; if there is none the
    result is made up of the copies. *)
Definition copied_in_order (plan : list (piece K V BH)) (r : res (list (piece K V BH))) (log : list piece_copy) : Prop :=
  match r with
  | Ok copies => length copies = length plan /\ log = combine plan (map Some copies)
  | Panic p => p = PForeign /\ exists before x after copies,
      plan = before ++ x :: after /\ length copies = length before /\
      log = combine before (map Some copies) ++ [(x, None)]
  | _ => False
  end.

Definition with_answer {W A} (f : W -> option A * W) (c : A -> piece K V BH) (x : A) (s : W * list piece_copy)
  : option A * (W * list piece_copy) :=
  let (a, w) := f (fst s) in (a, (w, snd s ++ [(c x, option_map c a)])).

(** Copies like [D] and takes down the copies made. *)
Definition noting_copies {W} (D : copying W K V BH) : copying (W * list piece_copy) K V BH := {|
  d_key := fun k => with_answer (d_key D k) KeyPiece k;
  d_value := fun v => with_answer (d_value D v) ValuePiece v;
  d_hasher := fun bh => with_answer (d_hasher D bh) HasherPiece bh
|}.
End Pieces.

(** ** Maps that a caller can have: built, cloned, or after a call of a method *)

Inductive owned_special {W K Q V BH} (F : foreign W K Q BH) (D : copying W K V BH) (E : env) : special K V BH -> Prop :=
| SpecialNew S_ty sh payload w m w' :
    imin S_ty = 0 -> zlen payload < 2 ^ 64 -> sp_from_vec F E S_ty sh payload w = (Ok m, w') -> owned_special F D E m
| SpecialClone m w m' w' : owned_special F D E m -> sp_clone D m w = (Ok m', w') -> owned_special F D E m'
| SpecialUse m o w b m' w' : owned_special F D E m -> sp_step F E m o w = (b, m', w') -> owned_special F D E m'.

Inductive owned_range {W K Q V BH} (G : integers W K Q) (D : copying W K V BH) (srt : sorter) (p : profile)
  : range_map K V -> Prop :=
| RangeNew payload w m w' :
    zlen payload < 2 ^ 64 -> rg_from_vec G srt payload w = (Ok m, w') -> owned_range G D srt p m
| RangeClone m w m' w' : owned_range G D srt p m -> rg_clone D m w = (Ok m', w') -> owned_range G D srt p m'
| RangeUse m o w b m' w' : owned_range G D srt p m -> rg_step G p m o w = (b, m', w') -> owned_range G D srt p m'.

(** ** Lawful code *)

(** The answers of [D] are always those of [cK], [cV] and [cB]. *)
Record copies_as {W K V BH} (D : copying W K V BH) (cK : K -> K) (cV : V -> V) (cB : BH -> BH) : Prop := {
  ca_key : forall k, always (d_key D k) (cK k);
  ca_value : forall v, always (d_value D v) (cV v);
  ca_hasher : forall bh, always (d_hasher D bh) (cB bh)
}.

(** A copied key equals the key, and a copied hasher answers alike. *)
Record true_copies {K Q BH} (a : oracle K Q BH) (cK : K -> K) (cB : BH -> BH) : Prop := {
  tc_key : forall k, a_eq a (a_borrow a k) (a_borrow a (cK k)) = true;
  tc_hash_key : forall bh k, a_hash_key a (cB bh) k = a_hash_key a bh k;
  tc_hash_query : forall bh q, a_hash_query a (cB bh) q = a_hash_query a bh q;
  tc_slice_key : forall bh k i j, a_slice_hash_key a (cB bh) k i j = a_slice_hash_key a bh k i j;
  tc_slice_query : forall bh q i j, a_slice_hash_query a (cB bh) q i j = a_slice_hash_query a bh q i j
}.

(** The maps that a caller can have when all its code is lawful. *)
Inductive lawful_owned {W K Q V BH} (F : foreign W K Q BH) (a : oracle K Q BH) (D : copying W K V BH) (E : env)
  : special K V BH -> Prop :=
| LawfulNew S_ty sh payload w m w' :
    fits S_ty (zlen payload) -> fitting a sh (map fst payload) ->
    distinct (a_eq a) (map (fun e => a_borrow a (fst e)) payload) ->
    sp_from_vec F E S_ty sh payload w = (Ok m, w') -> lawful_owned F a D E m
| LawfulClone m w m' w' : lawful_owned F a D E m -> sp_clone D m w = (Ok m', w') -> lawful_owned F a D E m'
| LawfulUse m o w b m' w' : lawful_owned F a D E m -> sp_step F E m o w = (b, m', w') -> lawful_owned F a D E m'.

Inductive lawful_range_owned {W K Q V BH} (G : integers W K Q) (hi : Z) (value : K -> Z) (D : copying W K V BH)
    (srt : sorter) (p : profile) : range_map K V -> Prop :=
| LawfulRangeNew payload w m w' :
    payload <> [] -> zlen payload < 2 ^ 64 -> zlen payload - 1 <= hi ->
    consecutive (map (fun e => value (fst e)) payload) ->
    rg_from_vec G srt payload w = (Ok m, w') -> lawful_range_owned G hi value D srt p m
| LawfulRangeClone m w m' w' :
    lawful_range_owned G hi value D srt p m -> rg_clone D m w = (Ok m', w') -> lawful_range_owned G hi value D srt p m'
| LawfulRangeUse m o w b m' w' :
    lawful_range_owned G hi value D srt p m -> rg_step G p m o w = (b, m', w') -> lawful_range_owned G hi value D srt p m'.

(** The same for sets, which may contain duplicates. *)
Inductive lawful_set_owned {W T Q V BH} (F : foreign W T Q BH) (a : oracle T Q BH) (D : copying W T V BH) (E : env)
  : special T unit BH -> Prop :=
| LawfulSetNew S_ty sh payload w s w' :
    fits S_ty (zlen payload) -> fitting a sh payload ->
    st_from_vec E F S_ty sh payload w = (Ok s, w') -> lawful_set_owned F a D E s
| LawfulSetClone s w s' w' : lawful_set_owned F a D E s -> st_clone D s w = (Ok s', w') -> lawful_set_owned F a D E s'.

Inductive lawful_range_set_owned {W T Q V BH} (G : integers W T Q) (hi : Z) (value : T -> Z) (D : copying W T V BH)
    (srt : sorter) : range_map T unit -> Prop :=
| LawfulRangeSetNew payload w s w' :
    payload <> [] -> zlen payload < 2 ^ 64 -> zlen payload - 1 <= hi -> consecutive (map value payload) ->
    rs_from_vec G srt payload w = (Ok s, w') -> lawful_range_set_owned G hi value D srt s
| LawfulRangeSetClone s w s' w' :
    lawful_range_set_owned G hi value D srt s -> rs_clone D s w = (Ok s', w') -> lawful_range_set_owned G hi value D srt s'.
