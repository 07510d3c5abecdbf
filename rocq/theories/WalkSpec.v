(** What one should see when walking over a map or a set. *)
From Coq Require Import List ZArith Permutation Sorted.
From Verif Require Import IterSpec Base Iterators Walks.
Import ListNotations.
Open Scope Z_scope.

(** The entries after assignments through references to values: (position, new value). *)
Definition assign_value {K V} (es : list (K * V)) (w : nat * V) : list (K * V) :=
  match nth_error es (fst w) with
  | Some e => firstn (fst w) es ++ (fst e, snd w) :: skipn (S (fst w)) es
  | None => es
  end.
Definition assigned {K V} (ws : list (nat * V)) (es : list (K * V)) : list (K * V) := fold_left assign_value ws es.

(** What a map becomes by such assignments. *)
Definition changed {M V} (write : nat -> V -> M -> M) (m : M) (ws : list (nat * V)) : M :=
  fold_left (fun m w => write (fst w) (snd w) m) ws m.

(** The three iterators of the map, and of what it becomes by any assignments, present the entries, their
    keys and their values in the order of [es]. *)
Definition walks_in {M K V} (pr : profile) (write : nat -> V -> M -> M) (walk_of : M -> walk K V) (m : M) (es : list (K * V)) : Prop :=
  forall ws, let m' := changed write m ws in
    yields (it_next pr) (w_iter (walk_of m')) (assigned ws es) /\
    yields (keys_next pr) (w_keys (walk_of m')) (map fst es) /\
    yields (values_next pr) (w_values (walk_of m')) (map snd (assigned ws es)).

(** Both iterators of a set present the items in the same order. *)
Definition set_walks_in {T} (pr : profile) (w : set_walk T) (items : list T) : Prop :=
  yields (keys_next pr) (sw_iter w) items /\ yields into_iter_next (sw_into w) items.

(** The entries are grouped by slot, in descending order of slots. *)
Definition by_slot {K V} (code : K -> Z) (slots : Z) (es : list (K * V)) : Prop :=
  StronglySorted (fun e e' => code (fst e') mod slots <= code (fst e) mod slots) es.
