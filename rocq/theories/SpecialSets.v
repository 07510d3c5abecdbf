(** The specialized sets, except the one over a range of integers, for items and hashers whose answers
    may change from call to call and may panic (see VolatileMaps.v and VolatileSets.v).  A set is a map
    without values. *)
From Coq Require Import List ZArith Bool.
From Verif Require Import Base Iterators Sets Volatile VolatileMaps VolatileSets.
Import ListNotations.
Open Scope Z_scope.

Section Sets.
Context {W T BH : Type}.
Variable E : env.

Section Asking.
Context {Q : Type}.
Variable F : foreign W T Q BH.

(** scanning_set.rs:24-28, common_set.rs:53-57, length_set.rs:25-29, integer_set.rs:25-29,
    left_slice_set.rs:27-35, right_slice_set.rs:27-35 *)
Definition st_from_vec (S_ty : int_type) (sh : shape BH) (payload : list T) : M W (special T unit BH) :=
  sp_from_vec F E S_ty sh (with_unit payload).

(** scanning_set.rs:34-40, common_set.rs:134-140, length_set.rs:38-44, integer_set.rs:33-39,
    left_slice_set.rs:61-67, right_slice_set.rs:61-67 *)
Definition st_get (s : special T unit BH) (value : Q) : M W (option T) :=
  r <~ sp_get_key_value F E s value ;; lift (Ok (option_map fst r)).

(** scanning_set.rs:44-50, common_set.rs:156-162, length_set.rs:48-54, integer_set.rs:43-49,
    left_slice_set.rs:71-77, right_slice_set.rs:71-77 *)
Definition st_contains (s : special T unit BH) (value : Q) : M W bool :=
  r <~ st_get s value ;; lift (Ok (match r with Some _ => true | None => false end)).
End Asking.

(** The items in the order of the entries. *)
Definition st_items (s : special T unit BH) : list T := map fst (sp_entries s).

(** [Set<T>] for the sets, e.g. common_set.rs:268-287 and 193-197: an item asks for itself *)
Definition st_running (F : foreign W T T BH) (s : special T unit BH) : vol_set W T (iter (T * unit)) :=
  {| vs_iter := it_new (with_unit (st_items s)); vs_next := keys_next (prof E);
     vs_len := zlen (sp_entries s); vs_contains := st_contains F s |}.
End Sets.
