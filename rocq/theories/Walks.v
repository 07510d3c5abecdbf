(** The iterators that the specialized maps and sets hand out, and their access to the hasher. *)
From Coq Require Import List ZArith.
From Verif Require Import Base HashTable Maps Iterators Sets.
Import ListNotations.
Open Scope Z_scope.

(** A map has three ways to walk over its entries. *)
Record walk (K V : Type) : Type := {
  w_iter : iter (K * V);      (* iter(), and into_iter() of a reference to the map *)
  w_keys : iter (K * V);      (* keys() *)
  w_values : iter (K * V)     (* values() *)
}.
Arguments w_iter {K V}. Arguments w_keys {K V}. Arguments w_values {K V}.

(** The entries that the seven maps pass to [Iter::new], [Keys::new] and [Values::new]. *)
Definition walk_over {K V} (entries : list (K * V)) : walk K V :=
  {| w_iter := it_new entries; w_keys := keys_new entries; w_values := values_new entries |}.

(** scanning_map.rs:114-127, 173-175 *)
Definition sm_walk {K V} (m : scanning_map K V) : walk K V := walk_over (sm_entries m).
(** common_map.rs:159-172, 237-239; 174-177 *)
Definition cm_walk {K V BH} (m : common_map K V BH) : walk K V := walk_over (entries (cm_table m)).
Definition cm_hasher {K V BH} (m : common_map K V BH) : BH := cm_bh m.
(** integer_map.rs:142-155, 202-204 *)
Definition im_walk {V} (m : integer_map V) : walk Z V := walk_over (entries (im_table m)).
(** integer_range_map.rs:139-152, 198-200 *)
Definition irm_walk {V} (m : integer_range_map V) : walk Z V := walk_over (irm_entries m).
(** length_map.rs:144-157, 204-206 *)
Definition lm_walk {K V} (m : length_map K V) : walk K V := walk_over (entries (lm_table m)).
(** left_slice_map.rs:181-194, 269-271; 196-199, right_slice_map.rs:184-197, 272-274; 199-202 *)
Definition slm_walk {V BH} (m : slice_map V BH) : walk bytes V := walk_over (entries (slm_table m)).
Definition slm_hasher {V BH} (m : slice_map V BH) : BH := slm_bh m.

(** A set can be walked over by reference and can be consumed. *)
Record set_walk (T : Type) : Type := {
  sw_iter : iter (T * unit);       (* iter(), and into_iter() of a reference to the set *)
  sw_into : list (T * unit)        (* into_iter() *)
}.
Arguments sw_iter {T}. Arguments sw_into {T}.
Definition set_walk_over {T} (entries : list (T * unit)) : set_walk T :=
  {| sw_iter := it_new entries; sw_into := into_iter_new entries |}.

(** scanning_set.rs:52-55, 77-79, 86-88 *)
Definition ss_walk {T} (s : scanning_set T) : set_walk T := set_walk_over (sm_entries s).
(** common_set.rs:280-282, 219-221, 233-235; 168-170 *)
Definition cs_walk {T BH} (s : common_set T BH) : set_walk T := set_walk_over (entries (cm_table s)).
Definition cs_hasher {T BH} (s : common_set T BH) : BH := cm_hasher s.
(** integer_set.rs:53-56, 78-80, 87-89 *)
Definition is_walk (s : integer_set) : set_walk Z := set_walk_over (entries (im_table s)).
(** integer_range_set.rs:52-55, 77-79, 86-88 *)
Definition irs_walk (s : integer_range_set) : set_walk Z := set_walk_over (irm_entries s).
(** length_set.rs:58-61, 83-85, 92-94 *)
Definition ls_walk {T} (s : length_set T) : set_walk T := set_walk_over (entries (lm_table s)).
(** left_slice_set.rs:81-84, 130-132, 139-141; 86-89, right_slice_set.rs:81-84, 130-132, 139-141; 86-89 *)
Definition sls_walk {BH} (s : slice_set BH) : set_walk bytes := set_walk_over (entries (slm_table s)).
Definition sls_hasher {BH} (s : slice_set BH) : BH := slm_hasher s.
