(** The derived implementations of [Clone] of the specialized maps and sets, for keys, values and
    hashers whose own [Clone] is code of the caller (see Cloning.v for FrozenMap and FrozenSet).
    Simplified: std may copy boxed slices of [Copy] elements without calling [clone]. *)
From Coq Require Import List ZArith Bool.
From Verif Require Import Base HashTable Volatile VolatileMaps VolatileRange.
Import ListNotations.
Open Scope Z_scope.

(** The code of the caller; [None] is a panic. *)
Record copying (W K V BH : Type) : Type := {
  d_key : K -> W -> option K * W;
  d_value : V -> W -> option V * W;
  d_hasher : BH -> W -> option BH * W
}.
Arguments d_key {W K V BH}. Arguments d_value {W K V BH}. Arguments d_hasher {W K V BH}.

Section Copying.
Context {W K V BH : Type}.
Variable D : copying W K V BH.

(** [Box<[(K, V)]>] *)
Definition copy_entries (es : list (K * V)) : M W (list (K * V)) :=
  v_map (fun e => k <~ call (d_key D (fst e)) ;; v <~ call (d_value D (snd e)) ;; lift (Ok (k, v))) es.

(** The fields after the table, in the order of their declaration: common_map.rs:18-22,
    length_map.rs:17-20, integer_map.rs:16-19, left_slice_map.rs:19-24, right_slice_map.rs:19-24 *)
Definition copy_shape (sh : shape BH) : M W (shape BH) :=
  match sh with
  | Common bh => bh' <~ call (d_hasher D bh) ;; lift (Ok (Common bh'))
  | LeftSlice bh start end_ => bh' <~ call (d_hasher D bh) ;; lift (Ok (LeftSlice bh' start end_))
  | RightSlice bh start end_ => bh' <~ call (d_hasher D bh) ;; lift (Ok (RightSlice bh' start end_))
  | Scanning => lift (Ok Scanning)
  | Length => lift (Ok Length)
  | Integer => lift (Ok Integer)
  end.

(** scanning_map.rs:11-14; hash_table.rs:8-19 and the maps with a table *)
Definition sp_clone (m : special K V BH) : M W (special K V BH) :=
  match m with
  | Entries es => es' <~ copy_entries es ;; lift (Ok (Entries es'))
  | InTable sh t =>
      es' <~ copy_entries (entries t) ;;
      sh' <~ copy_shape sh ;;
      lift (Ok (InTable sh' {| num_slots := num_slots t; slots := slots t; entries := es' |}))
  end.

(** integer_range_map.rs:13-18 *)
Definition rg_clone (m : range_map K V) : M W (range_map K V) :=
  min <~ call (d_key D (rg_min m)) ;;
  max <~ call (d_key D (rg_max m)) ;;
  es <~ copy_entries (rg_entries m) ;;
  lift (Ok {| rg_min := min; rg_max := max; rg_entries := es |}).
End Copying.

(** The values of the maps inside sets are [()]. *)
Definition valueless {W T V BH} (D : copying W T V BH) : copying W T unit BH := {|
  d_key := d_key D;
  d_value := fun _ w => (Some tt, w);
  d_hasher := d_hasher D
|}.

(** scanning_set.rs:14-17, common_set.rs:22-25, length_set.rs:14-17, integer_set.rs:14-17,
    left_slice_set.rs:15-18, right_slice_set.rs:15-18 *)
Definition st_clone {W T V BH} (D : copying W T V BH) (s : special T unit BH) : M W (special T unit BH) :=
  sp_clone (valueless D) s.
(** integer_range_set.rs:14-17 *)
Definition rs_clone {W T V BH} (D : copying W T V BH) (s : range_map T unit) : M W (range_map T unit) :=
  rg_clone (valueless D) s.
