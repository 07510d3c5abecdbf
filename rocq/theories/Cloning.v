(** The derived implementations of [Clone].  The clones of keys that are neither u32 nor String, of
    values and of hashers are made by foreign code, which may have state and may panic (see
    Volatile.v).  A derived [clone] clones the fields in the order of their declaration; cloning a
    boxed slice clones its elements in order, cloning a pair its components in order. *)
From Coq Require Import List ZArith Bool.
From Verif Require Import Base HashTable Maps FrozenMap FrozenSet Volatile.
Import ListNotations.
Open Scope Z_scope.

Record cloning (W O V : Type) : Type := {
  on_clone : O -> W -> option O * W;
  on_clone_value : V -> W -> option V * W;
  on_clone_hasher : hasher O -> W -> option (hasher O) * W
}.
Arguments on_clone {W O V} c. Arguments on_clone_value {W O V} c. Arguments on_clone_hasher {W O V} c.

Section Cloning.
Context {W O V : Type}.
Variable C : cloning W O V.
Notation key := (key O).
Notation hasher := (hasher O).

Definition clone_key (k : key) : M W key :=
  match k with
  | KOther x => y <~ call (on_clone C x) ;; lift (Ok (KOther y))
  | k => lift (Ok k)
  end.

(** [Box<[(K, V)]>] *)
Definition clone_entries {K} (ck : K -> M W K) (es : list (K * V)) : M W (list (K * V)) :=
  v_map (fun e => k <~ ck (fst e) ;; v <~ call (on_clone_value C (snd e)) ;; lift (Ok (k, v))) es.

(** hash_table.rs:8-19 *)
Definition clone_table {K} (ck : K -> M W K) (t : hash_table K V) : M W (hash_table K V) :=
  es <~ clone_entries ck (entries t) ;;
  lift (Ok {| num_slots := num_slots t; slots := slots t; entries := es |}).

(** scanning_map.rs:11-14 *)
Definition sm_clone {K} (ck : K -> M W K) (m : scanning_map K V) : M W (scanning_map K V) :=
  es <~ clone_entries ck (sm_entries m) ;; lift (Ok {| sm_entries := es |}).

(** common_map.rs:18-22 *)
Definition cm_clone {K} (ck : K -> M W K) (m : common_map K V hasher) : M W (common_map K V hasher) :=
  t <~ clone_table ck (cm_table m) ;; bh <~ call (on_clone_hasher C (cm_bh m)) ;;
  lift (Ok {| cm_table := t; cm_bh := bh |}).

(** u32 and String: clones are the same *)
Definition same_key {K} (k : K) : M W K := lift (Ok k).

(** integer_map.rs:16-19 *)
Definition im_clone (m : integer_map V) : M W (integer_map V) :=
  t <~ clone_table same_key (im_table m) ;; lift (Ok {| im_table := t |}).

(** integer_range_map.rs:13-18 *)
Definition irm_clone (m : integer_range_map V) : M W (integer_range_map V) :=
  es <~ clone_entries same_key (irm_entries m) ;;
  lift (Ok {| irm_min := irm_min m; irm_max := irm_max m; irm_entries := es |}).

(** left_slice_map.rs:19-24, right_slice_map.rs:19-24 *)
Definition slm_clone (m : slice_map V hasher) : M W (slice_map V hasher) :=
  t <~ clone_table same_key (slm_table m) ;; bh <~ call (on_clone_hasher C (slm_bh m)) ;;
  lift (Ok {| slm_table := t; slm_bh := bh; slm_start := slm_start m; slm_end := slm_end m |}).

(** length_map.rs:17-20 *)
Definition lm_clone {K} (ck : K -> M W K) (m : length_map K V) : M W (length_map K V) :=
  t <~ clone_table ck (lm_table m) ;; lift (Ok {| lm_table := t |}).

(** facades/frozen_map.rs:20-39 and 152-156 *)
Definition fm_clone (m : map_types O V) : M W (map_types O V) :=
  match m with
  | MScanning m => m' <~ sm_clone clone_key m ;; lift (Ok (MScanning m'))
  | MCommonSmall m => m' <~ cm_clone clone_key m ;; lift (Ok (MCommonSmall m'))
  | MCommonLarge m => m' <~ cm_clone clone_key m ;; lift (Ok (MCommonLarge m'))
  | MU32Small m => m' <~ im_clone m ;; lift (Ok (MU32Small m'))
  | MU32Large m => m' <~ im_clone m ;; lift (Ok (MU32Large m'))
  | MU32Range m => m' <~ irm_clone m ;; lift (Ok (MU32Range m'))
  | MLeftStringSliceSmall m => m' <~ slm_clone m ;; lift (Ok (MLeftStringSliceSmall m'))
  | MLeftStringSliceLarge m => m' <~ slm_clone m ;; lift (Ok (MLeftStringSliceLarge m'))
  | MRightStringSliceSmall m => m' <~ slm_clone m ;; lift (Ok (MRightStringSliceSmall m'))
  | MRightStringSliceLarge m => m' <~ slm_clone m ;; lift (Ok (MRightStringSliceLarge m'))
  | MStringLengthSmall m => m' <~ lm_clone same_key m ;; lift (Ok (MStringLengthSmall m'))
  end.
End Cloning.

(** The values of the maps inside sets are [()]. *)
Definition for_set {W O V} (C : cloning W O V) : cloning W O unit := {|
  on_clone := on_clone C;
  on_clone_value := fun _ w => (Some tt, w);
  on_clone_hasher := on_clone_hasher C
|}.

(** facades/frozen_set.rs:19-38 and 130-134 with the structs of the sets, e.g. common_set.rs:22-25 *)
Definition fs_clone {W O V} (C : cloning W O V) (s : set_types O) : M W (set_types O) :=
  let C := for_set C in
  match s with
  | SScanning s => s' <~ sm_clone C (clone_key C) s ;; lift (Ok (SScanning s'))
  | SCommonSmall s => s' <~ cm_clone C (clone_key C) s ;; lift (Ok (SCommonSmall s'))
  | SCommonLarge s => s' <~ cm_clone C (clone_key C) s ;; lift (Ok (SCommonLarge s'))
  | SU32Small s => s' <~ im_clone C s ;; lift (Ok (SU32Small s'))
  | SU32Large s => s' <~ im_clone C s ;; lift (Ok (SU32Large s'))
  | SU32Range s => s' <~ irm_clone C s ;; lift (Ok (SU32Range s'))
  | SLeftStringSliceSmall s => s' <~ slm_clone C s ;; lift (Ok (SLeftStringSliceSmall s'))
  | SLeftStringSliceLarge s => s' <~ slm_clone C s ;; lift (Ok (SLeftStringSliceLarge s'))
  | SRightStringSliceSmall s => s' <~ slm_clone C s ;; lift (Ok (SRightStringSliceSmall s'))
  | SRightStringSliceLarge s => s' <~ slm_clone C s ;; lift (Ok (SRightStringSliceLarge s'))
  | SStringLengthSmall s => s' <~ lm_clone C same_key s ;; lift (Ok (SStringLengthSmall s'))
  end.
