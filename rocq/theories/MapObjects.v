(** The whole public interface of each specialized map, and running a sequence of operations
    on one. *)
From Coq Require Import List ZArith Bool.
From Verif Require Import Base HashTable Maps FrozenMap Iterators HistorySpec.
Import ListNotations.
Open Scope Z_scope.

(** The methods of a map type [M] that differ from map to map. *)
Record map_object (M K V Q : Type) : Type := {
  mo_entries : M -> list (K * V);                     (* what iter() walks over *)
  mo_len : M -> Z;                                    (* Len::len *)
  mo_get_at : M -> Q -> res (option nat);             (* position get() refers to *)
  mo_get : M -> Q -> res (option V);                  (* get *)
  mo_get_mut : M -> Q -> res (option nat);            (* position get_mut() refers to *)
  mo_get_key_value : M -> Q -> res (option (K * V));  (* get_key_value *)
  mo_write : nat -> V -> M -> M                       (* assignment through a reference *)
}.
Arguments mo_entries {M K V Q}. Arguments mo_len {M K V Q}. Arguments mo_get_at {M K V Q}.
Arguments mo_get {M K V Q}. Arguments mo_get_mut {M K V Q}. Arguments mo_get_key_value {M K V Q}.
Arguments mo_write {M K V Q}.

(** scanning_map.rs: iter 115, len 131-133 *)
Definition sm_object {K V Q} (eqb : Q -> Q -> bool) (borrow : K -> Q)
  : map_object (scanning_map K V) K V Q :=
  {| mo_entries := sm_entries;
     mo_len := fun m => zlen (sm_entries m);
     mo_get_at := sm_get_at eqb borrow;
     mo_get := sm_get eqb borrow;
     mo_get_mut := sm_get_mut eqb borrow;
     mo_get_key_value := sm_get_key_value eqb borrow;
     mo_write := fun i v m => {| sm_entries := write_entry i v (sm_entries m) |} |}.

(** common_map.rs: iter 160, len 192-194 *)
Definition cm_object {K V Q BH} (eqb : Q -> Q -> bool) (borrow : K -> Q) (hash_query : BH -> Q -> Z)
  : map_object (common_map K V BH) K V Q :=
  {| mo_entries := fun m => entries (cm_table m);
     mo_len := fun m => ht_len (cm_table m);
     mo_get_at := cm_get_at eqb borrow hash_query;
     mo_get := cm_get eqb borrow hash_query;
     mo_get_mut := cm_get_mut eqb borrow hash_query;
     mo_get_key_value := cm_get_key_value eqb borrow hash_query;
     mo_write := fun i v m => {| cm_table := write_table i v (cm_table m); cm_bh := cm_bh m |} |}.

(** integer_map.rs: iter 143, len 159-161 *)
Definition im_object {V} : map_object (integer_map V) Z V Z :=
  {| mo_entries := fun m => entries (im_table m);
     mo_len := fun m => ht_len (im_table m);
     mo_get_at := im_get_at;
     mo_get := im_get;
     mo_get_mut := im_get_mut;
     mo_get_key_value := im_get_key_value;
     mo_write := fun i v m => {| im_table := write_table i v (im_table m) |} |}.

(** integer_range_map.rs: iter 140, len 156-158 *)
Definition irm_object {V} (pr : profile) (ty : int_type) : map_object (integer_range_map V) Z V Z :=
  {| mo_entries := irm_entries;
     mo_len := fun m => zlen (irm_entries m);
     mo_get_at := irm_get_at pr ty;
     mo_get := irm_get pr ty;
     mo_get_mut := irm_get_mut pr ty;
     mo_get_key_value := irm_get_key_value pr ty;
     mo_write := fun i v m => {| irm_min := irm_min m; irm_max := irm_max m;
                                 irm_entries := write_entry i v (irm_entries m) |} |}.

(** length_map.rs: iter 145, len 161-163 *)
Definition lm_object {K V Q} (eqb : Q -> Q -> bool) (borrow : K -> Q) (len_query : Q -> Z)
  : map_object (length_map K V) K V Q :=
  {| mo_entries := fun m => entries (lm_table m);
     mo_len := fun m => ht_len (lm_table m);
     mo_get_at := lm_get_at eqb borrow len_query;
     mo_get := lm_get eqb borrow len_query;
     mo_get_mut := lm_get_mut eqb borrow len_query;
     mo_get_key_value := lm_get_key_value eqb borrow len_query;
     mo_write := fun i v m => {| lm_table := write_table i v (lm_table m) |} |}.

Definition write_slice_map {V BH} (i : nat) (v : V) (m : slice_map V BH) : slice_map V BH :=
  {| slm_table := write_table i v (slm_table m); slm_bh := slm_bh m;
     slm_start := slm_start m; slm_end := slm_end m |}.

(** left_slice_map.rs: iter 182, len 224-226 *)
Definition lsm_object {V BH} (hash_write : BH -> bytes -> Z)
  : map_object (slice_map V BH) bytes V bytes :=
  {| mo_entries := fun m => entries (slm_table m);
     mo_len := fun m => ht_len (slm_table m);
     mo_get_at := lsm_get_at hash_write;
     mo_get := lsm_get hash_write;
     mo_get_mut := lsm_get_mut hash_write;
     mo_get_key_value := lsm_get_key_value hash_write;
     mo_write := write_slice_map |}.

(** right_slice_map.rs: iter 185, len 227-229 *)
Definition rsm_object {V BH} (hash_write : BH -> bytes -> Z) (E : env)
  : map_object (slice_map V BH) bytes V bytes :=
  {| mo_entries := fun m => entries (slm_table m);
     mo_len := fun m => ht_len (slm_table m);
     mo_get_at := rsm_get_at hash_write E;
     mo_get := rsm_get hash_write E;
     mo_get_mut := rsm_get_mut hash_write E;
     mo_get_key_value := rsm_get_key_value hash_write E;
     mo_write := write_slice_map |}.

(** ** Methods that are the same code in every map *)

Section Methods.
Context {M K V Q : Type}.
Variable pr : profile.
Variable eqb : Q -> Q -> bool.
Variable mo : map_object M K V Q.

(** contains_key: scanning_map.rs:106, common_map.rs:149, integer_map.rs:132,
    integer_range_map.rs:131, length_map.rs:134, left_slice_map.rs:171, right_slice_map.rs:174 *)
Definition mo_contains_key (m : M) (q : Q) : res bool := contains_key (mo_get mo m q).
(** Index: scanning_map.rs:154, common_map.rs:216, integer_map.rs:182,
    integer_range_map.rs:179, length_map.rs:184, left_slice_map.rs:248, right_slice_map.rs:251 *)
Definition mo_index (m : M) (q : Q) : res V := index_of (mo_get mo m q).
(** IndexMut: scanning_map.rs:164, common_map.rs:228, integer_map.rs:193,
    integer_range_map.rs:189, length_map.rs:195, left_slice_map.rs:260, right_slice_map.rs:263 *)
Definition mo_index_mut (m : M) (q : Q) : res nat := index_of (mo_get_mut mo m q).
(** get_many_mut: see [Maps.get_many_mut] *)
Definition mo_get_many_mut (m : M) (qs : list Q) : res (option (list nat)) :=
  get_many_mut eqb (mo_get_at mo m) qs.

(** What the caller sees of a call that returns, panics on a missing key, or goes wrong. *)
Definition watch {A} (r : res A) (f : A -> obs K V) : obs K V :=
  match r with
  | Ok a => f a
  | Panic PUnwrapNone => SawPanic
  | _ => SawFailure
  end.

Definition mo_write_all (ps : list nat) (ws : list V) (m : M) : M :=
  fold_left (fun m pw => mo_write mo (fst pw) (snd pw) m) (combine ps ws) m.

Definition mo_step (m : M) (o : op Q V) : obs K V * M :=
  match o with
  | OGet q => (watch (mo_get mo m q) SawValue, m)
  | OGetKeyValue q => (watch (mo_get_key_value mo m q) SawEntry, m)
  | OContainsKey q => (watch (mo_contains_key m q) SawBool, m)
  | OIndex q => (watch (mo_index m q) (fun v => SawValue (Some v)), m)
  | OLen => (SawNumber (mo_len mo m), m)
  | OIsEmpty => (SawBool (mo_len mo m =? 0), m)      (* traits/len.rs:18-20 *)
  | OIter =>
      (watch (fold_iter (it_next pr) (S (length (mo_entries mo m))) (fun acc e => acc ++ [e]) []
                (it_new (mo_entries mo m))) SawItems, m)
  | OGetMut q w =>
      match mo_get_mut mo m q with
      | Ok (Some i) => (SawBool true, mo_write mo i w m)
      | r => (watch r (fun _ => SawBool false), m)
      end
  | OIndexMut q w =>
      match mo_index_mut m q with
      | Ok i => (SawBool true, mo_write mo i w m)
      | r => (watch r (fun _ => SawBool false), m)
      end
  | OGetManyMut qws =>
      match mo_get_many_mut m (map fst qws) with
      | Ok (Some ps) => (SawBool true, mo_write_all ps (map snd qws) m)
      | r => (watch r (fun _ => SawBool false), m)
      end
  end.

Fixpoint mo_run (m : M) (os : list (op Q V)) : list (obs K V) :=
  match os with
  | [] => []
  | o :: os' => let (b, m') := mo_step m o in b :: mo_run m' os'
  end.

End Methods.

(** [PartialEq::eq]: scanning_map.rs:183-190, common_map.rs:249-256, integer_map.rs:213-220,
    integer_range_map.rs:208-215, length_map.rs:215-222, left_slice_map.rs:281-288,
    right_slice_map.rs:284-291.  Keys are looked up as they are ([Q = K]). *)
Definition mo_eq {M K V} (veq : V -> V -> bool) (mo : map_object M K V K) (m1 m2 : M) : res bool :=
  map_eq veq (mo_entries mo m1) (mo_entries mo m2) (mo_get mo m2).
