(** FrozenSet and the set operations for items and hashers whose answers may change from call to
    call and may panic (see Volatile.v).  An iterator keeps the position it has reached when
    [contains] panics, and the caller may catch the panic and go on. *)
From Coq Require Import List ZArith Bool.
From Verif Require Import Base IntKeyAnalyzer SliceKeyAnalyzer HashTable Maps FrozenMap Iterators SetOps Sets FrozenSet
  Volatile.
Import ListNotations.
Open Scope Z_scope.

(** ** The operations *)

(** set.rs:9-32: the members of [Set<T>] the operations use; [next] and [len] run no foreign code. *)
Record vol_set (W T St : Type) : Type := {
  vs_iter : St;
  vs_next : St -> res (option T * St);
  vs_len : Z;
  vs_contains : T -> M W bool
}.
Arguments vs_iter {W T St}. Arguments vs_next {W T St}. Arguments vs_len {W T St}. Arguments vs_contains {W T St}.

Section Loops.
Context {X T : Type}.

(** [loop { let item = iter.next()?; if test(item) { return Some(item) } }] *)
Fixpoint v_loop_where (next : M X (option T)) (test : T -> M X bool) (fuel : nat) : M X (option T) :=
  match fuel with
  | O => lift OutOfFuel
  | S fuel' =>
      o <~ next ;;
      match o with
      | None => lift (Ok None)
      | Some item => b <~ test item ;; if b : bool then lift (Ok (Some item)) else v_loop_where next test fuel'
      end
  end.

(** [Iterator::all] *)
Fixpoint v_all_loop (next : M X (option T)) (test : T -> M X bool) (fuel : nat) : M X bool :=
  match fuel with
  | O => lift OutOfFuel
  | S fuel' =>
      o <~ next ;;
      match o with
      | None => lift (Ok true)
      | Some item => b <~ test item ;; if b : bool then v_all_loop next test fuel' else lift (Ok false)
      end
  end.

Definition v_not (test : T -> M X bool) (item : T) : M X bool := b <~ test item ;; lift (Ok (negb b)).
End Loops.

Section Operations.
Context {W T St1 St2 : Type}.
(** Bound on the iterations of each loop. *)
Variable fuel : nat.
Variable s1 : vol_set W T St1.
Variable s2 : vol_set W T St2.

(** The state of an operation: the iterators of its operands, and the state of the foreign code. *)
Notation X := (St1 * St2 * W)%type.

(** [self.s1_iter.next()], [self.s2_iter.next()], [self.s1.contains(item)], [self.s2.contains(item)] *)
Definition v_next1 : M X (option T) := fun x =>
  match vs_next s1 (fst (fst x)) with
  | Ok r => (Ok (fst r), (snd r, snd (fst x), snd x))
  | Panic p => (Panic p, x)
  | UB u => (UB u, x)
  | OutOfFuel => (OutOfFuel, x)
  end.
Definition v_next2 : M X (option T) := fun x =>
  match vs_next s2 (snd (fst x)) with
  | Ok r => (Ok (fst r), (fst (fst x), snd r, snd x))
  | Panic p => (Panic p, x)
  | UB u => (UB u, x)
  | OutOfFuel => (OutOfFuel, x)
  end.
Definition v_within {A} (m : M W A) : M X A := fun x => let (r, w) := m (snd x) in (r, (fst x, w)).
Definition v_contains1 (item : T) : M X bool := v_within (vs_contains s1 item).
Definition v_contains2 (item : T) : M X bool := v_within (vs_contains s2 item).

(** specialized_sets/iterators.rs:139-146, 244-251, 425-432; [Difference] (336-344) has no iterator
    of its second operand, and does not touch it here. *)
Definition v_op_new : St1 * St2 := (vs_iter s1, vs_iter s2).

(** specialized_sets/iterators.rs:156-182 *)
Definition v_union : M X (option T) :=
  if vs_len s2 <? vs_len s1 then
    o <~ v_next1 ;;
    match o with
    | Some item => lift (Ok (Some item))
    | None => v_loop_where v_next2 (v_not v_contains1) fuel
    end
  else
    o <~ v_next2 ;;
    match o with
    | Some item => lift (Ok (Some item))
    | None => v_loop_where v_next1 (v_not v_contains2) fuel
    end.

(** specialized_sets/iterators.rs:261-280 *)
Definition v_symmetric_difference : M X (option T) :=
  o <~ v_loop_where v_next1 (v_not v_contains2) fuel ;;
  match o with
  | Some item => lift (Ok (Some item))
  | None => v_loop_where v_next2 (v_not v_contains1) fuel
  end.

(** specialized_sets/iterators.rs:357-364 *)
Definition v_difference : M X (option T) := v_loop_where v_next1 (v_not v_contains2) fuel.

(** specialized_sets/iterators.rs:442-458 *)
Definition v_intersection : M X (option T) :=
  if vs_len s1 <? vs_len s2 then v_loop_where v_next1 v_contains2 fuel
  else v_loop_where v_next2 v_contains1 fuel.

(** A function that makes its own iterators. *)
Definition v_start {A} (m : M X A) : M W A := fun w => let (r, x) := m (v_op_new, w) in (r, snd x).

(** set_ops.rs:3-14 *)
Definition v_is_disjoint : M W bool :=
  v_start (if vs_len s1 <=? vs_len s1 then v_all_loop v_next1 (v_not v_contains2) fuel
           else v_all_loop v_next2 (v_not v_contains1) fuel).
(** set_ops.rs:16-27 *)
Definition v_is_subset : M W bool :=
  v_start (if vs_len s1 <=? vs_len s2 then v_all_loop v_next1 v_contains2 fuel else lift (Ok false)).
(** set_ops.rs:29-40 *)
Definition v_is_superset : M W bool :=
  v_start (if vs_len s2 <=? vs_len s1 then v_all_loop v_next2 v_contains1 fuel else lift (Ok false)).
(** common_set.rs:352-358, the same lines of the other sets and facades/frozen_set.rs:504-516
    ([contains] is [get] followed by [is_some]) *)
Definition v_set_eq : M W bool :=
  v_start (if negb (vs_len s1 =? vs_len s2) then lift (Ok false) else v_all_loop v_next1 v_contains2 fuel).

(** Calls of [next], before each of which the rest of the program may have changed the state of the
    foreign code; a panic is caught. *)
Fixpoint v_calls (next : M X (option T)) (between : list (W -> W)) (x : X) : list (res (option T)) * X :=
  match between with
  | [] => ([], x)
  | f :: between' =>
      let (r, x') := next (fst x, f (snd x)) in
      let (rs, x'') := v_calls next between' x' in (r :: rs, x'')
  end.
End Operations.

(** ** FrozenSet *)

Section Facade.
Context {W O : Type}.
Variable F : conduct W O.
Variable E : env.
Notation key := (key O).
Notation hasher := (hasher O).

(** facades/frozen_set.rs:293-299 with common_set.rs:53-57 *)
Definition v_fs_new_common_set (payload : list key) (bh : hasher) : M W (set_types O) :=
  if zlen payload <=? imax u8 then
    s <~ v_cm_from_vec F E u8 (with_unit payload) bh ;; lift (Ok (SCommonSmall s))
  else
    s <~ v_cm_from_vec F E usize (with_unit payload) bh ;; lift (Ok (SCommonLarge s)).

(** facades/frozen_set.rs:230-291 *)
Definition v_fs_new_string_set (payload0 : list key) (bh : hasher) : M W (set_types O) :=
  payload <~ lift (items_as_string payload0) ;;
  key_analysis <~ v_analyze_slice_keys (fun s => call (on_hash_slice F bh s)) payload ;;
  if zlen payload <=? imax u8 then
    match key_analysis with
    | SliceNormal => s <~ v_cm_from_vec F E u8 (with_unit payload0) bh ;; lift (Ok (SCommonSmall s))
    | LeftHandSubslice i l =>
        s <~ v_lsm_from_vec F E u8 (with_unit payload) i (i + l) bh ;; lift (Ok (SLeftStringSliceSmall s))
    | RightHandSubslice i l =>
        s <~ v_rsm_from_vec F E u8 (with_unit payload) i (i + l) bh ;; lift (Ok (SRightStringSliceSmall s))
    | SliceLength => s <~ lift (ls_from_vec zlen E u8 payload) ;; lift (Ok (SStringLengthSmall s))
    end
  else
    match key_analysis with
    | SliceLength | SliceNormal =>
        s <~ v_cm_from_vec F E usize (with_unit payload0) bh ;; lift (Ok (SCommonLarge s))
    | LeftHandSubslice i l =>
        s <~ v_lsm_from_vec F E usize (with_unit payload) i (i + l) bh ;; lift (Ok (SLeftStringSliceLarge s))
    | RightHandSubslice i l =>
        s <~ v_rsm_from_vec F E usize (with_unit payload) i (i + l) bh ;; lift (Ok (SRightStringSliceLarge s))
    end.

(** facades/frozen_set.rs:197-209; no foreign code runs for u32 items *)
Definition v_fs_new (kd : kind) (payload : list key) (bh : hasher) : M W (set_types O) :=
  if zlen payload <? 4 then lift (Ok (SScanning (ss_from_vec payload)))
  else
    match kd with
    | KindU32 => lift (fs_new_u32_set E payload)
    | KindString => v_fs_new_string_set payload bh
    | KindOther => v_fs_new_common_set payload bh
    end.

(** facades/frozen_set.rs:399-427 with [get] of the sets (common_set.rs:134-140 and the like): the
    position of the item found *)
Definition v_fs_find (s : set_types O) (value : key) : M W (option nat) :=
  match s with
  | SScanning s => v_find_pos (fun e => v_key_eq F value (fst e)) (sm_entries s)
  | SCommonSmall s | SCommonLarge s => v_cm_find F s value
  | SU32Small s | SU32Large s => n <~ lift (as_u32 value) ;; lift (im_get_at s n)
  | SU32Range s => n <~ lift (as_u32 value) ;; lift (irm_get_at (prof E) u32 s n)
  | SLeftStringSliceSmall s | SLeftStringSliceLarge s => v <~ lift (as_string value) ;; v_lsm_find F s v
  | SRightStringSliceSmall s | SRightStringSliceLarge s => v <~ lift (as_string value) ;; v_rsm_find F E s v
  | SStringLengthSmall s => v <~ lift (as_string value) ;; lift (lm_get_at bytes_eqb id_bytes zlen s v)
  end.

(** facades/frozen_set.rs:399-427 *)
Definition v_fs_get (s : set_types O) (value : key) : M W (option key) :=
  r <~ v_fs_find s value ;;
  lift (Ok (match r with Some i => nth_error (fs_items s) i | None => None end)).

(** facades/frozen_set.rs:312-340: [get] followed by [is_some] *)
Definition v_fs_contains (s : set_types O) (value : key) : M W bool :=
  r <~ v_fs_get s value ;; lift (Ok (match r with Some _ => true | None => false end)).

(** facades/frozen_set.rs:608-625 with the iterator of 372-386 *)
Definition v_fs_running (s : set_types O) : vol_set W key (iter (key * unit)) :=
  {| vs_iter := it_new (with_unit (fs_items s)); vs_next := keys_next (prof E);
     vs_len := fs_len s; vs_contains := v_fs_contains s |}.
End Facade.
