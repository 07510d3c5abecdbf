(** Model of frozen-collections-core/src/specialized_maps/hash_table.rs. *)
From Coq Require Import List ZArith Bool Lia.
From Verif Require Import Base.
Import ListNotations.
Open Scope Z_scope.

(** hash_table.rs:16-19 *)
Record slot : Type := { min_index : Z; max_index : Z }.
Definition empty_slot : slot := {| min_index := 0; max_index := 0 |}.

(** hash_table.rs:9-13 *)
Record hash_table (K V : Type) : Type := {
  num_slots : Z;
  slots : list slot;
  entries : list (K * V)
}.
Arguments num_slots {K V} h.
Arguments slots {K V} h.
Arguments entries {K V} h.

Section WithTypes.
Context {K V : Type}.

(** hash_table.rs:21-24: a PrepItem is (hash_slot_index, entry). *)
Notation prep_item := (Z * (K * V))%type.

(** hash_table.rs:47-56 *)
Fixpoint prepare (hash : K -> res Z) (num_hash_slots : Z) (payload : list (K * V))
  : res (list prep_item) :=
  match payload with
  | [] => Ok []
  | entry :: payload' =>
      code <- hash (fst entry) ;;
      if num_hash_slots =? 0 then Panic PDivByZero
      else
        rest <- prepare hash num_hash_slots payload' ;;
        Ok ((code mod num_hash_slots, entry) :: rest)
  end.

(** hash_table.rs:74-85: the inner loop. [stack] is [prep_items] with its last element
    first, so that [pop] takes the head. [num_entries] is an i32. *)
Fixpoint collect_run (pr : profile) (hash_slot_index : Z) (item : prep_item)
    (stack : list prep_item) (num_entries : Z) (es : list (K * V))
  : res (list prep_item * Z * list (K * V)) :=
  num' <- arith pr i32 (num_entries + 1) ;;
  let es' := es ++ [snd item] in
  match stack with
  | [] => Ok ([], num', es')
  | item' :: stack' =>
      if fst item' =? hash_slot_index
      then collect_run pr hash_slot_index item' stack' num' es'
      else Ok (stack, num', es')
  end.

(** hash_table.rs:87: [slots[i] = s], bounds-checked. *)
Definition store_slot (i : Z) (s : slot) (ss : list slot) : res (list slot) :=
  if i <? zlen ss then Ok (set_nth (Z.to_nat i) s ss) else Panic PIndexOutOfBounds.

(** hash_table.rs:70-93: the outer loop. [fuel] bounds the number of pops. *)
Fixpoint fill (pr : profile) (S_ty : int_type) (fuel : nat) (stack : list prep_item)
    (entry_index : Z) (ss : list slot) (es : list (K * V))
  : res (list slot * list (K * V)) :=
  match stack with
  | [] => Ok (ss, es)
  | item :: stack' =>
      match fuel with
      | O => OutOfFuel
      | S fuel' =>
          let hash_slot_index := fst item in
          run <- collect_run pr hash_slot_index item stack' 0 es ;;
          let '(stack'', num_entries, es') := run in
          lo <- unwrap (num_cast S_ty entry_index) ;;
          lo' <- unwrap (num_cast S_ty entry_index) ;;
          cnt <- unwrap (num_cast S_ty num_entries) ;;
          hi <- arith pr S_ty (lo' + cnt) ;;
          ss' <- store_slot hash_slot_index {| min_index := lo; max_index := hi |} ss ;;
          entry_index' <- arith pr i32 (entry_index + num_entries) ;;
          fill pr S_ty fuel' stack'' entry_index' ss' es'
      end
  end.

(** hash_table.rs:30-100. [S_ty] is the type parameter [S]; [hash] may itself fail. *)
Definition ht_new (E : env) (S_ty : int_type) (payload : list (K * V)) (num_hash_slots : Z)
    (hash : K -> res Z) : res (hash_table K V) :=
  match payload with
  | [] => Ok {| num_slots := 1; slots := [empty_slot]; entries := [] |}
  | _ :: _ =>
      capacity <- unwrap (to_usize (imax S_ty)) ;;
      if capacity <? zlen payload then Panic PCapacity
      else
        prep_items <- prepare hash num_hash_slots payload ;;
        let sorted := usort E prep_item fst prep_items in
        let ss0 := repeat empty_slot (Z.to_nat num_hash_slots) in
        filled <- fill (prof E) S_ty (length sorted) (rev sorted) 0 ss0 [] ;;
        let '(ss, es) := filled in
        if zlen ss =? 0 then Panic PUnwrapNone
        else Ok {| num_slots := zlen ss; slots := ss; entries := es |}
  end.

(** hash_table.rs:103-108 *)
Definition ht_get_hash_info (t : hash_table K V) (hash_code : Z) : res (Z * Z) :=
  let hash_slot_index := hash_code mod num_slots t in
  match nth_error (slots t) (Z.to_nat hash_slot_index) with
  | None => UB OutOfBounds
  | Some s =>
      a <- unwrap (to_usize (min_index s)) ;;
      b <- unwrap (to_usize (max_index s)) ;;
      Ok (a, b)
  end.

(** hash_table.rs:113-115 *)
Definition ht_len (t : hash_table K V) : Z := zlen (entries t).

(** The loop found in the [get] and [get_mut] of every hashed map, e.g.
    common_map.rs:74-81: the reference returned points into the entry at the
    resulting position. *)
Definition ht_probe (t : hash_table K V) (range : Z * Z) (matches : K -> bool)
  : res (option nat) :=
  es <- slice_unchecked (fst range) (snd range) (entries t) ;;
  Ok (option_map (fun i => (Z.to_nat (fst range) + i)%nat)
        (find_pos (fun e => matches (fst e)) es)).

(** The loop found in the [get_key_value] of every hashed map, e.g. common_map.rs:92-99. *)
Definition ht_probe_entry (t : hash_table K V) (range : Z * Z) (matches : K -> bool)
  : res (option (K * V)) :=
  es <- slice_unchecked (fst range) (snd range) (entries t) ;;
  Ok (find (fun e => matches (fst e)) es).

(** Reading through the reference returned by [get]. *)
Definition deref (es : list (K * V)) (r : option nat) : res (option V) :=
  match r with
  | None => Ok None
  | Some i => match nth_error es i with Some e => Ok (Some (snd e)) | None => UB OutOfBounds end
  end.

End WithTypes.
