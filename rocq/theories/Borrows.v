(** The references that [get], [get_mut] and [get_many_mut] make into the entries of a map, under
    the aliasing rules of Rust in the form of Stacked Borrows: every memory cell has a stack of
    grants, an access through a reference needs a grant of its tag and ends the grants above that
    are in conflict with it. *)
From Coq Require Import List ZArith Bool Arith.
From Verif Require Import Base HashTable Maps FrozenMap.
Import ListNotations.
Local Open Scope nat_scope.

Local Notation "' p <- e ;; f" := (bind e (fun p => f))
  (at level 61, p pattern, e at next level, right associativity).

(** ** The rules *)

Inductive permission : Type := Unique | Shared.
Record grant : Type := { permits : permission; tag : nat }.
(** Topmost grant first. *)
Definition stack : Type := list grant.

(** A read through tag [t] ends the unique grants above that of [t]; [None]: not allowed. *)
Fixpoint read_with (t : nat) (s : stack) : option stack :=
  match s with
  | [] => None
  | g :: s' =>
      if tag g =? t then Some s
      else
        match read_with t s', permits g with
        | None, _ => None
        | Some s'', Unique => Some s''
        | Some s'', Shared => Some (g :: s'')
        end
  end.

(** A write through tag [t] needs a unique grant and ends all grants above it. *)
Fixpoint write_with (t : nat) (s : stack) : option stack :=
  match s with
  | [] => None
  | g :: s' =>
      match permits g with
      | Unique => if tag g =? t then Some s else write_with t s'
      | Shared => write_with t s'
      end
  end.

(** The memory of the entries: each has a cell for its key and one for its value. *)
Inductive cell : Type := KeyOf (i : nat) | ValueOf (i : nat).
Definition cell_eqb (c d : cell) : bool :=
  match c, d with KeyOf i, KeyOf j | ValueOf i, ValueOf j => i =? j | _, _ => false end.
Record heap : Type := { stacks : cell -> stack; fresh : nat }.

Definition entry_cells (i : nat) : list cell := [KeyOf i; ValueOf i].
Definition slice_cells (lo n : nat) : list cell := flat_map entry_cells (seq lo n).

Fixpoint touch (f : stack -> option stack) (cs : list cell) (st : cell -> stack) : res (cell -> stack) :=
  match cs with
  | [] => Ok st
  | c :: cs' =>
      match f (st c) with
      | Some s => touch f cs' (fun d => if cell_eqb c d then s else st d)
      | None => UB Aliasing
      end
  end.

(** A read, or a write, of the cells [cs] through a reference with tag [t]. *)
Definition read (t : nat) (cs : list cell) (h : heap) : res heap :=
  st <- touch (read_with t) cs (stacks h) ;; Ok {| stacks := st; fresh := fresh h |}.
Definition write (t : nat) (cs : list cell) (h : heap) : res heap :=
  st <- touch (write_with t) cs (stacks h) ;; Ok {| stacks := st; fresh := fresh h |}.

(** [&*r] and [&mut *r] for a reference [r] with tag [t] to the cells [cs]: the tag of the new
    reference. *)
Definition borrow (t : nat) (cs : list cell) (h : heap) : res (nat * heap) :=
  st <- touch (fun s => option_map (cons {| permits := Shared; tag := fresh h |}) (read_with t s)) cs (stacks h) ;;
  Ok (fresh h, {| stacks := st; fresh := S (fresh h) |}).
Definition borrow_mut (t : nat) (cs : list cell) (h : heap) : res (nat * heap) :=
  st <- touch (fun s => option_map (cons {| permits := Unique; tag := fresh h |}) (write_with t s)) cs (stacks h) ;;
  Ok (fresh h, {| stacks := st; fresh := S (fresh h) |}).

(** A reference to the value of an entry: its tag and the position of the entry. *)
Definition value_ref : Type := nat * nat.
Definition read_value (r : value_ref) (h : heap) : res heap := read (fst r) [ValueOf (snd r)] h.
Definition write_value (r : value_ref) (h : heap) : res heap := write (fst r) [ValueOf (snd r)] h.

(** ** What a lookup does to the entries *)

Inductive lookup : Type :=
| Probe (lo : nat) (answers : list bool) (* look at a slice, one answer of [==] per entry *)
| At (i : nat)                           (* index *)
| Missing.                               (* no access *)

(** common_map.rs:74-81 and the same loop of the other maps; [t]: the tag of the slice *)
Fixpoint search (t i : nat) (answers : list bool) (h : heap) : res (option value_ref * heap) :=
  match answers with
  | [] => Ok (None, h)
  | b :: answers' =>
      '(entry, h1) <- borrow t (entry_cells i) h ;;
      '(key, h2) <- borrow entry [KeyOf i] h1 ;;
      h3 <- read key [KeyOf i] h2 ;;
      if b : bool then '(value, h4) <- borrow entry [ValueOf i] h3 ;; Ok (Some (value, i), h4)
      else search t (S i) answers' h3
  end.

(** common_map.rs:110-117 and the same loop of the other maps *)
Fixpoint search_mut (t i : nat) (answers : list bool) (h : heap) : res (option value_ref * heap) :=
  match answers with
  | [] => Ok (None, h)
  | b :: answers' =>
      '(entry, h1) <- borrow_mut t (entry_cells i) h ;;
      '(key, h2) <- borrow entry [KeyOf i] h1 ;;
      h3 <- read key [KeyOf i] h2 ;;
      if b : bool then '(value, h4) <- borrow_mut entry [ValueOf i] h3 ;; Ok (Some (value, i), h4)
      else search_mut t (S i) answers' h3
  end.

(** The rest of [get] and [get_mut]: common_map.rs:74 and 110, scanning_map.rs:36 and 52 (the slice);
    integer_range_map.rs:66 and 81 (the index).  [box]: the tag of the box that holds the entries. *)
Definition get_ref (box : nat) (l : lookup) (h : heap) : res (option value_ref * heap) :=
  match l with
  | Probe lo answers => '(t, h1) <- borrow box (slice_cells lo (length answers)) h ;; search t lo answers h1
  | At i => '(t, h1) <- borrow box [ValueOf i] h ;; Ok (Some (t, i), h1)
  | Missing => Ok (None, h)
  end.
Definition get_mut_ref (box : nat) (l : lookup) (h : heap) : res (option value_ref * heap) :=
  match l with
  | Probe lo answers => '(t, h1) <- borrow_mut box (slice_cells lo (length answers)) h ;; search_mut t lo answers h1
  | At i => '(t, h1) <- borrow_mut box [ValueOf i] h ;; Ok (Some (t, i), h1)
  | Missing => Ok (None, h)
  end.

(** ** FrozenMap *)

(** The slice and the answers of a probe, as in [ht_probe]. *)
Definition ht_lookup {K V} (t : hash_table K V) (range : Z * Z) (matches : K -> bool) : res lookup :=
  es <- slice_unchecked (fst range) (snd range) (entries t) ;;
  Ok (Probe (Z.to_nat (fst range)) (map (fun e => matches (fst e)) es)).

Definition position (r : option nat) : lookup := match r with Some i => At i | None => Missing end.

Section Facade.
Context {O V : Type}.
Variable eqbO : O -> O -> bool.
Variable E : env.

(** facades/frozen_map.rs:328-357 and 414-446, which search in the same way *)
Definition fm_lookup (m : map_types O V) (k : key O) : res lookup :=
  match m with
  | MScanning m => Ok (Probe 0 (map (fun e => key_eqb eqbO k (fst e)) (sm_entries m)))
  | MCommonSmall m | MCommonLarge m =>
      range <- cm_get_hash_info hash_one m k ;; ht_lookup (cm_table m) range (fun k' => key_eqb eqbO k k')
  | MU32Small m | MU32Large m =>
      n <- as_u32 k ;; range <- im_get_hash_info m n ;; ht_lookup (im_table m) range (fun k' => Z.eqb n k')
  | MU32Range m => n <- as_u32 k ;; r <- irm_get_at (prof E) u32 m n ;; Ok (position r)
  | MLeftStringSliceSmall m | MLeftStringSliceLarge m =>
      s <- as_string k ;; range <- lsm_get_hash_info hash_write m s ;;
      ht_lookup (slm_table m) range (fun k' => bytes_eqb s k')
  | MRightStringSliceSmall m | MRightStringSliceLarge m =>
      s <- as_string k ;; range <- rsm_get_hash_info hash_write E m s ;;
      ht_lookup (slm_table m) range (fun k' => bytes_eqb s k')
  | MStringLengthSmall m =>
      s <- as_string k ;; range <- lm_get_hash_info zlen m s ;;
      ht_lookup (lm_table m) range (fun k' => bytes_eqb s k')
  end.

(** facades/frozen_map.rs:328-357 *)
Definition fm_get_ref (box : nat) (m : map_types O V) (k : key O) (h : heap) : res (option value_ref * heap) :=
  l <- fm_lookup m k ;; get_ref box l h.

(** facades/frozen_map.rs:414-446 *)
Definition fm_get_mut_ref (box : nat) (m : map_types O V) (k : key O) (h : heap) : res (option value_ref * heap) :=
  l <- fm_lookup m k ;; get_mut_ref box l h.

(** facades/frozen_map.rs:505-512: [transmute] makes a reference to [V] one to [mut V] that has the
    same tag. *)
Fixpoint fm_get_each_ref (box : nat) (m : map_types O V) (keys : list (key O)) (h : heap)
  : res (option (list value_ref) * heap) :=
  match keys with
  | [] => Ok (Some [], h)
  | k :: keys' =>
      '(r, h1) <- fm_get_ref box m k h ;;
      match r with
      | None => Ok (None, h1)
      | Some r => '(rs, h2) <- fm_get_each_ref box m keys' h1 ;; Ok (option_map (cons r) rs, h2)
      end
  end.

(** facades/frozen_map.rs:493-513 *)
Definition fm_get_many_mut_ref (box : nat) (m : map_types O V) (keys : list (key O)) (h : heap)
  : res (option (list value_ref) * heap) :=
  if has_duplicate_key (key_eqb eqbO) [] keys then Ok (None, h) else fm_get_each_ref box m keys h.
End Facade.
