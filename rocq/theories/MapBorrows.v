(** The references made by the specialized maps, by [get_key_value] and by iterators, under the
    rules of [Borrows]. *)
From Coq Require Import List ZArith Bool Arith.
From Verif Require Import Base HashTable Maps Borrows.
Import ListNotations.
Local Open Scope nat_scope.

Local Notation "' p <- e ;; f" := (bind e (fun p => f))
  (at level 61, p pattern, e at next level, right associativity).

(** A reference to a key or to a value: its tag and the cell. *)
Definition cell_ref : Type := nat * cell.
Definition read_cell (r : cell_ref) (h : heap) : res heap := read (fst r) [snd r] h.
Definition of_value (r : value_ref) : cell_ref := (fst r, ValueOf (snd r)).

(** [(&entry.0, &entry.1)], for [entry] with tag [t]. *)
Definition pair_refs (t i : nat) (h : heap) : res ((cell_ref * cell_ref) * heap) :=
  '(key, h1) <- borrow t [KeyOf i] h ;;
  '(value, h2) <- borrow t [ValueOf i] h1 ;;
  Ok ((key, KeyOf i), (value, ValueOf i), h2).

(** common_map.rs:92-99, scanning_map.rs:68-74 and the same loop of the other maps *)
Fixpoint search_pair (t i : nat) (answers : list bool) (h : heap) : res (option (cell_ref * cell_ref) * heap) :=
  match answers with
  | [] => Ok (None, h)
  | b :: answers' =>
      '(entry, h1) <- borrow t (entry_cells i) h ;;
      '(key, h2) <- borrow entry [KeyOf i] h1 ;;
      h3 <- read key [KeyOf i] h2 ;;
      if b : bool then '(p, h4) <- pair_refs entry i h3 ;; Ok (Some p, h4)
      else search_pair t (S i) answers' h3
  end.

(** [get_key_value]: common_map.rs:91-99, scanning_map.rs:68-74 (the slice);
    integer_range_map.rs:123 (the index) *)
Definition get_pair_ref (box : nat) (l : lookup) (h : heap) : res (option (cell_ref * cell_ref) * heap) :=
  match l with
  | Probe lo answers => '(t, h1) <- borrow box (slice_cells lo (length answers)) h ;; search_pair t lo answers h1
  | At i => '(p, h1) <- pair_refs box i h ;; Ok (Some p, h1)
  | Missing => Ok (None, h)
  end.

(** specialized_maps/iterators.rs:5-8: the slice, here its tag and length, and the index *)
Record walker : Type := { w_slice : nat; w_size : nat; w_index : nat }.

(** [Iter::new(&self.entries)]: iterators.rs:11-14, called by [iter] (scanning_map.rs:115,
    common_map.rs:160, integer_map.rs:143, integer_range_map.rs:140, length_map.rs:145,
    left_slice_map.rs:182, right_slice_map.rs:185, facades/frozen_map.rs:587-603), and in the same
    way by [keys] and [values] *)
Definition walker_new (box n : nat) (h : heap) : res (walker * heap) :=
  '(t, h1) <- borrow box (slice_cells 0 n) h ;; Ok ({| w_slice := t; w_size := n; w_index := 0 |}, h1).

(** iterators.rs:29-37 *)
Definition walker_next (w : walker) (h : heap) : res (option (cell_ref * cell_ref) * walker * heap) :=
  if w_index w <? w_size w then
    '(entry, h1) <- borrow (w_slice w) (entry_cells (w_index w)) h ;;
    '(p, h2) <- pair_refs entry (w_index w) h1 ;;
    Ok (Some p, {| w_slice := w_slice w; w_size := w_size w; w_index := S (w_index w) |}, h2)
  else Ok (None, w, h).

(** ** The lookups of the specialized maps *)

(** scanning_map.rs:36-40, 52-56, 68-72 *)
Definition sm_look {K V Q} (eqb : Q -> Q -> bool) (borrow : K -> Q) (m : scanning_map K V) (q : Q) : res lookup :=
  Ok (Probe 0 (map (fun e => eqb q (borrow (fst e))) (sm_entries m))).

(** common_map.rs:73-78, 91-96, 109-114 *)
Definition cm_look {K V Q BH} (eqb : Q -> Q -> bool) (borrow : K -> Q) (hash_query : BH -> Q -> Z)
  (m : common_map K V BH) (q : Q) : res lookup :=
  range <- cm_get_hash_info hash_query m q ;; ht_lookup (cm_table m) range (fun k => eqb q (borrow k)).

(** integer_map.rs:51-65, 69-83, 114-128 *)
Definition im_look {V} (m : integer_map V) (q : Z) : res lookup :=
  range <- im_get_hash_info m q ;; ht_lookup (im_table m) range (fun k => Z.eqb q k).

(** integer_range_map.rs:59-70, 74-85, 116-127 *)
Definition irm_look {V} (pr : profile) (ty : int_type) (m : integer_range_map V) (q : Z) : res lookup :=
  r <- irm_get_at pr ty m q ;; Ok (position r).

(** length_map.rs:53-67, 71-85, 89-103 *)
Definition lm_look {K V Q} (eqb : Q -> Q -> bool) (borrow : K -> Q) (len_query : Q -> Z)
  (m : length_map K V) (q : Q) : res lookup :=
  range <- lm_get_hash_info len_query m q ;; ht_lookup (lm_table m) range (fun k => eqb q (borrow k)).

(** left_slice_map.rs:90-104, 108-122, 126-140 *)
Definition lsm_look {V BH} (hash_write : BH -> bytes -> Z) (m : slice_map V BH) (q : bytes) : res lookup :=
  range <- lsm_get_hash_info hash_write m q ;; ht_lookup (slm_table m) range (fun k => bytes_eqb q k).

(** right_slice_map.rs:93-107, 111-125, 129-143 *)
Definition rsm_look {V BH} (hash_write : BH -> bytes -> Z) (E : env) (m : slice_map V BH) (q : bytes) : res lookup :=
  range <- rsm_get_hash_info hash_write E m q ;; ht_lookup (slm_table m) range (fun k => bytes_eqb q k).

(** [get_many_mut], the same code in every map: scanning_map.rs:77-104, common_map.rs:120-147,
    integer_map.rs:86-111, integer_range_map.rs:88-113, length_map.rs:105-132,
    left_slice_map.rs:142-169, right_slice_map.rs:145-172 and facades/frozen_map.rs:493-513;
    [transmute] leaves the tag as it is. *)
Fixpoint each_ref {Q} (look : Q -> res lookup) (box : nat) (qs : list Q) (h : heap)
  : res (option (list value_ref) * heap) :=
  match qs with
  | [] => Ok (Some [], h)
  | q :: qs' =>
      l <- look q ;;
      '(r, h1) <- get_ref box l h ;;
      match r with
      | None => Ok (None, h1)
      | Some r => '(rs, h2) <- each_ref look box qs' h1 ;; Ok (option_map (cons r) rs, h2)
      end
  end.
Definition many_mut_ref {Q} (eqb : Q -> Q -> bool) (look : Q -> res lookup) (box : nat) (qs : list Q) (h : heap)
  : res (option (list value_ref) * heap) :=
  if has_duplicate_key eqb [] qs then Ok (None, h) else each_ref look box qs h.
