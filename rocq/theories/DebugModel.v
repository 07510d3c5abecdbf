(** Model of the [Debug] implementations.  The output is given as the calls made on the
    standard builders, so it does not depend on the formatting flags. *)
From Coq Require Import List ZArith Bool.
From Verif Require Import Base HashTable Maps FrozenMap Iterators SetOps Sets.
Import ListNotations.
Open Scope Z_scope.

(** What is written through [f.debug_map().entries(..).finish()] and
    [f.debug_list().entries(..).finish()]. *)
Inductive debug_out (K V : Type) : Type :=
| DMap (entries : list (K * V))
| DList (items : list K).
Arguments DMap {K V} entries.
Arguments DList {K V} items.

(** ** Maps *)

(** hash_table.rs:123-126: [entries.iter().map(|x| (&x.0, &x.1))] given to [debug_map] *)
Definition ht_fmt {K V} (t : hash_table K V) : debug_out K V := DMap (map (fun x => (fst x, snd x)) (entries t)).
(** scanning_map.rs:141-144 *)
Definition sm_fmt {K V} (m : scanning_map K V) : debug_out K V :=
  DMap (map (fun x => (fst x, snd x)) (sm_entries m)).
(** common_map.rs:202-204 *)
Definition cm_fmt {K V BH} (m : common_map K V BH) : debug_out K V := ht_fmt (cm_table m).
(** integer_map.rs:169-171 *)
Definition im_fmt {V} (m : integer_map V) : debug_out Z V := ht_fmt (im_table m).
(** length_map.rs:171-173 *)
Definition lm_fmt {K V} (m : length_map K V) : debug_out K V := ht_fmt (lm_table m).
(** left_slice_map.rs:234-236, right_slice_map.rs:237-239 *)
Definition slm_fmt {V BH} (m : slice_map V BH) : debug_out bytes V := ht_fmt (slm_table m).
(** integer_range_map.rs:166-169 *)
Definition irm_fmt {V} (m : integer_range_map V) : debug_out Z V :=
  DMap (map (fun x => (fst x, snd x)) (irm_entries m)).

(** The keys printed by a map of u32 or String keys are values of the facade's key type. *)
Definition out_keys {K K' V} (f : K -> K') (d : debug_out K V) : debug_out K' V :=
  match d with
  | DMap es => DMap (map (fun e => (f (fst e), snd e)) es)
  | DList l => DList (map f l)
  end.

(** facades/frozen_map.rs:750-764 *)
Definition fm_fmt {O V} (m : map_types O V) : debug_out (key O) V :=
  match m with
  | MScanning m => sm_fmt m
  | MCommonSmall m | MCommonLarge m => cm_fmt m
  | MU32Small m | MU32Large m => out_keys KU32 (im_fmt m)
  | MU32Range m => out_keys KU32 (irm_fmt m)
  | MLeftStringSliceSmall m | MLeftStringSliceLarge m
  | MRightStringSliceSmall m | MRightStringSliceLarge m => out_keys KStr (slm_fmt m)
  | MStringLengthSmall m => out_keys KStr (lm_fmt m)
  end.

(** ** Sets *)

(** common_set.rs:205-207: a list ... *)
Definition cs_fmt {T BH} (s : common_set T BH) : debug_out T unit := DList (cs_items s).
(** ... but [self.map.fmt(f)] in scanning_set.rs:68-70, integer_set.rs:69-71,
    integer_range_set.rs:68-70, length_set.rs:74-76, left_slice_set.rs:121-123,
    right_slice_set.rs:121-123. *)
Definition ss_fmt {T} (s : scanning_set T) : debug_out T unit := sm_fmt s.
Definition is_fmt (s : integer_set) : debug_out Z unit := im_fmt s.
Definition irs_fmt (s : integer_range_set) : debug_out Z unit := irm_fmt s.
Definition ls_fmt {T} (s : length_set T) : debug_out T unit := lm_fmt s.
Definition sls_fmt {BH} (s : slice_set BH) : debug_out bytes unit := slm_fmt s.

(** FrozenSet has no [Debug]: facades/frozen_set.rs:481-502 is commented out. *)

(** ** Iterators *)

(** [f.debug_list().entries(self.clone()).finish()]: specialized_maps/iterators.rs:64-66,
    128-130, 192-194, specialized_sets/iterators.rs:65-67, 116-118, 221-223, 319-321, 402-404,
    497-499.  The clones (specialized_maps/iterators.rs:18-23, 84-88, 148-152,
    specialized_sets/iterators.rs:45-50, 196-203, 294-301, 378-384, 472-479) copy every field,
    so the clone starts in the state of the original. *)
Fixpoint collect {St A} (next : St -> res (option A * St)) (fuel : nat) (s : St) : res (list A) :=
  match fuel with
  | O => OutOfFuel
  | S fuel' =>
      r <- next s ;;
      match fst r with
      | None => Ok []
      | Some a => rest <- collect next fuel' (snd r) ;; Ok (a :: rest)
      end
  end.
Definition iter_fmt {St A} (next : St -> res (option A * St)) (fuel : nat) (s : St) : res (debug_out A unit) :=
  l <- collect next fuel s ;; Ok (DList l).

(** ** The text without formatting flags *)

Fixpoint separated (l : list bytes) : bytes :=
  match l with
  | [] => []
  | [x] => x
  | x :: l' => x ++ [44; 32] ++ separated l'
  end.
(** [{k: v, k: v}] and [[x, x]] *)
Definition plain_text {K V} (show_key : K -> bytes) (show_value : V -> bytes) (d : debug_out K V) : bytes :=
  match d with
  | DMap es => [123] ++ separated (map (fun e => show_key (fst e) ++ [58; 32] ++ show_value (snd e)) es) ++ [125]
  | DList l => [91] ++ separated (map show_key l) ++ [93]
  end.
(** [()] *)
Definition show_unit (_ : unit) : bytes := [40; 41].
