(** IntegerRangeMap and IntegerRangeSet for keys of any type with an implementation of PrimInt (and of
    what it requires: Ord, Sub, ToPrimitive, Zero, ...) and a borrowed form of such a type.  These
    implementations are code of the caller: as in VolatileMaps.v they may read and write a state [W]
    and may panic. *)
From Coq Require Import List ZArith Bool.
From Verif Require Import Base HashTable Maps FrozenMap Iterators HistorySpec Sets Volatile VolatileSets.
Import ListNotations.
Open Scope Z_scope.

(** The code of the caller; [None] is a panic.  [K] is the type of the keys, [Q] the borrowed form in
    which keys are asked for. *)
Record integers (W K Q : Type) : Type := {
  g_zero : W -> option K * W;                         (* K::zero() *)
  g_less : K -> K -> W -> option bool * W;            (* PartialOrd::lt for K *)
  g_minus_key : K -> K -> W -> option K * W;          (* Sub for K *)
  g_usize_key : K -> W -> option (option Z) * W;      (* to_usize for K *)
  g_borrow : K -> W -> option Q * W;                  (* Borrow<Q> for K *)
  g_ge : Q -> Q -> W -> option bool * W;              (* PartialOrd::ge for Q *)
  g_le : Q -> Q -> W -> option bool * W;              (* PartialOrd::le for Q *)
  g_minus : Q -> Q -> W -> option Q * W;              (* Sub for Q *)
  g_usize : Q -> W -> option (option Z) * W;          (* to_usize for Q *)
  g_same : Q -> Q -> W -> option bool * W             (* PartialEq::eq for Q *)
}.
Arguments g_zero {W K Q}. Arguments g_less {W K Q}. Arguments g_minus_key {W K Q}. Arguments g_usize_key {W K Q}.
Arguments g_borrow {W K Q}. Arguments g_ge {W K Q}. Arguments g_le {W K Q}. Arguments g_minus {W K Q}.
Arguments g_usize {W K Q}. Arguments g_same {W K Q}.

(** The sort of the standard library as a program that compares elements of a list and then ends, with
    [None] if it panics, as it may when the answers contradict each other. *)
Inductive sorting (A : Type) : Type :=
| Ended (r : option (list A))
| Compare (a b : A) (next : bool -> sorting A).
Arguments Ended {A}. Arguments Compare {A}.
Definition sorter : Type := forall A : Type, list A -> sorting A.

(** integer_range_map.rs:14-18 *)
Record range_map (K V : Type) : Type := {
  rg_min : K;
  rg_max : K;
  rg_entries : list (K * V)
}.
Arguments rg_min {K V}. Arguments rg_max {K V}. Arguments rg_entries {K V}.

(** Running the sort; its own panic counts as one of the comparison. *)
Fixpoint v_sort {W A} (less : A -> A -> M W bool) (s : sorting A) : M W (list A) :=
  match s with
  | Ended (Some l) => lift (Ok l)
  | Ended None => lift (Panic PForeign)
  | Compare a b next => r <~ less a b ;; v_sort less (next r)
  end.

Section Range.
Context {W K Q V : Type}.
Variable G : integers W K Q.

(** integer_range_map.rs:28-53; sort_by_key compares with [lt] *)
Definition rg_from_vec (srt : sorter) (payload : list (K * V)) : M W (range_map K V) :=
  match payload with
  | [] =>
      min <~ call (g_zero G) ;;
      max <~ call (g_zero G) ;;
      lift (Ok {| rg_min := min; rg_max := max; rg_entries := [] |})
  | _ :: _ =>
      sorted <~ v_sort (fun a b => call (g_less G (fst a) (fst b))) (srt _ payload) ;;
      first <~ lift (index_checked sorted 0) ;;
      final <~ lift (index_checked sorted (zlen sorted - 1)) ;;
      spread <~ call (g_minus_key G (fst final) (fst first)) ;;
      o <~ call (g_usize_key G spread) ;;
      n <~ lift (unwrap o) ;;
      if n =? zlen sorted - 1
      then lift (Ok {| rg_min := fst first; rg_max := fst final; rg_entries := sorted |})
      else lift (Panic PAssert)
  end.

(** The common part of integer_range_map.rs:59-70, 74-85 and 116-127 up to the access to
    [self.entries[index]], which is checked: the position of the entry found. *)
Definition rg_find (m : range_map K V) (q : Q) : M W (option nat) :=
  min <~ call (g_borrow G (rg_min m)) ;;
  above <~ call (g_ge G q min) ;;
  if above : bool then
    max <~ call (g_borrow G (rg_max m)) ;;
    below <~ call (g_le G q max) ;;
    if below : bool then
      min' <~ call (g_borrow G (rg_min m)) ;;
      d <~ call (g_minus G q min') ;;
      o <~ call (g_usize G d) ;;
      match o with
      | None => lift (Ok None)
      | Some index => _ <~ lift (index_checked (rg_entries m) index) ;; lift (Ok (Some (Z.to_nat index)))
      end
    else lift (Ok None)
  else lift (Ok None).

(** integer_range_map.rs:59-70 *)
Definition rg_get (m : range_map K V) (q : Q) : M W (option V) :=
  r <~ rg_find m q ;; lift (deref (rg_entries m) r).
(** integer_range_map.rs:116-127 *)
Definition rg_get_key_value (m : range_map K V) (q : Q) : M W (option (K * V)) :=
  r <~ rg_find m q ;; lift (Ok (match r with Some i => nth_error (rg_entries m) i | None => None end)).
(** integer_range_map.rs:131-137, 179-181 and 189-191 *)
Definition rg_contains_key (m : range_map K V) (q : Q) : M W bool :=
  r <~ rg_get m q ;; lift (Ok (match r with Some _ => true | None => false end)).
Definition rg_index (m : range_map K V) (q : Q) : M W V := r <~ rg_get m q ;; lift (unwrap r).
Definition rg_index_mut (m : range_map K V) (q : Q) : M W nat := r <~ rg_find m q ;; lift (unwrap r).

(** The two loops of integer_range_map.rs:88-112 *)
Fixpoint rg_has_duplicate_key (seen keys : list Q) : M W bool :=
  match keys with
  | [] => lift (Ok false)
  | k :: keys' =>
      r <~ v_find_pos (fun j => call (g_same G j k)) seen ;;
      match r with
      | Some _ => lift (Ok true)
      | None => rg_has_duplicate_key (seen ++ [k]) keys'
      end
  end.
Fixpoint rg_get_each (m : range_map K V) (keys : list Q) : M W (option (list nat)) :=
  match keys with
  | [] => lift (Ok (Some []))
  | k :: keys' =>
      r <~ rg_find m k ;;
      match r with
      | None => lift (Ok None)
      | Some i => rs <~ rg_get_each m keys' ;; lift (Ok (option_map (cons i) rs))
      end
  end.
Definition rg_get_many_mut (m : range_map K V) (keys : list Q) : M W (option (list nat)) :=
  d <~ rg_has_duplicate_key [] keys ;;
  if d : bool then lift (Ok None) else rg_get_each m keys.

(** Writing through a reference. *)
Definition rg_write (i : nat) (v : V) (m : range_map K V) : range_map K V :=
  {| rg_min := rg_min m; rg_max := rg_max m; rg_entries := write_entry i v (rg_entries m) |}.
Definition rg_write_all (ps : list nat) (vs : list V) (m : range_map K V) : range_map K V :=
  fold_left (fun m pv => rg_write (fst pv) (snd pv) m) (combine ps vs) m.

(** What the caller sees; [None]: the call ended in a panic of the caller's code, or in that of an
    index out of bounds. *)
Definition rg_observe {A} (r : res A) (f : A -> obs K V) : option (obs K V) :=
  match r with
  | Ok a => Some (f a)
  | Panic PForeign | Panic PIndexOutOfBounds => None
  | Panic PUnwrapNone => Some SawPanic
  | _ => Some SawFailure
  end.

(** One operation. *)
Definition rg_step (p : profile) (m : range_map K V) (o : op Q V) (w : W) : option (obs K V) * range_map K V * W :=
  match o with
  | OGet q => let (r, w') := rg_get m q w in (rg_observe r SawValue, m, w')
  | OGetKeyValue q => let (r, w') := rg_get_key_value m q w in (rg_observe r SawEntry, m, w')
  | OContainsKey q => let (r, w') := rg_contains_key m q w in (rg_observe r SawBool, m, w')
  | OIndex q => let (r, w') := rg_index m q w in (rg_observe r (fun v => SawValue (Some v)), m, w')
  | OLen => (Some (SawNumber (zlen (rg_entries m))), m, w)
  | OIsEmpty => (Some (SawBool (zlen (rg_entries m) =? 0)), m, w)
  | OIter =>
      (rg_observe (fold_iter (it_next p) (S (length (rg_entries m))) (fun acc e => acc ++ [e]) []
                     (it_new (rg_entries m))) SawItems, m, w)
  | OGetMut q v =>
      let (r, w') := rg_find m q w in
      match r with
      | Ok (Some i) => (Some (SawBool true), rg_write i v m, w')
      | _ => (rg_observe r (fun _ => SawBool false), m, w')
      end
  | OIndexMut q v =>
      let (r, w') := rg_index_mut m q w in
      match r with
      | Ok i => (Some (SawBool true), rg_write i v m, w')
      | _ => (rg_observe r (fun _ => SawBool false), m, w')
      end
  | OGetManyMut qvs =>
      let (r, w') := rg_get_many_mut m (map fst qvs) w in
      match r with
      | Ok (Some ps) => (Some (SawBool true), rg_write_all ps (map snd qvs) m, w')
      | _ => (rg_observe r (fun _ => SawBool false), m, w')
      end
  end.

(** After a panic the caller may catch it and go on using the map. *)
Fixpoint rg_run (p : profile) (m : range_map K V) (os : list (op Q V)) (w : W) : list (option (obs K V)) :=
  match os with
  | [] => []
  | o :: os' => let '(b, m', w') := rg_step p m o w in b :: rg_run p m' os' w'
  end.
End Range.

(** integer_range_map.rs:208-215: the keys asked for are keys of the first map, borrowed as
    themselves; [veq] is [==] on values. *)
Definition rg_eq {W K V} (G : integers W K K) (veq : V -> V -> W -> option bool * W)
    (self other : range_map K V) : M W bool :=
  if negb (zlen (rg_entries self) =? zlen (rg_entries other)) then lift (Ok false)
  else v_all (fun e =>
         r <~ rg_get G other (fst e) ;;
         match r with
         | Some v => call (veq (snd e) v)
         | None => lift (Ok false)
         end) (rg_entries self).

Section RangeSet.
Context {W T Q : Type}.

(** integer_range_set.rs:24-28, by way of integer_range_map.rs:239-241 *)
Definition rs_from_vec (G : integers W T Q) (srt : sorter) (payload : list T) : M W (range_map T unit) :=
  rg_from_vec G srt (with_unit payload).
(** integer_range_set.rs:32-38 and 42-48 *)
Definition rs_get (G : integers W T Q) (s : range_map T unit) (value : Q) : M W (option T) :=
  r <~ rg_get_key_value G s value ;; lift (Ok (option_map fst r)).
Definition rs_contains (G : integers W T Q) (s : range_map T unit) (value : Q) : M W bool :=
  r <~ rs_get G s value ;; lift (Ok (match r with Some _ => true | None => false end)).
End RangeSet.

(** The items in the order of the entries. *)
Definition rs_items {T} (s : range_map T unit) : list T := map fst (rg_entries s).

(** [Set<T>] for IntegerRangeSet, integer_range_set.rs:110-125 and 52-62 *)
Definition rs_running {W T} (p : profile) (G : integers W T T) (s : range_map T unit) : vol_set W T (iter (T * unit)) :=
  {| vs_iter := it_new (with_unit (rs_items s)); vs_next := keys_next p;
     vs_len := zlen (rg_entries s); vs_contains := rs_contains G s |}.
