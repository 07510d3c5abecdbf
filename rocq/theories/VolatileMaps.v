(** The specialized maps once more, for key types, borrowed forms and hashers whose trait
    implementations (Eq, Hash, Borrow, Len, SliceHash, AsPrimitive<u64>) are code of the caller:
    it may read and write a state [W], so that its answers change from call to call, and may
    panic.  See Volatile.v for FrozenMap. *)
From Coq Require Import List ZArith Bool.
From Verif Require Import Base HashCodeAnalyzer HashTable Maps FrozenMap Iterators HistorySpec Volatile.
Import ListNotations.
Open Scope Z_scope.

(** The code of the caller; [None] is a panic.  [K] is the type of the keys, [Q] the borrowed
    form in which keys are asked for, [BH] the type of hash builders. *)
Record foreign (W K Q BH : Type) : Type := {
  f_eq : Q -> Q -> W -> option bool * W;                     (* Eq for Q *)
  f_borrow : K -> W -> option Q * W;                         (* Borrow<Q> for K *)
  f_hash_key : BH -> K -> W -> option Z * W;                 (* bh.hash_one at type K *)
  f_hash_query : BH -> Q -> W -> option Z * W;               (* bh.hash_one at type Q *)
  f_len_key : K -> W -> option Z * W;                        (* Len for K *)
  f_len_query : Q -> W -> option Z * W;                      (* Len for Q *)
  f_as_key : K -> W -> option Z * W;                         (* AsPrimitive<u64> for K *)
  f_as_query : Q -> W -> option Z * W;                       (* AsPrimitive<u64> for Q *)
  f_slice_hash_key : BH -> K -> Z -> Z -> W -> option Z * W; (* SliceHash for K *)
  f_slice_hash_query : BH -> Q -> Z -> Z -> W -> option Z * W (* SliceHash for Q *)
}.
Arguments f_eq {W K Q BH} f. Arguments f_borrow {W K Q BH} f.
Arguments f_hash_key {W K Q BH} f. Arguments f_hash_query {W K Q BH} f.
Arguments f_len_key {W K Q BH} f. Arguments f_len_query {W K Q BH} f.
Arguments f_as_key {W K Q BH} f. Arguments f_as_query {W K Q BH} f.
Arguments f_slice_hash_key {W K Q BH} f. Arguments f_slice_hash_query {W K Q BH} f.

(** The specialized maps with an unsafe lookup, and ScanningMap, with the fields that take
    part in lookups. *)
Inductive shape (BH : Type) : Type :=
| Scanning
| Common (bh : BH)
| Length
| Integer
| LeftSlice (bh : BH) (start end_ : Z)
| RightSlice (bh : BH) (start end_ : Z).
Arguments Scanning {BH}. Arguments Common {BH}. Arguments Length {BH}. Arguments Integer {BH}.
Arguments LeftSlice {BH}. Arguments RightSlice {BH}.

(** A specialized map: ScanningMap holds its entries, all others a HashTable. *)
Inductive special (K V BH : Type) : Type :=
| Entries (es : list (K * V))
| InTable (sh : shape BH) (t : hash_table K V).
Arguments Entries {K V BH}. Arguments InTable {K V BH}.

Section Special.
Context {W K Q V BH : Type}.
Variable F : foreign W K Q BH.
Variable E : env.

Definition sp_entries (m : special K V BH) : list (K * V) :=
  match m with Entries es => es | InTable _ t => entries t end.

(** right_slice_map.rs:37 and 46, 80-83: the two subtractions, each after a call of [len] *)
Definition sp_from_right (len : M W Z) (start end_ : Z) (hash : Z -> Z -> M W Z) : M W Z :=
  l1 <~ len ;;
  a <~ lift (arith (prof E) usize (l1 - start)) ;;
  l2 <~ len ;;
  b <~ lift (arith (prof E) usize (l2 - end_)) ;;
  hash a b.

(** The hash codes given to analyze_hash_codes: common_map.rs:32-33, length_map.rs:29,
    integer_map.rs:28, left_slice_map.rs:34-41, right_slice_map.rs:34-41 *)
Definition sp_analysis_code (sh : shape BH) (k : K) : M W Z :=
  match sh with
  | Scanning => lift (Ok 0)
  | Common bh => call (f_hash_key F bh k)
  | Length => call (f_len_key F k)
  | Integer => call (f_as_key F k)
  | LeftSlice bh start end_ =>
      l <~ call (f_len_key F k) ;;
      if end_ <=? l then call (f_slice_hash_key F bh k start end_) else lift (Ok 0)
  | RightSlice bh start end_ =>
      l <~ call (f_len_key F k) ;;
      if end_ <=? l then
        sp_from_right (call (f_len_key F k)) start end_ (fun a b => call (f_slice_hash_key F bh k a b))
      else lift (Ok 0)
  end.

(** The closure given to HashTable::new: common_map.rs:36, length_map.rs:32, integer_map.rs:30,
    left_slice_map.rs:45-47, right_slice_map.rs:45-47 *)
Definition sp_table_code (sh : shape BH) (k : K) : M W Z :=
  match sh with
  | Scanning => lift (Ok 0)
  | Common bh => call (f_hash_key F bh k)
  | Length => call (f_len_key F k)
  | Integer => call (f_as_key F k)
  | LeftSlice bh start end_ => call (f_slice_hash_key F bh k start end_)
  | RightSlice bh start end_ =>
      sp_from_right (call (f_len_key F k)) start end_ (fun a b => call (f_slice_hash_key F bh k a b))
  end.

(** The code in [get_hash_info]: common_map.rs:62, length_map.rs:47, integer_map.rs:45,
    left_slice_map.rs:79-83, right_slice_map.rs:79-86 *)
Definition sp_query_code (sh : shape BH) (q : Q) : M W Z :=
  match sh with
  | Scanning => lift (Ok 0)
  | Common bh => call (f_hash_query F bh q)
  | Length => call (f_len_query F q)
  | Integer => call (f_as_query F q)
  | LeftSlice bh start end_ =>
      l <~ call (f_len_query F q) ;;
      if end_ <=? l then call (f_slice_hash_query F bh q start end_) else lift (Ok 0)
  | RightSlice bh start end_ =>
      l <~ call (f_len_query F q) ;;
      if start <=? l then
        sp_from_right (call (f_len_query F q)) start end_ (fun a b => call (f_slice_hash_query F bh q a b))
      else lift (Ok 0)
  end.

(** scanning_map.rs:21-25, common_map.rs:31-38, length_map.rs:28-34, integer_map.rs:27-32,
    left_slice_map.rs:33-51, right_slice_map.rs:33-51 *)
Definition sp_from_vec (S_ty : int_type) (sh : shape BH) (payload : list (K * V)) : M W (special K V BH) :=
  match sh with
  | Scanning => lift (Ok (Entries payload))
  | _ =>
      codes <~ v_map (fun e => sp_analysis_code sh (fst e)) payload ;;
      analysis <~ lift (analyze_hash_codes codes) ;;
      t <~ v_ht_new E S_ty payload (fst analysis) (sp_table_code sh) ;;
      lift (Ok (InTable sh t))
  end.

(** [key.eq(entry.0.borrow())], e.g. common_map.rs:76 *)
Definition sp_matches (q : Q) (k : K) : M W bool := b <~ call (f_borrow F k) ;; call (f_eq F q b).

(** [get], [get_key_value] and [get_mut], which search in the same way, e.g. common_map.rs:68-118
    and scanning_map.rs:31-75: the position of the entry found. *)
Definition sp_find (m : special K V BH) (q : Q) : M W (option nat) :=
  match m with
  | Entries es => v_find_pos (fun e => sp_matches q (fst e)) es
  | InTable sh t =>
      code <~ sp_query_code sh q ;;
      range <~ lift (ht_get_hash_info t code) ;;
      v_probe t range (sp_matches q)
  end.

Definition sp_get (m : special K V BH) (q : Q) : M W (option V) :=
  r <~ sp_find m q ;; lift (deref (sp_entries m) r).
Definition sp_get_key_value (m : special K V BH) (q : Q) : M W (option (K * V)) :=
  r <~ sp_find m q ;; lift (Ok (match r with Some i => nth_error (sp_entries m) i | None => None end)).

(** e.g. common_map.rs:149-155, 216-218 and 228-230 *)
Definition sp_contains_key (m : special K V BH) (q : Q) : M W bool :=
  r <~ sp_get m q ;; lift (Ok (match r with Some _ => true | None => false end)).
Definition sp_index (m : special K V BH) (q : Q) : M W V := r <~ sp_get m q ;; lift (unwrap r).
Definition sp_index_mut (m : special K V BH) (q : Q) : M W nat := r <~ sp_find m q ;; lift (unwrap r).

(** The two loops of [get_many_mut], e.g. common_map.rs:127-133 and 139-141 *)
Fixpoint sp_has_duplicate_key (seen keys : list Q) : M W bool :=
  match keys with
  | [] => lift (Ok false)
  | k :: keys' =>
      r <~ v_find_pos (fun j => call (f_eq F j k)) seen ;;
      match r with
      | Some _ => lift (Ok true)
      | None => sp_has_duplicate_key (seen ++ [k]) keys'
      end
  end.
Fixpoint sp_get_each (m : special K V BH) (keys : list Q) : M W (option (list nat)) :=
  match keys with
  | [] => lift (Ok (Some []))
  | k :: keys' =>
      r <~ sp_find m k ;;
      match r with
      | None => lift (Ok None)
      | Some i => rs <~ sp_get_each m keys' ;; lift (Ok (option_map (cons i) rs))
      end
  end.
Definition sp_get_many_mut (m : special K V BH) (keys : list Q) : M W (option (list nat)) :=
  d <~ sp_has_duplicate_key [] keys ;;
  if d : bool then lift (Ok None) else sp_get_each m keys.

(** Writing through a reference. *)
Definition sp_write (i : nat) (v : V) (m : special K V BH) : special K V BH :=
  match m with
  | Entries es => Entries (write_entry i v es)
  | InTable sh t => InTable sh (write_table i v t)
  end.
Definition sp_write_all (ps : list nat) (vs : list V) (m : special K V BH) : special K V BH :=
  fold_left (fun m pv => sp_write (fst pv) (snd pv) m) (combine ps vs) m.

(** What the caller sees; [None]: the call ended in a panic of the caller's code, or in that of a
    subtraction of RightSliceMap. *)
Definition sp_observe {A} (m : special K V BH) (r : res A) (f : A -> obs K V) : option (obs K V) :=
  match r, m with
  | Ok a, _ => Some (f a)
  | Panic PForeign, _ => None
  | Panic POverflow, InTable (RightSlice _ _ _) _ => None
  | Panic PUnwrapNone, _ => Some SawPanic
  | _, _ => Some SawFailure
  end.

(** One operation. *)
Definition sp_step (m : special K V BH) (o : op Q V) (w : W) : option (obs K V) * special K V BH * W :=
  match o with
  | OGet q => let (r, w') := sp_get m q w in (sp_observe m r SawValue, m, w')
  | OGetKeyValue q => let (r, w') := sp_get_key_value m q w in (sp_observe m r SawEntry, m, w')
  | OContainsKey q => let (r, w') := sp_contains_key m q w in (sp_observe m r SawBool, m, w')
  | OIndex q => let (r, w') := sp_index m q w in (sp_observe m r (fun v => SawValue (Some v)), m, w')
  | OLen => (Some (SawNumber (zlen (sp_entries m))), m, w)
  | OIsEmpty => (Some (SawBool (zlen (sp_entries m) =? 0)), m, w)
  | OIter =>
      (sp_observe m (fold_iter (it_next (prof E)) (S (length (sp_entries m))) (fun acc e => acc ++ [e]) []
                       (it_new (sp_entries m))) SawItems, m, w)
  | OGetMut q v =>
      let (r, w') := sp_find m q w in
      match r with
      | Ok (Some i) => (Some (SawBool true), sp_write i v m, w')
      | _ => (sp_observe m r (fun _ => SawBool false), m, w')
      end
  | OIndexMut q v =>
      let (r, w') := sp_index_mut m q w in
      match r with
      | Ok i => (Some (SawBool true), sp_write i v m, w')
      | _ => (sp_observe m r (fun _ => SawBool false), m, w')
      end
  | OGetManyMut qvs =>
      let (r, w') := sp_get_many_mut m (map fst qvs) w in
      match r with
      | Ok (Some ps) => (Some (SawBool true), sp_write_all ps (map snd qvs) m, w')
      | _ => (sp_observe m r (fun _ => SawBool false), m, w')
      end
  end.

(** After a panic the caller may catch it and go on using the map. *)
Fixpoint sp_run (m : special K V BH) (os : list (op Q V)) (w : W) : list (option (obs K V)) :=
  match os with
  | [] => []
  | o :: os' => let '(b, m', w') := sp_step m o w in b :: sp_run m' os' w'
  end.
End Special.

(** [PartialEq::eq], e.g. common_map.rs:249-256: here the keys asked for are keys of the first map;
    [veq] is [==] on values. *)
Definition sp_eq {W K V BH} (F : foreign W K K BH) (E : env) (veq : V -> V -> W -> option bool * W)
    (self other : special K V BH) : M W bool :=
  if negb (zlen (sp_entries self) =? zlen (sp_entries other)) then lift (Ok false)
  else v_all (fun e =>
         r <~ sp_get F E other (fst e) ;;
         match r with
         | Some v => call (veq (snd e) v)
         | None => lift (Ok false)
         end) (sp_entries self).
