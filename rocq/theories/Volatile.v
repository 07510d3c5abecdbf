(** FrozenMap once more, for keys whose [Eq] and [Hash] and hashers whose answers may change from
    call to call: they may read and write a state [W] (a [Cell] in the key, a global, a random number
    generator) and may panic.  The functions below run that code in the order of the source;
    whatever involves no foreign code is taken from the other model files.  If answers
    depend on the question only, they agree with FrozenMap.v and History.v (VolatileSafety.v). *)
From Coq Require Import List ZArith Bool.
From Verif Require Import Base HashCodeAnalyzer IntKeyAnalyzer SliceKeyAnalyzer HashTable Maps FrozenMap
  Iterators HistorySpec History.
Import ListNotations.
Open Scope Z_scope.

(** ** Computations over a state *)

Section State.
Context {W : Type}.

(** The outcome and the new state, also after a panic. *)
Definition M (A : Type) : Type := W -> res A * W.
Definition lift {A} (r : res A) : M A := fun w => (r, w).
Definition mbind {A B} (x : M A) (f : A -> M B) : M B := fun w =>
  let (r, w') := x w in
  match r with
  | Ok a => f a w'
  | Panic p => (Panic p, w')
  | UB u => (UB u, w')
  | OutOfFuel => (OutOfFuel, w')
  end.
(** A call of foreign code: [None] when it panics. *)
Definition call {A} (f : W -> option A * W) : M A := fun w =>
  let (o, w') := f w in
  (match o with Some a => Ok a | None => Panic PForeign end, w').
End State.
Arguments M : clear implicits.

Notation "x <~ e ;; f" := (mbind e (fun x => f))
  (at level 61, e at next level, right associativity).

(** What the caller supplies: [==] on keys that are neither u32 nor String, and for a
    [BuildHasher] value [hash_one] on keys, [hash_one] on byte slices, and
    build_hasher / write / finish. *)
Record conduct (W O : Type) : Type := {
  on_eq : O -> O -> W -> option bool * W;
  on_hash : hasher O -> key O -> W -> option Z * W;
  on_hash_slice : hasher O -> list Z -> W -> option Z * W;
  on_hash_write : hasher O -> list Z -> W -> option Z * W
}.
Arguments on_eq {W O} c. Arguments on_hash {W O} c.
Arguments on_hash_slice {W O} c. Arguments on_hash_write {W O} c.

Section Loops.
Context {W : Type}.

(** [iter().map(f).collect()] *)
Fixpoint v_map {A B} (f : A -> M W B) (l : list A) : M W (list B) :=
  match l with
  | [] => lift (Ok [])
  | a :: l' => b <~ f a ;; bs <~ v_map f l' ;; lift (Ok (b :: bs))
  end.

(** Position of the first element for which [p] answers [true]; later elements are not asked. *)
Fixpoint v_find_pos {A} (p : A -> M W bool) (l : list A) : M W (option nat) :=
  match l with
  | [] => lift (Ok None)
  | a :: l' =>
      b <~ p a ;;
      if b : bool then lift (Ok (Some O))
      else r <~ v_find_pos p l' ;; lift (Ok (option_map S r))
  end.

(** [Iterator::all] *)
Fixpoint v_all {A} (f : A -> M W bool) (l : list A) : M W bool :=
  match l with
  | [] => lift (Ok true)
  | a :: l' => b <~ f a ;; if b : bool then v_all f l' else lift (Ok false)
  end.

(** ** hash_table.rs *)

Section Table.
Context {K V : Type}.

(** hash_table.rs:47-56 *)
Fixpoint v_prepare (hash : K -> M W Z) (num_hash_slots : Z) (payload : list (K * V))
  : M W (list (Z * (K * V))) :=
  match payload with
  | [] => lift (Ok [])
  | entry :: payload' =>
      code <~ hash (fst entry) ;;
      if num_hash_slots =? 0 then lift (Panic PDivByZero)
      else
        rest <~ v_prepare hash num_hash_slots payload' ;;
        lift (Ok ((code mod num_hash_slots, entry) :: rest))
  end.

(** hash_table.rs:58-99 *)
Definition ht_finish (E : env) (S_ty : int_type) (num_hash_slots : Z)
    (prep_items : list (Z * (K * V))) : res (hash_table K V) :=
  let sorted := usort E (Z * (K * V)) fst prep_items in
  let ss0 := repeat empty_slot (Z.to_nat num_hash_slots) in
  filled <- fill (prof E) S_ty (length sorted) (rev sorted) 0 ss0 [] ;;
  let '(ss, es) := filled in
  if zlen ss =? 0 then Panic PUnwrapNone
  else Ok {| num_slots := zlen ss; slots := ss; entries := es |}.

(** hash_table.rs:30-100 *)
Definition v_ht_new (E : env) (S_ty : int_type) (payload : list (K * V)) (num_hash_slots : Z)
    (hash : K -> M W Z) : M W (hash_table K V) :=
  match payload with
  | [] => lift (Ok {| num_slots := 1; slots := [empty_slot]; entries := [] |})
  | _ :: _ =>
      capacity <~ lift (unwrap (to_usize (imax S_ty))) ;;
      if capacity <? zlen payload then lift (Panic PCapacity)
      else
        prep_items <~ v_prepare hash num_hash_slots payload ;;
        lift (ht_finish E S_ty num_hash_slots prep_items)
  end.

(** The loop in [get], [get_mut] and [get_key_value] of every hashed map, e.g.
    common_map.rs:74-81, 92-99 and 110-117: the position of the entry found. *)
Definition v_probe (t : hash_table K V) (range : Z * Z) (matches : K -> M W bool)
  : M W (option nat) :=
  es <~ lift (slice_unchecked (fst range) (snd range) (entries t)) ;;
  r <~ v_find_pos (fun e => matches (fst e)) es ;;
  lift (Ok (option_map (fun i => (Z.to_nat (fst range) + i)%nat) r)).
End Table.

(** ** slice_key_analyzer.rs *)

Section Slices.
Variable hash_slice : list Z -> M W Z.

(** slice_key_analyzer.rs:192-210 *)
Fixpoint v_uniqueness_loop (left_justified : bool) (subslice_index subslice_len : Z)
    (keys : list (list Z)) (set : list Z) (acceptable_duplicates : Z) : M W bool :=
  match keys with
  | [] => lift (Ok true)
  | s :: keys' =>
      subslice <~ lift (take_subslice left_justified subslice_index subslice_len s) ;;
      code <~ hash_slice subslice ;;
      if existsb (Z.eqb code) set then
        if acceptable_duplicates =? 0 then lift (Ok false)
        else v_uniqueness_loop left_justified subslice_index subslice_len keys' set
               (acceptable_duplicates - 1)
      else v_uniqueness_loop left_justified subslice_index subslice_len keys' (code :: set)
             acceptable_duplicates
  end.

(** slice_key_analyzer.rs:118-140 and 149-167 *)
Fixpoint v_find_index (keys : list (list Z)) (subslice_len : Z) (left_justified : bool)
    (acceptable_duplicates : Z) (remaining : nat) (subslice_index : Z) : M W (option Z) :=
  match remaining with
  | O => lift (Ok None)
  | S remaining' =>
      b <~ v_uniqueness_loop left_justified subslice_index subslice_len keys []
             acceptable_duplicates ;;
      if b : bool then lift (Ok (Some subslice_index))
      else v_find_index keys subslice_len left_justified acceptable_duplicates remaining'
             (subslice_index + 1)
  end.

(** slice_key_analyzer.rs:114-174 *)
Fixpoint v_find_subslice (keys : list (list Z)) (min_len max_len acceptable_duplicates : Z)
    (remaining : nat) (subslice_len : Z) : M W slice_key_analysis :=
  match remaining with
  | O => lift (Ok SliceNormal)
  | S remaining' =>
      let indices := Z.to_nat (min_len - subslice_len + 1) in
      l <~ v_find_index keys subslice_len true acceptable_duplicates indices 0 ;;
      match l with
      | Some subslice_index =>
          lift (Ok (if subslice_len =? max_len then SliceNormal
                    else LeftHandSubslice subslice_index subslice_len))
      | None =>
          r <~ (if min_len =? max_len then lift (Ok None)
                else v_find_index keys subslice_len false acceptable_duplicates indices 0) ;;
          match r with
          | Some subslice_index => lift (Ok (RightHandSubslice subslice_index subslice_len))
          | None =>
              v_find_subslice keys min_len max_len acceptable_duplicates remaining'
                (subslice_len + 1)
          end
      end
  end.

(** slice_key_analyzer.rs:39-56 and 89-175 *)
Definition v_analyze_slice_keys (keys : list (list Z)) : M W slice_key_analysis :=
  match analyze_lengths keys with
  | SliceNormal =>
      let min_len := fold_left (fun m s => Z.min m (zlen s)) keys (imax usize) in
      let max_len := fold_left (fun m s => Z.max m (zlen s)) keys 0 in
      let acceptable_duplicates := f64_five_percent (zlen keys) in
      v_find_subslice keys min_len max_len acceptable_duplicates (Z.to_nat (Z.min min_len 16)) 1
  | result => lift (Ok result)
  end.
End Slices.
End Loops.

(** ** The facade *)

Section Facade.
Context {W O V : Type}.
Variable F : conduct W O.
Variable E : env.
Notation key := (key O).
Notation hasher := (hasher O).

(** [==] on keys: u32 and String have their standard equality. *)
Definition v_key_eq (a b : key) : M W bool :=
  match a, b with
  | KU32 x, KU32 y => lift (Ok (x =? y))
  | KStr x, KStr y => lift (Ok (bytes_eqb x y))
  | KOther x, KOther y => call (on_eq F x y)
  | _, _ => lift (Ok false)
  end.

Definition v_hash (bh : hasher) (k : key) : M W Z := call (on_hash F bh k).

(** traits/slice_hash.rs:13-18 and 22-28 *)
Definition v_slice_hash (bh : hasher) (s : list Z) (a b : Z) : M W Z :=
  s' <~ lift (slice_unchecked a b s) ;; call (on_hash_write F bh s').

(** right_slice_map.rs:37, 46, 80-83 *)
Definition v_right_hash (bh : hasher) (s : list Z) (start end_ : Z) : M W Z :=
  a <~ lift (arith (prof E) usize (zlen s - start)) ;;
  b <~ lift (arith (prof E) usize (zlen s - end_)) ;;
  v_slice_hash bh s a b.

(** common_map.rs:31-38 *)
Definition v_cm_from_vec (S_ty : int_type) (payload : list (key * V)) (bh : hasher)
  : M W (common_map key V hasher) :=
  codes <~ v_map (fun e => v_hash bh (fst e)) payload ;;
  analysis <~ lift (analyze_hash_codes codes) ;;
  t <~ v_ht_new E S_ty payload (fst analysis) (v_hash bh) ;;
  lift (Ok {| cm_table := t; cm_bh := bh |}).

(** left_slice_map.rs:33-51 *)
Definition v_lsm_from_vec (S_ty : int_type) (payload : list (list Z * V)) (start end_ : Z)
    (bh : hasher) : M W (slice_map V hasher) :=
  codes <~ v_map (fun e =>
             let key := fst e in
             if end_ <=? zlen key then v_slice_hash bh key start end_ else lift (Ok 0)) payload ;;
  analysis <~ lift (analyze_hash_codes codes) ;;
  t <~ v_ht_new E S_ty payload (fst analysis) (fun k => v_slice_hash bh k start end_) ;;
  lift (Ok {| slm_table := t; slm_bh := bh; slm_start := start; slm_end := end_ |}).

(** right_slice_map.rs:33-51 *)
Definition v_rsm_from_vec (S_ty : int_type) (payload : list (list Z * V)) (start end_ : Z)
    (bh : hasher) : M W (slice_map V hasher) :=
  codes <~ v_map (fun e =>
             let key := fst e in
             if end_ <=? zlen key then v_right_hash bh key start end_ else lift (Ok 0)) payload ;;
  analysis <~ lift (analyze_hash_codes codes) ;;
  t <~ v_ht_new E S_ty payload (fst analysis) (fun k => v_right_hash bh k start end_) ;;
  lift (Ok {| slm_table := t; slm_bh := bh; slm_start := start; slm_end := end_ |}).

(** facades/frozen_map.rs:308-314 *)
Definition v_new_common_map (payload : list (key * V)) (bh : hasher) : M W (map_types O V) :=
  if zlen payload <=? imax u8 then
    m <~ v_cm_from_vec u8 payload bh ;; lift (Ok (MCommonSmall m))
  else
    m <~ v_cm_from_vec usize payload bh ;; lift (Ok (MCommonLarge m)).

(** facades/frozen_map.rs:245-306 *)
Definition v_new_string_map (payload0 : list (key * V)) (bh : hasher) : M W (map_types O V) :=
  payload <~ lift (payload_as_string payload0) ;;
  key_analysis <~ v_analyze_slice_keys (fun s => call (on_hash_slice F bh s)) (map fst payload) ;;
  if zlen payload <=? imax u8 then
    match key_analysis with
    | SliceNormal => m <~ v_cm_from_vec u8 payload0 bh ;; lift (Ok (MCommonSmall m))
    | LeftHandSubslice i l =>
        m <~ v_lsm_from_vec u8 payload i (i + l) bh ;; lift (Ok (MLeftStringSliceSmall m))
    | RightHandSubslice i l =>
        m <~ v_rsm_from_vec u8 payload i (i + l) bh ;; lift (Ok (MRightStringSliceSmall m))
    | SliceLength => m <~ lift (lm_from_vec zlen E u8 payload) ;; lift (Ok (MStringLengthSmall m))
    end
  else
    match key_analysis with
    | SliceLength | SliceNormal =>
        m <~ v_cm_from_vec usize payload0 bh ;; lift (Ok (MCommonLarge m))
    | LeftHandSubslice i l =>
        m <~ v_lsm_from_vec usize payload i (i + l) bh ;; lift (Ok (MLeftStringSliceLarge m))
    | RightHandSubslice i l =>
        m <~ v_rsm_from_vec usize payload i (i + l) bh ;; lift (Ok (MRightStringSliceLarge m))
    end.

(** facades/frozen_map.rs:212-224; no foreign code runs for u32 keys *)
Definition v_new (kd : kind) (payload : list (key * V)) (bh : hasher) : M W (map_types O V) :=
  if zlen payload <? 4 then lift (Ok (MScanning (sm_from_vec payload)))
  else
    match kd with
    | KindU32 => lift (fm_new_u32_map E payload)
    | KindString => v_new_string_map payload bh
    | KindOther => v_new_common_map payload bh
    end.

(** common_map.rs:58-64 and 68-118 *)
Definition v_cm_find (m : common_map key V hasher) (k : key) : M W (option nat) :=
  code <~ v_hash (cm_bh m) k ;;
  range <~ lift (ht_get_hash_info (cm_table m) code) ;;
  v_probe (cm_table m) range (fun k' => v_key_eq k k').

(** left_slice_map.rs:75-86 and 90-140 *)
Definition v_lsm_find (m : slice_map V hasher) (s : list Z) : M W (option nat) :=
  code <~ (if slm_end m <=? zlen s then v_slice_hash (slm_bh m) s (slm_start m) (slm_end m)
           else lift (Ok 0)) ;;
  range <~ lift (ht_get_hash_info (slm_table m) code) ;;
  lift (ht_probe (slm_table m) range (fun k => bytes_eqb s k)).

(** right_slice_map.rs:75-89 and 93-143 *)
Definition v_rsm_find (m : slice_map V hasher) (s : list Z) : M W (option nat) :=
  code <~ (if slm_start m <=? zlen s then v_right_hash (slm_bh m) s (slm_start m) (slm_end m)
           else lift (Ok 0)) ;;
  range <~ lift (ht_get_hash_info (slm_table m) code) ;;
  lift (ht_probe (slm_table m) range (fun k => bytes_eqb s k)).

(** facades/frozen_map.rs:328-357 ([get]), 371-400 ([get_key_value]) and 414-446 ([get_mut]), which
    search in the same way: the position of the entry found. *)
Definition v_find (m : map_types O V) (k : key) : M W (option nat) :=
  match m with
  | MScanning m => v_find_pos (fun e => v_key_eq k (fst e)) (sm_entries m)
  | MCommonSmall m | MCommonLarge m => v_cm_find m k
  | MU32Small m | MU32Large m => n <~ lift (as_u32 k) ;; lift (im_get_at m n)
  | MU32Range m => n <~ lift (as_u32 k) ;; lift (irm_get_at (prof E) u32 m n)
  | MLeftStringSliceSmall m | MLeftStringSliceLarge m =>
      s <~ lift (as_string k) ;; v_lsm_find m s
  | MRightStringSliceSmall m | MRightStringSliceLarge m =>
      s <~ lift (as_string k) ;; v_rsm_find m s
  | MStringLengthSmall m =>
      s <~ lift (as_string k) ;; lift (lm_get_at bytes_eqb id_bytes zlen m s)
  end.

(** facades/frozen_map.rs:328-357, reading through the reference *)
Definition v_get (m : map_types O V) (k : key) : M W (option V) :=
  r <~ v_find m k ;; lift (deref (fm_iter m) r).

(** facades/frozen_map.rs:371-400 *)
Definition v_get_key_value (m : map_types O V) (k : key) : M W (option (key * V)) :=
  r <~ v_find m k ;;
  lift (Ok (match r with Some i => nth_error (fm_iter m) i | None => None end)).

(** facades/frozen_map.rs:527-529 *)
Definition v_contains_key (m : map_types O V) (k : key) : M W bool :=
  r <~ v_get m k ;; lift (Ok (match r with Some _ => true | None => false end)).

(** facades/frozen_map.rs:711-731 *)
Definition v_index (m : map_types O V) (k : key) : M W V := r <~ v_get m k ;; lift (unwrap r).
Definition v_index_mut (m : map_types O V) (k : key) : M W nat := r <~ v_find m k ;; lift (unwrap r).

(** facades/frozen_map.rs:495-501 *)
Fixpoint v_has_duplicate_key (seen keys : list key) : M W bool :=
  match keys with
  | [] => lift (Ok false)
  | k :: keys' =>
      r <~ v_find_pos (fun j => v_key_eq j k) seen ;;
      match r with
      | Some _ => lift (Ok true)
      | None => v_has_duplicate_key (seen ++ [k]) keys'
      end
  end.

(** facades/frozen_map.rs:507-509 *)
Fixpoint v_get_each (m : map_types O V) (keys : list key) : M W (option (list nat)) :=
  match keys with
  | [] => lift (Ok (Some []))
  | k :: keys' =>
      r <~ v_find m k ;;
      match r with
      | None => lift (Ok None)
      | Some i => rs <~ v_get_each m keys' ;; lift (Ok (option_map (cons i) rs))
      end
  end.

(** facades/frozen_map.rs:493-513 *)
Definition v_get_many_mut (m : map_types O V) (keys : list key) : M W (option (list nat)) :=
  d <~ v_has_duplicate_key [] keys ;;
  if d : bool then lift (Ok None) else v_get_each m keys.

(** facades/frozen_map.rs:767-781; [veq] is [==] on values, foreign code as well *)
Definition v_eq (veq : V -> V -> W -> option bool * W) (self other : map_types O V) : M W bool :=
  if negb (fm_len self =? fm_len other) then lift (Ok false)
  else v_all (fun e =>
         r <~ v_get other (fst e) ;;
         match r with
         | Some v => call (veq (snd e) v)
         | None => lift (Ok false)
         end) (fm_iter self).

(** ** Histories *)

(** What the caller sees; [None]: the call ended in a panic of the foreign code. *)
Definition v_observe {A} (r : res A) (f : A -> obs key V) : option (obs key V) :=
  match r with Panic PForeign => None | _ => Some (observe r f) end.

(** One operation, as [step] in History.v. *)
Definition v_step (m : map_types O V) (o : op key V) (w : W)
  : option (obs key V) * map_types O V * W :=
  match o with
  | OGet k => let (r, w') := v_get m k w in (v_observe r SawValue, m, w')
  | OGetKeyValue k => let (r, w') := v_get_key_value m k w in (v_observe r SawEntry, m, w')
  | OContainsKey k => let (r, w') := v_contains_key m k w in (v_observe r SawBool, m, w')
  | OIndex k => let (r, w') := v_index m k w in (v_observe r (fun v => SawValue (Some v)), m, w')
  | OLen => (Some (SawNumber (fm_len m)), m, w)
  | OIsEmpty => (Some (SawBool (fm_is_empty m)), m, w)
  | OIter =>
      (v_observe (fold_iter (it_next (prof E)) (S (length (fm_iter m))) (fun acc e => acc ++ [e]) []
                    (fm_iter_new m)) SawItems, m, w)
  | OGetMut k v =>
      let (r, w') := v_find m k w in
      match r with
      | Ok (Some i) => (Some (SawBool true), fm_write i v m, w')
      | _ => (v_observe r (fun _ => SawBool false), m, w')
      end
  | OIndexMut k v =>
      let (r, w') := v_index_mut m k w in
      match r with
      | Ok i => (Some (SawBool true), fm_write i v m, w')
      | _ => (v_observe r (fun _ => SawBool false), m, w')
      end
  | OGetManyMut kws =>
      let (r, w') := v_get_many_mut m (map fst kws) w in
      match r with
      | Ok (Some ps) => (Some (SawBool true), write_all ps (map snd kws) m, w')
      | _ => (v_observe r (fun _ => SawBool false), m, w')
      end
  end.

(** After a panic the caller may catch it and go on using the map. *)
Fixpoint v_run (m : map_types O V) (os : list (op key V)) (w : W) : list (option (obs key V)) :=
  match os with
  | [] => []
  | o :: os' => let '(b, m', w') := v_step m o w in b :: v_run m' os' w'
  end.
End Facade.

(** Answers that never change and never panic. *)
Definition steady {W O} (eqbO : O -> O -> bool) : conduct W O := {|
  on_eq := fun a b w => (Some (eqbO a b), w);
  on_hash := fun bh k w => (Some (hash_one bh k), w);
  on_hash_slice := fun bh s w => (Some (hash_one_slice bh s), w);
  on_hash_write := fun bh s w => (Some (hash_write bh s), w)
|}.
