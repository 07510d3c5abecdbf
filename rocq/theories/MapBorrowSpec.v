(** Programs that use the references handed out by a map, and what these must refer to. *)
From Coq Require Import List ZArith Bool Arith.
From Verif Require Import Base Maps Borrows BorrowSpec MapBorrows.
Import ListNotations.
Local Open Scope nat_scope.

(** While the map is only shared, a program may call [get], [get_key_value], [iter], [next] and
    [clone] of any iterator made before, and read through any reference obtained so far; nothing it
    has obtained is ever given up. *)
Inductive shared_use (Q : Type) : Type :=
| Look (q : Q)
| LookPair (q : Q)
| Walk
| Step (i : nat)
| Fork (i : nat)
| ReadRef (i : nat).
Arguments Look {Q}. Arguments LookPair {Q}. Arguments Walk {Q}. Arguments Step {Q}.
Arguments Fork {Q}. Arguments ReadRef {Q}.

(** Then it may drop all of that, call [get_mut] and use the one reference it returns. *)
Inductive phase (Q : Type) : Type :=
| Sharing (acts : list (shared_use Q))
| Mutating (q : Q) (acts : list bool).
Arguments Sharing {Q}. Arguments Mutating {Q}.

Definition asks {Q} (p : phase Q) : list Q :=
  match p with
  | Sharing acts => flat_map (fun a => match a with Look q | LookPair q => [q] | _ => [] end) acts
  | Mutating q _ => [q]
  end.

Fixpoint replaced {A} (i : nat) (a : A) (l : list A) : list A :=
  match l, i with
  | [], _ => []
  | _ :: l', O => a :: l'
  | b :: l', S i' => b :: replaced i' a l'
  end.

(** What such a program does in the model. *)
Section Programs.
Context {Q : Type}.
Variable look : Q -> res lookup.
Variables box n : nat.

Record sight : Type := { refs : list cell_ref; walkers : list walker }.

Definition pair_list (p : option (cell_ref * cell_ref)) : list cell_ref :=
  match p with Some (k, v) => [k; v] | None => [] end.

Definition share_step (a : shared_use Q) (s : sight) (h : heap) : res (sight * heap) :=
  match a with
  | Look q =>
      l <- look q ;; r <- get_ref box l h ;;
      Ok ({| refs := refs s ++ match fst r with Some v => [of_value v] | None => [] end; walkers := walkers s |}, snd r)
  | LookPair q =>
      l <- look q ;; r <- get_pair_ref box l h ;;
      Ok ({| refs := refs s ++ pair_list (fst r); walkers := walkers s |}, snd r)
  | Walk =>
      r <- walker_new box n h ;; Ok ({| refs := refs s; walkers := walkers s ++ [fst r] |}, snd r)
  | Step i =>
      match nth_error (walkers s) i with
      | Some w =>
          r <- walker_next w h ;;
          Ok ({| refs := refs s ++ pair_list (fst (fst r)); walkers := replaced i (snd (fst r)) (walkers s) |}, snd r)
      | None => Ok (s, h)
      end
  | Fork i =>
      match nth_error (walkers s) i with
      | Some w => Ok ({| refs := refs s; walkers := walkers s ++ [w] |}, h)
      | None => Ok (s, h)
      end
  | ReadRef i =>
      match nth_error (refs s) i with
      | Some r => h' <- read_cell r h ;; Ok (s, h')
      | None => Ok (s, h)
      end
  end.

Fixpoint share (acts : list (shared_use Q)) (s : sight) (h : heap) : res (sight * heap) :=
  match acts with
  | [] => Ok (s, h)
  | a :: acts' => r <- share_step a s h ;; share acts' (fst r) (snd r)
  end.

(** The cells referred to by what was obtained in each phase, and the heap at the end. *)
Definition run_phase (p : phase Q) (h : heap) : res (list cell * heap) :=
  match p with
  | Sharing acts => r <- share acts {| refs := []; walkers := [] |} h ;; Ok (map snd (refs (fst r)), snd r)
  | Mutating q acts =>
      l <- look q ;; r <- get_mut_ref box l h ;;
      match fst r with
      | Some v => h' <- accesses v acts (snd r) ;; Ok ([ValueOf (snd v)], h')
      | None => Ok ([], snd r)
      end
  end.

Fixpoint run_phases (ps : list (phase Q)) (h : heap) : res (list (list cell) * heap) :=
  match ps with
  | [] => Ok ([], h)
  | p :: ps' => r <- run_phase p h ;; rs <- run_phases ps' (snd r) ;; Ok (fst r :: fst rs, snd rs)
  end.
End Programs.

(** What it must obtain: [find q] is the position of the entry with key [q], iterators deliver the
    entries [0], [1], … [n-1]. *)
Section Expected.
Context {Q : Type}.
Variable find : Q -> option nat.
Variable n : nat.

Fixpoint obtained (acts : list (shared_use Q)) (at_ : list nat) : list cell :=
  match acts with
  | [] => []
  | Look q :: acts' => match find q with Some i => [ValueOf i] | None => [] end ++ obtained acts' at_
  | LookPair q :: acts' => match find q with Some i => [KeyOf i; ValueOf i] | None => [] end ++ obtained acts' at_
  | Walk :: acts' => obtained acts' (at_ ++ [0])
  | Step i :: acts' =>
      match nth_error at_ i with
      | Some p => if p <? n then KeyOf p :: ValueOf p :: obtained acts' (replaced i (S p) at_) else obtained acts' at_
      | None => obtained acts' at_
      end
  | Fork i :: acts' =>
      match nth_error at_ i with
      | Some p => obtained acts' (at_ ++ [p])
      | None => obtained acts' at_
      end
  | ReadRef _ :: acts' => obtained acts' at_
  end.

Definition obtained_in (p : phase Q) : list cell :=
  match p with
  | Sharing acts => obtained acts []
  | Mutating q _ => match find q with Some i => [ValueOf i] | None => [] end
  end.
End Expected.

(** Searching with [look], in [n] entries of which [get_at] is known to find the right one: every
    program that only asks for keys whose search succeeds obeys the aliasing rules and obtains what
    it must.  [get_many_mut] after it makes references to the right entries which may be read, but a
    write through any of them is undefined behaviour. *)
Definition sound_references {Q} (eqb : Q -> Q -> bool) (get_at : Q -> res (option nat)) (look : Q -> res lookup)
  (n : nat) : Prop :=
  forall (box : nat) (find : Q -> option nat) (ps : list (phase Q)),
  (forall p q, In p ps -> In q (asks p) -> get_at q = Ok (find q)) ->
  exists h, run_phases look box n ps (boxed box n) = Ok (map (obtained_in find n) ps, h) /\
    forall (qs : list Q) (is : option (list nat)), get_many_mut eqb get_at qs = Ok is ->
    exists found h', many_mut_ref eqb look box qs h = Ok (found, h') /\ option_map (map snd) found = is /\
      forall rs, found = Some rs ->
        (forall order, exists h'', reads rs order h' = Ok h'') /\
        forall r, In r rs -> write_value r h' = UB Aliasing.
