(** [get_many_mut] statement by statement: the nested loops over indices, and the result array
    [MaybeUninit<[&mut V; N]>] as memory cells that start out uninitialized.  Maps.v gives the same
    method on lists.  The code is repeated in scanning_map.rs:78-102, common_map.rs:121-145,
    integer_map.rs:86-110, integer_range_map.rs:88-112, length_map.rs:106-130,
    left_slice_map.rs:143-167, right_slice_map.rs:146-170 and facades/frozen_map.rs:493-513;
    the lines below are those of common_map.rs. *)
From Coq Require Import List ZArith Bool Arith.
From Verif Require Import Base.
Import ListNotations.

Section ManyMut.
Context {Q : Type}.
Variable eqb : Q -> Q -> bool.
Variable get_at : Q -> res (option nat).

(** [keys[i]], bounds checked *)
Definition key_at (keys : list Q) (i : nat) : res Q :=
  match nth_error keys i with Some k => Ok k | None => Panic PIndexOutOfBounds end.

(** common_map.rs:128-132, the inner loop over the indices [js]: [true] when an equal key is met *)
Fixpoint row_has_duplicate (keys : list Q) (i : nat) (js : list nat) : res bool :=
  match js with
  | [] => Ok false
  | j :: js' =>
      kj <- key_at keys j ;;
      ki <- key_at keys i ;;
      if eqb kj ki then Ok true else row_has_duplicate keys i js'
  end.

(** common_map.rs:127-133, the outer loop over the indices [is] *)
Fixpoint rows_have_duplicate (keys : list Q) (is : list nat) : res bool :=
  match is with
  | [] => Ok false
  | i :: is' =>
      b <- row_has_duplicate keys i (seq 0 i) ;;
      if b : bool then Ok true else rows_have_duplicate keys is'
  end.

(** A reference in the array, or [None] while it is uninitialized. *)
Definition cells : Type := list (option nat).

(** common_map.rs:136: [MaybeUninit::uninit()] of an array of [n] references *)
Definition uninit (n : nat) : cells := repeat None n.

(** common_map.rs:140: a write through [get_unchecked_mut(i)] *)
Fixpoint write_cell (p : cells) (i : nat) (r : nat) : res cells :=
  match p, i with
  | [], _ => UB OutOfBounds
  | _ :: p', O => Ok (Some r :: p')
  | c :: p', S i' => rest <- write_cell p' i' r ;; Ok (c :: rest)
  end.

(** common_map.rs:139-141; [i] counts as [enumerate] does.  [None]: the [?] returned early. *)
Fixpoint fill (p : cells) (i : nat) (keys : list Q) : res (option cells) :=
  match keys with
  | [] => Ok (Some p)
  | key :: keys' =>
      got <- get_at key ;;
      match got with
      | None => Ok None
      | Some r => p' <- write_cell p i r ;; fill p' (S i) keys'
      end
  end.

(** common_map.rs:143: [result.assume_init()] *)
Fixpoint assume_init (p : cells) : res (list nat) :=
  match p with
  | [] => Ok []
  | None :: _ => UB Uninitialized
  | Some r :: p' => rs <- assume_init p' ;; Ok (r :: rs)
  end.

(** common_map.rs:121-145 *)
Definition get_many_mut_in_memory (keys : list Q) : res (option (list nat)) :=
  duplicate <- rows_have_duplicate keys (seq 0 (length keys)) ;;
  if duplicate : bool then Ok None
  else
    filled <- fill (uninit (length keys)) 0 keys ;;
    match filled with
    | None => Ok None
    | Some p => result <- assume_init p ;; Ok (Some result)
    end.
End ManyMut.
