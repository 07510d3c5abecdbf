(** The implementations of [Len] (traits/len.rs). *)
From Coq Require Import List ZArith.
From Verif Require Import Base.
Import ListNotations.
Open Scope Z_scope.

(** The types with an implementation, from those that are not pointers up to any number of pointers. *)
Inductive len_type : Type :=
| OfHashSet | OfHashMap | OfString | OfStr | OfCStr | OfCString | OfSlice | OfBTreeMap | OfBTreeSet | OfBinaryHeap
| OfLinkedList | OfVec | OfVecDeque | OfOsStr | OfOsString
| OfBox (t : len_type) | OfRc (t : len_type) | OfArc (t : len_type).

(** What a value of one of these types consists of: bytes, items, or pairs of a key and a value; of
    the two kinds of C strings also the final zero, which is part of their memory. *)
Inductive len_value (A B : Type) : Type :=
| VBytes (b : list Z)                (* String, str, OsString, OsStr *)
| VCBytes (b : list Z)               (* CString, CStr *)
| VItems (l : list A)                (* [T], Vec, VecDeque, LinkedList, BinaryHeap *)
| VSet (l : list A)                  (* HashSet, BTreeSet *)
| VMap (l : list (A * B))            (* HashMap, BTreeMap *)
| VPointer (v : len_value A B).      (* Box, Rc, Arc *)
Arguments VBytes {A B}. Arguments VCBytes {A B}. Arguments VItems {A B}. Arguments VSet {A B}.
Arguments VMap {A B}. Arguments VPointer {A B}.

Section Len.
Context {A B : Type}.

(** The methods of the standard library that are called. *)
Definition std_len (v : len_value A B) : Z :=
  match v with
  | VBytes b => zlen b
  | VCBytes b => zlen b                  (* including the final zero; not called *)
  | VItems l | VSet l => zlen l
  | VMap l => zlen l
  | VPointer _ => 0                      (* there is no such method *)
  end.
(** [CStr::to_bytes], [CString::as_bytes]: all but the final zero *)
Definition to_bytes (v : len_value A B) : list Z :=
  match v with VCBytes b => removelast b | _ => [] end.
(** [*self] *)
Definition pointee (v : len_value A B) : len_value A B := match v with VPointer w => w | _ => v end.

(** [len] of the trait, by type *)
Fixpoint len_of (t : len_type) (v : len_value A B) : Z :=
  match t with
  | OfHashSet => std_len v                (* traits/len.rs:23-27 *)
  | OfHashMap => std_len v                (* 29-33 *)
  | OfString => std_len v                 (* 35-39 *)
  | OfStr => std_len v                    (* 41-45 *)
  | OfCStr => zlen (to_bytes v)           (* 47-51 *)
  | OfCString => zlen (to_bytes v)        (* 53-57 *)
  | OfSlice => std_len v                  (* 59-63 *)
  | OfBox t' => len_of t' (pointee v)     (* 65-69 *)
  | OfRc t' => len_of t' (pointee v)      (* 71-75 *)
  | OfArc t' => len_of t' (pointee v)     (* 77-81 *)
  | OfBTreeMap => std_len v               (* 83-87 *)
  | OfBTreeSet => std_len v               (* 89-93 *)
  | OfBinaryHeap => std_len v             (* 95-99 *)
  | OfLinkedList => std_len v             (* 101-105 *)
  | OfVec => std_len v                    (* 107-111 *)
  | OfVecDeque => std_len v               (* 113-117 *)
  | OfOsStr => std_len v                  (* 119-123 *)
  | OfOsString => std_len v               (* 125-129; [as_os_str] is a conversion *)
  end.

(** traits/len.rs:18-20 *)
Definition len_is_empty (t : len_type) (v : len_value A B) : bool := len_of t v =? 0.
End Len.
