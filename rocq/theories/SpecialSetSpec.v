(** Vocabulary for the calls that operations on specialized sets make of the caller's code (see
    SpecialCallSpec.v and SetCallSpec.v). *)
From Coq Require Import List ZArith Bool Permutation.
From Verif Require Import Spec Base Iterators IterSpec RunSpec Volatile VolatileMaps VolatileSets SpecialCallSpec SpecialSets.
Import ListNotations.
Open Scope Z_scope.

(** The calls made by one question to [contains], with its answer. *)
Definition set_asked {T BH} (p : profile) (sh : shape BH) (n : Z) (placed : list (Z * T)) (x : T) (answer : bool + panic)
    (calls : list (request T T unit BH)) : Prop :=
  exists r, search_asked p sh n placed x r calls /\
    match answer, r with
    | inl true, Ok (Some _) | inl false, Ok None => True
    | inr a, Panic b => a = b
    | _, _ => False
    end.

(** How a set built from [payload] in state [w] holds its items: each with the code that was given for
    it when the table was built, in [n] slots. *)
Definition placement {W T BH} (F : foreign W T T BH) (E : env) (S_ty : int_type) (sh : shape BH) (payload : list T) (w : W)
    (n : Z) (placed : list (Z * T)) : Prop :=
  match sh with
  | Scanning => placed = map (pair 0) payload
  | _ =>
      1 <= n /\ exists codes s w' (log : list (request T T unit BH)),
        st_from_vec E (witness F) S_ty sh payload (w, []) = (Ok s, (w', log)) /\
        codes_asked (prof E) sh payload (Ok codes) log /\ Permutation (combine codes payload) placed
  end.

(** However often [next] is called and whatever the rest of the program does to the foreign state
    between the calls, it returns the items of [l], then [None] for ever. *)
Definition steadily {W T S1 S2} (next : M (S1 * S2 * W) (option T)) (st : S1 * S2) (l : list T) : Prop :=
  forall (between : list (W -> W)) (w : W),
  fst (v_calls next between (st, w)) = map Ok (results (length between) l).

(** A correct implementation of the Set trait for the element type described by [D]: as [lawful_set]
    (SetSpec.v), in any state of the foreign code. *)
Record serves {W T St} (eqb : T -> T -> bool) (D : T -> Prop) (v : vol_set W T St) (items : list T) : Prop := {
  sv_typed : forall x, In x items -> D x;
  sv_len : vs_len v = zlen items;
  sv_iter : runs_through (vs_next v) (vs_iter v) items;
  sv_contains : forall x w, D x -> exists b, fst (vs_contains v x w) = Ok b /\ (b = true <-> member eqb items x)
}.
