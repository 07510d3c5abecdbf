(** Compound set expressions, for specifications: what they denote and how a program works them out
    with the operators of the crate. *)
From Coq Require Import List ZArith Bool Permutation.
From Verif Require Import Spec SetSpec Base SetOps.
Import ListNotations.

Inductive set_op := Or | And | Xor | Minus.

Inductive set_expr (T : Type) :=
| Given (s : set_impl T)
| Op (o : set_op) (a b : set_expr T).
Arguments Given {T}.
Arguments Op {T}.

Section Exprs.
Context {T : Type}.
Variable eqb : T -> T -> bool.
Variable D : T -> Prop.

(** Which values belong to an expression. *)
Fixpoint denotes (e : set_expr T) (x : T) : Prop :=
  match e with
  | Given s => member eqb (s_items s) x
  | Op Or a b => denotes a x \/ denotes b x
  | Op And a b => denotes a x /\ denotes b x
  | Op Xor a b => (denotes a x /\ ~ denotes b x) \/ (denotes b x /\ ~ denotes a x)
  | Op Minus a b => denotes a x /\ ~ denotes b x
  end.

(** Every set it starts from is lawful and has no duplicates. *)
Fixpoint good_expr (e : set_expr T) : Prop :=
  match e with
  | Given s => lawful_set eqb D s /\ distinct eqb (s_items s)
  | Op _ a b => good_expr a /\ good_expr b
  end.

(** The sets it starts from. *)
Fixpoint given_items (e : set_expr T) : list T :=
  match e with
  | Given s => s_items s
  | Op _ a b => given_items a ++ given_items b
  end.

Definition operate (o : set_op) : set_impl T -> set_impl T -> res (set_impl T) :=
  match o with
  | Or => bitor eqb
  | And => bitand eqb
  | Xor => bitxor eqb
  | Minus => set_sub eqb
  end.

(** The HashSet that an operator returns may be handed on in any arrangement: a HashSet iterates
    in no particular order, and a program may freeze it again to use it as a left operand. *)
Definition arranged (r s : set_impl T) : Prop :=
  Permutation (s_items r) (s_items s) /\ lawful_set eqb D s.

Inductive evaluates : set_expr T -> set_impl T -> Prop :=
| ev_given : forall s, evaluates (Given s) s
| ev_op : forall o a b sa sb r s, evaluates a sa -> evaluates b sb ->
    operate o sa sb = Ok r -> arranged r s -> evaluates (Op o a b) s.
End Exprs.
