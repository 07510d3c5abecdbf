(** Which table sizes the analysis of hash codes should try and which it should choose.  This
    file does not depend on the model. *)
From Coq Require Import List ZArith Bool Znumtheory Sorting.Sorted.
From Verif Require Import Spec.
Import ListNotations.
Open Scope Z_scope.

(** The number of collisions tolerated at the [i]-th size tried for [n] codes: after each
    failure twenty per full hundred remain. *)
Fixpoint tolerance (n : Z) (i : nat) : Z :=
  match i with
  | O => tolerated n
  | S j => tolerance n j / 100 * 20
  end.

(** Size [s], tried as the [i]-th, ends the search: few enough collisions and, unless it is the
    first, fewer than with a table of as many slots as codes. *)
Definition accepted (codes : list Z) (i : nat) (s : Z) : Prop :=
  let n := Z.of_nat (length codes) in
  Z.of_nat (collisions s codes) <= tolerance n i /\
  (i = O \/ (collisions s codes < collisions n codes)%nat).

(** The outcome of trying [sizes] in order: the first accepted one, or the first of all. *)
Definition chosen (codes sizes : list Z) (s : Z) : Prop :=
  (exists i, nth_error sizes i = Some s /\ accepted codes i s /\
     forall j t, (j < i)%nat -> nth_error sizes j = Some t -> ~ accepted codes j t) \/
  (nth_error sizes 0 = Some s /\ forall j t, nth_error sizes j = Some t -> ~ accepted codes j t).

(** The sizes tried after [n] itself, for [n] codes. *)
Record size_list (n : Z) (l : list Z) : Prop := {
  sl_range : forall s, In s l -> n - tolerated n <= s <= size_limit n;
  sl_ascending : StronglySorted Z.lt l;
  (* few codes: every size *)
  sl_small : n < 8 -> forall s, n <= s <= 16 * n -> In s l;
  (* otherwise primes; the first size may be the smallest possible one *)
  sl_prime : 8 <= n -> forall s, In s l -> prime s \/ (s = n - tolerated n /\ 7199369 <= s);
  sl_least : 8 <= n -> forall s, In s l -> 131 <= s;
  (* medium: no large gaps between the sizes *)
  sl_dense : 8 <= n -> n - tolerated n < 7199369 ->
    forall x, n - tolerated n <= x <= 7199369 -> 131 <= x -> 5 * x <= 4 * size_limit n ->
    exists s, In s l /\ x <= s /\ 4 * s <= 5 * x;
  (* large: no small gaps between the sizes *)
  sl_sparse : 7199369 <= n - tolerated n -> forall s t, In s l -> In t l -> s < t -> n / 3 <= t - s;
  (* the number of sizes *)
  sl_count : (length l <= 106)%nat;
  sl_count_medium : 8 <= n -> (length l <= 60)%nat;
  sl_count_large : 7199369 <= n - tolerated n -> (length l <= 7)%nat
}.
