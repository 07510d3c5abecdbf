(** The set operations see of an iterator only the items it yields. *)
From Coq Require Import List ZArith Bool Arith Lia.
From Verif Require Import Spec Base BaseLemmas Iterators IterSpec IteratorProofs SetSpec SetOps SetOpsProofs Sets
  SetRunning RunSpec.
Import ListNotations.
Open Scope Z_scope.

Section Through.
Context {St A : Type}.
Variable next : St -> res (option A * St).

Lemma through_nil s : runs_through next s [] -> exists s', next s = Ok (None, s') /\ runs_through next s' [].
Proof.
  intros H. destruct (H 1%nat) as (s1 & H1). cbn in H1.
  destruct (next s) as [[o s']| | |] eqn:En; try discriminate. cbn in H1. injection H1 as -> _.
  exists s'. split; auto. intros n. destruct (H (S n)) as (s2 & H2). cbn [calls] in H2. rewrite En in H2.
  cbn [bind fst snd results] in H2. destruct (calls next n s') as [[os s3]| | |]; try discriminate.
  cbn in H2. injection H2 as -> _. eauto.
Qed.

Lemma through_cons s a l : runs_through next s (a :: l) ->
  exists s', next s = Ok (Some a, s') /\ runs_through next s' l.
Proof.
  intros H. destruct (H 1%nat) as (s1 & H1). cbn in H1.
  destruct (next s) as [[o s']| | |] eqn:En; try discriminate. cbn in H1. injection H1 as -> _.
  exists s'. split; auto. intros n. destruct (H (S n)) as (s2 & H2). cbn [calls] in H2. rewrite En in H2.
  cbn [bind fst snd results] in H2. destruct (calls next n s') as [[os s3]| | |]; try discriminate.
  cbn in H2. injection H2 as -> _. eauto.
Qed.
End Through.

(** Same outcome, with related values. *)
Definition alike {A B} (R : A -> B -> Prop) (a : res A) (b : res B) : Prop :=
  match a, b with
  | Ok x, Ok y => R x y
  | Panic p, Panic q => p = q
  | UB u, UB v => u = v
  | OutOfFuel, OutOfFuel => True
  | _, _ => False
  end.

Lemma alike_bind {A B A' B'} (R : A -> B -> Prop) (Q : A' -> B' -> Prop) a b f g :
  alike R a b -> (forall x y, R x y -> alike Q (f x) (g y)) -> alike Q (bind a f) (bind b g).
Proof. intros H Hf. destruct a, b; cbn in *; try contradiction; auto. Qed.

Section Loop.
Context {T : Type}.
Variable fuel : nat.

(** The items still to come, few enough for the loops. *)
Definition left {St} (next : St -> res (option T * St)) (st : St) (l : list T) : Prop :=
  runs_through next st l /\ (length l < fuel)%nat.
Definition step {St} (next : St -> res (option T * St)) (r : option T * St) (q : option T * list T) : Prop :=
  fst r = fst q /\ left next (snd r) (snd q).

Lemma loop_where_alike {St} (next : St -> res (option T * St)) test test' :
  (forall x, test x = test' x) -> forall l n st, (length l < n)%nat -> runs_through next st l -> (length l < fuel)%nat ->
  alike (step next) (loop_where next test n st) (next_where test' l).
Proof.
  intros Ht l. induction l as [|a l IH]; intros [|n] st Hn H Hf; cbn [length] in *; try lia; cbn [loop_where next_where].
  - destruct (through_nil next st H) as (st' & -> & H'). cbn. split; auto. split; auto.
  - destruct (through_cons next st a l H) as (st' & -> & H'). cbn [bind fst snd]. rewrite Ht.
    destruct (test' a) as [[]| | |]; cbn; auto.
    + split; auto. split; auto. cbn. lia.
    + apply IH; auto; lia.
Qed.

Lemma all_loop_alike {St} (next : St -> res (option T * St)) test test' :
  (forall x, test x = test' x) -> forall l n st, (length l < n)%nat -> runs_through next st l ->
  all_loop next test n st = all_res test' l.
Proof.
  intros Ht l. induction l as [|a l IH]; intros [|n] st Hn H; cbn [length] in *; try lia; cbn [all_loop all_res].
  - destruct (through_nil next st H) as (st' & -> & H'). reflexivity.
  - destruct (through_cons next st a l H) as (st' & -> & H'). cbn [bind fst snd]. rewrite Ht.
    destruct (test' a) as [[]| | |]; cbn; auto. apply IH; auto; lia.
Qed.
End Loop.

Lemma observed_alike {T St St'} (next : St -> res (option T * St)) (next' : St' -> res (option T * St'))
    (R : St -> St' -> Prop) :
  (forall s s', R s s' -> alike (fun r q => fst r = fst q /\ R (snd r) (snd q)) (next s) (next' s')) ->
  forall n s s', R s s' -> observed next n s = observed next' n s'.
Proof.
  intros Hs. unfold observed. induction n as [|n IH]; intros s s' HR; cbn [calls]; [reflexivity|].
  specialize (Hs s s' HR). destruct (next s) as [[o t]| | |], (next' s') as [[o' t']| | |]; cbn in *; try contradiction; try congruence.
  destruct Hs as (-> & Ht). specialize (IH t t' Ht).
  destruct (calls next n t) as [[? ?]| | |], (calls next' n t') as [[? ?]| | |]; cbn in *; try congruence.
Qed.

Section Sets.
Context {T St1 St2 : Type}.
Variable fuel : nat.
Variable r1 : running_set T St1.
Variable r2 : running_set T St2.
Variable s1 s2 : set_impl T.
Hypothesis H1 : runs_as r1 s1.
Hypothesis H2 : runs_as r2 s2.

Definition both (st : St1 * St2) (ls : list T * list T) : Prop :=
  left fuel (r_next r1) (fst st) (fst ls) /\ left fuel (r_next r2) (snd st) (snd ls).
Notation pair_step := (fun r q => fst r = fst q /\ both (snd r) (snd q)).

Lemma lacks1 x : r_lacks r1 x = not_in s1 x.
Proof. unfold r_lacks, not_in. now rewrite (ra_contains r1 s1 H1). Qed.
Lemma lacks2 x : r_lacks r2 x = not_in s2 x.
Proof. unfold r_lacks, not_in. now rewrite (ra_contains r2 s2 H2). Qed.

Lemma union_alike st ls : both st ls -> alike pair_step (run_union fuel r1 r2 st) (union_next s1 s2 ls).
Proof.
  destruct st as (a, b), ls as (l1, l2). intros ((Ha & Fa) & (Hb & Fb)). cbn [fst snd] in *.
  unfold run_union, union_next. rewrite (ra_len r1 s1 H1), (ra_len r2 s2 H2). cbn [fst snd]. destruct (s_len s2 <? s_len s1).
  - destruct l1 as [|x l1].
    + destruct (through_nil _ _ Ha) as (a' & -> & Ha'). cbn [bind fst snd].
      eapply alike_bind; [apply (loop_where_alike fuel); [exact lacks1|exact Fb|exact Hb|exact Fb]|].
      intros (o, t) (o', t') (E & L). cbn in *. split; auto. split; auto. split; auto.
    + destruct (through_cons _ _ _ _ Ha) as (a' & -> & Ha'). cbn [bind fst snd alike]. cbn [length] in *.
      split; auto. split; split; cbn; auto; lia.
  - destruct l2 as [|x l2].
    + destruct (through_nil _ _ Hb) as (b' & -> & Hb'). cbn [bind fst snd].
      eapply alike_bind; [apply (loop_where_alike fuel); [exact lacks2|exact Fa|exact Ha|exact Fa]|].
      intros (o, t) (o', t') (E & L). cbn in *. split; auto. split; auto. split; auto.
    + destruct (through_cons _ _ _ _ Hb) as (b' & -> & Hb'). cbn [bind fst snd alike]. cbn [length] in *.
      split; auto. split; split; cbn; auto; lia.
Qed.

Lemma intersection_alike st ls : both st ls ->
  alike pair_step (run_intersection fuel r1 r2 st) (intersection_next s1 s2 ls).
Proof.
  destruct st as (a, b), ls as (l1, l2). intros ((Ha & Fa) & (Hb & Fb)). cbn [fst snd] in *.
  unfold run_intersection, intersection_next. rewrite (ra_len r1 s1 H1), (ra_len r2 s2 H2). cbn [fst snd].
  destruct (s_len s1 <? s_len s2).
  - eapply alike_bind; [apply (loop_where_alike fuel); [exact (ra_contains r2 s2 H2)|exact Fa|exact Ha|exact Fa]|].
    intros (o, t) (o', t') (E & L). cbn in *. split; auto. split; auto. split; auto.
  - eapply alike_bind; [apply (loop_where_alike fuel); [exact (ra_contains r1 s1 H1)|exact Fb|exact Hb|exact Fb]|].
    intros (o, t) (o', t') (E & L). cbn in *. split; auto. split; auto. split; auto.
Qed.

Lemma symmetric_alike st ls : both st ls ->
  alike pair_step (run_symmetric_difference fuel r1 r2 st) (symmetric_difference_next s1 s2 ls).
Proof.
  destruct st as (a, b), ls as (l1, l2). intros ((Ha & Fa) & (Hb & Fb)). cbn [fst snd] in *.
  unfold run_symmetric_difference, symmetric_difference_next. cbn [fst snd].
  eapply alike_bind; [apply (loop_where_alike fuel); [exact lacks2|exact Fa|exact Ha|exact Fa]|].
  intros (o, t) (o', t') (E & L). cbn [fst snd] in *. subst o'. destruct o as [x|].
  - cbn. split; auto. split; auto. split; auto.
  - eapply alike_bind; [apply (loop_where_alike fuel); [exact lacks1|exact Fb|exact Hb|exact Fb]|].
    intros (p, u) (p', u') (E' & L'). cbn in *. split; auto. split; auto.
Qed.

Lemma difference_alike st l : left fuel (r_next r1) st l ->
  alike (step fuel (r_next r1)) (run_difference fuel r1 r2 st) (difference_next s1 s2 l).
Proof. intros (Ha & Fa). apply loop_where_alike; auto. exact lacks2. Qed.
End Sets.

(** C68 *)
Lemma operations_on_iterators :
  forall (T St1 St2 : Type) (r1 : running_set T St1) (r2 : running_set T St2) (s1 s2 : set_impl T) (fuel n : nat),
  runs_as r1 s1 -> runs_as r2 s2 -> (length (s_items s1) < fuel)%nat -> (length (s_items s2) < fuel)%nat ->
  observed (run_union fuel r1 r2) n (run_new r1 r2) = observed (union_next s1 s2) n (pair_new s1 s2) /\
  observed (run_intersection fuel r1 r2) n (run_new r1 r2) = observed (intersection_next s1 s2) n (pair_new s1 s2) /\
  observed (run_symmetric_difference fuel r1 r2) n (run_new r1 r2) =
    observed (symmetric_difference_next s1 s2) n (pair_new s1 s2) /\
  observed (run_difference fuel r1 r2) n (r_iter r1) = observed (difference_next s1 s2) n (difference_new s1 s2) /\
  run_is_disjoint fuel r1 r2 = is_disjoint s1 s2 /\ run_is_subset fuel r1 r2 = is_subset s1 s2 /\
  run_is_superset fuel r1 r2 = is_superset s1 s2 /\ run_eq fuel r1 r2 = set_eq s1 s2.
Proof.
  intros T St1 St2 r1 r2 s1 s2 fuel n H1 H2 F1 F2.
  assert (B : both fuel r1 r2 (run_new r1 r2) (pair_new s1 s2)).
  { split; split; cbn; auto; [apply (ra_iter _ _ H1)|apply (ra_iter _ _ H2)]. }
  split; [apply observed_alike with (both fuel r1 r2); auto; intros; now apply union_alike|].
  split; [apply observed_alike with (both fuel r1 r2); auto; intros; now apply intersection_alike|].
  split; [apply observed_alike with (both fuel r1 r2); auto; intros; now apply symmetric_alike|].
  split.
  { apply observed_alike with (left fuel (r_next r1)); [intros; now apply difference_alike|].
    split; auto. apply (ra_iter _ _ H1). }
  unfold run_is_disjoint, is_disjoint, run_is_subset, is_subset, run_is_superset, is_superset, run_eq, set_eq.
  rewrite (ra_len r1 s1 H1), (ra_len r2 s2 H2).
  pose proof (ra_iter _ _ H1) as I1. pose proof (ra_iter _ _ H2) as I2.
  rewrite (all_loop_alike _ _ _ (lacks2 r2 s2 H2) _ fuel _ F1 I1), (all_loop_alike _ _ _ (lacks1 r1 s1 H1) _ fuel _ F2 I2).
  rewrite (all_loop_alike _ _ _ (ra_contains r2 s2 H2) _ fuel _ F1 I1), (all_loop_alike _ _ _ (ra_contains r1 s1 H1) _ fuel _ F2 I2).
  repeat split; reflexivity.
Qed.

(** The iterators of the sets of this library. *)
Lemma library_iterators :
  forall (T : Type) (pr : profile) (items : list T), zlen items < 2 ^ 64 ->
  runs_through (keys_next pr) (it_new (with_unit items)) items.
Proof.
  intros T pr items Hlen n.
  assert (Hl : zlen (with_unit items) < 2 ^ 64) by (unfold with_unit, zlen; rewrite map_length; exact Hlen).
  destruct (keys_iter_exact pr (with_unit items) Hl n) as (it & Hc & _).
  unfold with_unit in Hc at 2. rewrite map_map, map_id in Hc. eauto.
Qed.

Lemma delivers_observed {T St St'} (next : St -> res (option T * St)) (next' : St' -> res (option T * St')) s s' L :
  (forall n, observed next n s = observed next' n s') -> delivers next' s' L -> runs_through next s L.
Proof.
  intros Ho (_ & Hd) n. specialize (Ho n). unfold observed in Ho. destruct (Hd n) as (t & Hc & _). rewrite Hc in Ho.
  destruct (calls next n s) as [[os t']| | |]; try discriminate. cbn in Ho. injection Ho as ->. eauto.
Qed.

(** What the operations yield, for sets with or without duplicates. *)
Lemma operations_run :
  forall (T St1 St2 : Type) (eqb : T -> T -> bool) (D : T -> Prop)
         (r1 : running_set T St1) (r2 : running_set T St2) (s1 s2 : set_impl T) (fuel : nat),
  equivalence eqb -> lawful_set eqb D s1 -> lawful_set eqb D s2 ->
  runs_as r1 s1 -> runs_as r2 s2 -> (length (s_items s1) < fuel)%nat -> (length (s_items s2) < fuel)%nat ->
  let i1 := s_items s1 in
  let i2 := s_items s2 in
  let lacks l x := negb (existsb (eqb x) l) in
  let has l x := existsb (eqb x) l in
  runs_through (run_union fuel r1 r2) (run_new r1 r2)
    (if zlen i2 <? zlen i1 then i1 ++ filter (lacks i1) i2 else i2 ++ filter (lacks i2) i1) /\
  runs_through (run_intersection fuel r1 r2) (run_new r1 r2)
    (if zlen i1 <? zlen i2 then filter (has i2) i1 else filter (has i1) i2) /\
  runs_through (run_difference fuel r1 r2) (r_iter r1) (filter (lacks i2) i1) /\
  runs_through (run_symmetric_difference fuel r1 r2) (run_new r1 r2)
    (filter (lacks i2) i1 ++ filter (lacks i1) i2).
Proof.
  intros T St1 St2 eqb D r1 r2 s1 s2 fuel He L1 L2 R1 R2 F1 F2 i1 i2 lacks has.
  pose proof (fun n => operations_on_iterators T St1 St2 r1 r2 s1 s2 fuel n R1 R2 F1 F2) as Ho.
  rewrite <- (SetSpec.ls_len _ _ _ L1 : _ = zlen i1), <- (SetSpec.ls_len _ _ _ L2 : _ = zlen i2).
  split; [eapply delivers_observed; [apply Ho|apply (union_delivers eqb He D s1 s2 L1 L2)]|].
  split; [eapply delivers_observed; [apply Ho|apply (intersection_delivers eqb He D s1 s2 L1 L2)]|].
  split; [eapply delivers_observed; [apply Ho|apply (difference_delivers eqb He D s1 s2 L1 L2)]|].
  eapply delivers_observed; [apply Ho|apply (symmetric_delivers eqb He D s1 s2 L1 L2)].
Qed.
