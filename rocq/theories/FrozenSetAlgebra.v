(** The set algebra on FrozenSets in terms of the items they were built from, and the order in
    which the set operations yield. *)
From Coq Require Import List ZArith Bool Arith Lia Permutation.
From Verif Require Import Spec MapSpec SetSpec Base BaseLemmas EqbLists HashTable Maps FrozenMap FrozenMapProofs
  FrozenMapFacts BuildSound IterSpec SetOps SetOpsProofs Sets FrozenSet FrozenSetProofs
  MapTheorems SetTheorems SetAlgebra.
Import ListNotations.
Open Scope Z_scope.

Lemma member_perm {T} (eqb : T -> T -> bool) l l' x :
  Permutation l l' -> member eqb l x <-> member eqb l' x.
Proof. intros HP. split; apply has_perm; auto. now apply Permutation_sym. Qed.

Lemma collect_yields_in {T St} (eqb : T -> T -> bool) (next : St -> res (option T * St)) s L :
  yields next s L -> forall fuel acc r, collect eqb next fuel acc s = Ok r ->
  forall x, In x r -> In x acc \/ In x L.
Proof.
  induction 1 as [s s' H|s a s' l H _ IH]; intros [|fuel] acc r; cbn [collect]; try discriminate; rewrite H; cbn [bind fst snd].
  - intros Hr. injection Hr as <-. auto.
  - intros Hr x Hx. destruct (IH _ _ _ Hr x Hx) as [Hi|Hi]; [|right; now right].
    unfold hs_insert in Hi. destruct (existsb _ _); auto. apply in_app_or in Hi.
    destruct Hi as [Hi|[->|[]]]; auto. right; now left.
Qed.

(** C53 *)
Lemma frozen_set_algebra :
  forall (O : Type) (eqbO : O -> O -> bool) (E : env) (kd : kind) (bh1 bh2 : hasher O)
         (items1 items2 : list (key O)) (s1 s2 : set_types O),
  env_ok E -> equivalence eqbO -> lawful_hash eqbO bh1 -> lawful_hash eqbO bh2 ->
  countable (prof E) (zlen items1) -> countable (prof E) (zlen items2) ->
  (forall x, In x items1 -> has_kind kd x) -> (forall x, In x items2 -> has_kind kd x) ->
  distinct (key_eqb eqbO) items1 -> distinct (key_eqb eqbO) items2 ->
  fs_new E kd items1 bh1 = Ok s1 -> fs_new E kd items2 bh2 = Ok s2 ->
  let a := fs_as_set eqbO E s1 in
  let b := fs_as_set eqbO E s2 in
  let is_set (P : key O -> Prop) (L : list (key O)) :=
    distinct (key_eqb eqbO) L /\ (forall x, In x L -> In x items1 \/ In x items2) /\
    (forall x, member (key_eqb eqbO) L x <-> P x) in
  let in1 := member (key_eqb eqbO) items1 in
  let in2 := member (key_eqb eqbO) items2 in
  let either x := in1 x \/ in2 x in
  let both x := in1 x /\ in2 x in
  let only1 x := in1 x /\ ~ in2 x in
  let one x := (in1 x /\ ~ in2 x) \/ (in2 x /\ ~ in1 x) in
  (exists L, yields (union_next a b) (pair_new a b) L /\ is_set either L) /\
  (exists L, yields (intersection_next a b) (pair_new a b) L /\ is_set both L) /\
  (exists L, yields (difference_next a b) (difference_new a b) L /\ is_set only1 L) /\
  (exists L, yields (symmetric_difference_next a b) (pair_new a b) L /\ is_set one L) /\
  (exists r, bitor (key_eqb eqbO) a b = Ok r /\ is_set either (s_items r)) /\
  (exists r, bitand (key_eqb eqbO) a b = Ok r /\ is_set both (s_items r)) /\
  (exists r, set_sub (key_eqb eqbO) a b = Ok r /\ is_set only1 (s_items r)) /\
  (exists r, bitxor (key_eqb eqbO) a b = Ok r /\ is_set one (s_items r)) /\
  (exists r, is_subset a b = Ok r /\ (r = true <-> forall x, in1 x -> in2 x)) /\
  (exists r, is_superset a b = Ok r /\ (r = true <-> forall x, in2 x -> in1 x)) /\
  (exists r, is_disjoint a b = Ok r /\ (r = true <-> forall x, ~ (in1 x /\ in2 x))).
Proof.
  intros O eqbO E kd bh1 bh2 items1 items2 s1 s2 HE He Hl1 Hl2 Hc1 Hc2 Ht1 Ht2 Hd1 Hd2 Hs1 Hs2 a b is_set
    in1 in2 either both only1 one.
  destruct (frozen_set_lawful O eqbO E kd bh1 items1 s1 HE He Hl1 Hc1 Ht1 (fun _ => Hd1) Hs1) as (L1 & D1).
  destruct (frozen_set_lawful O eqbO E kd bh2 items2 s2 HE He Hl2 Hc2 Ht2 (fun _ => Hd2) Hs2) as (L2 & D2).
  specialize (D1 Hd1). specialize (D2 Hd2).
  destruct (fs_get_spec eqbO E kd bh1 items1 s1 HE He Hl1 Hc1 Ht1 (fun _ => Hd1) Hs1) as (HP1 & _).
  destruct (fs_get_spec eqbO E kd bh2 items2 s2 HE He Hl2 Hc2 Ht2 (fun _ => Hd2) Hs2) as (HP2 & _).
  pose proof (key_eqb_equiv eqbO He) as Hk. fold a in L1, D1. fold b in L2, D2.
  assert (I1 : forall x, In x (s_items a) <-> In x items1)
    by (intros x; split; apply Permutation_in; [now apply Permutation_sym|exact HP1]).
  assert (I2 : forall x, In x (s_items b) <-> In x items2)
    by (intros x; split; apply Permutation_in; [now apply Permutation_sym|exact HP2]).
  assert (M1 : forall x, member (key_eqb eqbO) (s_items a) x <-> in1 x)
    by (intros x; symmetry; apply (member_perm _ _ _ x HP1)).
  assert (M2 : forall x, member (key_eqb eqbO) (s_items b) x <-> in2 x)
    by (intros x; symmetry; apply (member_perm _ _ _ x HP2)).
  assert (Hin : forall L, (forall x, In x L -> In x (s_items a) \/ In x (s_items b)) ->
     forall x, In x L -> In x items1 \/ In x items2).
  { intros L H x Hx. rewrite <- I1, <- I2. auto. }
  destruct (union_exact _ _ a b Hk L1 L2 D1 D2) as (u & Yu & Du & Iu & Mu).
  destruct (intersection_exact _ _ a b Hk L1 L2 D1 D2) as (i & Yi & Di & Ii & Mi).
  destruct (difference_exact _ _ a b Hk L1 L2 D1) as (d & Yd & Dd & Id & Md).
  destruct (symmetric_difference_exact _ _ a b Hk L1 L2 D1 D2) as (sd & Ys & Ds & Is & Ms).
  assert (Su : is_set either u) by (split; [|split]; [auto|exact (Hin _ Iu)|]; intros x; rewrite Mu, M1, M2; reflexivity).
  assert (Si : is_set both i) by (split; [|split]; [auto|exact (Hin _ Ii)|]; intros x; rewrite Mi, M1, M2; reflexivity).
  assert (Sd : is_set only1 d).
  { split; [|split]; auto. { intros x Hx. rewrite <- I1. auto. } intros x; rewrite Md, M1, M2; reflexivity. }
  assert (Ss : is_set one sd) by (split; [|split]; [auto|exact (Hin _ Is)|]; intros x; rewrite Ms, M1, M2; reflexivity).
  split; [exists u; auto|]. split; [exists i; auto|]. split; [exists d; auto|]. split; [exists sd; auto|].
  destruct (set_operators _ _ a b Hk L1 L2) as ((ru & Eu & _ & Tu & Nu) & (ri & Ei & _ & Ti & Ni) & (rs & Es & _ & Ts & Ns)
    & (rd & Ed & _ & Td & Nd)).
  assert (Hop : forall St (next : St -> res (option (key O) * St)) st fuel r L, yields next st L ->
     (l <- collect (key_eqb eqbO) next fuel [] st ;; Ok (hash_set_of (key_eqb eqbO) l)) = Ok r ->
     forall x, In x (s_items r) -> In x L).
  { intros St next st fuel r L Y H x Hx. apply bind_ok in H. destruct H as (l & Hl & H). injection H as <-.
    destruct (collect_yields_in _ _ _ _ Y _ _ _ Hl x Hx) as [[]|]; auto. }
  split.
  { exists ru. split; auto. split; [|split]; auto.
    - intros x Hx. apply Su. eapply Hop; eauto.
    - intros x. rewrite Nu, M1, M2. reflexivity. }
  split.
  { exists ri. split; auto. split; [|split]; auto.
    - intros x Hx. apply Si. eapply Hop; eauto.
    - intros x. rewrite Ni, M1, M2. reflexivity. }
  split.
  { exists rd. split; auto. split; [|split]; auto.
    - intros x Hx. apply Sd. eapply Hop; eauto.
    - intros x. rewrite Nd, M1, M2. reflexivity. }
  split.
  { exists rs. split; auto. split; [|split]; auto.
    - intros x Hx. apply Ss. eapply Hop; eauto.
    - intros x. rewrite Ns, M1, M2. reflexivity. }
  destruct (set_relations _ _ a b Hk L1 L2) as (R1 & R2 & R3).
  destruct (R1 D1) as (r1 & E1 & B1). destruct (R2 D2) as (r2 & E2 & B2). destruct R3 as (r3 & E3 & B3).
  split. { exists r1. split; auto. rewrite B1. split; intros H x; specialize (H x); rewrite M1, M2 in *; auto. }
  split. { exists r2. split; auto. rewrite B2. split; intros H x; specialize (H x); rewrite M1, M2 in *; auto. }
  exists r3. split; auto. rewrite B3. split; intros H x; specialize (H x); rewrite M1, M2 in *; auto.
Qed.

(** C54: the sequences yielded by the set operations, for sets with or without duplicates. *)
Lemma set_operation_sequences :
  forall (T : Type) (eqb : T -> T -> bool) (D : T -> Prop) (s1 s2 : set_impl T),
  equivalence eqb -> lawful_set eqb D s1 -> lawful_set eqb D s2 ->
  let i1 := s_items s1 in
  let i2 := s_items s2 in
  let lacks l x := negb (existsb (eqb x) l) in
  let has l x := existsb (eqb x) l in
  yields (union_next s1 s2) (pair_new s1 s2)
    (if zlen i2 <? zlen i1 then i1 ++ filter (lacks i1) i2 else i2 ++ filter (lacks i2) i1) /\
  yields (intersection_next s1 s2) (pair_new s1 s2)
    (if zlen i1 <? zlen i2 then filter (has i2) i1 else filter (has i1) i2) /\
  yields (difference_next s1 s2) (difference_new s1 s2) (filter (lacks i2) i1) /\
  yields (symmetric_difference_next s1 s2) (pair_new s1 s2) (filter (lacks i2) i1 ++ filter (lacks i1) i2).
Proof.
  intros T eqb D s1 s2 He L1 L2 i1 i2 lacks has.
  rewrite <- (SetSpec.ls_len _ _ _ L1 : _ = zlen i1), <- (SetSpec.ls_len _ _ _ L2 : _ = zlen i2).
  split; [apply (union_delivers eqb He D s1 s2 L1 L2)|].
  split; [apply (intersection_delivers eqb He D s1 s2 L1 L2)|].
  split; [apply (difference_delivers eqb He D s1 s2 L1 L2)|].
  apply (symmetric_delivers eqb He D s1 s2 L1 L2).
Qed.
