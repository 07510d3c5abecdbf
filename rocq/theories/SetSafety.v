(** No use of a FrozenSet goes wrong, however equality and hashing behave. *)
From Coq Require Import List ZArith Bool Arith Lia Permutation.
From Verif Require Import Spec MapSpec Base BaseLemmas HashTable Maps FrozenMap FrozenMapProofs
  BuildSound Iterators IterSpec IteratorProofs SetOps SetOpsProofs Sets FrozenSet FrozenSetProofs
  SetRunning RunSpec SetRunningProofs SetTheorems.
Import ListNotations.
Open Scope Z_scope.

(** C70 *)
Lemma operations_without_laws :
  forall (T St1 St2 : Type) (r1 : running_set T St1) (r2 : running_set T St2) (s1 s2 : set_impl T)
         (c1 c2 : T -> bool) (fuel : nat),
  runs_as r1 s1 -> runs_as r2 s2 ->
  (forall x, In x (s_items s2) -> r_contains r1 x = Ok (c1 x)) ->
  (forall x, In x (s_items s1) -> r_contains r2 x = Ok (c2 x)) ->
  (length (s_items s1) < fuel)%nat -> (length (s_items s2) < fuel)%nat ->
  let i1 := s_items s1 in
  let i2 := s_items s2 in
  let not (c : T -> bool) x := negb (c x) in
  runs_through (run_union fuel r1 r2) (run_new r1 r2)
    (if r_len r2 <? r_len r1 then i1 ++ filter (not c1) i2 else i2 ++ filter (not c2) i1) /\
  runs_through (run_intersection fuel r1 r2) (run_new r1 r2)
    (if r_len r1 <? r_len r2 then filter c2 i1 else filter c1 i2) /\
  runs_through (run_difference fuel r1 r2) (r_iter r1) (filter (not c2) i1) /\
  runs_through (run_symmetric_difference fuel r1 r2) (run_new r1 r2) (filter (not c2) i1 ++ filter (not c1) i2) /\
  run_is_disjoint fuel r1 r2 = Ok (forallb (not c2) i1) /\
  run_is_subset fuel r1 r2 = Ok ((r_len r1 <=? r_len r2) && forallb c2 i1) /\
  run_is_superset fuel r1 r2 = Ok ((r_len r2 <=? r_len r1) && forallb c1 i2) /\
  run_eq fuel r1 r2 = Ok ((r_len r1 =? r_len r2) && forallb c2 i1).
Proof.
  intros T St1 St2 r1 r2 s1 s2 c1 c2 fuel R1 R2 A1 A2 F1 F2 i1 i2 not.
  assert (A1' : forall x, In x i2 -> s_contains s1 x = Ok (c1 x)).
  { intros x Hx. rewrite <- (ra_contains _ _ R1). auto. }
  assert (A2' : forall x, In x i1 -> s_contains s2 x = Ok (c2 x)).
  { intros x Hx. rewrite <- (ra_contains _ _ R2). auto. }
  pose proof (fun n => operations_on_iterators T St1 St2 r1 r2 s1 s2 fuel n R1 R2 F1 F2) as Ho.
  rewrite (ra_len _ _ R1), (ra_len _ _ R2).
  split; [eapply delivers_observed; [apply Ho|exact (union_of s1 s2 c1 c2 A1' A2')]|].
  split; [eapply delivers_observed; [apply Ho|exact (intersection_of s1 s2 c1 c2 A1' A2')]|].
  split; [eapply delivers_observed; [apply Ho|exact (difference_of s1 s2 c2 A2')]|].
  split; [eapply delivers_observed; [apply Ho|exact (symmetric_difference_of s1 s2 c1 c2 A1' A2')]|].
  destruct (Ho O) as (_ & _ & _ & _ & -> & -> & -> & ->).
  unfold is_disjoint, is_subset, is_superset, set_eq. rewrite Z.leb_refl.
  rewrite (all_res_forallb _ (not c2)) by exact (not_in2 s1 s2 c2 A2').
  rewrite (all_res_forallb _ c2) by exact A2'. rewrite (all_res_forallb _ c1) by exact A1'.
  split; auto. split; [now destruct (_ <=? _)|]. split; [now destruct (_ <=? _)|]. now destruct (_ =? _).
Qed.

Lemma set_use_never_goes_wrong :
  forall (O : Type) (eqbO : O -> O -> bool) (E : env) (kd : kind) (bh1 bh2 : hasher O)
         (p1 p2 : list (key O)) (s1 s2 : set_types O) (fuel : nat),
  env_ok E -> zlen p1 < 2 ^ 64 -> zlen p2 < 2 ^ 64 ->
  (forall x, In x p1 -> has_kind kd x) -> (forall x, In x p2 -> has_kind kd x) ->
  fs_new E kd p1 bh1 = Ok s1 -> fs_new E kd p2 bh2 = Ok s2 ->
  (length p1 < fuel)%nat -> (length p2 < fuel)%nat ->
  let i1 := fs_items s1 in
  let i2 := fs_items s2 in
  let r1 := fs_running eqbO E s1 in
  let r2 := fs_running eqbO E s2 in
  let not (c : key O -> bool) x := negb (c x) in
  Permutation p1 i1 /\ Permutation p2 i2 /\ fs_len s1 = zlen p1 /\ fs_len s2 = zlen p2 /\
  runs_through (r_next r1) (r_iter r1) i1 /\
  exists g1 g2 : key O -> option (key O),
    let c1 x := match g1 x with Some _ => true | None => false end in
    let c2 x := match g2 x with Some _ => true | None => false end in
    (forall x, has_kind kd x -> fs_get eqbO E s1 x = Ok (g1 x) /\ fs_contains eqbO E s1 x = Ok (c1 x) /\
       forall y, g1 x = Some y -> In y p1) /\
    (forall x, has_kind kd x -> fs_get eqbO E s2 x = Ok (g2 x) /\ fs_contains eqbO E s2 x = Ok (c2 x) /\
       forall y, g2 x = Some y -> In y p2) /\
    runs_through (run_union fuel r1 r2) (run_new r1 r2)
      (if zlen p2 <? zlen p1 then i1 ++ filter (not c1) i2 else i2 ++ filter (not c2) i1) /\
    runs_through (run_intersection fuel r1 r2) (run_new r1 r2)
      (if zlen p1 <? zlen p2 then filter c2 i1 else filter c1 i2) /\
    runs_through (run_difference fuel r1 r2) (r_iter r1) (filter (not c2) i1) /\
    runs_through (run_symmetric_difference fuel r1 r2) (run_new r1 r2) (filter (not c2) i1 ++ filter (not c1) i2) /\
    run_is_disjoint fuel r1 r2 = Ok (forallb (not c2) i1) /\
    run_is_subset fuel r1 r2 = Ok ((zlen p1 <=? zlen p2) && forallb c2 i1) /\
    run_is_superset fuel r1 r2 = Ok ((zlen p2 <=? zlen p1) && forallb c1 i2) /\
    fs_eq eqbO E s1 s2 = Ok ((zlen p1 =? zlen p2) && forallb c2 i1).
Proof.
  intros O eqbO E kd bh1 bh2 p1 p2 s1 s2 fuel HE Z1 Z2 K1 K2 B1 B2 F1 F2 i1 i2 r1 r2 not.
  assert (Hone : forall p bh s, (forall x, In x p -> has_kind kd x) -> fs_new E kd p bh = Ok s ->
    Permutation p (fs_items s) /\ fs_len s = zlen p /\
    forall x, has_kind kd x -> exists g, fs_get eqbO E s x = Ok g /\ forall y, g = Some y -> In y p).
  { intros p bh s K B. apply fs_new_ok in B.
    destruct (built_safe eqbO E HE kd (with_unit p) bh (to_map s)) as (HP & Hs & _); auto.
    { now apply typed_with_unit. }
    assert (HP' : Permutation p (fs_items s)).
    { rewrite fs_items_map. rewrite <- (with_unit_keys p) at 1. now apply Permutation_map. }
    split; auto. split.
    { rewrite fs_len_map, fm_len_iter. apply zlen_perm in HP. now rewrite <- HP, with_unit_len. }
    intros x Hx. destruct (fm_lookup_safe eqbO E kd (to_map s) x Hs Hx) as (r & _ & _ & _ & Hg & Hr).
    rewrite fs_get_map, Hg. unfold set_get_of. cbn [bind]. eexists. split; [reflexivity|].
    intros y. destruct r as [i|]; cbn [at_pos option_map]; [|discriminate].
    destruct (Hr i eq_refl) as (e & He & _). rewrite He. cbn. intros [= <-].
    apply (Permutation_in _ (Permutation_sym HP')). rewrite fs_items_map. apply in_map. eapply nth_error_In; eauto. }
  destruct (Hone p1 bh1 s1 K1 B1) as (P1 & L1 & G1). destruct (Hone p2 bh2 s2 K2 B2) as (P2 & L2 & G2).
  assert (Hrun : forall p s, zlen p < 2 ^ 64 -> Permutation p (fs_items s) -> runs_as (fs_running eqbO E s) (fs_as_set eqbO E s)).
  { intros p s Hz HP. split; auto. apply library_iterators. apply zlen_perm in HP. cbn [fs_as_set s_items]. lia. }
  pose proof (Hrun p1 s1 Z1 P1) as R1. pose proof (Hrun p2 s2 Z2 P2) as R2.
  split; auto. split; auto. split; auto. split; auto. split; [apply (ra_iter _ _ R1)|].
  set (f := fun s x => match fs_get eqbO E s x with Ok g => g | _ => None end).
  set (b := fun s x => match f s x with Some _ => true | None => false end).
  assert (Hf : forall p s, (forall x, has_kind kd x -> exists g, fs_get eqbO E s x = Ok g /\ forall y, g = Some y -> In y p) ->
    forall x, has_kind kd x -> fs_get eqbO E s x = Ok (f s x) /\ fs_contains eqbO E s x = Ok (b s x) /\
      forall y, f s x = Some y -> In y p).
  { intros p s G x Hx. destruct (G x Hx) as (g & Hg & Hin). rewrite fs_contains_get. unfold b, f. rewrite Hg. cbn. auto. }
  pose proof (Hf p1 s1 G1) as Hf1. pose proof (Hf p2 s2 G2) as Hf2.
  exists (f s1), (f s2). cbv zeta. split; auto. split; auto.
  assert (I1 : forall x, In x i1 -> has_kind kd x) by (intros x Hx; apply K1, (Permutation_in _ (Permutation_sym P1)), Hx).
  assert (I2 : forall x, In x i2 -> has_kind kd x) by (intros x Hx; apply K2, (Permutation_in _ (Permutation_sym P2)), Hx).
  destruct (operations_without_laws _ _ _ r1 r2 (fs_as_set eqbO E s1) (fs_as_set eqbO E s2) (b s1) (b s2) fuel R1 R2)
    as (H1 & H2 & H3 & H4 & H5 & H6 & H7 & H8).
  { intros x Hx. apply Hf1. auto. }
  { intros x Hx. apply Hf2. auto. }
  { apply Permutation_length in P1. cbn [fs_as_set s_items]. lia. }
  { apply Permutation_length in P2. cbn [fs_as_set s_items]. lia. }
  cbn [r1 r2 fs_running r_len fs_as_set s_items] in *. rewrite L1, L2 in *.
  split; auto. split; auto. split; auto. split; auto. split; auto. split; auto. split; auto.
  unfold fs_eq. rewrite L1, L2.
  rewrite (all_res_forallb _ (b s2)).
  - now destruct (_ =? _).
  - intros x Hx. rewrite <- fs_contains_get. apply Hf2. auto.
Qed.
