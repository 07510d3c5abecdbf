(** What a caller observes of a FrozenMap does not depend on the hasher, the overflow profile,
    the unstable sort or the order of the payload. *)
From Coq Require Import List ZArith Bool Arith Lia Permutation.
From Verif Require Import Spec MapSpec Base BaseLemmas EqbLists HashTable Maps FrozenMap FrozenMapProofs
  FrozenMapFacts BuildSound HistorySpec History HistoryProofs.
Import ListNotations.
Open Scope Z_scope.

Lemma same_obs_sym {K V} (a b : obs K V) : same_obs a b -> same_obs b a.
Proof. destruct a, b; cbn; try congruence. apply Permutation_sym. Qed.
Lemma same_obs_trans {K V} (a b c : obs K V) : same_obs a b -> same_obs b c -> same_obs a c.
Proof. destruct a, b, c; cbn; try congruence. apply Permutation_trans. Qed.
Lemma same_run_sym {K V} (l l' : list (obs K V)) : Forall2 same_obs l l' -> Forall2 same_obs l' l.
Proof. induction 1; constructor; auto. now apply same_obs_sym. Qed.
Lemma same_run_trans {K V} (l1 l2 l3 : list (obs K V)) :
  Forall2 same_obs l1 l2 -> Forall2 same_obs l2 l3 -> Forall2 same_obs l1 l3.
Proof.
  intros H. revert l3. induction H; intros l3 H3; inversion H3; subst; constructor; auto.
  eapply same_obs_trans; eauto.
Qed.

Section Reorder.
Context {K V : Type}.
Variable eqb : K -> K -> bool.
Hypothesis Heq : equivalence eqb.
Implicit Types (p q : list (K * V)).

Lemma abstract_step_perm p q o : distinct eqb (map fst p) -> Permutation p q ->
  same_obs (fst (abstract_step eqb p o)) (fst (abstract_step eqb q o)) /\
  Permutation (snd (abstract_step eqb p o)) (snd (abstract_step eqb q o)) /\
  map fst (snd (abstract_step eqb p o)) = map fst p.
Proof.
  intros Hd HP. assert (HL : forall k, lookup eqb p k = lookup eqb q k) by (intros k; now apply lookup_perm).
  assert (HR : forall k, present eqb p k = present eqb q k) by (intros k; now rewrite !present_lookup, HL).
  destruct o; cbn [abstract_step fst snd]; rewrite <- ?HL, <- ?HR; cbn [same_obs].
  - auto.
  - auto.
  - auto.
  - split; auto. now destruct (lookup eqb p k).
  - split; auto. now rewrite (Permutation_length HP).
  - split; auto. destruct p, q; auto; apply Permutation_length in HP; discriminate.
  - auto.
  - split; auto. split; [now apply Permutation_map|apply update_keys].
  - destruct (present eqb p k); cbn [fst snd same_obs]; auto. split; auto.
    split; [now apply Permutation_map|apply update_keys].
  - replace (forallb (present eqb q) (map fst kws)) with (forallb (present eqb p) (map fst kws)).
    2:{ induction (map fst kws) as [|k l IH]; cbn; auto. now rewrite HR, IH. }
    destruct (_ && _); cbn [fst snd same_obs]; auto. split; auto.
    split; [now apply updates_perm|apply updates_keys].
Qed.

Lemma abstract_run_perm : forall os p q, distinct eqb (map fst p) -> Permutation p q ->
  Forall2 same_obs (abstract_run eqb p os) (abstract_run eqb q os).
Proof.
  induction os as [|o os IH]; intros p q Hd HP; cbn [abstract_run]; [constructor|].
  destruct (abstract_step_perm p q o Hd HP) as (H1 & H2 & H3).
  destruct (abstract_step eqb p o) as (b & p') eqn:Ep, (abstract_step eqb q o) as (b' & q') eqn:Eq.
  cbn [fst snd] in *. constructor; auto. apply IH; auto. now rewrite H3.
Qed.
End Reorder.

(** C48 *)
Lemma observations_determined :
  forall (O V : Type) (eqbO : O -> O -> bool) (E1 E2 : env) (kd : kind) (bh1 bh2 : hasher O)
         (p1 p2 : list (key O * V)) (m1 m2 : map_types O V) (history : list (op (key O) V)),
  env_ok E1 -> env_ok E2 -> equivalence eqbO -> lawful_hash eqbO bh1 -> lawful_hash eqbO bh2 ->
  countable (prof E1) (zlen p1) -> countable (prof E2) (zlen p1) -> zlen p1 < 2 ^ 64 -> typed kd p1 ->
  distinct (key_eqb eqbO) (map fst p1) -> Permutation p1 p2 ->
  fm_new E1 kd p1 bh1 = Ok m1 -> fm_new E2 kd p2 bh2 = Ok m2 ->
  (forall o k, In o history -> In k (op_keys o) -> has_kind kd k) ->
  Forall2 same_obs (run eqbO E1 m1 history) (run eqbO E2 m2 history).
Proof.
  intros O V eqbO E1 E2 kd bh1 bh2 p1 p2 m1 m2 history HE1 HE2 He Hl1 Hl2 Hc1 Hc2 Hz Ht Hd HP Hm1 Hm2 Hk.
  pose proof (zlen_perm _ _ HP) as Hlen.
  assert (Hd2 : distinct (key_eqb eqbO) (map fst p2)).
  { apply (distinct_perm _ (key_eqb_equiv eqbO He) (map fst p1)); auto. now apply Permutation_map. }
  assert (Ht2 : typed kd p2).
  { intros e Hin. apply Ht. now apply (Permutation_in _ (Permutation_sym HP)). }
  eapply same_run_trans; [now apply (history_refinement O V eqbO E1 kd bh1 p1 m1 history)|].
  eapply same_run_trans; [apply abstract_run_perm; [now apply key_eqb_equiv|exact Hd|exact HP]|].
  apply same_run_sym. apply (history_refinement O V eqbO E2 kd bh2 p2 m2 history); auto; now rewrite <- Hlen.
Qed.
