(** Lists compared with an equality test: distinctness, lookup and counting. *)
From Coq Require Import List ZArith Bool Arith Lia Permutation.
From Verif Require Import Base BaseLemmas Spec.
Import ListNotations.
Open Scope Z_scope.

Section Eqb.
Context {K : Type}.
Variable eqb : K -> K -> bool.
Hypothesis Heq : equivalence eqb.
Implicit Types (l : list K) (x y z k : K).

Lemma eqb_refl x : eqb x x = true.
Proof. apply Heq. Qed.
Lemma eqb_sym x y : eqb x y = eqb y x.
Proof.
  destruct (eqb x y) eqn:E1, (eqb y x) eqn:E2; auto.
  - apply (eq_sym_ok _ Heq) in E1. congruence.
  - apply (eq_sym_ok _ Heq) in E2. congruence.
Qed.
Lemma eqb_trans x y z : eqb x y = true -> eqb y z = true -> eqb x z = true.
Proof. apply Heq. Qed.
Lemma eqb_left x y z : eqb x y = true -> eqb x z = eqb y z.
Proof.
  intros H. destruct (eqb x z) eqn:E1, (eqb y z) eqn:E2; auto.
  - rewrite eqb_sym in H. rewrite (eqb_trans y x z) in E2; congruence.
  - rewrite (eqb_trans x y z) in E1; congruence.
Qed.

Lemma distinct_app l l' :
  distinct eqb (l ++ l') <->
  distinct eqb l /\ distinct eqb l' /\ (forall x y, In x l -> In y l' -> eqb x y = false).
Proof.
  induction l as [|a l IH]; cbn [app distinct].
  - split; [intros H; split; [exact I|split; [exact H|intros x y []]]|intros (_ & H & _); exact H].
  - rewrite IH. split.
    + intros (H1 & H2 & H3 & H4). split; [split; auto|split; auto].
      * intros; apply H1, in_or_app; auto.
      * intros x y [<-|Hx] Hy; auto. apply H1, in_or_app; auto.
    + intros ((H1 & H2) & H3 & H4). split; [|split; [auto|split; auto]].
      * intros k' Hk. apply in_app_or in Hk. destruct Hk; auto. apply H4; cbn; auto.
      * intros x y Hx Hy. apply H4; cbn; auto.
Qed.

Lemma distinct_perm l l' : Permutation l l' -> distinct eqb l -> distinct eqb l'.
Proof.
  induction 1 as [|x l l' HP IH|x y l|l l' l'' HP1 IH1 HP2 IH2]; cbn [distinct]; auto.
  - intros (H1 & H2). split; auto. intros k' Hk. apply H1.
    now apply (Permutation_in k' (Permutation_sym HP)).
  - intros (H1 & H2 & H3). split; [|split; auto].
    + intros k' [<-|Hk]; auto. rewrite eqb_sym. apply H1. now left.
    + intros k' Hk. apply H1. now right.
Qed.

Lemma distinct_NoDup l : distinct eqb l -> NoDup l.
Proof.
  induction l as [|a l IH]; cbn [distinct]; intros H; constructor; [|apply IH, H].
  intros Hi. destruct H as (H1 & _). apply H1 in Hi. rewrite eqb_refl in Hi. discriminate.
Qed.

(** Some element of [l] equals [x]. *)
Notation has := (member eqb).
Definition covers l l' : Prop := forall x, In x l' -> has l x.

Lemma has_perm l l' x : Permutation l l' -> has l x -> has l' x.
Proof. intros HP (y & H1 & H2). exists y. split; auto. now apply (Permutation_in y HP). Qed.

Lemma has_eqb l x y : eqb x y = true -> has l y -> has l x.
Proof. intros H (z & H1 & H2). exists z. split; auto. now apply (eqb_trans x y z). Qed.

Lemma has_dec l x : {has l x} + {~ has l x}.
Proof.
  destruct (existsb (eqb x) l) eqn:E.
  - left. apply existsb_exists in E. exact E.
  - right. intros (y & H1 & H2). assert (existsb (eqb x) l = true); [|congruence].
    apply existsb_exists. eauto.
Qed.

Lemma pigeonhole l : forall l',
  distinct eqb l -> covers l' l ->
  (length l <= length l')%nat /\ ((length l' <= length l)%nat -> covers l l').
Proof.
  induction l as [|a l IH]; intros l' Hd Hc.
  - split; [cbn; lia|]. destruct l'; cbn; [|lia]. intros _ x [].
  - cbn [distinct] in Hd. destruct Hd as (H1 & H2).
    destruct (Hc a ltac:(now left)) as (b & Hb & Hab).
    apply in_split in Hb. destruct Hb as (l1 & l2 & ->).
    destruct (IH (l1 ++ l2) H2) as (Hle & Hge).
    { intros x Hx. destruct (Hc x ltac:(now right)) as (y & Hy & Hxy).
      assert (y = b -> False).
      { intros ->. specialize (H1 x Hx). rewrite eqb_sym in Hab.
        rewrite eqb_sym, (eqb_trans x b a) in H1; auto. discriminate. }
      exists y. split; auto. apply in_app_or in Hy. apply in_or_app.
      destruct Hy as [Hy|[ -> |Hy]]; auto. destruct H; auto. }
    rewrite app_length in *. cbn [length]. split; [lia|].
    intros Hlen x Hx. apply in_app_or in Hx.
    assert (Hx' : In x (l1 ++ l2) \/ x = b).
    { destruct Hx as [Hx|[Hx|Hx]]; auto; left; apply in_or_app; auto. }
    destruct Hx' as [Hx'|Hx']; [|subst x].
    + destruct (Hge ltac:(lia) x Hx') as (y & Hy & Hxy). exists y. split; auto. now right.
    + exists a. split; [now left|]. now rewrite eqb_sym.
Qed.

(** *** Association lists *)

Context {V : Type}.
Implicit Types (p : list (K * V)).

Lemma supplied_perm p p' k v : Permutation p p' -> supplied eqb p k v -> supplied eqb p' k v.
Proof. intros HP (k' & H1 & H2). exists k'. split; auto. now apply (Permutation_in _ HP). Qed.
Lemma not_supplied_perm p p' k : Permutation p p' -> not_supplied eqb p k -> not_supplied eqb p' k.
Proof. intros HP H k' v Hi. apply (H k' v). now apply (Permutation_in _ (Permutation_sym HP)). Qed.

Lemma supplied_iff_find p k v :
  distinct eqb (map fst p) ->
  (option_map snd (find (fun e => eqb k (fst e)) p) = Some v <-> supplied eqb p k v).
Proof.
  intros Hd. split.
  - intros H. destruct (find _ p) as [[k' v']|] eqn:F; [|discriminate]. cbn in H. injection H as ->.
    apply find_some in F. destruct F as (H1 & H2). exists k'. auto.
  - intros (k' & H1 & H2). induction p as [|[k0 v0] p IH]; [destruct H1|].
    cbn [map fst distinct] in Hd. destruct Hd as (Hd1 & Hd2). cbn [find fst].
    destruct H1 as [E|H1].
    + injection E as -> ->. rewrite H2. reflexivity.
    + destruct (eqb k k0) eqn:E; auto.
      specialize (Hd1 k' ltac:(apply (in_map fst _ _ H1))). rewrite eqb_sym in E.
      rewrite (eqb_trans k0 k k') in Hd1; auto. discriminate.
Qed.

Lemma find_not_supplied p k :
  find (fun e => eqb k (fst e)) p = None <-> not_supplied eqb p k.
Proof.
  rewrite find_none_iff. split.
  - intros H k' v Hi. apply (H (k', v) Hi).
  - intros H [k' v] Hi. apply (H k' v Hi).
Qed.

Lemma find_supplied p k e :
  find (fun e => eqb k (fst e)) p = Some e -> In e p /\ eqb k (fst e) = true.
Proof. apply find_some. Qed.

Lemma supplied_not p k v : supplied eqb p k v -> not_supplied eqb p k -> False.
Proof. intros (k' & H1 & H2) H. rewrite (H k' v H1) in H2. discriminate. Qed.

Lemma supplied_unique p k v v' :
  distinct eqb (map fst p) -> supplied eqb p k v -> supplied eqb p k v' -> v = v'.
Proof.
  intros Hd H1 H2. apply supplied_iff_find in H1, H2; auto. congruence.
Qed.

End Eqb.
