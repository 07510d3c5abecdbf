(** How the sizes and the contents of the four set operations fit together. *)
From Coq Require Import List ZArith Bool Arith Lia.
From Verif Require Import Spec SetSpec Base BaseLemmas EqbLists IterSpec SetOps SetOpsProofs SetTheorems.
Import ListNotations.
Open Scope Z_scope.

Lemma yields_unique {St A} (next : St -> res (option A * St)) st L :
  yields next st L -> forall L', yields next st L' -> L = L'.
Proof.
  induction 1 as [s s' H|s a s' l H _ IH]; intros L' H'; inversion H'; subst; try congruence.
  rewrite H in H0. injection H0 as <- <-. f_equal. auto.
Qed.

Section Counting.
Context {T : Type} (eqb : T -> T -> bool).
Hypothesis He : equivalence eqb.

Lemma same_members_same_length l l' :
  distinct eqb l -> distinct eqb l' -> (forall x, member eqb l x <-> member eqb l' x) -> zlen l = zlen l'.
Proof.
  intros H1 H2 H.
  assert (Hi : forall (m : list T) x, In x m -> member eqb m x)
    by (intros m x Hx; exists x; split; auto; now apply eqb_refl).
  destruct (pigeonhole eqb He l l' H1) as (Ha & _); [intros x Hx; apply H, Hi, Hx|].
  destruct (pigeonhole eqb He l' l H2) as (Hb & _); [intros x Hx; apply H, Hi, Hx|].
  unfold zlen. lia.
Qed.

Lemma inb_respects l a b : eqb a b = true -> inb eqb l a = inb eqb l b.
Proof.
  intros H. unfold inb. induction l as [|x l IH]; cbn [existsb]; auto. now rewrite IH, (eqb_left eqb He a b x).
Qed.

Lemma filter_split (f : T -> bool) l : zlen (filter f l) + zlen (filter (fun x => negb (f x)) l) = zlen l.
Proof. unfold zlen. induction l as [|a l IH]; cbn [filter]; auto. destruct (f a); cbn [negb length]; lia. Qed.

Lemma no_members l : (forall x, ~ member eqb l x) <-> l = [].
Proof.
  split; [|intros -> x (y & [] & _)]. destruct l as [|a l]; auto. intros H. destruct (H a).
  exists a. split; [now left|now apply eqb_refl].
Qed.
End Counting.

(** C51 *)
Lemma set_operation_laws :
  forall (T : Type) (eqb : T -> T -> bool) (D : T -> Prop) (s1 s2 : set_impl T)
    (u i d d' sd u' i' sd' : list T),
  equivalence eqb -> lawful_set eqb D s1 -> lawful_set eqb D s2 ->
  distinct eqb (s_items s1) -> distinct eqb (s_items s2) ->
  yields (union_next s1 s2) (pair_new s1 s2) u ->
  yields (union_next s2 s1) (pair_new s2 s1) u' ->
  yields (intersection_next s1 s2) (pair_new s1 s2) i ->
  yields (intersection_next s2 s1) (pair_new s2 s1) i' ->
  yields (difference_next s1 s2) (difference_new s1 s2) d ->
  yields (difference_next s2 s1) (difference_new s2 s1) d' ->
  yields (symmetric_difference_next s1 s2) (pair_new s1 s2) sd ->
  yields (symmetric_difference_next s2 s1) (pair_new s2 s1) sd' ->
  zlen u + zlen i = s_len s1 + s_len s2 /\
  zlen d + zlen i = s_len s1 /\
  zlen sd = zlen d + zlen d' /\
  zlen sd + zlen i = zlen u /\
  (zlen u' = zlen u /\ forall x, member eqb u' x <-> member eqb u x) /\
  (zlen i' = zlen i /\ forall x, member eqb i' x <-> member eqb i x) /\
  (zlen sd' = zlen sd /\ forall x, member eqb sd' x <-> member eqb sd x) /\
  (is_disjoint s1 s2 = Ok true <-> i = []) /\
  (is_subset s1 s2 = Ok true <-> d = []) /\
  (is_superset s1 s2 = Ok true <-> d' = []).
Proof.
  intros T eqb D s1 s2 u i d d' sd u' i' sd' He L1 L2 D1 D2 Yu Yu' Yi Yi' Yd Yd' Ys Ys'.
  assert (Hu : forall s t L, lawful_set eqb D s -> lawful_set eqb D t -> distinct eqb (s_items s) ->
     distinct eqb (s_items t) -> yields (union_next s t) (pair_new s t) L ->
     distinct eqb L /\ forall x, member eqb L x <-> member eqb (s_items s) x \/ member eqb (s_items t) x).
  { intros s t L Hs Ht Es Et HL. destruct (union_exact eqb D s t He Hs Ht Es Et) as (L' & HL' & H1 & _ & H2).
    rewrite (yields_unique _ _ _ HL L' HL'). auto. }
  assert (Hi : forall s t L, lawful_set eqb D s -> lawful_set eqb D t -> distinct eqb (s_items s) ->
     distinct eqb (s_items t) -> yields (intersection_next s t) (pair_new s t) L ->
     distinct eqb L /\ forall x, member eqb L x <-> member eqb (s_items s) x /\ member eqb (s_items t) x).
  { intros s t L Hs Ht Es Et HL. destruct (intersection_exact eqb D s t He Hs Ht Es Et) as (L' & HL' & H1 & _ & H2).
    rewrite (yields_unique _ _ _ HL L' HL'). auto. }
  assert (Hd : forall s t L, lawful_set eqb D s -> lawful_set eqb D t -> distinct eqb (s_items s) ->
     yields (difference_next s t) (difference_new s t) L ->
     distinct eqb L /\ forall x, member eqb L x <-> member eqb (s_items s) x /\ ~ member eqb (s_items t) x).
  { intros s t L Hs Ht Es HL. destruct (difference_exact eqb D s t He Hs Ht Es) as (L' & HL' & H1 & _ & H2).
    rewrite (yields_unique _ _ _ HL L' HL'). auto. }
  assert (Hs : forall s t L, lawful_set eqb D s -> lawful_set eqb D t -> distinct eqb (s_items s) ->
     distinct eqb (s_items t) -> yields (symmetric_difference_next s t) (pair_new s t) L ->
     distinct eqb L /\ forall x, member eqb L x <->
       (member eqb (s_items s) x /\ ~ member eqb (s_items t) x) \/
       (member eqb (s_items t) x /\ ~ member eqb (s_items s) x)).
  { intros s t L Hs Ht Es Et HL.
    destruct (symmetric_difference_exact eqb D s t He Hs Ht Es Et) as (L' & HL' & H1 & _ & H2).
    rewrite (yields_unique _ _ _ HL L' HL'). auto. }
  destruct (Hu _ _ _ L1 L2 D1 D2 Yu) as (Du & Mu). destruct (Hu _ _ _ L2 L1 D2 D1 Yu') as (Du' & Mu').
  destruct (Hi _ _ _ L1 L2 D1 D2 Yi) as (Di & Mi). destruct (Hi _ _ _ L2 L1 D2 D1 Yi') as (Di' & Mi').
  destruct (Hd _ _ _ L1 L2 D1 Yd) as (Dd & Md). destruct (Hd _ _ _ L2 L1 D2 Yd') as (Dd' & Md').
  destruct (Hs _ _ _ L1 L2 D1 D2 Ys) as (Ds & Ms). destruct (Hs _ _ _ L2 L1 D2 D1 Ys') as (Ds' & Ms').
  clear Hu Hi Hd Hs.
  assert (Hpart : forall s t L L' : list T, distinct eqb s -> distinct eqb L -> distinct eqb L' ->
     (forall x, member eqb L x <-> member eqb s x /\ ~ member eqb t x) ->
     (forall x, member eqb L' x <-> member eqb s x /\ member eqb t x) -> zlen L + zlen L' = zlen s).
  { intros s t L L' E1 E2 E3 H1 H2. rewrite <- (filter_split (inb eqb t) s).
    assert (zlen L' = zlen (filter (inb eqb t) s)).
    { apply (same_members_same_length eqb He); auto; [now apply distinct_filter|]. intros x.
      rewrite member_filter by apply (inb_respects eqb He t). rewrite H2, (existsb_member eqb He). tauto. }
    assert (zlen L = zlen (filter (fun x => negb (inb eqb t x)) s)).
    { apply (same_members_same_length eqb He); auto; [now apply distinct_filter|]. intros x.
      rewrite member_filter by (intros a b Hab; now rewrite (inb_respects eqb He t a b Hab)).
      rewrite H1, negb_true_iff, (existsb_not_member eqb He D). tauto. }
    lia. }
  assert (Happ : forall L a b : list T, distinct eqb L -> distinct eqb a -> distinct eqb b ->
     (forall x, member eqb a x -> member eqb b x -> False) ->
     (forall x, member eqb L x <-> member eqb a x \/ member eqb b x) -> zlen L = zlen a + zlen b).
  { intros L a b E1 E2 E3 Hab H. transitivity (zlen (a ++ b)); [|unfold zlen; rewrite app_length; lia].
    apply (same_members_same_length eqb He); auto; [|intros x; now rewrite member_app].
    apply distinct_app. split; auto. split; auto. intros x y Hx Hy.
    destruct (eqb x y) eqn:Exy; auto. destruct (Hab x); [exists x; split; auto; now apply eqb_refl|exists y; auto]. }
  assert (E1 : zlen d + zlen i = zlen (s_items s1)) by (eapply (Hpart (s_items s1) (s_items s2)); eauto).
  assert (E2 : zlen d' + zlen i = zlen (s_items s2))
    by (eapply (Hpart (s_items s2) (s_items s1)); eauto; intros x; rewrite Mi; tauto).
  assert (Hem : forall x, member eqb (s_items s1) x \/ ~ member eqb (s_items s1) x).
  { intros x. rewrite <- (existsb_member eqb He). destruct (inb eqb (s_items s1) x); auto. }
  assert (Hem2 : forall x, member eqb (s_items s2) x \/ ~ member eqb (s_items s2) x).
  { intros x. rewrite <- (existsb_member eqb He). destruct (inb eqb (s_items s2) x); auto. }
  assert (E3 : zlen u = zlen (s_items s1) + zlen d').
  { apply Happ; auto. - intros x; rewrite Md'; tauto.
    - intros x. rewrite Mu, Md'. specialize (Hem x). tauto. }
  assert (E4 : zlen sd = zlen d + zlen d').
  { apply Happ; auto. - intros x; rewrite Md, Md'; tauto.
    - intros x. rewrite Ms, Md, Md'. tauto. }
  rewrite (ls_len _ _ _ L1), (ls_len _ _ _ L2).
  assert (Cu : forall x, member eqb u' x <-> member eqb u x) by (intros x; rewrite Mu, Mu'; tauto).
  assert (Ci : forall x, member eqb i' x <-> member eqb i x) by (intros x; rewrite Mi, Mi'; tauto).
  assert (Cs : forall x, member eqb sd' x <-> member eqb sd x) by (intros x; rewrite Ms, Ms'; tauto).
  split; [lia|]. split; [lia|]. split; [lia|]. split; [lia|].
  split; [split; auto; now apply (same_members_same_length eqb He)|].
  split; [split; auto; now apply (same_members_same_length eqb He)|].
  split; [split; auto; now apply (same_members_same_length eqb He)|].
  destruct (set_relations eqb D s1 s2 He L1 L2) as (Hsub & Hsup & (bd & Hbd & Hdis)).
  destruct (Hsub D1) as (bs & Hbs & Hs'). destruct (Hsup D2) as (bp & Hbp & Hp').
  rewrite Hbd, Hbs, Hbp. rewrite <- !(no_members eqb He).
  assert (Hok : forall (b : bool), Ok b = Ok true <-> b = true)
    by (intros b; split; [intros H; now injection H|now intros ->]).
  rewrite !Hok, Hdis, Hs', Hp'.
  split; [|split]; split; intros H x.
  - rewrite Mi. apply H. - rewrite <- Mi. apply H.
  - rewrite Md. intros (H1 & H2). auto. - intros H1. destruct (Hem2 x); auto. destruct (H x). rewrite Md. auto.
  - rewrite Md'. intros (H1 & H2). auto. - intros H1. destruct (Hem x); auto. destruct (H x). rewrite Md'. auto.
Qed.
