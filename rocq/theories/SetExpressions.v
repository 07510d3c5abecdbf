(** Compound set expressions evaluate to what they denote, in whatever order the intermediate
    HashSets iterate. *)
From Coq Require Import List ZArith Bool Arith Lia Permutation.
From Verif Require Import Spec MapSpec SetSpec IterSpec ExprSpec Base BaseLemmas EqbLists HashTable Maps FrozenMap
  FrozenMapProofs FrozenMapFacts BuildSound SetOps SetOpsProofs Sets FrozenSet FrozenSetProofs MapTheorems
  SetTheorems SetAlgebra FrozenSetAlgebra.
Import ListNotations.
Open Scope Z_scope.

Section Exprs.
Context {T : Type}.
Variable eqb : T -> T -> bool.
Variable D : T -> Prop.
Hypothesis He : equivalence eqb.

Lemma op_result_in {St} (next : St -> res (option T * St)) st fuel r L : yields next st L ->
  (l <- collect eqb next fuel [] st ;; Ok (hash_set_of eqb l)) = Ok r -> forall x, In x (s_items r) -> In x L.
Proof.
  intros Y H x Hx. apply bind_ok in H. destruct H as (l & Hl & H). injection H as <-.
  destruct (collect_yields_in _ _ _ _ Y _ _ _ Hl x Hx) as [[]|]; auto.
Qed.

Lemma member_dec l x : member eqb l x \/ ~ member eqb l x.
Proof.
  destruct (existsb (eqb x) l) eqn:H.
  - left. apply existsb_exists in H. exact H.
  - right. intros (y & Hy & Hxy). assert (Ht : existsb (eqb x) l = true) by (apply existsb_exists; eauto). congruence.
Qed.

Lemma denotes_dec e x : denotes eqb e x \/ ~ denotes eqb e x.
Proof using eqb. clear He D. induction e as [s|[] a IHa b IHb]; cbn [denotes]; try tauto. apply member_dec. Qed.

(** One operator. *)
Lemma operate_ok o (sa sb : set_impl T) :
  lawful_set eqb D sa -> distinct eqb (s_items sa) -> lawful_set eqb D sb -> distinct eqb (s_items sb) ->
  exists r, operate eqb o sa sb = Ok r /\ lawful_set eqb D r /\ distinct eqb (s_items r) /\
    (forall x, In x (s_items r) -> In x (s_items sa) \/ In x (s_items sb)) /\
    (forall x, member eqb (s_items r) x <-> denotes eqb (Op o (Given sa) (Given sb)) x).
Proof.
  intros L1 D1 L2 D2.
  destruct (set_operators eqb D sa sb He L1 L2) as ((ru & Eu & Lu & Tu & Nu) & (ri & Ei & Li & Ti & Ni)
    & (rs & Es & Ls & Ts & Ns) & (rd & Ed & Ld & Td & Nd)).
  assert (Hl : forall r, lawful_set eqb (fun _ => True) r ->
     (forall x, In x (s_items r) -> In x (s_items sa) \/ In x (s_items sb)) -> lawful_set eqb D r).
  { intros r [H1 H2 H3] Hi. constructor; auto. intros x Hx.
    destruct (Hi x Hx); [apply (ls_typed _ _ _ L1)|apply (ls_typed _ _ _ L2)]; auto. }
  destruct o; cbn [operate denotes].
  - destruct (union_exact _ _ sa sb He L1 L2 D1 D2) as (u & Yu & Du & Iu & Mu).
    assert (Hi : forall x, In x (s_items ru) -> In x (s_items sa) \/ In x (s_items sb))
      by (intros x Hx; apply Iu; eapply op_result_in; eauto).
    exists ru. auto 6.
  - destruct (intersection_exact _ _ sa sb He L1 L2 D1 D2) as (u & Yu & Du & Iu & Mu).
    assert (Hi : forall x, In x (s_items ri) -> In x (s_items sa) \/ In x (s_items sb))
      by (intros x Hx; apply Iu; eapply op_result_in; eauto).
    exists ri. auto 6.
  - destruct (symmetric_difference_exact _ _ sa sb He L1 L2 D1 D2) as (u & Yu & Du & Iu & Mu).
    assert (Hi : forall x, In x (s_items rs) -> In x (s_items sa) \/ In x (s_items sb))
      by (intros x Hx; apply Iu; eapply op_result_in; eauto).
    exists rs. auto 6.
  - destruct (difference_exact _ _ sa sb He L1 L2 D1) as (u & Yu & Du & Iu & Mu).
    assert (Hi : forall x, In x (s_items rd) -> In x (s_items sa) \/ In x (s_items sb))
      by (intros x Hx; left; apply Iu; eapply op_result_in; eauto).
    exists rd. auto 6.
Qed.

Lemma evaluates_sound e s : good_expr eqb D e -> evaluates eqb D e s ->
  lawful_set eqb D s /\ distinct eqb (s_items s) /\
  (forall x, In x (s_items s) -> In x (given_items e)) /\
  (forall x, member eqb (s_items s) x <-> denotes eqb e x).
Proof.
  intros Hg Hev. induction Hev as [s|o a b sa sb r s Ha IHa Hb IHb Ho [HP HL]]; cbn [good_expr given_items] in *.
  - destruct Hg as [H1 H2]. repeat (split; auto).
  - destruct Hg as [Ga Gb]. destruct (IHa Ga) as (La & Da & Ia & Ma). destruct (IHb Gb) as (Lb & Db & Ib & Mb).
    destruct (operate_ok o sa sb La Da Lb Db) as (r' & Ho' & Lr & Dr & Ir & Mr).
    rewrite Ho in Ho'. injection Ho' as <-.
    split; auto. split; [now apply (distinct_perm eqb He _ _ HP)|]. split.
    + intros x Hx. apply in_or_app. apply (Permutation_in _ (Permutation_sym HP)) in Hx.
      destruct (Ir x Hx); auto.
    + intros x. rewrite <- (member_perm eqb _ _ x HP), Mr. cbn [denotes].
      destruct o; rewrite Ma, Mb; reflexivity.
Qed.

Lemma evaluates_exists e : good_expr eqb D e -> exists s, evaluates eqb D e s.
Proof.
  induction e as [s|o a IHa b IHb]; cbn [good_expr].
  - intros _. exists s. constructor.
  - intros [Ga Gb]. destruct (IHa Ga) as (sa & Ha). destruct (IHb Gb) as (sb & Hb).
    destruct (evaluates_sound a sa Ga Ha) as (La & Da & _). destruct (evaluates_sound b sb Gb Hb) as (Lb & Db & _).
    destruct (operate_ok o sa sb La Da Lb Db) as (r & Ho & Lr & _).
    exists r. econstructor; eauto. split; auto.
Qed.
End Exprs.

(** C61: evaluation always succeeds, with exactly the denoted members. *)
Lemma set_expression_values :
  forall (T : Type) (eqb : T -> T -> bool) (D : T -> Prop) (e : set_expr T),
  equivalence eqb -> good_expr eqb D e ->
  (exists s, evaluates eqb D e s) /\
  (forall o a b sa sb, e = Op o a b -> evaluates eqb D a sa -> evaluates eqb D b sb ->
     exists r, operate eqb o sa sb = Ok r /\ evaluates eqb D e r) /\
  (forall s, evaluates eqb D e s ->
     lawful_set eqb D s /\ distinct eqb (s_items s) /\
     (forall x, In x (s_items s) -> In x (given_items e)) /\
     (forall x, D x -> exists b, s_contains s x = Ok b /\ (b = true <-> denotes eqb e x))).
Proof.
  intros T eqb D e He Hg. split; [now apply evaluates_exists|]. split.
  - intros o a b sa sb -> Ha Hb. destruct Hg as [Ga Gb].
    destruct (evaluates_sound eqb D He a sa Ga Ha) as (La & Da & _).
    destruct (evaluates_sound eqb D He b sb Gb Hb) as (Lb & Db & _).
    destruct (operate_ok eqb D He o sa sb La Da Lb Db) as (r & Ho & Lr & _).
    exists r. split; auto. econstructor; eauto. split; auto.
  - intros s Hs. destruct (evaluates_sound eqb D He e s Hg Hs) as (Ls & Ds & Is & Ms).
    split; auto. split; auto. split; auto.
    intros x Hx. destruct (SetSpec.ls_contains _ _ _ Ls x Hx) as (b & Hb & Hm). exists b. split; auto. now rewrite Hm, Ms.
Qed.

(** C61: comparing two evaluated expressions decides how their denotations relate. *)
Lemma set_expression_relations :
  forall (T : Type) (eqb : T -> T -> bool) (D : T -> Prop) (e1 e2 : set_expr T) (s1 s2 : set_impl T),
  equivalence eqb -> good_expr eqb D e1 -> good_expr eqb D e2 ->
  evaluates eqb D e1 s1 -> evaluates eqb D e2 s2 ->
  (exists b, set_eq s1 s2 = Ok b /\ (b = true <-> forall x, denotes eqb e1 x <-> denotes eqb e2 x)) /\
  (exists b, is_subset s1 s2 = Ok b /\ (b = true <-> forall x, denotes eqb e1 x -> denotes eqb e2 x)) /\
  (exists b, is_superset s1 s2 = Ok b /\ (b = true <-> forall x, denotes eqb e2 x -> denotes eqb e1 x)) /\
  (exists b, is_disjoint s1 s2 = Ok b /\ (b = true <-> forall x, ~ (denotes eqb e1 x /\ denotes eqb e2 x))).
Proof.
  intros T eqb D e1 e2 s1 s2 He G1 G2 E1 E2.
  destruct (evaluates_sound eqb D He e1 s1 G1 E1) as (L1 & D1 & _ & M1).
  destruct (evaluates_sound eqb D He e2 s2 G2 E2) as (L2 & D2 & _ & M2).
  destruct (set_eq_extensional eqb D s1 s2 He L1 L2 D1 D2) as (b0 & H0 & B0).
  destruct (set_relations eqb D s1 s2 He L1 L2) as (R1 & R2 & (b3 & H3 & B3)).
  destruct (R1 D1) as (b1 & H1 & B1). destruct (R2 D2) as (b2 & H2 & B2).
  split. { exists b0. split; auto. rewrite B0. split; intros H x; specialize (H x); rewrite M1, M2 in *; auto. }
  split. { exists b1. split; auto. rewrite B1. split; intros H x; specialize (H x); rewrite M1, M2 in *; auto. }
  split. { exists b2. split; auto. rewrite B2. split; intros H x; specialize (H x); rewrite M1, M2 in *; auto. }
  exists b3. split; auto. rewrite B3. split; intros H x; specialize (H x); rewrite M1, M2 in *; auto.
Qed.

(** C61: the laws of Boolean algebra hold for the operators, whatever the order in which the
    intermediate sets iterate. *)
Lemma set_expression_laws :
  forall (T : Type) (eqb : T -> T -> bool) (D : T -> Prop) (a b c : set_expr T),
  equivalence eqb -> good_expr eqb D a -> good_expr eqb D b -> good_expr eqb D c ->
  let same e1 e2 := forall s1 s2, evaluates eqb D e1 s1 -> evaluates eqb D e2 s2 -> set_eq s1 s2 = Ok true in
  same (Op Or a b) (Op Or b a) /\ same (Op And a b) (Op And b a) /\ same (Op Xor a b) (Op Xor b a) /\
  same (Op Or a (Op Or b c)) (Op Or (Op Or a b) c) /\
  same (Op And a (Op And b c)) (Op And (Op And a b) c) /\
  same (Op Xor a (Op Xor b c)) (Op Xor (Op Xor a b) c) /\
  same (Op And a (Op Or b c)) (Op Or (Op And a b) (Op And a c)) /\
  same (Op Or a (Op And b c)) (Op And (Op Or a b) (Op Or a c)) /\
  same (Op And a (Op Xor b c)) (Op Xor (Op And a b) (Op And a c)) /\
  same (Op Minus a (Op Or b c)) (Op And (Op Minus a b) (Op Minus a c)) /\
  same (Op Minus a (Op And b c)) (Op Or (Op Minus a b) (Op Minus a c)) /\
  same (Op Minus a (Op Minus b c)) (Op Or (Op Minus a b) (Op And a c)) /\
  same (Op Xor a b) (Op Minus (Op Or a b) (Op And a b)) /\
  same (Op Or a (Op And a b)) a /\ same (Op And a (Op Or a b)) a /\ same (Op Xor (Op Xor a b) b) a.
Proof.
  intros T eqb D a b c He Ga Gb Gc same.
  assert (H : forall e1 e2, good_expr eqb D e1 -> good_expr eqb D e2 ->
     (forall x, denotes eqb e1 x <-> denotes eqb e2 x) -> same e1 e2).
  { intros e1 e2 G1 G2 Hx s1 s2 E1 E2.
    destruct (set_expression_relations T eqb D e1 e2 s1 s2 He G1 G2 E1 E2) as ((r & Hr & B) & _).
    rewrite Hr. f_equal. now apply B. }
  repeat match goal with |- _ /\ _ => split end; apply H; cbn [good_expr]; auto; intros x; cbn [denotes];
    destruct (denotes_dec eqb a x); destruct (denotes_dec eqb b x); destruct (denotes_dec eqb c x); tauto.
Qed.

(** C61: FrozenSets take part: one built from distinct items is a given set, and freezing an
    intermediate result again is an arrangement of it. *)
Lemma frozen_sets_in_expressions :
  forall (O : Type) (eqbO : O -> O -> bool) (E : env) (kd : kind) (bh : hasher O),
  env_ok E -> equivalence eqbO -> lawful_hash eqbO bh ->
  (forall items s, (forall x, In x items -> has_kind kd x) -> distinct (key_eqb eqbO) items ->
     countable (prof E) (zlen items) -> fs_new E kd items bh = Ok s ->
     good_expr (key_eqb eqbO) (has_kind kd) (Given (fs_as_set eqbO E s)) /\
     forall x, denotes (key_eqb eqbO) (Given (fs_as_set eqbO E s)) x <-> member (key_eqb eqbO) items x) /\
  (forall o a b sa sb r s, good_expr (key_eqb eqbO) (has_kind kd) (Op o a b) ->
     evaluates (key_eqb eqbO) (has_kind kd) a sa -> evaluates (key_eqb eqbO) (has_kind kd) b sb ->
     operate (key_eqb eqbO) o sa sb = Ok r ->
     countable (prof E) (zlen (s_items r)) -> fs_new E kd (s_items r) bh = Ok s ->
     evaluates (key_eqb eqbO) (has_kind kd) (Op o a b) (fs_as_set eqbO E s)).
Proof.
  intros O eqbO E kd bh HE He Hh. pose proof (key_eqb_equiv eqbO He) as Hk. split.
  - intros items s Ht Hd Hc Hs.
    destruct (frozen_set_lawful O eqbO E kd bh items s HE He Hh Hc Ht (fun _ => Hd) Hs) as (L & Dd).
    destruct (fs_get_spec eqbO E kd bh items s HE He Hh Hc Ht (fun _ => Hd) Hs) as (HP & _).
    split; [split; auto|]. intros x. cbn [denotes]. symmetry. apply (member_perm _ _ _ x HP).
  - intros o a b sa sb r s [Ga Gb] Ha Hb Ho Hc Hs.
    destruct (evaluates_sound _ _ Hk a sa Ga Ha) as (La & Da & _).
    destruct (evaluates_sound _ _ Hk b sb Gb Hb) as (Lb & Db & _).
    destruct (operate_ok _ _ Hk o sa sb La Da Lb Db) as (r' & Ho' & Lr & Dr & _).
    rewrite Ho in Ho'. injection Ho' as <-.
    destruct (frozen_set_lawful O eqbO E kd bh (s_items r) s HE He Hh Hc (ls_typed _ _ _ Lr) (fun _ => Dr) Hs) as (L & _).
    destruct (fs_get_spec eqbO E kd bh (s_items r) s HE He Hh Hc (ls_typed _ _ _ Lr) (fun _ => Dr) Hs) as (HP & _).
    econstructor; eauto. split; auto.
Qed.
