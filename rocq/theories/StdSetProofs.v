(** Standard sets are lawful operands of the set operations. *)
From Coq Require Import List ZArith Bool Arith Lia Permutation Sorted.
From Verif Require Import Spec SetSpec Base BaseLemmas EqbLists HashTable Maps FrozenMap FrozenMapFacts FrozenMapProofs FrozenSet FrozenSetProofs MapTheorems SetOps SetOpsProofs SetTheorems FrozenSetAlgebra MapSpec StdSets StdSetSpec.
Import ListNotations.
Open Scope Z_scope.

Section Std.
Context {T : Type}.
Variable eqb : T -> T -> bool.
Hypothesis He : equivalence eqb.

Lemma held_snoc history c x : held eqb (history ++ [c]) x =
  match c with
  | SInsert y => held eqb history x || eqb x y
  | SRemove y => held eqb history x && negb (eqb x y)
  | SClear => false
  end.
Proof. unfold held. rewrite fold_left_app. reflexivity. Qed.

Lemma inserted_snoc history (c : set_change T) : inserted (history ++ [c]) =
  inserted history ++ match c with SInsert x => [x] | _ => [] end.
Proof. unfold inserted. rewrite flat_map_app. cbn [flat_map]. now rewrite app_nil_r. Qed.

Lemma eqb_trans_l x y z : eqb x y = true -> eqb x z = eqb y z.
Proof.
  destruct He as [Hr Hs Ht]. intros H. destruct (eqb y z) eqn:E; [now apply (Ht x y)|].
  destruct (eqb x z) eqn:E2; auto. rewrite <- E. symmetry. apply (Ht y x); auto.
Qed.

(** ** HashSet *)

Variable hash : T -> Z.
Hypothesis Hh : forall x y, eqb x y = true -> hash x = hash y.

Lemma hs_same_eqb x y : hs_same eqb hash x y = eqb x y.
Proof.
  unfold hs_same. destruct (eqb x y) eqn:E; [|apply andb_false_r]. rewrite (Hh x y E), Z.eqb_refl. reflexivity.
Qed.

Lemma existsb_hs x l : existsb (hs_same eqb hash x) l = true <-> member eqb l x.
Proof.
  rewrite existsb_exists. unfold member. split; intros (y & H1 & H2); exists y; rewrite hs_same_eqb in *; auto.
Qed.

Lemma hash_set_holds history l : hash_set eqb hash history l ->
  distinct eqb l /\ (forall x, In x l -> In x (inserted history)) /\
  forall x, member eqb l x <-> held eqb history x = true.
Proof.
  destruct He as [Hr Hs Ht].
  induction 1 as [|history l c l' H (Hd & Hi & Hm) HP].
  - split; [exact I|]. split; [intros x []|]. intros x. split; [intros (y & [] & _)|discriminate].
  - enough (H' : distinct eqb (hs_step eqb hash l c) /\ (forall x, In x (hs_step eqb hash l c) -> In x (inserted (history ++ [c]))) /\
        forall x, member eqb (hs_step eqb hash l c) x <-> held eqb (history ++ [c]) x = true).
    { destruct H' as (H1 & H2 & H3). split; [now apply (distinct_perm _ He _ _ HP)|]. split.
      - intros x Hx. apply H2. now apply (Permutation_in _ (Permutation_sym HP)).
      - intros x. rewrite <- H3. symmetry. now apply member_perm. }
    rewrite inserted_snoc. destruct c as [x|x|]; cbn [hs_step].
    + destruct (existsb _ l) eqn:E.
      * split; auto. split; [intros y Hy; apply in_or_app; auto|]. intros z. rewrite held_snoc, orb_true_iff, <- Hm.
        split; auto. intros [H1|H1]; auto. apply existsb_hs in E. destruct E as (y & Hy & Hxy). exists y. split; auto. now apply (Ht z x).
      * assert (Hn : forall y, In y l -> eqb y x = false).
        { intros y Hy. destruct (eqb y x) eqn:E2; auto. assert (existsb (hs_same eqb hash x) l = true); [|congruence].
          apply existsb_hs. exists y. auto. }
        split; [|split].
        { apply distinct_app. split; auto. split; [now split|]. intros y z Hy [<-|[]]. auto. }
        { intros y Hy. apply in_app_or in Hy. apply in_or_app. destruct Hy; auto. }
        { intros z. rewrite held_snoc, orb_true_iff, <- Hm. unfold member. split.
          - intros (y & Hy & Hzy). apply in_app_or in Hy. destruct Hy as [Hy|[<-|[]]]; eauto.
          - intros [(y & Hy & Hzy)|Hz]; [exists y|exists x]; split; auto; apply in_or_app; cbn; auto. }
    + rewrite app_nil_r. destruct (find_pos _ l) as [i|] eqn:E.
      * apply find_pos_some in E. destruct E as (y & Hy & Hxy & _). rewrite hs_same_eqb in Hxy.
        destruct (nth_error_split l i Hy) as (l1 & l2 & -> & Hl). subst i.
        rewrite firstn_app, Nat.sub_diag, firstn_all, firstn_O, app_nil_r.
        assert (Hk : skipn (S (length l1)) (l1 ++ y :: l2) = l2).
        { rewrite skipn_app, skipn_all2 by lia. replace (S (length l1) - length l1)%nat with 1%nat by lia. reflexivity. }
        rewrite Hk. apply distinct_app in Hd. cbn [distinct] in Hd. destruct Hd as (D1 & (D2 & D3) & D4).
        split; [apply distinct_app; split; auto; split; auto; intros a b Ha Hb; apply D4; cbn; auto|]. split.
        { intros a Ha. apply Hi. apply in_app_or in Ha. apply in_or_app. cbn. tauto. }
        intros z. rewrite held_snoc, andb_true_iff, negb_true_iff, <- Hm. unfold member. split.
        { intros (a & Ha & Hza). split; [exists a; split; auto; apply in_app_or in Ha; apply in_or_app; cbn; tauto|].
          destruct (eqb z x) eqn:E; auto. assert (Hay : eqb a y = true).
          { apply (Ht a z); auto. now apply (Ht z x). }
          apply in_app_or in Ha. destruct Ha as [Ha|Ha].
          - rewrite (D4 a y) in Hay; [discriminate|auto|now left].
          - apply Hs in Hay. rewrite (D2 a Ha) in Hay. discriminate. }
        { intros ((a & Ha & Hza) & Hzx). exists a. split; auto. apply in_app_or in Ha. apply in_or_app.
          destruct Ha as [Ha|[<-|Ha]]; auto. exfalso. assert (eqb z x = true); [|congruence]. apply (Ht z y); auto. }
      * split; auto. split; auto. intros z. rewrite held_snoc, andb_true_iff, negb_true_iff, <- Hm. split; [|tauto].
        intros Hz. split; auto. destruct Hz as (y & Hy & Hzy). pose proof (proj1 (find_pos_none _ _) E y Hy) as Hn.
        rewrite hs_same_eqb in Hn. destruct (eqb z x) eqn:E2; auto. assert (eqb x y = true); [|congruence]. apply (Ht x z); auto.
    + split; [exact I|]. split; [intros x []|]. intros z. rewrite held_snoc. split; [intros (y & [] & _)|discriminate].
Qed.

(** ** BTreeSet *)

Variable cmp : T -> T -> comparison.
Hypothesis Hc : total_order eqb cmp.
Notation lt := (fun x y => cmp x y = Lt).

Lemma cmp_lt_eqb x y : cmp x y = Lt -> eqb x y = false.
Proof. intros H. destruct (eqb x y) eqn:E; auto. apply (to_eq _ _ Hc) in E. congruence. Qed.
Lemma cmp_gt x y : cmp x y = Gt -> cmp y x = Lt.
Proof. intros H. now rewrite (to_opp _ _ Hc x y), H. Qed.
Lemma cmp_eq x y : cmp x y = Eq -> eqb x y = true.
Proof. apply (to_eq _ _ Hc). Qed.

Lemma bt_contains_ok x l : StronglySorted lt l -> bt_contains cmp x l = true <-> member eqb l x.
Proof.
  induction 1 as [|y l Hs IH Hy]; cbn [bt_contains].
  - split; [discriminate|intros (y & [] & _)].
  - rewrite Forall_forall in Hy. destruct (cmp x y) eqn:E.
    + split; auto. intros _. exists y. split; [now left|now apply cmp_eq].
    + split; [discriminate|]. intros (z & [<-|Hz] & Hxz).
      * rewrite (cmp_lt_eqb _ _ E) in Hxz. discriminate.
      * rewrite (cmp_lt_eqb x z) in Hxz; [discriminate|]. apply (to_trans _ _ Hc Lt x y); auto.
    + rewrite IH. split.
      * intros (z & Hz & Hxz). exists z. split; auto. now right.
      * intros (z & [<-|Hz] & Hxz); [apply (to_eq _ _ Hc) in Hxz; congruence|exists z; auto].
Qed.

Lemma bt_insert_in x l z : In z (bt_insert cmp x l) -> z = x \/ In z l.
Proof.
  induction l as [|y l IH]; cbn [bt_insert]; [intros [<-|[]]; auto|].
  destruct (cmp x y); cbn [In]; intuition.
Qed.
Lemma bt_insert_ok x l : StronglySorted lt l ->
  StronglySorted lt (bt_insert cmp x l) /\ forall z, member eqb (bt_insert cmp x l) z <-> member eqb l z \/ eqb z x = true.
Proof.
  induction 1 as [|y l Hs (IH1 & IH2) Hy]; cbn [bt_insert].
  - split; [repeat constructor|]. intros z. unfold member. split.
    + intros (y & [<-|[]] & H). auto.
    + intros [(y & [] & _)|H]. exists x. cbn. auto.
  - assert (Hm : forall z a m, member eqb (a :: m) z <-> eqb z a = true \/ member eqb m z).
    { intros z a m. unfold member. split.
      - intros (b & [<-|Hb] & H); eauto.
      - intros [H|(b & Hb & H)]; [exists a|exists b]; cbn; auto. }
    destruct (cmp x y) eqn:E.
    + split; [now constructor|]. intros z. rewrite Hm. split; [tauto|]. intros [H|H]; auto. left.
      apply cmp_eq in E. now apply (eq_trans_ok _ He z x).
    + split; [|intros z; rewrite !Hm; tauto]. constructor; [now constructor|]. constructor; auto.
      rewrite Forall_forall in *. intros z Hz. apply (to_trans _ _ Hc Lt x y); auto.
    + split; [|intros z; rewrite !Hm, IH2; tauto]. constructor; auto. rewrite Forall_forall in *.
      intros z Hz. apply bt_insert_in in Hz. destruct Hz as [->|Hz]; auto. now apply cmp_gt.
Qed.

Lemma bt_remove_in x l z : In z (bt_remove cmp x l) -> In z l.
Proof.
  induction l as [|y l IH]; cbn [bt_remove]; auto. destruct (cmp x y); cbn [In]; intuition.
Qed.
Lemma bt_remove_ok x l : StronglySorted lt l ->
  StronglySorted lt (bt_remove cmp x l) /\ forall z, member eqb (bt_remove cmp x l) z <-> member eqb l z /\ eqb z x = false.
Proof.
  assert (Hm : forall z a m, member eqb (a :: m) z <-> eqb z a = true \/ member eqb m z).
  { intros z a m. unfold member. split.
    - intros (b & [<-|Hb] & H); eauto.
    - intros [H|(b & Hb & H)]; [exists a|exists b]; cbn; auto. }
  assert (Hlt : forall a m z, Forall (lt a) m -> member eqb m z -> eqb z a = true -> False).
  { intros a m z Ha (b & Hb & Hzb) Hza. rewrite Forall_forall in Ha. specialize (Ha b Hb). apply cmp_lt_eqb in Ha.
    rewrite <- (eqb_trans_l z a b Hza) in Ha. congruence. }
  induction 1 as [|y l Hs (IH1 & IH2) Hy]; cbn [bt_remove].
  - split; [constructor|]. intros z. split; [intros (y & [] & _)|intros ((y & [] & _) & _)].
  - destruct (cmp x y) eqn:E.
    + split; auto. intros z. rewrite Hm. assert (Hxy := cmp_eq _ _ E).
      destruct (eqb z x) eqn:Ez.
      * split; [|intros (_ & H); discriminate]. intros H. exfalso. apply (Hlt y l z); auto. now apply (eq_trans_ok _ He z x).
      * split; [tauto|]. intros ([H|H] & _); auto. exfalso. assert (eqb z x = true); [|congruence].
        apply (eq_trans_ok _ He z y); auto. now apply (eq_sym_ok _ He).
    + split; [now constructor|]. intros z. split; [|tauto]. intros H. split; auto.
      destruct (eqb z x) eqn:Ez; auto. exfalso. apply (Hlt x (y :: l) z); auto.
      rewrite Forall_forall in *. intros a [<-|Ha]; auto. apply (to_trans _ _ Hc Lt x y); auto.
    + split.
      * constructor; auto. rewrite Forall_forall in *. intros z Hz. apply Hy. now apply bt_remove_in in Hz.
      * intros z. rewrite !Hm, IH2. split; [|tauto]. intros [H|H]; [|tauto]. split; auto.
        destruct (eqb z x) eqn:Ez; auto. exfalso. assert (H' : eqb x y = true).
        { rewrite <- (eqb_trans_l z x y Ez). exact H. }
        apply (to_eq _ _ Hc) in H'. congruence.
Qed.

Lemma btree_set_holds history :
  StronglySorted lt (btree_set cmp history) /\ (forall x, In x (btree_set cmp history) -> In x (inserted history)) /\
  forall x, member eqb (btree_set cmp history) x <-> held eqb history x = true.
Proof.
  induction history as [|c history (Hs & Hi & Hm)] using rev_ind.
  - split; [constructor|]. split; [intros x []|]. intros x. split; [intros (y & [] & _)|discriminate].
  - unfold btree_set. rewrite fold_left_app. cbn [fold_left]. fold (btree_set cmp history). rewrite inserted_snoc.
    destruct c as [x|x|]; cbn [bt_step].
    + destruct (bt_insert_ok x _ Hs) as (H1 & H2). split; auto. split.
      * intros z Hz. apply bt_insert_in in Hz. apply in_or_app. cbn. destruct Hz as [->|Hz]; auto.
      * intros z. now rewrite held_snoc, H2, orb_true_iff, Hm.
    + destruct (bt_remove_ok x _ Hs) as (H1 & H2). rewrite app_nil_r. split; auto. split.
      * intros z Hz. apply bt_remove_in in Hz. auto.
      * intros z. now rewrite held_snoc, H2, andb_true_iff, negb_true_iff, Hm.
    + split; [constructor|]. split; [intros x []|]. intros z. rewrite held_snoc. split; [intros (y & [] & _)|discriminate].
Qed.

Lemma ascending_distinct l : StronglySorted lt l -> distinct eqb l.
Proof.
  induction 1 as [|y l Hs IH Hy]; cbn [distinct]; auto. split; auto. intros z Hz. rewrite Forall_forall in Hy.
  now apply cmp_lt_eqb, Hy.
Qed.
End Std.

Lemma hash_set_operand :
  forall (T : Type) (eqb : T -> T -> bool) (hash : T -> Z) (D : T -> Prop) (history : list (set_change T)) (items : list T),
  equivalence eqb -> (forall x y, eqb x y = true -> hash x = hash y) -> (forall x, In x (inserted history) -> D x) ->
  hash_set eqb hash history items ->
  lawful_set eqb D (std_hash_set eqb hash items) /\ distinct eqb items /\
  (forall x, In x items -> In x (inserted history)) /\
  forall x, member eqb items x <-> held eqb history x = true.
Proof.
  intros T eqb hash D history items He Hh HD H. destruct (hash_set_holds eqb He hash Hh history items H) as (Hd & Hi & Hm).
  split; auto. split; cbn [std_hash_set s_items s_len s_contains]; auto.
  intros x _. eexists. split; [reflexivity|]. now apply existsb_hs.
Qed.

Lemma btree_set_operand :
  forall (T : Type) (eqb : T -> T -> bool) (cmp : T -> T -> comparison) (D : T -> Prop) (history : list (set_change T)),
  equivalence eqb -> total_order eqb cmp -> (forall x, In x (inserted history) -> D x) ->
  let items := btree_set cmp history in
  lawful_set eqb D (std_btree_set cmp items) /\ distinct eqb items /\ StronglySorted (fun x y => cmp x y = Lt) items /\
  (forall x, In x items -> In x (inserted history)) /\
  forall x, member eqb items x <-> held eqb history x = true.
Proof.
  intros T eqb cmp D history He Hc HD items. destruct (btree_set_holds eqb He cmp Hc history) as (Hs & Hi & Hm).
  fold items in Hs, Hi, Hm. split.
  - split; cbn [std_btree_set s_items s_len s_contains]; auto.
    intros x _. eexists. split; [reflexivity|]. now apply (bt_contains_ok eqb).
  - split; auto. now apply (ascending_distinct eqb cmp).
Qed.

Lemma std_operand_lawful {T} (eqb : T -> T -> bool) (D : T -> Prop) history t :
  equivalence eqb -> (forall x, In x (inserted history) -> D x) -> std_operand eqb history t ->
  lawful_set eqb D t /\ distinct eqb (s_items t) /\ forall x, member eqb (s_items t) x <-> held eqb history x = true.
Proof.
  intros He HD [hash items Hh H|cmp Hc].
  - destruct (hash_set_operand T eqb hash D history items He Hh HD H) as (H1 & H2 & _ & H3). auto.
  - destruct (btree_set_operand T eqb cmp D history He Hc HD) as (H1 & H2 & _ & _ & H3). auto.
Qed.

Lemma frozen_and_std_sets :
  forall (O : Type) (eqbO : O -> O -> bool) (E : env) (kd : kind) (bh : hasher O)
         (items : list (key O)) (s : set_types O) (history : list (set_change (key O))) (t : set_impl (key O)),
  env_ok E -> equivalence eqbO -> lawful_hash eqbO bh -> countable (prof E) (zlen items) ->
  (forall x, In x items -> has_kind kd x) -> distinct (key_eqb eqbO) items -> fs_new E kd items bh = Ok s ->
  (forall x, In x (inserted history) -> has_kind kd x) -> std_operand (key_eqb eqbO) history t ->
  let f := fs_as_set eqbO E s in
  let here := member (key_eqb eqbO) items in
  let there x := held (key_eqb eqbO) history x = true in
  (exists b, set_eq f t = Ok b /\ (b = true <-> forall x, here x <-> there x)) /\
  (exists b, is_subset f t = Ok b /\ (b = true <-> forall x, here x -> there x)) /\
  (exists b, is_subset t f = Ok b /\ (b = true <-> forall x, there x -> here x)) /\
  (exists b, is_superset f t = Ok b /\ (b = true <-> forall x, there x -> here x)) /\
  (exists b, is_superset t f = Ok b /\ (b = true <-> forall x, here x -> there x)) /\
  (exists b, is_disjoint f t = Ok b /\ (b = true <-> forall x, ~ (here x /\ there x))) /\
  (exists b, is_disjoint t f = Ok b /\ (b = true <-> forall x, ~ (here x /\ there x))) /\
  (exists r, bitor (key_eqb eqbO) f t = Ok r /\ distinct (key_eqb eqbO) (s_items r) /\
     forall x, member (key_eqb eqbO) (s_items r) x <-> here x \/ there x) /\
  (exists r, bitand (key_eqb eqbO) f t = Ok r /\ distinct (key_eqb eqbO) (s_items r) /\
     forall x, member (key_eqb eqbO) (s_items r) x <-> here x /\ there x) /\
  (exists r, bitxor (key_eqb eqbO) f t = Ok r /\ distinct (key_eqb eqbO) (s_items r) /\
     forall x, member (key_eqb eqbO) (s_items r) x <-> (here x /\ ~ there x) \/ (there x /\ ~ here x)) /\
  (exists r, set_sub (key_eqb eqbO) f t = Ok r /\ distinct (key_eqb eqbO) (s_items r) /\
     forall x, member (key_eqb eqbO) (s_items r) x <-> here x /\ ~ there x).
Proof.
  intros O eqbO E kd bh items s history t HE He Hl Hc Ht Hd Hs Hk Hstd f here there.
  pose proof (key_eqb_equiv eqbO He) as Hke.
  destruct (frozen_set_lawful O eqbO E kd bh items s HE He Hl Hc Ht (fun _ => Hd) Hs) as (L1 & D1). specialize (D1 Hd).
  destruct (fs_get_spec eqbO E kd bh items s HE He Hl Hc Ht (fun _ => Hd) Hs) as (HP & _).
  destruct (std_operand_lawful (key_eqb eqbO) (has_kind kd) history t Hke Hk Hstd) as (L2 & D2 & M2).
  assert (M1 : forall x, member (key_eqb eqbO) (s_items f) x <-> here x).
  { intros x. symmetry. now apply member_perm. }
  fold f in L1, D1. fold (there) in M2.
  assert (M2' : forall x, member (key_eqb eqbO) (s_items t) x <-> there x) by exact M2. clear M2.
  destruct (set_relations (key_eqb eqbO) (has_kind kd) f t Hke L1 L2) as (R1 & R2 & R3).
  destruct (set_relations (key_eqb eqbO) (has_kind kd) t f Hke L2 L1) as (S1 & S2 & S3).
  destruct (set_operators (key_eqb eqbO) (has_kind kd) f t Hke L1 L2) as (O1 & O2 & O3 & O4).
  split; [|split; [|split; [|split; [|split; [|split; [|split; [|split; [|split; [|split]]]]]]]]].
  - destruct (set_eq_extensional (key_eqb eqbO) (has_kind kd) f t Hke L1 L2 D1 D2) as (b & -> & Hb). exists b. split; auto.
    rewrite Hb. split; intros H x; specialize (H x); rewrite ?M1, ?M2' in *; exact H.
  - destruct (R1 D1) as (b & -> & Hb). exists b. split; auto.
    rewrite Hb. split; intros H x; specialize (H x); rewrite ?M1, ?M2' in *; exact H.
  - destruct (S1 D2) as (b & -> & Hb). exists b. split; auto.
    rewrite Hb. split; intros H x; specialize (H x); rewrite ?M1, ?M2' in *; exact H.
  - destruct (R2 D2) as (b & -> & Hb). exists b. split; auto.
    rewrite Hb. split; intros H x; specialize (H x); rewrite ?M1, ?M2' in *; exact H.
  - destruct (S2 D1) as (b & -> & Hb). exists b. split; auto.
    rewrite Hb. split; intros H x; specialize (H x); rewrite ?M1, ?M2' in *; exact H.
  - destruct R3 as (b & -> & Hb). exists b. split; auto.
    rewrite Hb. split; intros H x; specialize (H x); rewrite ?M1, ?M2' in *; exact H.
  - destruct S3 as (b & -> & Hb). exists b. split; auto.
    rewrite Hb. split; intros H x; specialize (H x); rewrite ?M1, ?M2' in *; tauto.
  - destruct O1 as (r & -> & _ & Hr & Hm). exists r. do 2 (split; auto). intros x. now rewrite Hm, M1, M2'.
  - destruct O2 as (r & -> & _ & Hr & Hm). exists r. do 2 (split; auto). intros x. now rewrite Hm, M1, M2'.
  - destruct O3 as (r & -> & _ & Hr & Hm). exists r. do 2 (split; auto). intros x. now rewrite Hm, M1, M2'.
  - destruct O4 as (r & -> & _ & Hr & Hm). exists r. do 2 (split; auto). intros x. now rewrite Hm, M1, M2'.
Qed.
