(** What a caller observes of a set does not depend on the order of its items, nor, for a
    FrozenSet, on the hasher, the overflow profile or the unstable sort. *)
From Coq Require Import List ZArith Bool Arith Lia Permutation.
From Verif Require Import Spec MapSpec SetSpec IterSpec Base BaseLemmas EqbLists HashTable Maps FrozenMap
  FrozenMapProofs FrozenMapFacts Iterators SetOps SetOpsProofs Sets FrozenSet FrozenSetProofs SetTheorems
  SetAlgebra FrozenSetAlgebra.
Import ListNotations.
Open Scope Z_scope.

Lemma filter_perm {A} (f : A -> bool) l l' : Permutation l l' -> Permutation (filter f l) (filter f l').
Proof.
  induction 1; cbn; auto.
  - destruct (f x); auto.
  - destruct (f x), (f y); auto. constructor.
  - eapply Permutation_trans; eauto.
Qed.
Lemma forallb_same {A} (f g : A -> bool) l : (forall x, f x = g x) -> forallb f l = forallb g l.
Proof. intros H. induction l; cbn; auto. now rewrite H, IHl. Qed.
Lemma forallb_perm {A} (f : A -> bool) l l' : Permutation l l' -> forallb f l = forallb f l'.
Proof. induction 1; cbn; auto; try congruence. destruct (f x), (f y); auto. Qed.

Section Reordered.
Context {T : Type}.
Variable eqb : T -> T -> bool.
Hypothesis Heq : equivalence eqb.
Variable D : T -> Prop.

Lemma inb_perm l l' x : Permutation l l' -> existsb (eqb x) l = existsb (eqb x) l'.
Proof.
  intros HP. apply eq_true_iff_eq. rewrite !existsb_exists.
  split; intros (y & Hy & He); exists y; split; auto.
  - now apply (Permutation_in _ HP).
  - now apply (Permutation_in _ (Permutation_sym HP)).
Qed.

Lemma all_contains (s : set_impl T) l : lawful_set eqb D s -> (forall x, In x l -> D x) ->
  all_res (s_contains s) l = Ok (forallb (inb eqb (s_items s)) l).
Proof. intros Hs Hl. apply all_res_forallb. intros x Hx. apply (lawful_contains eqb Heq D); auto. Qed.
Lemma all_not_in (s : set_impl T) l : lawful_set eqb D s -> (forall x, In x l -> D x) ->
  all_res (not_in s) l = Ok (forallb (fun x => negb (inb eqb (s_items s) x)) l).
Proof. intros Hs Hl. apply all_res_forallb. intros x Hx. apply (lawful_not_in eqb Heq D); auto. Qed.

Lemma forallb_inb_perm a b l : Permutation a b -> forallb (inb eqb a) l = forallb (inb eqb b) l.
Proof. intros HP. apply forallb_same. intros x. now apply inb_perm. Qed.

Lemma forallb_ninb_perm a b l : Permutation a b ->
  forallb (fun x => negb (inb eqb a x)) l = forallb (fun x => negb (inb eqb b x)) l.
Proof. intros HP. apply forallb_same. intros x. f_equal. now apply inb_perm. Qed.

Lemma lacks_perm a b l : Permutation a b ->
  filter (fun x => negb (existsb (eqb x) a)) l = filter (fun x => negb (existsb (eqb x) b)) l.
Proof. intros HP. apply filter_ext. intros x. f_equal. now apply inb_perm. Qed.
Lemma has_perm a b l : Permutation a b ->
  filter (fun x => existsb (eqb x) a) l = filter (fun x => existsb (eqb x) b) l.
Proof. intros HP. apply filter_ext. intros x. now apply inb_perm. Qed.
End Reordered.

(** The items yielded are the same up to order. *)
Lemma reordered_operations :
  forall (T : Type) (eqb : T -> T -> bool) (D : T -> Prop) (a b o : set_impl T),
  equivalence eqb -> lawful_set eqb D a -> lawful_set eqb D b -> lawful_set eqb D o ->
  Permutation (s_items a) (s_items b) ->
  s_len a = s_len b /\ (forall x, D x -> s_contains a x = s_contains b x) /\
  (set_eq a o = set_eq b o /\ is_subset a o = is_subset b o /\ is_superset a o = is_superset b o /\
   is_disjoint a o = is_disjoint b o) /\
  (set_eq o a = set_eq o b /\ is_subset o a = is_subset o b /\ is_superset o a = is_superset o b /\
   is_disjoint o a = is_disjoint o b) /\
  (let same {St} (next : set_impl T -> set_impl T -> St -> res (option T * St)) (new : set_impl T -> set_impl T -> St) :=
     (exists L L', yields (next a o) (new a o) L /\ yields (next b o) (new b o) L' /\ Permutation L L') /\
     (exists L L', yields (next o a) (new o a) L /\ yields (next o b) (new o b) L' /\ Permutation L L') in
   same union_next pair_new /\ same intersection_next pair_new /\ same symmetric_difference_next pair_new /\
   same difference_next difference_new).
Proof.
  intros T eqb D a b o He La Lb Lo HP.
  pose proof (SetSpec.ls_len _ _ _ La) as Na. pose proof (SetSpec.ls_len _ _ _ Lb) as Nb. pose proof (SetSpec.ls_len _ _ _ Lo) as No.
  assert (Hz : zlen (s_items a) = zlen (s_items b)) by now apply zlen_perm.
  assert (Hn : s_len a = s_len b) by congruence.
  split; auto. split.
  { intros x Hx. rewrite (lawful_contains eqb He D a x La Hx), (lawful_contains eqb He D b x Lb Hx). f_equal. now apply inb_perm. }
  pose proof (SetSpec.ls_typed _ _ _ La) as Ta. pose proof (SetSpec.ls_typed _ _ _ Lb) as Tb. pose proof (SetSpec.ls_typed _ _ _ Lo) as To.
  unfold set_eq, is_subset, is_superset, is_disjoint. rewrite !Z.leb_refl.
  rewrite !(all_contains eqb He D a) by auto. rewrite !(all_contains eqb He D b) by auto. rewrite !(all_contains eqb He D o) by auto.
  rewrite !(all_not_in eqb He D a) by auto. rewrite !(all_not_in eqb He D b) by auto. rewrite !(all_not_in eqb He D o) by auto.
  rewrite !(forallb_inb_perm eqb _ _ (s_items o) HP), !(forallb_ninb_perm eqb _ _ (s_items o) HP).
  rewrite !(forallb_perm _ _ _ HP), Hn.
  split; [repeat split; reflexivity|]. split; [repeat split; reflexivity|].
  cbv zeta.
  destruct (set_operation_sequences T eqb D a o He La Lo) as (U1 & I1 & D1 & S1).
  destruct (set_operation_sequences T eqb D b o He Lb Lo) as (U2 & I2 & D2 & S2).
  destruct (set_operation_sequences T eqb D o a He Lo La) as (U3 & I3 & D3 & S3).
  destruct (set_operation_sequences T eqb D o b He Lo Lb) as (U4 & I4 & D4 & S4).
  cbv zeta in *.
  pose proof (fun l => lacks_perm eqb _ _ l HP) as Hlacks. pose proof (fun l => has_perm eqb _ _ l HP) as Hhas.
  rewrite <- Hz in *.
  destruct (zlen (s_items o) <? zlen (s_items a)), (zlen (s_items a) <? zlen (s_items o));
  ((split; [split|split; [split|split; split]]);
  do 2 eexists;
  [split; [exact U1|split; [exact U2|]]|split; [exact U3|split; [exact U4|]]|
   split; [exact I1|split; [exact I2|]]|split; [exact I3|split; [exact I4|]]|
   split; [exact S1|split; [exact S2|]]|split; [exact S3|split; [exact S4|]]|
   split; [exact D1|split; [exact D2|]]|split; [exact D3|split; [exact D4|]]];
  rewrite ?Hlacks, ?Hhas; auto using Permutation_app_tail, Permutation_app_head, filter_perm).
Qed.

Lemma insert_distinct {T} (eqb : T -> T -> bool) : equivalence eqb -> forall L acc, distinct eqb (acc ++ L) ->
  fold_left (hs_insert eqb) L acc = acc ++ L.
Proof.
  intros He. induction L as [|x L IH]; intros acc H; cbn [fold_left]; [now rewrite app_nil_r|].
  assert (E : hs_insert eqb acc x = acc ++ [x]).
  { unfold hs_insert. destruct (existsb (eqb x) acc) eqn:Ex; auto. apply existsb_exists in Ex.
    destruct Ex as (y & Hy & Hxy). apply (distinct_app eqb) in H. destruct H as (_ & _ & H).
    apply (eq_sym_ok _ He) in Hxy.
    rewrite (H y x Hy (or_introl eq_refl)) in Hxy. discriminate. }
  rewrite E, IH; rewrite <- app_assoc; auto.
Qed.

Section Kept.
Context {T : Type}.
Variable eqb : T -> T -> bool.
Hypothesis He : equivalence eqb.
Let keep (l acc : list T) : list T := fold_left (hs_insert eqb) l acc.

Lemma keep_in l : forall acc x, In x (keep l acc) -> In x acc \/ In x l.
Proof.
  induction l as [|y l IH]; cbn; intros acc x Hx; auto. apply IH in Hx. destruct Hx as [Hx|Hx]; auto.
  unfold hs_insert in Hx. destruct (existsb (eqb y) acc); auto. apply in_app_iff in Hx. cbn in Hx. tauto.
Qed.

Lemma keep_after Y : forall acc1 acc2, (forall x y, In x acc1 -> In y Y -> eqb x y = false) ->
  keep Y (acc1 ++ acc2) = acc1 ++ keep Y acc2.
Proof.
  induction Y as [|y Y IH]; cbn; intros acc1 acc2 H; auto.
  assert (E : hs_insert eqb (acc1 ++ acc2) y = acc1 ++ hs_insert eqb acc2 y).
  { unfold hs_insert. rewrite existsb_app.
    destruct (existsb (eqb y) acc1) eqn:Ex; [|destruct (existsb (eqb y) acc2); cbn [orb]; now rewrite ?app_assoc].
    apply existsb_exists in Ex. destruct Ex as (x & Hx & Hxy). apply (eq_sym_ok _ He) in Hxy.
    rewrite (H x y Hx (or_introl eq_refl)) in Hxy. discriminate. }
  rewrite E. apply IH. auto.
Qed.

Lemma keep_app X Y : (forall x y, In x X -> In y Y -> eqb x y = false) -> keep (X ++ Y) [] = keep X [] ++ keep Y [].
Proof.
  intros H. unfold keep at 1. rewrite fold_left_app. fold (keep X []) (keep Y (keep X [])).
  rewrite <- (app_nil_r (keep X [])) at 1. apply keep_after. intros x y Hx. apply keep_in in Hx.
  destruct Hx as [[]|Hx]. auto.
Qed.

Lemma keep_distinct X : distinct eqb X -> keep X [] = X.
Proof. intros H. now apply (insert_distinct eqb He X []). Qed.

(** [L'] is [L] with some items, which are like no others, rearranged. *)
Definition shuffled (L L' : list T) : Prop :=
  exists X X' Y, Permutation X X' /\ distinct eqb X /\ (forall x y, In x X -> In y Y -> eqb x y = false) /\
    (L = X ++ Y /\ L' = X' ++ Y \/ L = Y ++ X /\ L' = Y ++ X').

Lemma shuffled_keep L L' : shuffled L L' -> Permutation (keep L []) (keep L' []).
Proof.
  intros (X & X' & Y & HP & HX & HXY & H).
  assert (HX' : distinct eqb X') by (eapply distinct_perm; eauto).
  assert (HXY' : forall x y, In x X' -> In y Y -> eqb x y = false).
  { intros x y Hx. apply HXY. now apply (Permutation_in x (Permutation_sym HP)). }
  assert (Hs : forall Z : list T, (forall x y, In x Z -> In y Y -> eqb x y = false) -> forall y x, In y Y -> In x Z -> eqb y x = false).
  { intros Z H' y x Hy Hx. destruct (eqb y x) eqn:Ex; auto. apply (eq_sym_ok _ He) in Ex. now rewrite (H' x y Hx Hy) in Ex. }
  destruct H as [(-> & ->)|(-> & ->)]; rewrite !keep_app by eauto; rewrite !(keep_distinct X), !(keep_distinct X') by auto;
    auto using Permutation_app_tail, Permutation_app_head.
Qed.
End Kept.

(** The sets computed by the operators are the same up to order. *)
Lemma reordered_operators :
  forall (T : Type) (eqb : T -> T -> bool) (D : T -> Prop) (a b o : set_impl T),
  equivalence eqb -> lawful_set eqb D a -> lawful_set eqb D b -> lawful_set eqb D o ->
  Permutation (s_items a) (s_items b) -> distinct eqb (s_items a) ->
  let same (op : set_impl T -> set_impl T -> res (set_impl T)) :=
    (exists r r', op a o = Ok r /\ op b o = Ok r' /\ Permutation (s_items r) (s_items r')) /\
    (exists r r', op o a = Ok r /\ op o b = Ok r' /\ Permutation (s_items r) (s_items r')) in
  same (bitor eqb) /\ same (bitand eqb) /\ same (bitxor eqb) /\ same (set_sub eqb).
Proof.
  intros T eqb D a b o He La Lb Lo HP Da same.
  destruct (set_operation_sequences T eqb D a o He La Lo) as (U1 & I1 & D1 & S1).
  destruct (set_operation_sequences T eqb D b o He Lb Lo) as (U2 & I2 & D2 & S2).
  destruct (set_operation_sequences T eqb D o a He Lo La) as (U3 & I3 & D3 & S3).
  destruct (set_operation_sequences T eqb D o b He Lo Lb) as (U4 & I4 & D4 & S4).
  cbv zeta in *.
  pose proof (fun l => lacks_perm eqb _ _ l HP) as Hlacks. pose proof (fun l => has_perm eqb _ _ l HP) as Hhas.
  assert (Hz : zlen (s_items a) = zlen (s_items b)) by now apply zlen_perm.
  rewrite <- Hz, <- (Hlacks (s_items o)) in U2, U4. rewrite <- Hz, <- (Hhas (s_items o)) in I2, I4.
  rewrite <- (Hlacks (s_items o)) in S2, S4, D4.
  assert (Hfin : forall St (n1 n2 : St -> res (option T * St)) st1 st2 f1 f2 L L',
     yields n1 st1 L -> yields n2 st2 L' -> shuffled eqb L L' -> (length L < f1)%nat -> (length L < f2)%nat ->
     exists r r', (l <- collect eqb n1 f1 [] st1 ;; Ok (hash_set_of eqb l)) = Ok r /\
       (l <- collect eqb n2 f2 [] st2 ;; Ok (hash_set_of eqb l)) = Ok r' /\ Permutation (s_items r) (s_items r')).
  { intros St n1 n2 st1 st2 f1 f2 L L' Y1 Y2 HL H1 H2.
    assert (H2' : (length L' < f2)%nat).
    { destruct HL as (X & X' & Y & P & _ & _ & [(-> & ->)|(-> & ->)]); rewrite app_length in *; rewrite <- (Permutation_length P); lia. }
    rewrite (collect_yields eqb n1 st1 L Y1 f1 [] H1), (collect_yields eqb n2 st2 L' Y2 f2 [] H2'). cbn [bind].
    do 2 eexists. split; [reflexivity|]. split; [reflexivity|]. cbn [hash_set_of s_items]. now apply shuffled_keep. }
  pose proof (filter_perm (fun x => negb (existsb (eqb x) (s_items o))) _ _ HP) as HPl. pose proof (filter_perm (fun x => existsb (eqb x) (s_items o)) _ _ HP) as HPh.
  assert (Hl : forall l x y, In x l -> In y (filter (fun x => negb (existsb (eqb x) l)) (s_items o)) -> eqb x y = false).
  { intros l x y Hx Hy. apply filter_In in Hy. destruct Hy as (_ & Hy). cbv beta in Hy. destruct (eqb x y) eqn:Ex; auto.
    apply (eq_sym_ok _ He) in Ex. apply negb_true_iff in Hy. assert (existsb (eqb y) l = true); [|congruence].
    apply existsb_exists. eauto. }
  assert (Hm : forall x y, In x (filter (fun x => negb (existsb (eqb x) (s_items o))) (s_items a)) -> In y (s_items o) -> eqb x y = false).
  { intros x y Hx Hy. apply filter_In in Hx. destruct Hx as (_ & Hx). cbv beta in Hx. destruct (eqb x y) eqn:Ex; auto.
    apply negb_true_iff in Hx. assert (existsb (eqb x) (s_items o) = true); [|congruence]. apply existsb_exists. eauto. }
  assert (Hlen : forall f (l : list T), (length (filter f l) <= length l)%nat) by (intros; apply filter_length_le).
  assert (H0 : forall x y, In x (filter (fun x => negb (existsb (eqb x) (s_items o))) (s_items a)) -> In y (filter (fun x => negb (existsb (eqb x) (s_items a))) (s_items o)) -> eqb x y = false).
  { intros x y Hx Hy. apply filter_In in Hy. apply Hm; tauto. }
  assert (Hd : forall f, distinct eqb (filter f (s_items a))) by (intros; now apply distinct_filter).
  assert (E1 : forall Y, shuffled eqb Y Y).
  { intros Y. exists [], [], Y. split; [constructor|]. split; [exact I|]. split; [intros ? ? []|]. left. now split. }
  assert (E2 : forall X X', Permutation X X' -> distinct eqb X -> shuffled eqb X X').
  { intros X X' HX HD. exists X, X', []. split; [exact HX|]. split; [exact HD|]. split; [intros ? ? _ []|]. left. now rewrite !app_nil_r. }
  unfold same, bitor, bitand, bitxor, set_sub, pair_fuel. rewrite <- (Permutation_length HP).
  pose proof (Hlen (fun x => negb (existsb (eqb x) (s_items o))) (s_items a)). pose proof (Hlen (fun x => negb (existsb (eqb x) (s_items a))) (s_items o)).
  pose proof (Hlen (fun x => existsb (eqb x) (s_items o)) (s_items a)). pose proof (Hlen (fun x => existsb (eqb x) (s_items a)) (s_items o)).
  split; [|split; [|split]]; split.
  - refine (Hfin _ _ _ _ _ _ _ _ _ U1 U2 _ _ _).
    + destruct (_ <? _); do 3 eexists; (split; [|split; [|split; [|first [left; now split|right; now split]]]]); eauto.
    + destruct (_ <? _); rewrite app_length; lia.
    + destruct (_ <? _); rewrite app_length; lia.
  - refine (Hfin _ _ _ _ _ _ _ _ _ U3 U4 _ _ _).
    + destruct (zlen (s_items a) <? zlen (s_items o)); do 3 eexists; (split; [|split; [|split; [|first [left; now split|right; now split]]]]); eauto.
    + destruct (zlen (s_items a) <? zlen (s_items o)); rewrite app_length; lia.
    + destruct (zlen (s_items a) <? zlen (s_items o)); rewrite app_length; lia.
  - refine (Hfin _ _ _ _ _ _ _ _ _ I1 I2 _ _ _); destruct (zlen (s_items a) <? zlen (s_items o)); try lia; auto.
  - refine (Hfin _ _ _ _ _ _ _ _ _ I3 I4 _ _ _); destruct (zlen (s_items o) <? zlen (s_items a)); try lia; auto.
  - refine (Hfin _ _ _ _ _ _ _ _ _ S1 S2 _ _ _); rewrite ?app_length; try lia.
    do 3 eexists; (split; [|split; [|split; [|left; now split]]]); eauto.
  - refine (Hfin _ _ _ _ _ _ _ _ _ S3 S4 _ _ _); rewrite ?app_length; try lia.
    do 3 eexists; (split; [|split; [|split; [|right; now split]]]); eauto.
  - refine (Hfin _ _ _ _ _ _ _ _ _ D1 D2 _ _ _); auto; lia.
  - refine (Hfin _ _ _ _ _ _ _ _ _ D3 D4 _ _ _); auto; lia.
Qed.

Lemma distinct_inj {T} (eqb : T -> T -> bool) l x y : equivalence eqb -> distinct eqb l ->
  In x l -> In y l -> eqb x y = true -> x = y.
Proof.
  intros He. induction l as [|a l IH]; cbn [distinct In]; [tauto|]. intros (H1 & H2) [<-|Hx] [<-|Hy] E; auto.
  - rewrite (H1 y Hy) in E. discriminate.
  - apply (eq_sym_ok _ He) in E. rewrite (H1 x Hx) in E. discriminate.
Qed.

Lemma find_distinct_perm {T} (eqb : T -> T -> bool) l l' x : equivalence eqb -> distinct eqb l -> Permutation l l' ->
  find (eqb x) l = find (eqb x) l'.
Proof.
  intros He Hd HP. assert (Hd' : distinct eqb l') by (eapply distinct_perm; eauto).
  destruct (find (eqb x) l) as [y|] eqn:F.
  - apply find_some in F. destruct F as (Fy & Fe). destruct (find (eqb x) l') as [z|] eqn:F'.
    + apply find_some in F'. destruct F' as (Fz & Fe'). f_equal.
      apply (Permutation_in _ (Permutation_sym HP)) in Fz.
      apply (distinct_inj eqb l y z); auto. eapply (eq_trans_ok _ He); eauto. now apply (eq_sym_ok _ He).
    + rewrite (find_none _ _ F' y) in Fe; [discriminate|]. now apply (Permutation_in _ HP).
  - destruct (find (eqb x) l') as [z|] eqn:F'; auto. apply find_some in F'. destruct F' as (Fz & Fe).
    rewrite (find_none _ _ F z) in Fe; [discriminate|]. now apply (Permutation_in _ (Permutation_sym HP)).
Qed.

(** C69 *)
Lemma set_observations_determined :
  forall (O : Type) (eqbO : O -> O -> bool) (E1 E2 : env) (kd : kind) (bh1 bh2 : hasher O)
         (items1 items2 : list (key O)) (s1 s2 : set_types O),
  env_ok E1 -> env_ok E2 -> equivalence eqbO -> lawful_hash eqbO bh1 -> lawful_hash eqbO bh2 ->
  countable (prof E1) (zlen items1) -> countable (prof E2) (zlen items1) ->
  (forall x, In x items1 -> has_kind kd x) -> distinct (key_eqb eqbO) items1 -> Permutation items1 items2 ->
  fs_new E1 kd items1 bh1 = Ok s1 -> fs_new E2 kd items2 bh2 = Ok s2 ->
  fs_len s1 = fs_len s2 /\ fs_is_empty s1 = fs_is_empty s2 /\ Permutation (fs_items s1) (fs_items s2) /\
  (forall x, has_kind kd x ->
     fs_contains eqbO E1 s1 x = fs_contains eqbO E2 s2 x /\ fs_get eqbO E1 s1 x = fs_get eqbO E2 s2 x) /\
  lawful_set (key_eqb eqbO) (has_kind kd) (fs_as_set eqbO E1 s1) /\
  lawful_set (key_eqb eqbO) (has_kind kd) (fs_as_set eqbO E2 s2).
Proof.
  intros O eqbO E1 E2 kd bh1 bh2 items1 items2 s1 s2 HE1 HE2 He Hl1 Hl2 Hc1 Hc2 Ht Hd HP H1 H2.
  pose proof (zlen_perm _ _ HP) as Hz. pose proof (key_eqb_equiv eqbO He) as Hk.
  assert (Hd2 : distinct (key_eqb eqbO) items2) by (eapply distinct_perm; eauto).
  assert (Ht2 : forall x, In x items2 -> has_kind kd x).
  { intros x Hx. apply Ht. now apply (Permutation_in _ (Permutation_sym HP)). }
  rewrite Hz in Hc2.
  destruct (frozen_set_lawful O eqbO E1 kd bh1 items1 s1 HE1 He Hl1 Hc1 Ht (fun _ => Hd) H1) as (L1 & D1).
  destruct (frozen_set_lawful O eqbO E2 kd bh2 items2 s2 HE2 He Hl2 Hc2 Ht2 (fun _ => Hd2) H2) as (L2 & D2).
  destruct (fs_get_spec eqbO E1 kd bh1 items1 s1 HE1 He Hl1 Hc1 Ht (fun _ => Hd) H1) as (P1 & G1).
  destruct (fs_get_spec eqbO E2 kd bh2 items2 s2 HE2 He Hl2 Hc2 Ht2 (fun _ => Hd2) H2) as (P2 & G2).
  assert (P12 : Permutation (fs_items s1) (fs_items s2)).
  { apply Permutation_trans with items1; [now apply Permutation_sym|]. now apply Permutation_trans with items2. }
  assert (Hlen : fs_len s1 = fs_len s2).
  { change (s_len (fs_as_set eqbO E1 s1) = s_len (fs_as_set eqbO E2 s2)).
    rewrite (SetSpec.ls_len _ _ _ L1), (SetSpec.ls_len _ _ _ L2). now apply zlen_perm. }
  split; auto. split; [unfold fs_is_empty; now rewrite Hlen|]. split; auto. split; auto.
  intros x Hx. rewrite !fs_contains_get, (G1 x Hx), (G2 x Hx).
  assert (F : find (fun y => key_eqb eqbO x y) (fs_items s1) = find (fun y => key_eqb eqbO x y) (fs_items s2))
    by exact (find_distinct_perm (key_eqb eqbO) (fs_items s1) (fs_items s2) x Hk (D1 Hd) P12).
  rewrite F. auto.
Qed.
