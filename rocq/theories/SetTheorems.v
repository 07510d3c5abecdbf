(** Statements about the set algebra and FrozenSet, proved. *)
From Coq Require Import List ZArith Bool Arith Lia Permutation.
From Verif Require Import Spec MapSpec SetSpec Base BaseLemmas EqbLists HashTable Maps FrozenMap FrozenMapProofs
  FrozenMapFacts BuildSound Iterators IterSpec IteratorProofs SetOps SetOpsProofs Sets FrozenSet FrozenSetProofs
  MapTheorems TypeSafety.
Import ListNotations.
Open Scope Z_scope.

(** ** Set algebra on lawful sets (C28-C32, C35) *)

Section Algebra.
Context {T : Type} (eqb : T -> T -> bool) (D : T -> Prop).

(** C28 *)
Lemma union_exact :
  forall s1 s2 : set_impl T,
  equivalence eqb -> lawful_set eqb D s1 -> lawful_set eqb D s2 ->
  distinct eqb (s_items s1) -> distinct eqb (s_items s2) ->
  exists L, yields (union_next s1 s2) (pair_new s1 s2) L /\ distinct eqb L /\
    (forall x, In x L -> In x (s_items s1) \/ In x (s_items s2)) /\
    (forall x, member eqb L x <-> member eqb (s_items s1) x \/ member eqb (s_items s2) x).
Proof.
  intros s1 s2 He L1 L2 H1 H2. exists (union_list eqb s1 s2).
  split; [apply (union_delivers eqb He D s1 s2 L1 L2)|]. split; [now apply union_distinct|].
  split; [apply union_in|]. intros x. now apply union_member.
Qed.

(** C29 *)
Lemma intersection_exact :
  forall s1 s2 : set_impl T,
  equivalence eqb -> lawful_set eqb D s1 -> lawful_set eqb D s2 ->
  distinct eqb (s_items s1) -> distinct eqb (s_items s2) ->
  exists L, yields (intersection_next s1 s2) (pair_new s1 s2) L /\ distinct eqb L /\
    (forall x, In x L -> In x (s_items s1) \/ In x (s_items s2)) /\
    (forall x, member eqb L x <-> member eqb (s_items s1) x /\ member eqb (s_items s2) x).
Proof.
  intros s1 s2 He L1 L2 H1 H2. exists (intersection_list eqb s1 s2).
  split; [apply (intersection_delivers eqb He D s1 s2 L1 L2)|]. split; [now apply intersection_distinct|].
  split; [apply intersection_in|]. intros x. now apply intersection_member.
Qed.

(** C30 *)
Lemma difference_exact :
  forall s1 s2 : set_impl T,
  equivalence eqb -> lawful_set eqb D s1 -> lawful_set eqb D s2 ->
  distinct eqb (s_items s1) ->
  exists L, yields (difference_next s1 s2) (difference_new s1 s2) L /\ distinct eqb L /\
    (forall x, In x L -> In x (s_items s1)) /\
    (forall x, member eqb L x <-> member eqb (s_items s1) x /\ ~ member eqb (s_items s2) x).
Proof.
  intros s1 s2 He L1 L2 H1. exists (difference_list eqb s1 s2).
  split; [apply (difference_delivers eqb He D s1 s2 L1 L2)|]. split; [now apply difference_distinct|].
  split; [apply difference_in|]. intros x. now apply difference_member.
Qed.

Lemma symmetric_difference_exact :
  forall s1 s2 : set_impl T,
  equivalence eqb -> lawful_set eqb D s1 -> lawful_set eqb D s2 ->
  distinct eqb (s_items s1) -> distinct eqb (s_items s2) ->
  exists L, yields (symmetric_difference_next s1 s2) (pair_new s1 s2) L /\ distinct eqb L /\
    (forall x, In x L -> In x (s_items s1) \/ In x (s_items s2)) /\
    (forall x, member eqb L x <->
       (member eqb (s_items s1) x /\ ~ member eqb (s_items s2) x) \/
       (member eqb (s_items s2) x /\ ~ member eqb (s_items s1) x)).
Proof.
  intros s1 s2 He L1 L2 H1 H2. exists (symmetric_list eqb s1 s2).
  split; [apply (symmetric_delivers eqb He D s1 s2 L1 L2)|]. split; [now apply symmetric_distinct|].
  split; [apply symmetric_in|]. intros x. now apply symmetric_member.
Qed.

(** C31: at every point the number of items to come is within the size hint; the hints
    do not depend on how far the iterator has advanced. *)
Lemma size_hints_hold :
  forall s1 s2 : set_impl T,
  equivalence eqb -> lawful_set eqb D s1 -> lawful_set eqb D s2 ->
  forall n : nat,
  (exists os st L, calls (difference_next s1 s2) n (difference_new s1 s2) = Ok (os, st) /\
     yields (difference_next s1 s2) st L /\ within (zlen L) (difference_size_hint s1 s2)) /\
  (exists os st L, calls (symmetric_difference_next s1 s2) n (pair_new s1 s2) = Ok (os, st) /\
     yields (symmetric_difference_next s1 s2) st L /\ within (zlen L) (symmetric_difference_size_hint s1 s2)) /\
  (exists os st L, calls (intersection_next s1 s2) n (pair_new s1 s2) = Ok (os, st) /\
     yields (intersection_next s1 s2) st L /\ within (zlen L) (intersection_size_hint s1 s2)) /\
  (exists L, yields (union_next s1 s2) (pair_new s1 s2) L /\ within (zlen L) (union_size_hint s1 s2)).
Proof.
  intros s1 s2 He L1 L2 n.
  assert (Hca : forall a b, match checked_add a b with Some c => c = a + b | None => True end).
  { intros a b. unfold checked_add. destruct (in_type usize (a + b)); auto. }
  split; [|split; [|split]].
  - destruct (proj2 (difference_delivers eqb He D s1 s2 L1 L2) n) as (st & Hc & Hy).
    eexists; exists st, (skipn n (difference_list eqb s1 s2)). split; [exact Hc|]. split; [exact Hy|].
    unfold within, difference_size_hint. cbn [fst snd].
    apply skipn_within, (difference_length eqb D s1 s2 L1).
  - destruct (proj2 (symmetric_delivers eqb He D s1 s2 L1 L2) n) as (st & Hc & Hy).
    eexists; exists st, (skipn n (symmetric_list eqb s1 s2)). split; [exact Hc|]. split; [exact Hy|].
    unfold within, symmetric_difference_size_hint. cbn [fst snd].
    pose proof (skipn_within (symmetric_list eqb s1 s2) n _ (symmetric_length eqb D s1 s2 L1 L2)) as Hw.
    specialize (Hca (s_len s1) (s_len s2)). destruct (checked_add _ _); [subst|]; lia.
  - destruct (proj2 (intersection_delivers eqb He D s1 s2 L1 L2) n) as (st & Hc & Hy).
    eexists; exists st, (skipn n (intersection_list eqb s1 s2)). split; [exact Hc|]. split; [exact Hy|].
    unfold within, intersection_size_hint. cbn [fst snd].
    apply skipn_within, (intersection_length eqb D s1 s2 L1 L2).
  - exists (union_list eqb s1 s2). split; [apply (union_delivers eqb He D s1 s2 L1 L2)|].
    pose proof (union_length eqb D s1 s2 L1 L2) as Hu.
    unfold within, union_size_hint. cbn [fst snd].
    specialize (Hca (s_len s1) (s_len s2)). destruct (checked_add _ _); [subst|]; lia.
Qed.

(** C32 *)
Lemma set_relations :
  forall s1 s2 : set_impl T,
  equivalence eqb -> lawful_set eqb D s1 -> lawful_set eqb D s2 ->
  (distinct eqb (s_items s1) ->
   exists b, is_subset s1 s2 = Ok b /\
     (b = true <-> forall x, member eqb (s_items s1) x -> member eqb (s_items s2) x)) /\
  (distinct eqb (s_items s2) ->
   exists b, is_superset s1 s2 = Ok b /\
     (b = true <-> forall x, member eqb (s_items s2) x -> member eqb (s_items s1) x)) /\
  (exists b, is_disjoint s1 s2 = Ok b /\
     (b = true <-> forall x, ~ (member eqb (s_items s1) x /\ member eqb (s_items s2) x))).
Proof.
  intros s1 s2 He L1 L2. split; [|split].
  - intros H. now apply (is_subset_ok eqb He D s1 s2 L1 L2).
  - intros H. change (is_superset s1 s2) with (is_subset s2 s1). now apply (is_subset_ok eqb He D s2 s1 L2 L1).
  - now apply (is_disjoint_ok eqb He D s1 s2 L1 L2).
Qed.

(** C33, specialized sets *)
Lemma set_eq_extensional :
  forall s1 s2 : set_impl T,
  equivalence eqb -> lawful_set eqb D s1 -> lawful_set eqb D s2 ->
  distinct eqb (s_items s1) -> distinct eqb (s_items s2) ->
  exists b, set_eq s1 s2 = Ok b /\
    (b = true <-> forall x, member eqb (s_items s1) x <-> member eqb (s_items s2) x).
Proof. intros s1 s2 He L1 L2 H1 H2. now apply (set_eq_ok eqb He D s1 s2 L1 L2). Qed.

Lemma set_eq_equivalence :
  forall s1 s2 s3 : set_impl T,
  equivalence eqb -> lawful_set eqb D s1 -> lawful_set eqb D s2 -> lawful_set eqb D s3 ->
  distinct eqb (s_items s1) -> distinct eqb (s_items s2) -> distinct eqb (s_items s3) ->
  set_eq s1 s1 = Ok true /\ set_eq s1 s2 = set_eq s2 s1 /\
  (set_eq s1 s2 = Ok true -> set_eq s2 s3 = Ok true -> set_eq s1 s3 = Ok true).
Proof.
  intros s1 s2 s3 He L1 L2 L3 D1 D2 D3.
  destruct (set_eq_extensional s1 s1 He L1 L1 D1 D1) as (b11 & -> & E11).
  destruct (set_eq_extensional s1 s2 He L1 L2 D1 D2) as (b12 & -> & E12).
  destruct (set_eq_extensional s2 s1 He L2 L1 D2 D1) as (b21 & -> & E21).
  destruct (set_eq_extensional s2 s3 He L2 L3 D2 D3) as (b23 & -> & E23).
  destruct (set_eq_extensional s1 s3 He L1 L3 D1 D3) as (b13 & -> & E13).
  split; [f_equal; apply E11; tauto|]. split.
  - f_equal. apply eq_true_iff_eq. rewrite E12, E21. split; intros H x; symmetry; apply H.
  - intros [= H1] [= H2]. f_equal. apply E13. intros x. rewrite (proj1 E12 H1 x). now apply E23.
Qed.

(** C35 *)
Lemma set_operators :
  forall s1 s2 : set_impl T,
  equivalence eqb -> lawful_set eqb D s1 -> lawful_set eqb D s2 ->
  let m1 := member eqb (s_items s1) in
  let m2 := member eqb (s_items s2) in
  (exists s, bitor eqb s1 s2 = Ok s /\ lawful_set eqb (fun _ => True) s /\ distinct eqb (s_items s) /\
     forall x, member eqb (s_items s) x <-> m1 x \/ m2 x) /\
  (exists s, bitand eqb s1 s2 = Ok s /\ lawful_set eqb (fun _ => True) s /\ distinct eqb (s_items s) /\
     forall x, member eqb (s_items s) x <-> m1 x /\ m2 x) /\
  (exists s, bitxor eqb s1 s2 = Ok s /\ lawful_set eqb (fun _ => True) s /\ distinct eqb (s_items s) /\
     forall x, member eqb (s_items s) x <-> (m1 x /\ ~ m2 x) \/ (m2 x /\ ~ m1 x)) /\
  (exists s, set_sub eqb s1 s2 = Ok s /\ lawful_set eqb (fun _ => True) s /\ distinct eqb (s_items s) /\
     forall x, member eqb (s_items s) x <-> m1 x /\ ~ m2 x).
Proof.
  intros s1 s2 He L1 L2 m1 m2.
  pose proof (SetSpec.ls_len _ _ _ L1) as Hl1. pose proof (SetSpec.ls_len _ _ _ L2) as Hl2. unfold zlen in Hl1, Hl2.
  split; [|split; [|split]].
  - destruct (collect_ok eqb He D _ _ _ (pair_fuel s1 s2) (union_delivers eqb He D s1 s2 L1 L2)) as (s & H1 & H2 & H3 & H4).
    { pose proof (union_length eqb D s1 s2 L1 L2). unfold zlen in *. unfold pair_fuel. lia. }
    exists s. split; auto. split; auto. split; auto. intros x. rewrite H4. now apply union_member.
  - destruct (collect_ok eqb He D _ _ _ (pair_fuel s1 s2) (intersection_delivers eqb He D s1 s2 L1 L2)) as (s & H1 & H2 & H3 & H4).
    { pose proof (intersection_length eqb D s1 s2 L1 L2). unfold zlen in *. unfold pair_fuel. lia. }
    exists s. split; auto. split; auto. split; auto. intros x. rewrite H4. now apply intersection_member.
  - destruct (collect_ok eqb He D _ _ _ (pair_fuel s1 s2) (symmetric_delivers eqb He D s1 s2 L1 L2)) as (s & H1 & H2 & H3 & H4).
    { pose proof (symmetric_length eqb D s1 s2 L1 L2). unfold zlen in *. unfold pair_fuel. lia. }
    exists s. split; auto. split; auto. split; auto. intros x. rewrite H4. now apply symmetric_member.
  - destruct (collect_ok eqb He D _ _ _ (pair_fuel s1 s2) (difference_delivers eqb He D s1 s2 L1 L2)) as (s & H1 & H2 & H3 & H4).
    { pose proof (difference_length eqb D s1 s2 L1). unfold zlen in *. unfold pair_fuel. lia. }
    exists s. split; auto. split; auto. split; auto. intros x. rewrite H4. now apply difference_member.
Qed.
End Algebra.

(** ** FrozenSet (C34, C33, C37, C39) *)

Lemma typed_with_unit {O} kd (items : list (key O)) :
  (forall x, In x items -> has_kind kd x) -> typed kd (with_unit items).
Proof. intros H e He. apply in_map_iff in He. destruct He as (x & <- & Hx). now apply H. Qed.

Lemma fs_get_spec {O} (eqbO : O -> O -> bool) E kd bh (items : list (key O)) s :
  env_ok E -> equivalence eqbO -> lawful_hash eqbO bh -> countable (prof E) (zlen items) ->
  (forall x, In x items -> has_kind kd x) ->
  (kd = KindU32 -> distinct (key_eqb eqbO) items) ->
  fs_new E kd items bh = Ok s ->
  Permutation items (fs_items s) /\
  forall x, has_kind kd x -> fs_get eqbO E s x = Ok (find (fun y => key_eqb eqbO x y) (fs_items s)).
Proof.
  intros HE He Hl Hc Ht Hd Hs. apply fs_new_ok in Hs.
  rewrite <- (with_unit_len items) in Hc. apply typed_with_unit in Ht.
  destruct (built_sound eqbO E HE kd _ bh _ Hc Ht Hs) as (HP & Hi & Hx & Hr). rewrite with_unit_keys in Hx.
  assert (Hex : fm_exact (to_map s)).
  { destruct s; try exact I. apply Hx, Hd. apply (Hr I). }
  split. { rewrite fs_items_map, <- (with_unit_keys items). now apply Permutation_map. }
  intros x Hk. rewrite fs_get_map. pose proof (lawful_respects eqbO bh Hl) as Hresp.
  destruct (fm_lookup_exact eqbO E kd bh _ x Hi Hex Hresp Hk) as (_ & _ & _ & ->).
  unfold set_get_of. cbn [bind]. rewrite fs_items_map, find_map. reflexivity.
Qed.

Lemma frozen_set_exact :
  forall (O : Type) (eqbO : O -> O -> bool) (E : env) (kd : kind) (bh : hasher O)
         (items : list (key O)) (s : set_types O),
  env_ok E -> equivalence eqbO -> lawful_hash eqbO bh -> countable (prof E) (zlen items) ->
  zlen items < 2 ^ 64 -> (forall x, In x items -> has_kind kd x) ->
  (kd = KindU32 -> distinct (key_eqb eqbO) items) ->
  fs_new E kd items bh = Ok s ->
  Permutation items (fs_items s) /\
  yields (keys_next (prof E)) (it_new (with_unit (fs_items s))) (fs_items s) /\
  fs_len s = zlen items /\ (fs_is_empty s = true <-> items = []) /\
  forall x, has_kind kd x ->
    (member (key_eqb eqbO) items x /\ fs_contains eqbO E s x = Ok true /\
     exists y, fs_get eqbO E s x = Ok (Some y) /\ In y items /\ key_eqb eqbO x y = true) \/
    (~ member (key_eqb eqbO) items x /\ fs_contains eqbO E s x = Ok false /\
     fs_get eqbO E s x = Ok None).
Proof.
  intros O eqbO E kd bh items s HE He Hl Hc H64 Ht Hd Hs.
  destruct (fs_get_spec eqbO E kd bh items s HE He Hl Hc Ht Hd Hs) as (HP & Hg).
  assert (Hz : zlen (fs_items s) = zlen items) by (symmetry; now apply zlen_perm).
  assert (Hlen : fs_len s = zlen items).
  { rewrite fs_len_map, fm_len_iter, <- Hz, fs_items_map. now rewrite zlen_map. }
  split; auto. split.
  { destruct (keys_iter_exact (prof E) (with_unit (fs_items s)) ltac:(rewrite with_unit_len; lia) 0%nat) as (it & Hcl & Hy & _).
    cbn [calls skipn] in *. injection Hcl as <-. now rewrite with_unit_keys in Hy. }
  split; auto. split.
  { unfold fs_is_empty. rewrite Hlen, Z.eqb_eq. split; [apply zlen_0|intros ->; reflexivity]. }
  intros x Hk. rewrite fs_contains_get, (Hg x Hk). unfold set_contains_of. cbn [bind].
  destruct (find _ (fs_items s)) as [y|] eqn:F.
  - apply find_some in F. destruct F as (F1 & F2). apply (Permutation_in _ (Permutation_sym HP)) in F1.
    left. split; [exists y; auto|]. split; auto. exists y. auto.
  - right. split; auto. intros (y & Hy & Hxy). apply (Permutation_in _ HP) in Hy.
    rewrite (find_none _ _ F y Hy) in Hxy. discriminate.
Qed.

(** A built FrozenSet is a lawful implementation of the Set trait, so that everything
    above applies to it. *)
Lemma frozen_set_lawful :
  forall (O : Type) (eqbO : O -> O -> bool) (E : env) (kd : kind) (bh : hasher O)
         (items : list (key O)) (s : set_types O),
  env_ok E -> equivalence eqbO -> lawful_hash eqbO bh -> countable (prof E) (zlen items) ->
  (forall x, In x items -> has_kind kd x) -> (kd = KindU32 -> distinct (key_eqb eqbO) items) ->
  fs_new E kd items bh = Ok s ->
  lawful_set (key_eqb eqbO) (has_kind kd) (fs_as_set eqbO E s) /\
  (distinct (key_eqb eqbO) items -> distinct (key_eqb eqbO) (s_items (fs_as_set eqbO E s))).
Proof.
  intros O eqbO E kd bh items s HE He Hl Hc Ht Hd Hs.
  destruct (fs_get_spec eqbO E kd bh items s HE He Hl Hc Ht Hd Hs) as (HP & Hg). split.
  - constructor; cbn [fs_as_set s_items s_len s_contains].
    + intros x Hx. apply Ht. now apply (Permutation_in _ (Permutation_sym HP)).
    + now rewrite fs_len_map, fm_len_iter, fs_items_map, zlen_map.
    + intros x Hk. rewrite fs_contains_get, (Hg x Hk). unfold set_contains_of. cbn [bind].
      eexists. split; [reflexivity|]. destruct (find _ (fs_items s)) as [y|] eqn:F.
      * apply find_some in F. split; auto. intros _. exists y. exact F.
      * split; [discriminate|]. intros (y & Hy & Hxy). rewrite (find_none _ _ F y Hy) in Hxy. discriminate.
  - intros H. cbn [fs_as_set s_items]. eapply distinct_perm; [now apply key_eqb_equiv|exact HP|exact H].
Qed.

Lemma fs_eq_set_eq {O} (eqbO : O -> O -> bool) E (s1 s2 : set_types O) :
  fs_eq eqbO E s1 s2 = set_eq (fs_as_set eqbO E s1) (fs_as_set eqbO E s2).
Proof.
  unfold fs_eq, set_eq. cbn [fs_as_set s_items s_len s_contains]. destruct (negb _); auto.
  generalize (fs_items s1). intros l. induction l as [|x l IH]; cbn [all_res]; auto.
  rewrite fs_contains_get. now rewrite IH.
Qed.

(** C33, FrozenSet *)
Lemma frozen_set_eq_extensional :
  forall (O : Type) (eqbO : O -> O -> bool) (E : env) (kd : kind) (bh1 bh2 : hasher O)
         (items1 items2 : list (key O)) (s1 s2 : set_types O),
  env_ok E -> equivalence eqbO -> lawful_hash eqbO bh1 -> lawful_hash eqbO bh2 ->
  countable (prof E) (zlen items1) -> countable (prof E) (zlen items2) ->
  (forall x, In x items1 -> has_kind kd x) -> (forall x, In x items2 -> has_kind kd x) ->
  distinct (key_eqb eqbO) items1 -> distinct (key_eqb eqbO) items2 ->
  fs_new E kd items1 bh1 = Ok s1 -> fs_new E kd items2 bh2 = Ok s2 ->
  fs_eq eqbO E s1 s2 = fs_eq eqbO E s2 s1 /\
  exists b, fs_eq eqbO E s1 s2 = Ok b /\
    (b = true <-> forall x, member (key_eqb eqbO) items1 x <-> member (key_eqb eqbO) items2 x).
Proof.
  intros O eqbO E kd bh1 bh2 items1 items2 s1 s2 HE He Hl1 Hl2 Hc1 Hc2 Ht1 Ht2 Hd1 Hd2 Hs1 Hs2.
  destruct (frozen_set_lawful O eqbO E kd bh1 items1 s1 HE He Hl1 Hc1 Ht1 (fun _ => Hd1) Hs1) as (L1 & D1).
  destruct (frozen_set_lawful O eqbO E kd bh2 items2 s2 HE He Hl2 Hc2 Ht2 (fun _ => Hd2) Hs2) as (L2 & D2).
  destruct (fs_get_spec eqbO E kd bh1 items1 s1 HE He Hl1 Hc1 Ht1 (fun _ => Hd1) Hs1) as (HP1 & _).
  destruct (fs_get_spec eqbO E kd bh2 items2 s2 HE He Hl2 Hc2 Ht2 (fun _ => Hd2) Hs2) as (HP2 & _).
  pose proof (key_eqb_equiv eqbO He) as Hk. rewrite !fs_eq_set_eq. split.
  - now apply (set_eq_equivalence (key_eqb eqbO) (has_kind kd) _ _ (fs_as_set eqbO E s1)); auto.
  - destruct (set_eq_extensional (key_eqb eqbO) (has_kind kd) _ _ Hk L1 L2 (D1 Hd1) (D2 Hd2)) as (b & -> & Hb).
    exists b. split; auto. rewrite Hb. cbn [fs_as_set s_items].
    assert (Hm : forall l l' x, Permutation l l' -> member (key_eqb eqbO) l x <-> member (key_eqb eqbO) l' x).
    { intros l l' x HP. split; apply has_perm; auto. now apply Permutation_sym. }
    split; intros H x.
    + rewrite (Hm _ _ x HP1), (Hm _ _ x HP2). apply H.
    + rewrite <- (Hm _ _ x HP1), <- (Hm _ _ x HP2). apply H.
Qed.

(** Construction (C04-C06 for sets) *)
Lemma set_new_total :
  forall (O : Type) (E : env) (kd : kind) (bh : hasher O) (items : list (key O)),
  env_ok E -> zlen items < 2 ^ 31 -> (forall x, In x items -> has_kind kd x) ->
  (kd <> KindString -> exists s, fs_new E kd items bh = Ok s) /\
  (kd = KindString ->
   let h := hash_one_slice bh in
   let keys := map str_of items in
   (string_ub h keys /\ fs_new E kd items bh = UB OutOfBounds) \/
   (string_panic h keys /\ fs_new E kd items bh = Panic PIndexOutOfBounds) \/
   (~ string_ub h keys /\ ~ string_panic h keys /\ exists s, fs_new E kd items bh = Ok s)).
Proof.
  intros O E kd bh items HE Hn Ht. rewrite <- (with_unit_len items) in Hn. apply typed_with_unit in Ht. split.
  - intros Hkd. destruct kd; [|congruence|].
    + destruct (map_new_u32_total O unit E bh _ HE Hn Ht) as (m & Hm & _). apply fm_new_ok in Hm.
      destruct Hm as (s & Hs & _). eauto.
    + destruct (map_new_other_total O unit E bh _ HE Hn) as (m & Hm). apply fm_new_ok in Hm.
      destruct Hm as (s & Hs & _). eauto.
  - intros -> h keys. pose proof (map_new_string_outcome O unit E bh _ HE Hn Ht) as H. cbv zeta in H.
    assert (Hk : str_keys (with_unit items) = keys).
    { unfold str_keys, with_unit, keys. now rewrite map_map. }
    rewrite Hk in H. fold h in H. rewrite fs_new_ub, fs_new_panic in H.
    destruct H as [H|[H|(H1 & H2 & m & Hm)]]; auto. right. right. split; auto. split; auto.
    apply fm_new_ok in Hm. destruct Hm as (s & Hs & _). eauto.
Qed.

(** C37 *)
Lemma set_default_empty :
  forall (O : Type) (eqbO : O -> O -> bool) (E : env),
  let s := fs_default (O:=O) in
  fs_len s = 0 /\ fs_is_empty s = true /\ yields (keys_next (prof E)) (it_new (with_unit (fs_items s))) [] /\
  forall x, fs_contains eqbO E s x = Ok false /\ fs_get eqbO E s x = Ok None.
Proof. intros. split; [reflexivity|]. split; [reflexivity|]. split; [eapply yields_end; reflexivity|split; reflexivity]. Qed.

(** C39 *)
Lemma set_no_type_confusion :
  forall (O : Type) (eqbO : O -> O -> bool) (E : env) (kd : kind) (bh : hasher O) (items : list (key O)),
  (forall x, In x items -> has_kind kd x) ->
  fs_new E kd items bh <> UB WrongType /\
  forall s, fs_new E kd items bh = Ok s -> forall x, has_kind kd x ->
    fs_get eqbO E s x <> UB WrongType /\ fs_contains eqbO E s x <> UB WrongType.
Proof.
  intros O eqbO E kd bh items Ht. apply typed_with_unit in Ht.
  destruct (map_no_type_confusion O unit eqbO E kd bh _ Ht) as (H1 & H2). split.
  - intros H. apply H1. now apply fs_new_ub.
  - intros s Hs x Hx. apply fs_new_ok in Hs. destruct (H2 _ Hs) as (H3 & _).
    destruct (H3 x Hx) as (_ & H4 & _). rewrite fs_contains_get, fs_get_map. unfold set_contains_of, set_get_of.
    destruct (fm_get_key_value eqbO E (to_map s) x) as [[e|]| | |]; cbn [bind]; split; congruence.
Qed.
