(** Proofs about the set algebra. *)
From Coq Require Import List ZArith Bool Arith Lia Permutation.
From Verif Require Import Spec Base BaseLemmas EqbLists Iterators IterSpec IteratorProofs SetOps SetSpec.
Import ListNotations.
Open Scope Z_scope.

Section NextWhere.
Context {T : Type}.
Variable test : T -> res bool.
Variable f : T -> bool.

Lemma next_where_spec (it : list T) : (forall x, In x it -> test x = Ok (f x)) ->
  match filter f it with
  | [] => next_where test it = Ok (None, [])
  | a :: l => exists it', next_where test it = Ok (Some a, it') /\ filter f it' = l /\ incl it' it
  end.
Proof.
  induction it as [|x it IH]; intros H; cbn [next_where filter]; [reflexivity|].
  rewrite H by now left. cbn [bind]. destruct (f x).
  - exists it. split; [reflexivity|]. split; auto. intros y; now right.
  - specialize (IH ltac:(intros; apply H; now right)).
    destruct (filter f it) as [|a l]; auto. destruct IH as (it' & H1 & H2 & H3).
    exists it'. split; auto. split; auto. intros y Hy. right. auto.
Qed.
End NextWhere.

(** ** The operations on two sets whose [contains] answers [c1] and [c2], lawful or not *)
Section Answers.
Context {T : Type}.
(** [next] started at [st] delivers the items [L]: at any point the rest of [L] is to come. *)
Definition delivers {St} (next : St -> res (option T * St)) (st : St) (L : list T) : Prop :=
  yields next st L /\
  forall n, exists st', calls next n st = Ok (results n L, st') /\ yields next st' (skipn n L).

Lemma R_delivers {St} next (R : St -> list T -> Prop) st L :
  (forall s, R s [] -> exists s', next s = Ok (None, s') /\ R s' []) ->
  (forall s a l, R s (a :: l) -> exists s', next s = Ok (Some a, s') /\ R s' l) ->
  R st L -> delivers next st L.
Proof.
  intros Hn Hc H. split; [eapply R_yields; eauto|]. intros n.
  destruct (R_calls next R Hn Hc n st L H) as (s' & H1 & H2). exists s'. split; auto.
  eapply R_yields; eauto.
Qed.

Lemma all_res_forallb (f : T -> res bool) (g : T -> bool) l :
  (forall x, In x l -> f x = Ok (g x)) -> all_res f l = Ok (forallb g l).
Proof.
  induction l as [|a l IH]; intros H; cbn [all_res forallb]; auto.
  rewrite H by now left. cbn [bind]. destruct (g a); cbn; auto. apply IH. intros; apply H; now right.
Qed.

Variables s1 s2 : set_impl T.
Notation i1 := (s_items s1).
Notation i2 := (s_items s2).
Variables c1 c2 : T -> bool.
Hypothesis A1 : forall x, In x i2 -> s_contains s1 x = Ok (c1 x).
Hypothesis A2 : forall x, In x i1 -> s_contains s2 x = Ok (c2 x).

Lemma not_in1 x : In x i2 -> not_in s1 x = Ok (negb (c1 x)).
Proof. intros H. unfold not_in. now rewrite A1. Qed.
Lemma not_in2 x : In x i1 -> not_in s2 x = Ok (negb (c2 x)).
Proof. intros H. unfold not_in. now rewrite A2. Qed.

Definition union_rest (st : list T * list T) (l : list T) : Prop :=
  incl (fst st) i1 /\ incl (snd st) i2 /\
  l = if s_len s2 <? s_len s1 then fst st ++ filter (fun x => negb (c1 x)) (snd st)
      else snd st ++ filter (fun x => negb (c2 x)) (fst st).

Lemma union_of : delivers (union_next s1 s2) (pair_new s1 s2)
    (if s_len s2 <? s_len s1 then i1 ++ filter (fun x => negb (c1 x)) i2
     else i2 ++ filter (fun x => negb (c2 x)) i1).
Proof.
  apply R_delivers with (R := union_rest).
  - intros [a b] (Ha & Hb & Hl). cbn [fst snd] in *. unfold union_next.
    destruct (s_len s2 <? s_len s1) eqn:El.
    + destruct a; [|discriminate]. cbn [app] in Hl.
      pose proof (next_where_spec (not_in s1) (fun x => negb (c1 x)) b
                    ltac:(intros; apply not_in1; auto)) as Hn.
      rewrite <- Hl in Hn. rewrite Hn. cbn [bind fst snd]. eexists. split; [reflexivity|].
      unfold union_rest. rewrite El. cbn. split; auto. split; auto. intros x [].
    + destruct b; [|discriminate]. cbn [app] in Hl.
      pose proof (next_where_spec (not_in s2) (fun x => negb (c2 x)) a
                    ltac:(intros; apply not_in2; auto)) as Hn.
      rewrite <- Hl in Hn. rewrite Hn. cbn [bind fst snd]. eexists. split; [reflexivity|].
      unfold union_rest. rewrite El. cbn. split; [intros x []|]. split; auto.
  - intros [a b] c l (Ha & Hb & Hl). cbn [fst snd] in *. unfold union_next.
    destruct (s_len s2 <? s_len s1) eqn:El.
    + destruct a as [|x a].
      * cbn [app] in Hl.
        pose proof (next_where_spec (not_in s1) (fun x => negb (c1 x)) b
                      ltac:(intros; apply not_in1; auto)) as Hn.
        rewrite <- Hl in Hn. destruct Hn as (b' & Hn & Hf & Hi). rewrite Hn. cbn [bind fst snd].
        eexists. split; [reflexivity|]. unfold union_rest. rewrite El. cbn [fst snd app].
        split; auto. split; [|auto]. eapply incl_tran; eauto.
      * cbn [app] in Hl. injection Hl as -> ->. eexists. split; [reflexivity|].
        unfold union_rest. rewrite El. cbn [fst snd]. split; auto. intros y Hy. apply Ha. now right.
    + destruct b as [|x b].
      * cbn [app] in Hl.
        pose proof (next_where_spec (not_in s2) (fun x => negb (c2 x)) a
                      ltac:(intros; apply not_in2; auto)) as Hn.
        rewrite <- Hl in Hn. destruct Hn as (a' & Hn & Hf & Hi). rewrite Hn. cbn [bind fst snd].
        eexists. split; [reflexivity|]. unfold union_rest. rewrite El. cbn [fst snd app].
        split; [|auto]. eapply incl_tran; eauto.
      * cbn [app] in Hl. injection Hl as -> ->. eexists. split; [reflexivity|].
        unfold union_rest. rewrite El. cbn [fst snd]. split; auto. split; auto.
        intros y Hy. apply Hb. now right.
  - unfold union_rest, pair_new. cbn [fst snd]. split; [apply incl_refl|]. split; [apply incl_refl|auto].
Qed.
Lemma symmetric_difference_of :
  delivers (symmetric_difference_next s1 s2) (pair_new s1 s2)
    (filter (fun x => negb (c2 x)) i1 ++ filter (fun x => negb (c1 x)) i2).
Proof.
  apply R_delivers with (R := fun st l => incl (fst st) i1 /\ incl (snd st) i2 /\
    l = filter (fun x => negb (c2 x)) (fst st) ++ filter (fun x => negb (c1 x)) (snd st)).
  - intros [a b] (Ha & Hb & Hl). cbn [fst snd] in *. unfold symmetric_difference_next.
    pose proof (next_where_spec (not_in s2) (fun x => negb (c2 x)) a
                  ltac:(intros; apply not_in2; auto)) as H1.
    pose proof (next_where_spec (not_in s1) (fun x => negb (c1 x)) b
                  ltac:(intros; apply not_in1; auto)) as H2.
    symmetry in Hl. apply app_eq_nil in Hl. destruct Hl as (Hl1 & Hl2). rewrite Hl1 in H1. rewrite Hl2 in H2.
    rewrite H1. cbn [bind fst snd]. rewrite H2. cbn [bind fst snd].
    eexists. split; [reflexivity|]. cbn. split; [intros x []|]. split; [intros x []|auto].
  - intros [a b] c l (Ha & Hb & Hl). cbn [fst snd] in *. unfold symmetric_difference_next.
    pose proof (next_where_spec (not_in s2) (fun x => negb (c2 x)) a
                  ltac:(intros; apply not_in2; auto)) as H1.
    pose proof (next_where_spec (not_in s1) (fun x => negb (c1 x)) b
                  ltac:(intros; apply not_in1; auto)) as H2.
    destruct (filter (fun x => negb (c2 x)) a) as [|y ys].
    + rewrite H1. cbn [bind fst snd]. cbn [app] in Hl. rewrite <- Hl in H2.
      destruct H2 as (b' & H2 & Hf & Hi). rewrite H2. cbn [bind fst snd].
      eexists. split; [reflexivity|]. cbn [fst snd filter app]. split; [intros x []|]. split; [|auto].
      eapply incl_tran; eauto.
    + cbn [app] in Hl. injection Hl as -> ->. destruct H1 as (a' & H1 & Hf & Hi). rewrite H1.
      cbn [bind fst snd]. eexists. split; [reflexivity|]. cbn [fst snd]. rewrite Hf.
      split; [eapply incl_tran; eauto|]. split; auto.
  - unfold pair_new. cbn [fst snd]. split; [apply incl_refl|]. split; [apply incl_refl|auto].
Qed.
Lemma difference_of : delivers (difference_next s1 s2) (difference_new s1 s2)
    (filter (fun x => negb (c2 x)) i1).
Proof.
  apply R_delivers with (R := fun st l => incl st i1 /\ l = filter (fun x => negb (c2 x)) st).
  - intros a (Ha & Hl). unfold difference_next.
    pose proof (next_where_spec (not_in s2) (fun x => negb (c2 x)) a
                  ltac:(intros; apply not_in2; auto)) as H1.
    rewrite <- Hl in H1. exists []. split; auto. split; [intros x []|auto].
  - intros a c l (Ha & Hl). unfold difference_next.
    pose proof (next_where_spec (not_in s2) (fun x => negb (c2 x)) a
                  ltac:(intros; apply not_in2; auto)) as H1.
    rewrite <- Hl in H1. destruct H1 as (a' & H1 & Hf & Hi). exists a'. split; auto. split; auto.
    eapply incl_tran; eauto.
  - split; [apply incl_refl|reflexivity].
Qed.
Lemma intersection_of : delivers (intersection_next s1 s2) (pair_new s1 s2)
    (if s_len s1 <? s_len s2 then filter c2 i1 else filter c1 i2).
Proof.
  apply R_delivers with (R := fun st l => incl (fst st) i1 /\ incl (snd st) i2 /\
    l = if s_len s1 <? s_len s2 then filter c2 (fst st) else filter c1 (snd st)).
  - intros [a b] (Ha & Hb & Hl). cbn [fst snd] in *. unfold intersection_next.
    destruct (s_len s1 <? s_len s2).
    + pose proof (next_where_spec (s_contains s2) c2 a
                  ltac:(intros; apply A2; auto)) as H1.
      rewrite <- Hl in H1. rewrite H1. cbn [bind fst snd]. eexists. split; [reflexivity|]. cbn.
      split; [intros x []|auto].
    + pose proof (next_where_spec (s_contains s1) c1 b
                  ltac:(intros; apply A1; auto)) as H1.
      rewrite <- Hl in H1. rewrite H1. cbn [bind fst snd]. eexists. split; [reflexivity|]. cbn.
      split; auto. split; [intros x []|auto].
  - intros [a b] c l (Ha & Hb & Hl). cbn [fst snd] in *. unfold intersection_next.
    destruct (s_len s1 <? s_len s2).
    + pose proof (next_where_spec (s_contains s2) c2 a
                  ltac:(intros; apply A2; auto)) as H1.
      rewrite <- Hl in H1. destruct H1 as (a' & H1 & Hf & Hi). rewrite H1. cbn [bind fst snd].
      eexists. split; [reflexivity|]. cbn [fst snd]. split; [eapply incl_tran; eauto|auto].
    + pose proof (next_where_spec (s_contains s1) c1 b
                  ltac:(intros; apply A1; auto)) as H1.
      rewrite <- Hl in H1. destruct H1 as (a' & H1 & Hf & Hi). rewrite H1. cbn [bind fst snd].
      eexists. split; [reflexivity|]. cbn [fst snd]. split; auto. split; [eapply incl_tran; eauto|auto].
  - unfold pair_new. cbn [fst snd]. split; [apply incl_refl|]. split; [apply incl_refl|auto].
Qed.
End Answers.

Section Algebra.
Context {T : Type}.
Variable eqb : T -> T -> bool.
Hypothesis Heq : equivalence eqb.
Variable D : T -> Prop.
Implicit Types (l : list T) (x y : T).
Definition inb l x : bool := existsb (eqb x) l.

Lemma existsb_member l x : inb l x = true <-> member eqb l x.
Proof. unfold inb. rewrite existsb_exists. unfold member. firstorder. Qed.
Lemma existsb_not_member l x : inb l x = false <-> ~ member eqb l x.
Proof. rewrite <- existsb_member. destruct (inb l x); intuition congruence. Qed.

Lemma lawful_contains (s : set_impl T) x : lawful_set eqb D s -> D x -> s_contains s x = Ok (inb (s_items s) x).
Proof.
  intros Hs Hx. destruct (ls_contains _ _ _ Hs x Hx) as (b & -> & Hb). f_equal.
  apply eq_true_iff_eq. now rewrite Hb, existsb_member.
Qed.
Lemma lawful_not_in (s : set_impl T) x : lawful_set eqb D s -> D x -> not_in s x = Ok (negb (inb (s_items s) x)).
Proof. intros Hs Hx. unfold not_in. now rewrite lawful_contains. Qed.

Lemma member_app l l' x : member eqb (l ++ l') x <-> member eqb l x \/ member eqb l' x.
Proof.
  unfold member. split.
  - intros (y & Hy & He). apply in_app_or in Hy. destruct Hy; eauto.
  - intros [(y & Hy & He)|(y & Hy & He)]; exists y; rewrite in_app_iff; auto.
Qed.

(** Tests that respect equality commute with membership. *)
Lemma member_filter (f : T -> bool) l x :
  (forall a b, eqb a b = true -> f a = f b) ->
  (member eqb (filter f l) x <-> member eqb l x /\ f x = true).
Proof.
  intros Hf. unfold member. split.
  - intros (y & Hy & He). apply filter_In in Hy. destruct Hy. rewrite (Hf x y He). eauto.
  - intros ((y & Hy & He) & Hx). exists y. rewrite filter_In, <- (Hf x y He). auto.
Qed.
Lemma inb_compat l a b : eqb a b = true -> inb l a = inb l b.
Proof.
  intros H. apply eq_true_iff_eq. rewrite !existsb_member. split; intros (y & Hy & He); exists y; split; auto.
  - rewrite <- He. symmetry. now apply eqb_left.
  - rewrite <- He. now apply eqb_left.
Qed.
Lemma ninb_compat l a b : eqb a b = true -> negb (inb l a) = negb (inb l b).
Proof. intros H. f_equal. now apply inb_compat. Qed.

Lemma distinct_filter (f : T -> bool) l : distinct eqb l -> distinct eqb (filter f l).
Proof.
  induction l as [|a l IH]; cbn; auto. intros (H1 & H2). destruct (f a); cbn; auto.
  split; auto. intros k' Hk. apply filter_In in Hk. now apply H1.
Qed.

Lemma filter_length_le {A} (f : A -> bool) (l : list A) : (length (filter f l) <= length l)%nat.
Proof. induction l; cbn; auto. destruct (f a); cbn; lia. Qed.

Section Two.
Variables s1 s2 : set_impl T.
Hypothesis L1 : lawful_set eqb D s1.
Hypothesis L2 : lawful_set eqb D s2.
Notation i1 := (s_items s1).
Notation i2 := (s_items s2).

Lemma answer1 x : In x i2 -> s_contains s1 x = Ok (inb i1 x).
Proof. intros H. apply lawful_contains; auto. now apply (ls_typed _ _ _ L2). Qed.
Lemma answer2 x : In x i1 -> s_contains s2 x = Ok (inb i2 x).
Proof. intros H. apply lawful_contains; auto. now apply (ls_typed _ _ _ L1). Qed.

(** *** Union *)

Definition union_list : list T :=
  if s_len s2 <? s_len s1 then i1 ++ filter (fun x => negb (inb i1 x)) i2
  else i2 ++ filter (fun x => negb (inb i2 x)) i1.

Lemma union_delivers : delivers (union_next s1 s2) (pair_new s1 s2) union_list.
Proof. exact (union_of s1 s2 (inb i1) (inb i2) answer1 answer2). Qed.

Lemma union_member x : member eqb union_list x <-> member eqb i1 x \/ member eqb i2 x.
Proof.
  unfold union_list. destruct (_ <? _); rewrite member_app, member_filter by apply ninb_compat;
    rewrite negb_true_iff, existsb_not_member.
  - destruct (has_dec eqb i1 x); tauto.
  - destruct (has_dec eqb i2 x); tauto.
Qed.
Lemma union_in x : In x union_list -> In x i1 \/ In x i2.
Proof.
  unfold union_list. destruct (_ <? _); intros H; apply in_app_or in H; rewrite filter_In in H; tauto.
Qed.
Lemma union_distinct : distinct eqb i1 -> distinct eqb i2 -> distinct eqb union_list.
Proof.
  intros H1 H2. unfold union_list. destruct (_ <? _); apply distinct_app; auto.
  - split; auto. split; [now apply distinct_filter|]. intros x y Hx Hy. apply filter_In in Hy.
    destruct Hy as (_ & Hy). rewrite negb_true_iff, existsb_not_member in Hy.
    destruct (eqb x y) eqn:E; auto. exfalso. apply Hy. exists x. split; auto. now apply (eq_sym_ok _ Heq).
  - split; auto. split; [now apply distinct_filter|]. intros x y Hx Hy. apply filter_In in Hy.
    destruct Hy as (_ & Hy). rewrite negb_true_iff, existsb_not_member in Hy.
    destruct (eqb x y) eqn:E; auto. exfalso. apply Hy. exists x. split; auto. now apply (eq_sym_ok _ Heq).
Qed.
Lemma union_length :
  s_len s1 <= zlen union_list <= s_len s1 + s_len s2.
Proof.
  rewrite (ls_len _ _ _ L1), (ls_len _ _ _ L2). unfold union_list.
  rewrite (ls_len _ _ _ L1), (ls_len _ _ _ L2).
  destruct (Z.ltb_spec (zlen i2) (zlen i1)); rewrite zlen_app; unfold zlen in *.
  - pose proof (filter_length_le (fun x => negb (inb i1 x)) i2). lia.
  - pose proof (filter_length_le (fun x => negb (inb i2 x)) i1). lia.
Qed.

(** *** Symmetric difference *)

Definition symmetric_list : list T :=
  filter (fun x => negb (inb i2 x)) i1 ++ filter (fun x => negb (inb i1 x)) i2.

Lemma symmetric_delivers : delivers (symmetric_difference_next s1 s2) (pair_new s1 s2) symmetric_list.
Proof. exact (symmetric_difference_of s1 s2 (inb i1) (inb i2) answer1 answer2). Qed.
Lemma symmetric_member x : member eqb symmetric_list x <->
  (member eqb i1 x /\ ~ member eqb i2 x) \/ (member eqb i2 x /\ ~ member eqb i1 x).
Proof.
  unfold symmetric_list. rewrite member_app, !member_filter by apply ninb_compat.
  rewrite !negb_true_iff, !existsb_not_member. tauto.
Qed.
Lemma symmetric_in x : In x symmetric_list -> In x i1 \/ In x i2.
Proof. unfold symmetric_list. rewrite in_app_iff, !filter_In. tauto. Qed.
Lemma symmetric_distinct : distinct eqb i1 -> distinct eqb i2 -> distinct eqb symmetric_list.
Proof.
  intros H1 H2. unfold symmetric_list. apply distinct_app; auto.
  split; [now apply distinct_filter|]. split; [now apply distinct_filter|].
  intros x y Hx Hy. apply filter_In in Hx, Hy. destruct Hx as (Hx & _), Hy as (_ & Hy).
  rewrite negb_true_iff, existsb_not_member in Hy.
  destruct (eqb x y) eqn:E; auto. exfalso. apply Hy. exists x. split; auto. now apply (eq_sym_ok _ Heq).
Qed.
Lemma symmetric_length : zlen symmetric_list <= s_len s1 + s_len s2.
Proof.
  rewrite (ls_len _ _ _ L1), (ls_len _ _ _ L2). unfold symmetric_list. rewrite zlen_app. unfold zlen.
  pose proof (filter_length_le (fun x => negb (inb i1 x)) i2).
  pose proof (filter_length_le (fun x => negb (inb i2 x)) i1). lia.
Qed.

(** *** Difference *)

Definition difference_list : list T := filter (fun x => negb (inb i2 x)) i1.
Lemma difference_delivers : delivers (difference_next s1 s2) (difference_new s1 s2) difference_list.
Proof. exact (difference_of s1 s2 (inb i2) answer2). Qed.
Lemma difference_member x : member eqb difference_list x <-> member eqb i1 x /\ ~ member eqb i2 x.
Proof.
  unfold difference_list. rewrite !member_filter by apply ninb_compat.
  now rewrite !negb_true_iff, !existsb_not_member.
Qed.
Lemma difference_in x : In x difference_list -> In x i1.
Proof. unfold difference_list. rewrite filter_In. tauto. Qed.
Lemma difference_distinct : distinct eqb i1 -> distinct eqb difference_list.
Proof. apply distinct_filter. Qed.
Lemma difference_length : zlen difference_list <= s_len s1.
Proof.
  rewrite (ls_len _ _ _ L1). unfold difference_list, zlen.
  pose proof (filter_length_le (fun x => negb (inb i2 x)) i1). lia.
Qed.

(** *** Intersection *)

Definition intersection_list : list T :=
  if s_len s1 <? s_len s2 then filter (inb i2) i1 else filter (inb i1) i2.
Lemma intersection_delivers : delivers (intersection_next s1 s2) (pair_new s1 s2) intersection_list.
Proof. exact (intersection_of s1 s2 (inb i1) (inb i2) answer1 answer2). Qed.
Lemma intersection_member x : member eqb intersection_list x <-> member eqb i1 x /\ member eqb i2 x.
Proof.
  unfold intersection_list. destruct (_ <? _); rewrite !member_filter by apply inb_compat;
    rewrite existsb_member; tauto.
Qed.
Lemma intersection_in x : In x intersection_list -> In x i1 \/ In x i2.
Proof. unfold intersection_list. destruct (_ <? _); rewrite filter_In; tauto. Qed.
Lemma intersection_distinct : distinct eqb i1 -> distinct eqb i2 -> distinct eqb intersection_list.
Proof. intros. unfold intersection_list. destruct (_ <? _); now apply distinct_filter. Qed.
Lemma intersection_length : zlen intersection_list <= Z.max (s_len s1) (s_len s2).
Proof.
  rewrite (ls_len _ _ _ L1), (ls_len _ _ _ L2). unfold intersection_list, zlen.
  destruct (_ <? _).
  - pose proof (filter_length_le (inb i2) i1). lia.
  - pose proof (filter_length_le (inb i1) i2). lia.
Qed.

(** *** Relations *)

Lemma is_subset_ok : distinct eqb i1 ->
  exists b, is_subset s1 s2 = Ok b /\ (b = true <-> forall x, member eqb i1 x -> member eqb i2 x).
Proof.
  intros Hd. unfold is_subset. rewrite (ls_len _ _ _ L1), (ls_len _ _ _ L2).
  assert (Hall : all_res (s_contains s2) i1 = Ok (forallb (inb i2) i1)).
  { apply all_res_forallb. intros x Hx. apply lawful_contains; auto. apply (ls_typed _ _ _ L1), Hx. }
  assert (Hiff : forallb (inb i2) i1 = true <-> forall x, member eqb i1 x -> member eqb i2 x).
  { rewrite forallb_forall. split.
    - intros H x (y & Hy & He). apply H in Hy. apply existsb_member in Hy. eapply has_eqb; eauto.
    - intros H x Hx. apply existsb_member, H. exists x. split; auto. now apply eqb_refl. }
  destruct (Z.leb_spec (zlen i1) (zlen i2)).
  - rewrite Hall. eauto.
  - exists false. split; auto. split; [discriminate|]. intros Hsub. exfalso.
    destruct (pigeonhole eqb Heq i1 i2 Hd) as (Hlen & _).
    { intros x Hx. apply Hsub. exists x. split; auto. now apply eqb_refl. }
    unfold zlen in *. lia.
Qed.

Lemma is_disjoint_ok :
  exists b, is_disjoint s1 s2 = Ok b /\
    (b = true <-> forall x, ~ (member eqb i1 x /\ member eqb i2 x)).
Proof.
  unfold is_disjoint. rewrite Z.leb_refl.
  rewrite (all_res_forallb _ (fun x => negb (inb i2 x))).
  2:{ intros x Hx. apply lawful_not_in; auto. apply (ls_typed _ _ _ L1), Hx. }
  eexists. split; [reflexivity|]. rewrite forallb_forall. split.
  - intros H x ((y & Hy & He) & Hx2). apply H in Hy. rewrite negb_true_iff, existsb_not_member in Hy.
    apply Hy. eapply has_eqb; eauto. now apply (eq_sym_ok _ Heq).
  - intros H x Hx. rewrite negb_true_iff, existsb_not_member. intros Hm. apply (H x). split; auto.
    exists x. split; auto. now apply eqb_refl.
Qed.

Lemma set_eq_ok : distinct eqb i1 -> distinct eqb i2 ->
  exists b, set_eq s1 s2 = Ok b /\ (b = true <-> forall x, member eqb i1 x <-> member eqb i2 x).
Proof.
  intros Hd1 Hd2. unfold set_eq. rewrite (ls_len _ _ _ L1), (ls_len _ _ _ L2).
  assert (Hall : all_res (s_contains s2) i1 = Ok (forallb (inb i2) i1)).
  { apply all_res_forallb. intros x Hx. apply lawful_contains; auto. apply (ls_typed _ _ _ L1), Hx. }
  assert (Hr : forall l x, In x l -> member eqb l x).
  { intros l x Hx. exists x. split; auto. now apply eqb_refl. }
  destruct (Z.eqb_spec (zlen i1) (zlen i2)) as [El|El]; cbn [negb].
  - rewrite Hall. eexists. split; [reflexivity|]. rewrite forallb_forall. split.
    + intros H.
      assert (Hc : covers eqb i2 i1) by (intros x Hx; apply existsb_member; auto).
      destruct (pigeonhole eqb Heq i1 i2 Hd1 Hc) as (_ & Hc').
      specialize (Hc' ltac:(unfold zlen in *; lia)).
      intros x. split; intros (y & Hy & He); eapply has_eqb; eauto.
    + intros H x Hx. apply existsb_member, H. auto.
  - exists false. split; auto. split; [discriminate|]. intros H. exfalso. apply El.
    destruct (pigeonhole eqb Heq i1 i2 Hd1) as (H1 & _). { intros x Hx. apply H. auto. }
    destruct (pigeonhole eqb Heq i2 i1 Hd2) as (H2 & _). { intros x Hx. apply H. auto. }
    unfold zlen. lia.
Qed.
End Two.

(** *** Collecting into a HashSet *)

Lemma hash_set_lawful l : lawful_set eqb (fun _ => True) (hash_set_of eqb l).
Proof.
  constructor; cbn; auto. intros x _. exists (existsb (eqb x) l). split; auto. apply existsb_member.
Qed.

Lemma collect_yields {St} (next : St -> res (option T * St)) st L :
  yields next st L -> forall fuel acc, (length L < fuel)%nat ->
  collect eqb next fuel acc st = Ok (fold_left (hs_insert eqb) L acc).
Proof.
  induction 1 as [s s' Hn|s a s' l Hn Hy IH]; intros fuel acc Hf; destruct fuel as [|fuel];
    cbn [length] in Hf; try lia; cbn [collect fold_left]; rewrite Hn; cbn [bind fst snd]; auto.
  apply IH. lia.
Qed.

Lemma hs_insert_member acc a x : member eqb (hs_insert eqb acc a) x <-> member eqb acc x \/ eqb x a = true.
Proof.
  unfold hs_insert. destruct (existsb (eqb a) acc) eqn:E.
  - apply existsb_member in E. split; auto. intros [H|H]; auto. eapply has_eqb; eauto.
  - rewrite member_app. unfold member. cbn [In]. split.
    + intros [H|(y & [<-|[]] & H)]; auto.
    + intros [H|H]; auto. right. exists a. auto.
Qed.
Lemma hs_insert_distinct acc a : distinct eqb acc -> distinct eqb (hs_insert eqb acc a).
Proof.
  intros H. unfold hs_insert. destruct (existsb (eqb a) acc) eqn:E; auto.
  apply distinct_app; auto. split; auto. split; [cbn; tauto|]. intros x y Hx [<-|[]].
  destruct (eqb x a) eqn:Ex; auto. exfalso. apply existsb_not_member in E. apply E.
  exists x. split; auto. now apply (eq_sym_ok _ Heq).
Qed.
Lemma hs_collect_spec L : forall acc, distinct eqb acc ->
  distinct eqb (fold_left (hs_insert eqb) L acc) /\
  (forall x, member eqb (fold_left (hs_insert eqb) L acc) x <-> member eqb acc x \/ member eqb L x).
Proof.
  induction L as [|a L IH]; intros acc H; cbn [fold_left].
  - split; auto. intros x. unfold member at 3. cbn. firstorder.
  - destruct (IH (hs_insert eqb acc a) (hs_insert_distinct acc a H)) as (H1 & H2). split; auto.
    intros x. rewrite H2, hs_insert_member. unfold member at 4. cbn [In].
    split.
    + intros [[Ha|Ha]|(y & Hy & He)]; [auto| |]; right; eauto.
    + intros [Ha|(y & [<-|Hy] & He)]; auto. right. exists y. auto.
Qed.

(** The collected set holds exactly the delivered items. *)
Lemma collect_ok {St} (next : St -> res (option T * St)) st L fuel :
  delivers next st L -> (length L < fuel)%nat ->
  exists s, (l <- collect eqb next fuel [] st ;; Ok (hash_set_of eqb l)) = Ok s /\
    lawful_set eqb (fun _ => True) s /\ distinct eqb (s_items s) /\
    (forall x, member eqb (s_items s) x <-> member eqb L x).
Proof.
  intros (Hy & _) Hf. rewrite (collect_yields next st L Hy fuel [] Hf). cbn [bind].
  eexists. split; [reflexivity|]. split; [apply hash_set_lawful|].
  destruct (hs_collect_spec L []) as (H1 & H2); [exact I|]. cbn [s_items hash_set_of]. split; auto.
  intros x. rewrite H2. unfold member at 1. cbn. firstorder.
Qed.

(** Remaining items and a size hint. *)
Lemma skipn_within (L : list T) n hi :
  zlen L <= hi -> 0 <= zlen (skipn n L) <= hi.
Proof. unfold zlen. rewrite skipn_length. lia. Qed.
End Algebra.
