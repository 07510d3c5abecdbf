(** The set operations when [contains] may answer differently each time, and panic. *)
From Coq Require Import List ZArith Bool Arith Lia Permutation.
From Verif Require Import Spec MapSpec Base BaseLemmas FrozenMap Iterators IterSpec SetRunning RunSpec SetRunningProofs
  CallSpec Volatile VolatileProofs VolatileSets VolatileSetSpec.
Import ListNotations.
Open Scope Z_scope.

(** ** What several calls of [next] give *)

Section Sifts.
Context {T : Type}.
Implicit Types (lead : list T) (qs : list (question T)) (log new : notes T) (os : list (res (option T))).

Lemma sifts_nothing lead qs wanted : sifts lead qs wanted [] [].
Proof.
  unfold sifts. cbn [length firstn flat_map map app repeat Nat.sub]. split; auto.
  split; [exists qs; reflexivity|]. split; [lia|auto].
Qed.

Lemma sifts_lead a lead qs wanted os log :
  sifts lead qs wanted os log -> sifts (a :: lead) qs wanted (Ok (Some a) :: os) log.
Proof.
  unfold sifts. cbn [length firstn map app Nat.sub]. intros (H1 & H2 & H3 & H4).
  split; [now rewrite <- H1|]. split; auto. split; [intros; apply H3; lia|].
  intros Hl. destruct H4 as [H4|(H4 & H5)]; [lia|auto|right]. split; auto.
Qed.

Lemma sifts_hit new' n qs wanted r os log :
  flat_map (reply wanted) new' = [] -> reply wanted n = [r] ->
  sifts [] qs wanted os log ->
  sifts [] (map fst (new' ++ [n]) ++ qs) wanted (r :: os) ((new' ++ [n]) ++ log).
Proof.
  intros Hm Hn. unfold sifts. cbn [map app]. rewrite !flat_map_app, Hm. cbn [flat_map app]. rewrite Hn.
  cbn [app length firstn Nat.sub]. intros (H1 & H2 & H3 & H4).
  split; [now rewrite <- H1|]. rewrite map_app. split.
  { destruct H2 as (rest & ->). exists rest. now rewrite app_assoc. }
  split; [intros Hl; f_equal; apply H3; lia|].
  intros Hl. right. destruct H4 as [->|(H4 & log' & m & -> & Hr)]; [lia| |].
  - cbn [flat_map length] in *. split; [lia|]. exists new', n. rewrite app_nil_r. split; auto. rewrite Hn. discriminate.
  - split; [lia|]. exists ((new' ++ [n]) ++ log'), m. split; auto. now rewrite app_assoc.
Qed.

Lemma sifts_end new wanted os log :
  flat_map (reply wanted) new = [] -> sifts [] [] wanted os log ->
  sifts [] (map fst new) wanted (Ok None :: os) (new ++ log).
Proof.
  intros Hm H. destruct H as (H1 & (rest & H2) & H3 & H4).
  assert (Hlog : log = []) by (destruct log; [reflexivity|discriminate]). subst log.
  unfold sifts. cbn [map app]. rewrite app_nil_r, Hm. cbn [length firstn Nat.sub repeat app].
  cbn [map app flat_map length] in H1. rewrite firstn_nil, Nat.sub_0_r in H1. cbn [app] in H1.
  split; [now rewrite <- H1|]. split; [exists []; now rewrite app_nil_r|]. split; [auto|lia].
Qed.
End Sifts.

(** ** One call of [next] *)

(** From questions [qs] on, a call with result [r] asks [new] and leaves [qs']. *)
Definition one_call {T} (qs : list (question T)) (wanted : bool) (r : res (option T)) (new : notes T)
    (qs' : list (question T)) : Prop :=
  qs = map fst new ++ qs' /\
  (r = Ok None /\ qs' = [] /\ flat_map (reply wanted) new = [] \/
   exists new' n, new = new' ++ [n] /\ flat_map (reply wanted) new' = [] /\ reply wanted n = [r]).

Section Calls.
Context {W T S1 S2 : Type}.
Notation X := (S1 * S2 * (W * notes T))%type.
Variable next : M X (option T).
Variable wanted : bool.
Variable Q : X -> list T -> list (question T) -> Prop.
Hypothesis Q_aside : forall x lead qs f, Q x lead qs -> Q (fst x, aside f (snd x)) lead qs.
Hypothesis Q_lead : forall x a lead qs, Q x (a :: lead) qs ->
  exists x', next x = (Ok (Some a), x') /\ Q x' lead qs /\ snd (snd x') = snd (snd x).
Hypothesis Q_ask : forall x qs, Q x [] qs ->
  exists r x' new qs', next x = (r, x') /\ Q x' [] qs' /\ snd (snd x') = snd (snd x) ++ new /\
    one_call qs wanted r new qs'.

Lemma calls_sift : forall between x lead qs, Q x lead qs ->
  exists os x' log, v_calls next (map aside between) x = (os, x') /\ snd (snd x') = snd (snd x) ++ log /\
    length os = length between /\ sifts lead qs wanted os log.
Proof.
  induction between as [|f between IH]; intros x lead qs H; cbn [map v_calls].
  - exists [], x, []. split; auto. split; [now rewrite app_nil_r|]. split; auto. apply sifts_nothing.
  - pose proof (Q_aside x lead qs f H) as H'. destruct lead as [|a lead].
    + destruct (Q_ask _ _ H') as (r & x' & new & qs' & -> & HQ & Hn & Hc).
      destruct (IH x' [] qs' HQ) as (os & x'' & log & -> & Hl & Hlen & Hs).
      exists (r :: os), x'', (new ++ log). split; auto. cbn [aside snd] in Hn.
      split; [now rewrite Hl, Hn, app_assoc|]. split; [cbn; lia|].
      destruct Hc as (-> & [(-> & -> & Hf)|(new' & n & -> & Hf & Hr)]).
      * rewrite app_nil_r. now apply sifts_end.
      * now apply sifts_hit.
    + destruct (Q_lead _ _ _ _ H') as (x' & -> & HQ & Hn).
      destruct (IH x' lead qs HQ) as (os & x'' & log & -> & Hl & Hlen & Hs).
      exists (Ok (Some a) :: os), x'', log. split; auto. cbn [aside snd] in Hn.
      split; [now rewrite Hl, Hn|]. split; [cbn; lia|]. now apply sifts_lead.
Qed.
End Calls.

(** ** The loops *)

Section Loop.
Context {W T S1 S2 : Type}.
Notation X := (S1 * S2 * (W * notes T))%type.
Variable next : M X (option T).
Variable test : T -> M X bool.
Variable which : side.
Variable wanted : bool.
(** [R x l]: the iterator has [l] left. *)
Variable R : X -> list T -> Prop.
Hypothesis R_nil : forall x, R x [] -> exists x', next x = (Ok None, x') /\ R x' [] /\ snd (snd x') = snd (snd x).
Hypothesis R_cons : forall x a l, R x (a :: l) ->
  exists x', next x = (Ok (Some a), x') /\ R x' l /\ snd (snd x') = snd (snd x) /\
    exists b x'', test a x' = (match b with inl b => Ok (Bool.eqb b wanted) | inr p => Panic p end, x'') /\
      R x'' l /\ snd (snd x'') = snd (snd x') ++ [(which, a, b)].

Lemma loop_where_calls : forall l n x, (length l < n)%nat -> R x l ->
  exists r x' new l', v_loop_where next test n x = (r, x') /\ R x' l' /\ snd (snd x') = snd (snd x) ++ new /\
    one_call (ask which l) wanted r new (ask which l').
Proof.
  induction l as [|a l IH]; intros [|n] x Hn H; cbn [length] in *; try lia; cbn [v_loop_where]; unfold mbind at 1.
  - destruct (R_nil x H) as (x' & -> & H' & Hw). cbn [lift].
    exists (Ok None), x', [], []. rewrite app_nil_r. repeat (split; auto).
  - destruct (R_cons x a l H) as (x' & -> & _ & Hw & b & x'' & Ht & H' & Hw').
    unfold mbind. rewrite Ht. destruct b as [b|p]; cycle 1.
    { exists (Panic p), x'', [(which, a, inr p)], l. rewrite Hw', Hw. repeat (split; auto). right.
      exists [], (which, a, inr p). split; auto. }
    destruct (Bool.eqb b wanted) eqn:Eb.
    + cbn [lift]. exists (Ok (Some a)), x'', [(which, a, inl b)], l. rewrite Hw', Hw. repeat (split; auto). right.
      exists [], (which, a, inl b). split; auto. split; auto. unfold reply. cbn [snd fst]. now rewrite Eb.
    + destruct (IH n x'' ltac:(lia) H') as (r & x3 & new & l' & -> & HR & Hw3 & Hq & Hc).
      exists r, x3, ((which, a, inl b) :: new), l'. split; auto. split; auto.
      split; [now rewrite Hw3, Hw', Hw, <- app_assoc|].
      assert (Hr : reply wanted (which, a, inl b) = []) by (unfold reply; cbn [snd]; now rewrite Eb).
      split; [cbn [ask map fst app]; f_equal; exact Hq|].
      destruct Hc as [(-> & Hl & Hf)|(new' & m & -> & Hf & Hm)].
      * left. cbn [flat_map]. rewrite Hr. auto.
      * right. exists ((which, a, inl b) :: new'), m. cbn [flat_map]. rewrite Hr. auto.
Qed.

Lemma all_loop_checks : forall l n x, (length l < n)%nat -> R x l ->
  exists r x' log, v_all_loop next test n x = (r, x') /\ snd (snd x') = snd (snd x) ++ log /\
    checks (ask which l) wanted r log.
Proof.
  induction l as [|a l IH]; intros [|n] x Hn H; cbn [length] in *; try lia; cbn [v_all_loop]; unfold mbind at 1.
  - destruct (R_nil x H) as (x' & -> & H' & Hw). cbn [lift].
    exists (Ok true), x', []. rewrite app_nil_r. repeat (split; auto).
  - destruct (R_cons x a l H) as (x' & -> & _ & Hw & b & x'' & Ht & H' & Hw').
    unfold mbind. rewrite Ht. destruct b as [b|p]; cycle 1.
    { exists (Panic p), x'', [(which, a, inr p)]. rewrite Hw', Hw. repeat (split; auto).
      cbn [checks]. exists [], (which, a), (ask which l). auto. }
    destruct (Bool.eqb b wanted) eqn:Eb.
    + apply eqb_prop in Eb. subst b. destruct (IH n x'' ltac:(lia) H') as (r & x3 & log & -> & Hw3 & Hc).
      exists r, x3, ((which, a, inl wanted) :: log). split; auto. split; [now rewrite Hw3, Hw', Hw, <- app_assoc|].
      destruct r as [[]|p| |]; cbn [checks] in *; try contradiction.
      * now rewrite Hc.
      * destruct Hc as (before & q & after & Hq & ->). exists ((which, a) :: before), q, after.
        split; [cbn [ask map app]; f_equal; exact Hq|reflexivity].
      * destruct Hc as (before & q & after & Hq & ->). exists ((which, a) :: before), q, after.
        split; [cbn [ask map app]; f_equal; exact Hq|reflexivity].
    + cbn [lift]. exists (Ok false), x'', [(which, a, inl b)]. rewrite Hw', Hw. repeat (split; auto).
      cbn [checks]. exists [], (which, a), (ask which l). split; auto. cbn [map app]. do 3 f_equal.
      destruct b, wanted; try discriminate; reflexivity.
Qed.
End Loop.

(** ** The operations *)

Definition decides {W} (m : M W bool) : Prop := forall w, (exists p, fst (m w) = Panic p) \/ exists b, fst (m w) = Ok b.

Section Operations.
Context {W T St1 St2 : Type}.
Variable fuel : nat.
Variable s1 : vol_set W T St1.
Variable s2 : vol_set W T St2.
Variables i1 i2 : list T.
Hypothesis through1 : runs_through (vs_next s1) (vs_iter s1) i1.
Hypothesis through2 : runs_through (vs_next s2) (vs_iter s2) i2.
Hypothesis answers1 : forall x, In x i2 -> decides (vs_contains s1 x).
Hypothesis answers2 : forall x, In x i1 -> decides (vs_contains s2 x).
Hypothesis fuel1 : (length i1 < fuel)%nat.
Hypothesis fuel2 : (length i2 < fuel)%nat.
Notation X := (St1 * St2 * (W * notes T))%type.
Notation n1 := (noted First s1).
Notation n2 := (noted Second s2).

(** The items left to the two iterators. *)
Definition remain (x : X) (l1 l2 : list T) : Prop :=
  runs_through (vs_next s1) (fst (fst x)) l1 /\ runs_through (vs_next s2) (snd (fst x)) l2 /\
  (exists p1, i1 = p1 ++ l1) /\ (exists p2, i2 = p2 ++ l2).

Lemma remain_start wn : remain (v_op_new n1 n2, wn) i1 i2.
Proof. repeat (split; auto); now exists []. Qed.
Lemma remain_fuel x l1 l2 : remain x l1 l2 -> (length l1 < fuel)%nat /\ (length l2 < fuel)%nat.
Proof.
  intros (_ & _ & (p1 & H1) & (p2 & H2)). rewrite H1, app_length in fuel1. rewrite H2, app_length in fuel2. lia.
Qed.

Lemma next1_nil x l2 : remain x [] l2 ->
  exists x', v_next1 (St2 := St2) n1 x = (Ok None, x') /\ remain x' [] l2 /\ snd (snd x') = snd (snd x).
Proof.
  intros (H1 & H2 & H3 & H4). unfold v_next1. cbn [noted vs_next].
  destruct (through_nil _ _ H1) as (st & -> & H). cbn [fst snd]. eexists. split; [reflexivity|]. repeat (split; auto).
Qed.
Lemma next2_nil x l1 : remain x l1 [] ->
  exists x', v_next2 (St1 := St1) n2 x = (Ok None, x') /\ remain x' l1 [] /\ snd (snd x') = snd (snd x).
Proof.
  intros (H1 & H2 & H3 & H4). unfold v_next2. cbn [noted vs_next].
  destruct (through_nil _ _ H2) as (st & -> & H). cbn [fst snd]. eexists. split; [reflexivity|]. repeat (split; auto).
Qed.
Lemma next1_cons x a l1 l2 : remain x (a :: l1) l2 ->
  exists x', v_next1 (St2 := St2) n1 x = (Ok (Some a), x') /\ remain x' l1 l2 /\ snd (snd x') = snd (snd x) /\ In a i1.
Proof.
  intros (H1 & H2 & (p & H3) & H4). unfold v_next1. cbn [noted vs_next].
  destruct (through_cons _ _ _ _ H1) as (st & -> & H). cbn [fst snd]. eexists. split; [reflexivity|].
  split; [split; auto; split; auto; split; auto; exists (p ++ [a]); now rewrite <- app_assoc|].
  split; auto. rewrite H3. apply in_or_app. right. now left.
Qed.
Lemma next2_cons x a l1 l2 : remain x l1 (a :: l2) ->
  exists x', v_next2 (St1 := St1) n2 x = (Ok (Some a), x') /\ remain x' l1 l2 /\ snd (snd x') = snd (snd x) /\ In a i2.
Proof.
  intros (H1 & H2 & H3 & (p & H4)). unfold v_next2. cbn [noted vs_next].
  destruct (through_cons _ _ _ _ H2) as (st & -> & H). cbn [fst snd]. eexists. split; [reflexivity|].
  split; [split; auto; split; auto; split; auto; exists (p ++ [a]); now rewrite <- app_assoc|].
  split; auto. rewrite H4. apply in_or_app. right. now left.
Qed.

(** An answer and its note. *)
Lemma contains_noted {St} which (s : vol_set W T St) a (x : X) : decides (vs_contains s a) ->
  exists b x', v_within (vs_contains (noted which s) a) x =
      (match b with inl b => Ok b | inr p => Panic p end, x') /\
    fst x' = fst x /\ snd (snd x') = snd (snd x) ++ [(which, a, b)].
Proof.
  intros Ha. unfold v_within. specialize (Ha (fst (snd x))).
  assert (Hv : vs_contains (noted which s) a (snd x) =
    let (r, w) := vs_contains s a (fst (snd x)) in
    (r, (w, snd (snd x) ++ [(which, a, outcome r)]))) by reflexivity.
  rewrite Hv. clear Hv. destruct (vs_contains s a (fst (snd x))) as [r w1]. cbn [fst] in Ha. destruct Ha as [(p & ->)|(b & ->)].
  - exists (inr p). eexists. split; [reflexivity|]. auto.
  - exists (inl b). eexists. split; [reflexivity|]. auto.
Qed.

Lemma remain_same x x' l1 l2 : fst x' = fst x -> remain x l1 l2 -> remain x' l1 l2.
Proof. unfold remain. now intros ->. Qed.

Lemma eqb_want b : Bool.eqb b true = b.
Proof. now destruct b. Qed.
Lemma eqb_not b : Bool.eqb b false = negb b.
Proof. now destruct b. Qed.

(** The four kinds of test. *)
Lemma ask1 wanted a (x : X) l1 l2 : In a i2 -> remain x l1 l2 ->
  exists b x', (if wanted : bool then v_contains1 n1 a else v_not (v_contains1 n1) a) x =
      (match b with inl b => Ok (Bool.eqb b wanted) | inr p => Panic p end, x') /\
    remain x' l1 l2 /\ snd (snd x') = snd (snd x) ++ [(First, a, b)].
Proof.
  intros Ha H. destruct (contains_noted First s1 a x (answers1 a Ha)) as (b & x' & Hc & Hf & Hn).
  exists b, x'. split; [|split; [eapply remain_same; eauto|exact Hn]].
  destruct wanted; unfold v_not, mbind, v_contains1; rewrite Hc; destruct b; cbn [lift];
    rewrite ?eqb_want, ?eqb_not; reflexivity.
Qed.
Lemma ask2 wanted a (x : X) l1 l2 : In a i1 -> remain x l1 l2 ->
  exists b x', (if wanted : bool then v_contains2 n2 a else v_not (v_contains2 n2) a) x =
      (match b with inl b => Ok (Bool.eqb b wanted) | inr p => Panic p end, x') /\
    remain x' l1 l2 /\ snd (snd x') = snd (snd x) ++ [(Second, a, b)].
Proof.
  intros Ha H. destruct (contains_noted Second s2 a x (answers2 a Ha)) as (b & x' & Hc & Hf & Hn).
  exists b, x'. split; [|split; [eapply remain_same; eauto|exact Hn]].
  destruct wanted; unfold v_not, mbind, v_contains2; rewrite Hc; destruct b; cbn [lift];
    rewrite ?eqb_want, ?eqb_not; reflexivity.
Qed.

(** Running through the first operand, asking the second, and the reverse. *)
Notation test1 wanted := (if wanted : bool then v_contains1 n1 else v_not (v_contains1 n1)).
Notation test2 wanted := (if wanted : bool then v_contains2 n2 else v_not (v_contains2 n2)).

Lemma test1_cons (wanted : bool) l1 x a l : remain x l1 (a :: l) ->
  exists x', v_next2 n2 x = (Ok (Some a), x') /\ remain x' l1 l /\ snd (snd x') = snd (snd x) /\
    exists b x'', test1 wanted a x' = (match b with inl b => Ok (Bool.eqb b wanted) | inr p => Panic p end, x'') /\
      remain x'' l1 l /\ snd (snd x'') = snd (snd x') ++ [(First, a, b)].
Proof.
  intros H. destruct (next2_cons _ _ _ _ H) as (x' & -> & H' & Hn & Hi). exists x'. split; auto. split; auto. split; auto.
  destruct (ask1 wanted a x' l1 l Hi H') as (b & x'' & Ht & Hx). exists b, x''. destruct wanted; auto.
Qed.
Lemma test2_cons (wanted : bool) l2 x a l : remain x (a :: l) l2 ->
  exists x', v_next1 n1 x = (Ok (Some a), x') /\ remain x' l l2 /\ snd (snd x') = snd (snd x) /\
    exists b x'', test2 wanted a x' = (match b with inl b => Ok (Bool.eqb b wanted) | inr p => Panic p end, x'') /\
      remain x'' l l2 /\ snd (snd x'') = snd (snd x') ++ [(Second, a, b)].
Proof.
  intros H. destruct (next1_cons _ _ _ _ H) as (x' & -> & H' & Hn & Hi). exists x'. split; auto. split; auto. split; auto.
  destruct (ask2 wanted a x' l l2 Hi H') as (b & x'' & Ht & Hx). exists b, x''. destruct wanted; auto.
Qed.

Lemma loop1 wanted l1 l2 x : remain x l1 l2 ->
  exists r x' new l', v_loop_where (v_next2 n2) (test1 wanted) fuel x = (r, x') /\ remain x' l1 l' /\
    snd (snd x') = snd (snd x) ++ new /\ one_call (ask First l2) wanted r new (ask First l').
Proof.
  intros H. apply (loop_where_calls (v_next2 n2) (test1 wanted) First wanted (fun x l => remain x l1 l)); auto.
  - intros y Hy. now apply next2_nil.
  - intros y a l Hy. now apply test1_cons.
  - apply remain_fuel in H. tauto.
Qed.
Lemma loop2 wanted l1 l2 x : remain x l1 l2 ->
  exists r x' new l', v_loop_where (v_next1 n1) (test2 wanted) fuel x = (r, x') /\ remain x' l' l2 /\
    snd (snd x') = snd (snd x) ++ new /\ one_call (ask Second l1) wanted r new (ask Second l').
Proof.
  intros H. apply (loop_where_calls (v_next1 n1) (test2 wanted) Second wanted (fun x l => remain x l l2)); auto.
  - intros y Hy. now apply next1_nil.
  - intros y a l Hy. now apply test2_cons.
  - apply remain_fuel in H. tauto.
Qed.

Lemma from_calls next wanted (Q : X -> list T -> list (question T) -> Prop) lead qs :
  (forall x lead qs f, Q x lead qs -> Q (fst x, aside f (snd x)) lead qs) ->
  (forall x a lead qs, Q x (a :: lead) qs ->
     exists x', next x = (Ok (Some a), x') /\ Q x' lead qs /\ snd (snd x') = snd (snd x)) ->
  (forall x qs, Q x [] qs -> exists r x' new qs', next x = (r, x') /\ Q x' [] qs' /\
     snd (snd x') = snd (snd x) ++ new /\ one_call qs wanted r new qs') ->
  (forall wn, Q (v_op_new n1 n2, wn) lead qs) ->
  sifting next (v_op_new n1 n2) lead qs wanted.
Proof.
  intros H1 H2 H3 H0 between w.
  destruct (calls_sift next wanted Q H1 H2 H3 between _ lead qs (H0 (w, []))) as (os & x' & log & Hc & Hl & Hs).
  match goal with |- context [v_calls ?a ?b ?c] => replace (v_calls a b c) with (os, x') by (symmetry; exact Hc) end.
  cbn [snd app] in *. rewrite Hl. exact Hs.
Qed.

Lemma difference_sifts : sifting (v_difference fuel n1 n2) (v_op_new n1 n2) [] (ask Second i1) false.
Proof.
  apply (from_calls _ _ (fun x lead qs => lead = [] /\ exists l1 l2, qs = ask Second l1 /\ remain x l1 l2)).
  - intros x lead qs f H. exact H.
  - intros x a lead qs (H & _). discriminate.
  - intros x qs (_ & l1 & l2 & -> & H). destruct (loop2 false l1 l2 x H) as (r & x' & new & l' & Hl & H' & Hn & Hc).
    exists r, x', new, (ask Second l'). split; [exact Hl|]. split; [split; auto; exists l', l2; auto|]. auto.
  - intros wn. split; auto. exists i1, i2. split; auto. apply remain_start.
Qed.

Lemma intersection_sifts :
  sifting (v_intersection fuel n1 n2) (v_op_new n1 n2) [] (if vs_len s1 <? vs_len s2 then ask Second i1 else ask First i2) true.
Proof.
  unfold v_intersection. cbn [noted vs_len]. destruct (vs_len s1 <? vs_len s2).
  - apply (from_calls _ _ (fun x lead qs => lead = [] /\ exists l1 l2, qs = ask Second l1 /\ remain x l1 l2)).
    + intros x lead qs f H. exact H.
    + intros x a lead qs (H & _). discriminate.
    + intros x qs (_ & l1 & l2 & -> & H). destruct (loop2 true l1 l2 x H) as (r & x' & new & l' & Hl & H' & Hn & Hc).
      exists r, x', new, (ask Second l'). split; [exact Hl|]. split; [split; auto; exists l', l2; auto|]. auto.
    + intros wn. split; auto. exists i1, i2. split; auto. apply remain_start.
  - apply (from_calls _ _ (fun x lead qs => lead = [] /\ exists l1 l2, qs = ask First l2 /\ remain x l1 l2)).
    + intros x lead qs f H. exact H.
    + intros x a lead qs (H & _). discriminate.
    + intros x qs (_ & l1 & l2 & -> & H). destruct (loop1 true l1 l2 x H) as (r & x' & new & l' & Hl & H' & Hn & Hc).
      exists r, x', new, (ask First l'). split; [exact Hl|]. split; [split; auto; exists l1, l'; auto|]. auto.
    + intros wn. split; auto. exists i1, i2. split; auto. apply remain_start.
Qed.

Lemma union_sifts :
  if vs_len s2 <? vs_len s1 then sifting (v_union fuel n1 n2) (v_op_new n1 n2) i1 (ask First i2) false
  else sifting (v_union fuel n1 n2) (v_op_new n1 n2) i2 (ask Second i1) false.
Proof.
  unfold v_union. cbn [noted vs_len]. destruct (vs_len s2 <? vs_len s1).
  - apply (from_calls _ _ (fun x lead qs => exists l2, qs = ask First l2 /\ remain x lead l2)).
    + intros x lead qs f H. exact H.
    + intros x a lead qs (l2 & -> & H). destruct (next1_cons x a lead l2 H) as (x' & Hx & H' & Hn & _).
      exists x'. unfold mbind. rewrite Hx. split; [reflexivity|]. split; eauto.
    + intros x qs (l2 & -> & H). destruct (next1_nil x l2 H) as (x1 & Hx & H1 & Hn1).
      destruct (loop1 false [] l2 x1 H1) as (r & x' & new & l' & Hl & H' & Hn & Hc).
      exists r, x', new, (ask First l'). unfold mbind at 1. rewrite Hx. split; [exact Hl|].
      split; [exists l'; auto|]. rewrite Hn, Hn1. auto.
    + intros wn. exists i2. split; auto. apply remain_start.
  - apply (from_calls _ _ (fun x lead qs => exists l1, qs = ask Second l1 /\ remain x l1 lead)).
    + intros x lead qs f H. exact H.
    + intros x a lead qs (l1 & -> & H). destruct (next2_cons x a l1 lead H) as (x' & Hx & H' & Hn & _).
      exists x'. unfold mbind. rewrite Hx. split; [reflexivity|]. split; eauto.
    + intros x qs (l1 & -> & H). destruct (next2_nil x l1 H) as (x1 & Hx & H1 & Hn1).
      destruct (loop2 false l1 [] x1 H1) as (r & x' & new & l' & Hl & H' & Hn & Hc).
      exists r, x', new, (ask Second l'). unfold mbind at 1. rewrite Hx. split; [exact Hl|].
      split; [exists l'; auto|]. rewrite Hn, Hn1. auto.
    + intros wn. exists i1. split; auto. apply remain_start.
Qed.

Lemma symmetric_difference_sifts :
  sifting (v_symmetric_difference fuel n1 n2) (v_op_new n1 n2) [] (ask Second i1 ++ ask First i2) false.
Proof.
  apply (from_calls _ _ (fun x lead qs => lead = [] /\
    exists l1 l2, qs = ask Second l1 ++ ask First l2 /\ remain x l1 l2)).
  - intros x lead qs f H. exact H.
  - intros x a lead qs (H & _). discriminate.
  - intros x qs (_ & l1 & l2 & -> & H). destruct (loop2 false l1 l2 x H) as (r & x' & new & l' & Hl & H' & Hn & Hq & Hc).
    unfold v_symmetric_difference, mbind. rewrite Hl. destruct Hc as [(-> & El & Hf)|(new' & n & -> & Hf & Hr)].
    + assert (l' = []) by (destruct l'; [reflexivity|discriminate]). subst l'.
      destruct (loop1 false [] l2 x' H') as (r & x2 & new2 & l2' & Hl2 & H2 & Hn2 & Hq2 & Hc2).
      exists r, x2, (new ++ new2), (ask First l2'). split; [exact Hl2|].
      split; [split; auto; exists [], l2'; auto|]. split; [now rewrite Hn2, Hn, app_assoc|]. split.
      { rewrite Hq, Hq2, map_app. cbn [ask map]. now rewrite app_nil_r, <- app_assoc. }
      destruct Hc2 as [(-> & El2 & Hf2)|(new' & n & -> & Hf2 & Hr2)].
      * left. rewrite flat_map_app, Hf, Hf2. auto.
      * right. exists (new ++ new'), n. rewrite flat_map_app, Hf, Hf2, app_assoc. auto.
    + destruct r as [[a|]|p|u|]; unfold reply in Hr; destruct n as [[s t] [b|p']]; cbn [fst snd] in Hr;
        try destruct (Bool.eqb b false) eqn:Eb; try discriminate; injection Hr as <-.
      * cbn [lift]. exists (Ok (Some t)), x', (new' ++ [(s, t, inl b)]), (ask Second l' ++ ask First l2).
        split; auto. split; [split; auto; exists l', l2; auto|]. split; auto.
        split; [now rewrite Hq, <- app_assoc|]. right. exists new', (s, t, inl b). split; auto. split; auto.
        unfold reply. cbn [fst snd]. now rewrite Eb.
      * exists (Panic p'), x', (new' ++ [(s, t, inr p')]), (ask Second l' ++ ask First l2).
        split; auto. split; [split; auto; exists l', l2; auto|]. split; auto.
        split; [now rewrite Hq, <- app_assoc|]. right. exists new', (s, t, inr p'). auto.
  - intros wn. split; auto. exists i1, i2. split; auto. apply remain_start.
Qed.

Lemma all1 (wanted : bool) : checking (v_start n1 n2 (v_all_loop (v_next2 n2) (test1 wanted) fuel)) (ask First i2) wanted.
Proof.
  intros w. unfold v_start.
  destruct (all_loop_checks (v_next2 n2) (test1 wanted) First wanted (fun x l => remain x i1 l)) with (l := i2) (n := fuel)
    (x := (v_op_new n1 n2, (w, @nil (question T * (bool + panic))))) as (r & x' & log & Ha & Hl & Hc); auto.
  - intros y Hy. now apply next2_nil.
  - intros y a l Hy. now apply test1_cons.
  - apply remain_start.
  - match goal with |- context [v_all_loop ?a ?b ?c ?d] => replace (v_all_loop a b c d) with (r, x') by (symmetry; exact Ha) end.
    cbn [snd app] in *. rewrite Hl. exact Hc.
Qed.
Lemma all2 (wanted : bool) : checking (v_start n1 n2 (v_all_loop (v_next1 n1) (test2 wanted) fuel)) (ask Second i1) wanted.
Proof.
  intros w. unfold v_start.
  destruct (all_loop_checks (v_next1 n1) (test2 wanted) Second wanted (fun x l => remain x l i2)) with (l := i1) (n := fuel)
    (x := (v_op_new n1 n2, (w, @nil (question T * (bool + panic))))) as (r & x' & log & Ha & Hl & Hc); auto.
  - intros y Hy. now apply next1_nil.
  - intros y a l Hy. now apply test2_cons.
  - apply remain_start.
  - match goal with |- context [v_all_loop ?a ?b ?c ?d] => replace (v_all_loop a b c d) with (r, x') by (symmetry; exact Ha) end.
    cbn [snd app] in *. rewrite Hl. exact Hc.
Qed.
End Operations.
