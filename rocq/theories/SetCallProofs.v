(** The calls that FrozenSets and the set operations make of the caller's code. *)
From Coq Require Import List ZArith Bool Arith Lia Permutation.
From Verif Require Import VolatileSafety CallTheorems VolatileSetTheorems.
From Verif Require Import Spec MapSpec CostSpec Base BaseLemmas IntKeyAnalyzer SliceKeyAnalyzer HashTable Maps FrozenMap FrozenMapProofs
  Iterators IterSpec SetOps Sets FrozenSet FrozenSetProofs SetTheorems SetRunning RunSpec SetRunningProofs
  CallSpec CallProofs Volatile VolatileProofs VolatileSets VolatileSetSpec VolatileSetProofs SetCallSpec.
Import ListNotations.
Open Scope Z_scope.

(** ** A property of the state that [contains] preserves is preserved by the operations *)

Section Keeps.
Context {W T St1 St2 : Type}.
Variable Inv : W -> Prop.
Notation X := (St1 * St2 * W)%type.

Definition keeps {A} (m : M X A) : Prop := forall x, Inv (snd x) -> Inv (snd (snd (m x))).

Lemma keeps_lift {A} (r : res A) : keeps (lift r).
Proof. intros x H. exact H. Qed.
Lemma keeps_bind {A B} (m : M X A) (f : A -> M X B) : keeps m -> (forall a, keeps (f a)) -> keeps (mbind m f).
Proof.
  intros Hm Hf x H. unfold mbind. specialize (Hm x H). destruct (m x) as [[a|p|u|] x']; auto. now apply Hf.
Qed.
Lemma keeps_loop m (t : T -> M X bool) n : keeps m -> (forall a, keeps (t a)) -> keeps (v_loop_where m t n).
Proof.
  intros H Ht. induction n; cbn [v_loop_where]; [apply keeps_lift|]. apply keeps_bind; auto.
  intros [a|]; [|apply keeps_lift]. apply keeps_bind; auto. intros []; [apply keeps_lift|auto].
Qed.
Lemma keeps_all m (t : T -> M X bool) n : keeps m -> (forall a, keeps (t a)) -> keeps (v_all_loop m t n).
Proof.
  intros H Ht. induction n; cbn [v_all_loop]; [apply keeps_lift|]. apply keeps_bind; auto.
  intros [a|]; [|apply keeps_lift]. apply keeps_bind; auto. intros []; [auto|apply keeps_lift].
Qed.
Lemma keeps_not (t : T -> M X bool) a : keeps (t a) -> keeps (v_not t a).
Proof. intros H. apply keeps_bind; auto. intros b. apply keeps_lift. Qed.
Lemma keeps_next1 (s : vol_set W T St1) : keeps (v_next1 s).
Proof. intros x H. unfold v_next1. destruct (vs_next s _); exact H. Qed.
Lemma keeps_next2 (s : vol_set W T St2) : keeps (v_next2 s).
Proof. intros x H. unfold v_next2. destruct (vs_next s _); exact H. Qed.
Lemma keeps_calls (m : M X (option T)) : keeps m ->
  forall between, (forall f, In f between -> forall w, Inv w -> Inv (f w)) ->
  forall x, Inv (snd x) -> Inv (snd (snd (v_calls m between x))).
Proof.
  intros Hm. induction between as [|f between IH]; intros Hb x H; cbn [v_calls]; [exact H|].
  pose proof (Hm (fst x, f (snd x))) as Hx. destruct (m (fst x, f (snd x))) as [r x'].
  specialize (IH (fun g Hg => Hb g (or_intror Hg)) x' (Hx (Hb f (or_introl eq_refl) _ H))).
  destruct (v_calls m between x') as [rs x'']. exact IH.
Qed.

Variable s1 : vol_set W T St1.
Variable s2 : vol_set W T St2.
Variable fuel : nat.
Hypothesis C1 : forall a w, Inv w -> Inv (snd (vs_contains s1 a w)).
Hypothesis C2 : forall a w, Inv w -> Inv (snd (vs_contains s2 a w)).

Lemma keeps_contains1 a : keeps (v_contains1 s1 a).
Proof. intros x H. unfold v_contains1, v_within. specialize (C1 a (snd x) H). destruct (vs_contains s1 a (snd x)). exact C1. Qed.
Lemma keeps_contains2 a : keeps (v_contains2 s2 a).
Proof. intros x H. unfold v_contains2, v_within. specialize (C2 a (snd x) H). destruct (vs_contains s2 a (snd x)). exact C2. Qed.

Lemma keeps_union : keeps (v_union fuel s1 s2).
Proof.
  unfold v_union. destruct (_ <? _); (apply keeps_bind; [first [apply keeps_next1|apply keeps_next2]|]);
    intros [a|]; try apply keeps_lift;
    (apply keeps_loop; [first [apply keeps_next1|apply keeps_next2]|]); intros a; apply keeps_not;
    first [apply keeps_contains1|apply keeps_contains2].
Qed.
Lemma keeps_intersection : keeps (v_intersection fuel s1 s2).
Proof.
  unfold v_intersection. destruct (_ <? _); apply keeps_loop;
    first [apply keeps_next1|apply keeps_next2|apply keeps_contains1|apply keeps_contains2].
Qed.
Lemma keeps_difference : keeps (v_difference fuel s1 s2).
Proof. apply keeps_loop; [apply keeps_next1|]. intros a. apply keeps_not, keeps_contains2. Qed.
Lemma keeps_symmetric_difference : keeps (v_symmetric_difference fuel s1 s2).
Proof.
  apply keeps_bind; [apply keeps_difference|]. intros [a|]; [apply keeps_lift|].
  apply keeps_loop; [apply keeps_next2|]. intros a. apply keeps_not, keeps_contains1.
Qed.

Lemma keeps_start (m : M X bool) w : keeps m -> Inv w -> Inv (snd (v_start s1 s2 m w)).
Proof.
  intros Hm H. unfold v_start. specialize (Hm (v_op_new s1 s2, w) H). destruct (m _) as [r x]. exact Hm.
Qed.
Lemma keeps_answers w : Inv w ->
  Inv (snd (v_is_disjoint fuel s1 s2 w)) /\ Inv (snd (v_is_subset fuel s1 s2 w)) /\
  Inv (snd (v_is_superset fuel s1 s2 w)) /\ Inv (snd (v_set_eq fuel s1 s2 w)).
Proof.
  intros H. unfold v_is_disjoint, v_is_subset, v_is_superset, v_set_eq. rewrite Z.leb_refl.
  repeat split; apply keeps_start; auto.
  - apply keeps_all; [apply keeps_next1|]. intros a. apply keeps_not, keeps_contains2.
  - destruct (_ <=? _); [|apply keeps_lift]. apply keeps_all; [apply keeps_next1|apply keeps_contains2].
  - destruct (_ <=? _); [|apply keeps_lift]. apply keeps_all; [apply keeps_next2|apply keeps_contains1].
  - destruct (negb _); [apply keeps_lift|]. apply keeps_all; [apply keeps_next1|apply keeps_contains2].
Qed.
End Keeps.

(** ** FrozenSet *)

Lemma to_map_entries {O} (s : set_types O) : fm_iter (to_map s) = map (fun y => (y, tt)) (fs_items s).
Proof.
  rewrite fs_items_map. apply unit_entries.
Qed.

Section Sets.
Context {W O : Type}.
Variable F : conduct W O.
Variable E : env.
Variable kd : kind.
Notation R := (recording F).
Implicit Types (bh : hasher O) (s : set_types O).

(** What is known of a set that has been built. *)
Definition made bh s : Prop := fm_safe kd (to_map s) /\ hashes_with kd (zlen (fm_iter (to_map s))) bh (to_map s).

Lemma made_built payload bh w s w' : env_ok E -> (forall x, In x payload -> has_kind kd x) ->
  v_fs_new F E kd payload bh w = (Ok s, w') -> made bh s /\ Permutation payload (fs_items s) /\ fs_len s = zlen payload.
Proof.
  intros HE K B. destruct (v_fs_built F E kd payload bh w s w' HE K B) as (HP & Hl & Hs). split; auto.
  split; auto. pose proof (built_hashes_with F E kd (with_unit payload) bh w (to_map s) w'
    (typed_with_unit kd payload K) (v_fs_new_ok _ _ _ _ _ _ _ _ B)) as Hw.
  rewrite with_unit_len in Hw. rewrite to_map_entries. unfold zlen in *. rewrite map_length, <- (Permutation_length HP). exact Hw.
Qed.

Lemma contains_asked bh s x : made bh s -> has_kind kd x -> forall w l, exists r w' c,
  v_fs_contains R E s x (w, l) = (r, (w', l ++ c)) /\
  asked kd bh (fs_items s) x (outcome r) c.
Proof.
  intros (Hs & Hw) Hx w l.
  destruct (lookup_logs F E kd (to_map s) x bh Hs Hx Hw w l) as (r & w1 & c & Hf & Ha).
  rewrite to_map_entries in Ha.
  assert (Hc : v_fs_contains R E s x (w, l) =
    (o <- r ;; Ok (match o with Some i => match nth_error (fs_items s) i with Some _ => true | None => false end | None => false end),
     (w1, l ++ c))).
  { rewrite v_fs_contains_get. unfold v_fs_get, mbind. rewrite v_fs_find_map, Hf. destruct r as [[i|]| | |]; reflexivity. }
  rewrite Hc. exists (o <- r ;; Ok (match o with Some i => match nth_error (fs_items s) i with Some _ => true | None => false end | None => false end)), w1, c.
  split; [reflexivity|]. exists r. split; [exact Ha|].
  destruct (find_cases R E kd (to_map s) x (w, l) Hs Hx) as [(w2 & H)|[(w2 & H)|(i & e & w2 & H & He)]];
    rewrite Hf in H; injection H as -> _; cbn [bind outcome]; auto.
  rewrite fs_items_map, nth_error_map, He. exact I.
Qed.
End Sets.

(** ** Two sets that keep a record of the calls *)

Section Pair.
Context {W T Ev St1 St2 : Type}.
Variable s1 : vol_set (W * list Ev) T St1.
Variable s2 : vol_set (W * list Ev) T St2.
(** The items the sets may be asked for. *)
Variable D : T -> Prop.
Variables asks1 asks2 : T -> bool + panic -> list Ev -> Prop.
Hypothesis H1 : forall a, D a -> forall w l, exists r w' c,
  vs_contains s1 a (w, l) = (r, (w', l ++ c)) /\ asks1 a (outcome r) c.
Hypothesis H2 : forall a, D a -> forall w l, exists r w' c,
  vs_contains s2 a (w, l) = (r, (w', l ++ c)) /\ asks2 a (outcome r) c.
Notation n1 := (noted First s1).
Notation n2 := (noted Second s2).
Notation per := (answered asks1 asks2).

Definition tallied (wn : W * list Ev * notes T) : Prop :=
  (forall n, In n (snd wn) -> D (snd (fst n))) -> per (snd wn) (snd (fst wn)).

Lemma per_snoc log n calls c : per log calls ->
  match fst (fst n) with
  | First => asks1 (snd (fst n)) (snd n) c
  | Second => asks2 (snd (fst n)) (snd n) c
  end -> per (log ++ [n]) (calls ++ c).
Proof.
  intros (each & -> & H) Hc. exists (each ++ [c]). split.
  - rewrite concat_app. cbn [concat]. now rewrite app_nil_r.
  - apply Forall2_app; auto.
Qed.

Lemma tallied1 a wn : tallied wn -> tallied (snd (vs_contains n1 a wn)).
Proof.
  destruct wn as [[w l] log]. intros H. cbn [noted vs_contains fst snd].
  destruct (vs_contains s1 a (w, l)) as [r x] eqn:Hc. intros Hk. cbn [fst snd] in *.
  assert (Ha : D a) by (apply (Hk (First, a, outcome r)); apply in_or_app; right; now left).
  destruct (H1 a Ha w l) as (r' & w' & c & H' & Hq). rewrite Hc in H'. injection H' as <- ->.
  cbn [fst snd]. apply per_snoc; [apply H; intros n Hn; apply Hk; apply in_or_app; now left|exact Hq].
Qed.
Lemma tallied2 a wn : tallied wn -> tallied (snd (vs_contains n2 a wn)).
Proof.
  destruct wn as [[w l] log]. intros H. cbn [noted vs_contains fst snd].
  destruct (vs_contains s2 a (w, l)) as [r x] eqn:Hc. intros Hk. cbn [fst snd] in *.
  assert (Ha : D a) by (apply (Hk (Second, a, outcome r)); apply in_or_app; right; now left).
  destruct (H2 a Ha w l) as (r' & w' & c & H' & Hq). rewrite Hc in H'. injection H' as <- ->.
  cbn [fst snd]. apply per_snoc; [apply H; intros n Hn; apply Hk; apply in_or_app; now left|exact Hq].
Qed.

Lemma tallied_start w : tallied (w, [], []).
Proof. intros _. exists []. split; [reflexivity|constructor]. Qed.

Lemma kinds_of_prefix (log : notes T) qs : prefix (map fst log) qs -> (forall q, In q qs -> D (snd q)) ->
  forall n, In n log -> D (snd (fst n)).
Proof.
  intros (rest & ->) H n Hn. apply H. apply in_or_app. left. now apply in_map.
Qed.

Lemma join_sifting {S1 S2} (next : M (S1 * S2 * (W * list Ev)) (option T)) nextn st lead qs wanted :
  (forall between w log, exists log', v_calls nextn (map aside between) (st, (w, log)) =
      let (os, x) := v_calls next between (st, w) in (os, (fst x, (snd x, log')))) ->
  sifting nextn st lead qs wanted -> keeps tallied nextn -> (forall q, In q qs -> D (snd q)) ->
  sifting_with next st lead qs wanted per.
Proof.
  unfold sifting. intros Hsame Hsift Hkeep Hq between w.
  destruct (Hsame (map aside between) (w, []) []) as (log & H). specialize (Hsift (map aside between) (w, [])).
  assert (Ht : tallied (snd (snd (v_calls nextn (map aside (map aside between)) (st, (w, [], [])))))).
  { apply keeps_calls; [exact Hkeep| |apply tallied_start].
    intros f Hf wn Hwn. apply in_map_iff in Hf. destruct Hf as (g & <- & Hg). apply in_map_iff in Hg.
    destruct Hg as (h & <- & _). destruct wn as [[w0 l] log0]. exact Hwn. }
  unfold notes, question in *. rewrite H in Hsift, Ht. destruct (v_calls next (map aside between) (st, (w, []))) as [os x].
  cbn [fst snd] in *. rewrite map_length in Hsift. destruct Hsift as (Hl & Hs). split; auto.
  exists log. split; auto. apply Ht. cbn [fst snd]. destruct Hs as (_ & Hp & _). eapply kinds_of_prefix; eauto.
Qed.

Lemma checks_asked (qs : list (question T)) wanted r log : checks qs wanted r log -> prefix (map fst log) qs.
Proof.
  assert (Hm : forall l : list (question T), map fst (map (fun q => (q, inl wanted : bool + panic)) l) = l).
  { intros l. rewrite map_map. apply map_id. }
  intros H. destruct r as [[]|p|u|]; cbn [checks] in H; try contradiction.
  - exists []. subst log. now rewrite Hm, app_nil_r.
  - destruct H as (before & q & after & -> & ->). exists after. rewrite map_app, Hm, <- app_assoc. reflexivity.
  - destruct H as (before & q & after & -> & ->). exists after. rewrite map_app, Hm, <- app_assoc. reflexivity.
Qed.

Lemma join_checking (m : M (W * list Ev) bool) mn qs wanted :
  (forall w log, exists log', mn (w, log) = let (r, w') := m w in (r, (w', log'))) ->
  checking mn qs wanted -> (forall wn, tallied wn -> tallied (snd (mn wn))) -> (forall q, In q qs -> D (snd q)) ->
  checking_with m qs wanted per.
Proof.
  unfold checking. intros Hsame Hcheck Hkeep Hq w. destruct (Hsame (w, []) []) as (log & H). specialize (Hcheck (w, [])).
  pose proof (Hkeep _ (tallied_start w)) as Ht. unfold notes, question in *. rewrite H in Hcheck, Ht. destruct (m (w, [])) as [r x].
  cbn [fst snd] in *. exists log. split; auto. apply Ht. cbn [fst snd].
  eapply kinds_of_prefix; [eapply checks_asked|]; eauto.
Qed.

Variables i1 i2 : list T.
Variable fuel : nat.
Hypothesis R1 : runs_through (vs_next s1) (vs_iter s1) i1.
Hypothesis R2 : runs_through (vs_next s2) (vs_iter s2) i2.
Hypothesis A1 : forall x w, In x i2 -> (exists p, fst (vs_contains s1 x w) = Panic p) \/ exists b, fst (vs_contains s1 x w) = Ok b.
Hypothesis A2 : forall x w, In x i1 -> (exists p, fst (vs_contains s2 x w) = Panic p) \/ exists b, fst (vs_contains s2 x w) = Ok b.
Hypothesis F1 : (length i1 < fuel)%nat.
Hypothesis F2 : (length i2 < fuel)%nat.
Hypothesis D1 : forall x, In x i1 -> D x.
Hypothesis D2 : forall x, In x i2 -> D x.

Lemma joint_operations :
  let start := v_op_new s1 s2 in
  let asks2 := ask Second i1 in
  let asks1 := ask First i2 in
  (if vs_len s2 <? vs_len s1 then sifting_with (v_union fuel s1 s2) start i1 asks1 false per
   else sifting_with (v_union fuel s1 s2) start i2 asks2 false per) /\
  (if vs_len s1 <? vs_len s2 then sifting_with (v_intersection fuel s1 s2) start [] asks2 true per
   else sifting_with (v_intersection fuel s1 s2) start [] asks1 true per) /\
  sifting_with (v_difference fuel s1 s2) start [] asks2 false per /\
  sifting_with (v_symmetric_difference fuel s1 s2) start [] (asks2 ++ asks1) false per /\
  checking_with (v_is_disjoint fuel s1 s2) asks2 false per /\
  (if vs_len s1 <=? vs_len s2 then checking_with (v_is_subset fuel s1 s2) asks2 true per
   else forall w, v_is_subset fuel s1 s2 w = (Ok false, w)) /\
  (if vs_len s2 <=? vs_len s1 then checking_with (v_is_superset fuel s1 s2) asks1 true per
   else forall w, v_is_superset fuel s1 s2 w = (Ok false, w)) /\
  (if vs_len s1 =? vs_len s2 then checking_with (v_set_eq fuel s1 s2) asks2 true per
   else forall w, v_set_eq fuel s1 s2 w = (Ok false, w)).
Proof.
  intros start q2 q1.
  assert (Q1 : forall q, In q q1 -> D (snd q)).
  { intros q Hq. apply in_map_iff in Hq. destruct Hq as (x & <- & Hx). now apply D2. }
  assert (Q2 : forall q, In q q2 -> D (snd q)).
  { intros q Hq. apply in_map_iff in Hq. destruct Hq as (x & <- & Hx). now apply D1. }
  assert (Q : forall q, In q (q2 ++ q1) -> D (snd q)).
  { intros q Hq. apply in_app_or in Hq. destruct Hq; auto. }
  destruct (volatile_operations (W * list Ev) T _ _ s1 s2 i1 i2 fuel R1 R2 A1 A2 F1 F2) as (A & B & C & G0 & G & H & I & J).
  cbv zeta in *.
  pose proof (fun between w log => notes_change_nothing (W * list Ev) T _ _ s1 s2 fuel between start w log) as N.
  pose proof (keeps_union tallied n1 n2 fuel tallied1 tallied2) as KU.
  pose proof (keeps_intersection tallied n1 n2 fuel tallied1 tallied2) as KI.
  pose proof (keeps_difference tallied n1 n2 fuel tallied2) as KD.
  pose proof (keeps_symmetric_difference tallied n1 n2 fuel tallied1 tallied2) as KS.
  pose proof (keeps_answers tallied n1 n2 fuel tallied1 tallied2) as KA.
  split.
  { assert (Hsame := fun between w log => proj1 (N between w log)).
    destruct (vs_len s2 <? vs_len s1); (eapply join_sifting; [exact Hsame|exact A|exact KU|assumption]). }
  split.
  { assert (Hsame := fun between w log => proj1 (proj2 (N between w log))).
    destruct (vs_len s1 <? vs_len s2); (eapply join_sifting; [exact Hsame|exact B|exact KI|assumption]). }
  split.
  { eapply join_sifting; [exact (fun between w log => proj1 (proj2 (proj2 (N between w log))))|exact C|exact KD|assumption]. }
  split.
  { eapply join_sifting; [exact (fun between w log => proj1 (proj2 (proj2 (proj2 (N between w log)))))|exact G0|exact KS|assumption]. }
  assert (N' := fun w log => proj2 (proj2 (proj2 (proj2 (N [] w log))))). clear N. cbv zeta in N'.
  split.
  { eapply join_checking; [exact (fun w log => proj1 (N' w log))|exact G|exact (fun wn Hwn => proj1 (KA wn Hwn))|assumption]. }
  split.
  { destruct (vs_len s1 <=? vs_len s2) eqn:El.
    - eapply join_checking; [exact (fun w log => proj1 (proj2 (N' w log)))|exact H|exact (fun wn Hwn => proj1 (proj2 (KA wn Hwn)))|assumption].
    - intros w. unfold v_is_subset, v_start. rewrite El. reflexivity. }
  split.
  { destruct (vs_len s2 <=? vs_len s1) eqn:El.
    - eapply join_checking; [exact (fun w log => proj1 (proj2 (proj2 (N' w log))))|exact I|exact (fun wn Hwn => proj1 (proj2 (proj2 (KA wn Hwn))))|assumption].
    - intros w. unfold v_is_superset, v_start. rewrite El. reflexivity. }
  destruct (vs_len s1 =? vs_len s2) eqn:El.
  - eapply join_checking; [exact (fun w log => proj2 (proj2 (proj2 (N' w log))))|exact J|exact (fun wn Hwn => proj2 (proj2 (proj2 (KA wn Hwn))))|assumption].
  - intros w. unfold v_set_eq, v_start. rewrite El. reflexivity.
Qed.
End Pair.

(** ** The final statements *)

Lemma set_operation_calls :
  forall (W O : Type) (F : conduct W O) (E : env) (kd : kind) (bh1 bh2 : hasher O)
         (p1 p2 : list (key O)) (s1 s2 : set_types O) (w1 w1' w2 w2' : W) (fuel : nat),
  env_ok E -> zlen p1 < 2 ^ 64 -> zlen p2 < 2 ^ 64 ->
  (forall x, In x p1 -> has_kind kd x) -> (forall x, In x p2 -> has_kind kd x) ->
  v_fs_new F E kd p1 bh1 w1 = (Ok s1, w1') -> v_fs_new F E kd p2 bh2 w2 = (Ok s2, w2') ->
  (length p1 < fuel)%nat -> (length p2 < fuel)%nat ->
  let r1 := v_fs_running (recording F) E s1 in
  let r2 := v_fs_running (recording F) E s2 in
  let start := v_op_new r1 r2 in
  let asks2 := ask Second (fs_items s1) in
  let asks1 := ask First (fs_items s2) in
  let per := all_asked kd bh1 bh2 (fs_items s1) (fs_items s2) in
  (if zlen p2 <? zlen p1 then sifting_with (v_union fuel r1 r2) start (fs_items s1) asks1 false per
   else sifting_with (v_union fuel r1 r2) start (fs_items s2) asks2 false per) /\
  (if zlen p1 <? zlen p2 then sifting_with (v_intersection fuel r1 r2) start [] asks2 true per
   else sifting_with (v_intersection fuel r1 r2) start [] asks1 true per) /\
  sifting_with (v_difference fuel r1 r2) start [] asks2 false per /\
  sifting_with (v_symmetric_difference fuel r1 r2) start [] (asks2 ++ asks1) false per /\
  checking_with (v_is_disjoint fuel r1 r2) asks2 false per /\
  (if zlen p1 <=? zlen p2 then checking_with (v_is_subset fuel r1 r2) asks2 true per
   else forall w, v_is_subset fuel r1 r2 w = (Ok false, w)) /\
  (if zlen p2 <=? zlen p1 then checking_with (v_is_superset fuel r1 r2) asks1 true per
   else forall w, v_is_superset fuel r1 r2 w = (Ok false, w)) /\
  (if zlen p1 =? zlen p2 then checking_with (v_set_eq fuel r1 r2) asks2 true per
   else forall w, v_set_eq fuel r1 r2 w = (Ok false, w)).
Proof.
  intros W O F E kd bh1 bh2 p1 p2 s1 s2 w1 w1' w2 w2' fuel HE Z1 Z2 K1 K2 B1 B2 F1 F2 r1 r2 start asks2 asks1 per.
  destruct (made_built F E kd p1 bh1 w1 s1 w1' HE K1 B1) as (M1 & P1 & L1).
  destruct (made_built F E kd p2 bh2 w2 s2 w2' HE K2 B2) as (M2 & P2 & L2).
  assert (X1 : forall x, In x (fs_items s1) -> has_kind kd x).
  { intros x Hx. apply K1. now apply (Permutation_in _ (Permutation_sym P1)). }
  assert (X2 : forall x, In x (fs_items s2) -> has_kind kd x).
  { intros x Hx. apply K2. now apply (Permutation_in _ (Permutation_sym P2)). }
  assert (Hrun : forall s (p : list (key O)), zlen p < 2 ^ 64 -> Permutation p (fs_items s) ->
    runs_through (vs_next (v_fs_running (recording F) E s)) (vs_iter (v_fs_running (recording F) E s)) (fs_items s)).
  { intros s p Hz HP. apply library_iterators. apply zlen_perm in HP. lia. }
  assert (Hans : forall bh s x w, made kd bh s -> has_kind kd x ->
    (exists p, fst (vs_contains (v_fs_running (recording F) E s) x w) = Panic p) \/
    exists b, fst (vs_contains (v_fs_running (recording F) E s) x w) = Ok b).
  { intros bh s x w (Hs & _) Hx. cbn [v_fs_running vs_contains]. rewrite v_fs_contains_get.
    destruct (v_fs_get_cases (recording F) E kd s x w Hs Hx) as [H|(o & H & _)];
      destruct (v_fs_get (recording F) E s x w) as [q wq]; cbn [fst] in *; subst q; [left|right]; eexists; reflexivity. }
  rewrite (Permutation_length P1) in F1. rewrite (Permutation_length P2) in F2.
  rewrite <- L1, <- L2. apply (joint_operations r1 r2 (has_kind kd)); auto.
  - intros a Ha. now apply contains_asked.
  - intros a Ha. now apply contains_asked.
  - now apply (Hrun s1 p1).
  - now apply (Hrun s2 p2).
  - intros x w Hx. apply (Hans bh1); auto.
  - intros x w Hx. apply (Hans bh2); auto.
Qed.

(** ** Counting *)

Section Counting.
Context {O : Type}.
Variable kd : kind.
Variables bh1 bh2 : hasher O.
Variables i1 i2 : list (key O).

Definition width (q : question (key O)) : Z := match fst q with First => zlen i1 | Second => zlen i2 end.
Fixpoint widths (qs : list (question (key O))) : Z := match qs with [] => 0 | q :: qs' => width q + widths qs' end.

Lemma width_pos q : 0 <= width q.
Proof. unfold width. destruct (fst q); apply zlen_nonneg. Qed.
Lemma widths_pos qs : 0 <= widths qs.
Proof. induction qs as [|q qs IH]; cbn [widths]; [lia|]. pose proof (width_pos q). lia. Qed.
Lemma widths_app qs qs' : widths (qs ++ qs') = widths qs + widths qs'.
Proof. induction qs as [|q qs IH]; cbn [widths app]; [|rewrite IH]; lia. Qed.
Lemma widths_first l : widths (ask First l) = zlen l * zlen i1.
Proof. induction l as [|x l IH]; cbn [ask map widths width fst]; [reflexivity|]. fold (ask First l). rewrite IH, zlen_cons. cbn [width fst]. lia. Qed.
Lemma widths_second l : widths (ask Second l) = zlen l * zlen i2.
Proof. induction l as [|x l IH]; cbn [ask map widths width fst]; [reflexivity|]. fold (ask Second l). rewrite IH, zlen_cons. cbn [width fst]. lia. Qed.

Lemma asked_within bh items x answer c : asked kd bh items x answer c -> at_most (O := O) (zlen items) 1 c.
Proof.
  intros (r & Ha & _). apply asks_within in Ha. unfold zlen in *. rewrite map_length in Ha. exact Ha.
Qed.

Lemma per_bounds log calls qs : all_asked kd bh1 bh2 i1 i2 log calls -> prefix (map fst log) qs -> at_most (widths qs) (zlen qs) calls.
Proof.
  intros (each & -> & H) (rest & ->).
  assert (Hb : at_most (widths (map fst log)) (zlen log) (concat each)).
  { induction H as [|n c log each Hc H IH]; [split; vm_compute; discriminate|].
    cbn [map widths concat]. unfold at_most in *. rewrite comparisons_app, hashes_app, zlen_cons.
    assert (Hn : at_most (width (fst n)) 1 c).
    { unfold width. destruct (fst (fst n)); now apply asked_within in Hc. }
    destruct IH as (IH1 & IH2). destruct Hn as (Hn1 & Hn2). split; [exact (Z.add_le_mono _ _ _ _ Hn1 IH1)|lia]. }
  unfold at_most in *. rewrite widths_app. pose proof (widths_pos rest).
  assert (zlen (map fst log ++ rest) = zlen log + zlen rest) by (unfold zlen; rewrite app_length, map_length; lia).
  pose proof (zlen_nonneg rest). lia.
Qed.

Lemma sifting_counts {W S1 S2} (next : M (S1 * S2 * (W * list (event O))) (option (key O))) st lead qs wanted :
  sifting_with next st lead qs wanted (all_asked kd bh1 bh2 i1 i2) -> forall between w,
  at_most (widths qs) (zlen qs) (snd (snd (snd (v_calls next (map aside between) (st, (w, [])))))).
Proof.
  intros H between w. specialize (H between w). destruct (v_calls _ _ _) as [os x].
  destruct H as (_ & log & (_ & Hp & _) & Hper). eapply per_bounds; eauto.
Qed.
Lemma checking_counts {W} (m : M (W * list (event O)) bool) qs wanted :
  checking_with m qs wanted (all_asked kd bh1 bh2 i1 i2) -> forall w, at_most (widths qs) (zlen qs) (snd (snd (m (w, [])))).
Proof.
  intros H w. specialize (H w). destruct (m _) as [r x]. destruct H as (log & Hc & Hper).
  eapply per_bounds; eauto. eapply checks_asked; eauto.
Qed.
End Counting.

Lemma set_operation_counts :
  forall (W O : Type) (F : conduct W O) (E : env) (kd : kind) (bh1 bh2 : hasher O)
         (p1 p2 : list (key O)) (s1 s2 : set_types O) (w1 w1' w2 w2' : W) (fuel : nat),
  env_ok E -> zlen p1 < 2 ^ 64 -> zlen p2 < 2 ^ 64 ->
  (forall x, In x p1 -> has_kind kd x) -> (forall x, In x p2 -> has_kind kd x) ->
  v_fs_new F E kd p1 bh1 w1 = (Ok s1, w1') -> v_fs_new F E kd p2 bh2 w2 = (Ok s2, w2') ->
  (length p1 < fuel)%nat -> (length p2 < fuel)%nat ->
  let r1 := v_fs_running (recording F) E s1 in
  let r2 := v_fs_running (recording F) E s2 in
  let n := zlen p1 in
  let m := zlen p2 in
  (forall between w,
     let calls next := snd (snd (snd (v_calls next (map aside between) (v_op_new r1 r2, (w, []))))) in
     at_most (n * m) (Z.min n m) (calls (v_union fuel r1 r2)) /\
     at_most (n * m) (Z.min n m) (calls (v_intersection fuel r1 r2)) /\
     at_most (n * m) n (calls (v_difference fuel r1 r2)) /\
     at_most (2 * (n * m)) (n + m) (calls (v_symmetric_difference fuel r1 r2))) /\
  (forall w,
     let calls f := snd (snd (f (w, []))) in
     at_most (n * m) n (calls (v_is_disjoint fuel r1 r2)) /\
     (if n <=? m then at_most (n * m) n (calls (v_is_subset fuel r1 r2)) else calls (v_is_subset fuel r1 r2) = []) /\
     (if m <=? n then at_most (n * m) m (calls (v_is_superset fuel r1 r2)) else calls (v_is_superset fuel r1 r2) = []) /\
     (if n =? m then at_most (n * n) n (calls (v_set_eq fuel r1 r2)) else calls (v_set_eq fuel r1 r2) = [])).
Proof.
  intros W O F E kd bh1 bh2 p1 p2 s1 s2 w1 w1' w2 w2' fuel HE Z1 Z2 K1 K2 B1 B2 F1 F2 r1 r2 n m.
  destruct (made_built F E kd p1 bh1 w1 s1 w1' HE K1 B1) as (_ & P1 & _).
  destruct (made_built F E kd p2 bh2 w2 s2 w2' HE K2 B2) as (_ & P2 & _).
  destruct (set_operation_calls W O F E kd bh1 bh2 p1 p2 s1 s2 w1 w1' w2 w2' fuel)
    as (A & B & C & D & G & H & I & J); auto.
  apply zlen_perm in P1. apply zlen_perm in P2. fold n m in A, B, C, D, G, H, I, J, P1, P2. fold r1 r2 in A, B, C, D, G, H, I, J.
  pose proof (widths_first (fs_items s1) (fs_items s2) (fs_items s2)) as W1.
  pose proof (widths_second (fs_items s1) (fs_items s2) (fs_items s1)) as W2.
  assert (Y1 : zlen (ask First (fs_items s2)) = m) by (unfold ask; unfold zlen in *; rewrite map_length; lia).
  assert (Y2 : zlen (ask Second (fs_items s1)) = n) by (unfold ask; unfold zlen in *; rewrite map_length; lia).
  rewrite <- P1, <- P2 in W1, W2.
  assert (W12 : widths (fs_items s1) (fs_items s2) (ask Second (fs_items s1) ++ ask First (fs_items s2)) = 2 * (n * m)).
  { rewrite widths_app, W1, W2. lia. }
  assert (Y12 : zlen (ask Second (fs_items s1) ++ ask First (fs_items s2)) = n + m).
  { unfold zlen in *. rewrite app_length. lia. }
  replace (m * n) with (n * m) in W1 by lia.
  split.
  - intros between w calls.
    split.
    { destruct (m <? n) eqn:El; pose proof (sifting_counts _ _ _ _ _ _ _ _ _ _ A between w) as X;
        [rewrite W1, Y1 in X; replace (Z.min n m) with m by lia|rewrite W2, Y2 in X; replace (Z.min n m) with n by lia]; exact X. }
    split.
    { destruct (n <? m) eqn:El; pose proof (sifting_counts _ _ _ _ _ _ _ _ _ _ B between w) as X;
        [rewrite W2, Y2 in X; replace (Z.min n m) with n by lia|rewrite W1, Y1 in X; replace (Z.min n m) with m by lia]; exact X. }
    split.
    { pose proof (sifting_counts _ _ _ _ _ _ _ _ _ _ C between w) as X. rewrite W2, Y2 in X. exact X. }
    pose proof (sifting_counts _ _ _ _ _ _ _ _ _ _ D between w) as X. rewrite W12, Y12 in X. exact X.
  - intros w calls. unfold calls.
    split.
    { pose proof (checking_counts _ _ _ _ _ _ _ _ G w) as X. rewrite W2, Y2 in X. exact X. }
    split.
    { destruct (n <=? m); [|now rewrite H].
      pose proof (checking_counts _ _ _ _ _ _ _ _ H w) as X. rewrite W2, Y2 in X. exact X. }
    split.
    { destruct (m <=? n); [|now rewrite I].
      pose proof (checking_counts _ _ _ _ _ _ _ _ I w) as X. rewrite W1, Y1 in X. exact X. }
    destruct (Z.eqb_spec n m) as [El|El]; [|now rewrite J].
    pose proof (checking_counts _ _ _ _ _ _ _ _ J w) as X. rewrite W2, Y2, <- El in X. exact X.
Qed.

(** ** Construction, lookups, and the conduct without the record *)

Lemma echo_fs_new {W O} (F : conduct W O) E kd payload bh :
  echo (v_fs_new (recording F) E kd payload bh) (v_fs_new F E kd payload bh).
Proof.
  unfold v_fs_new. destruct (_ <? _); [apply echo_lift|]. destruct kd; [apply echo_lift| |].
  - apply echo_bind; [apply echo_lift|]. intros p.
    apply echo_bind; [apply echo_analyze; intros; apply echo_call|]. intros a.
    destruct (_ <=? _); destruct a; apply echo_bind; intros;
      first [apply echo_cm|apply echo_lsm|apply echo_rsm|apply echo_lift].
  - unfold v_fs_new_common_set. destruct (_ <=? _); apply echo_bind; intros; first [apply echo_cm|apply echo_lift].
Qed.

Lemma set_construction_calls :
  forall (W O : Type) (F : conduct W O) (E : env) (kd : kind) (bh : hasher O) (payload : list (key O))
         (w w' : W) (r : res (set_types O)) (calls : list (event O)),
  v_fs_new (recording F) E kd payload bh (w, []) = (r, (w', calls)) ->
  v_fs_new F E kd payload bh w = (r, w') /\
  exists r', v_new (recording F) E kd (map (fun x => (x, tt)) payload) bh (w, []) = (r', (w', calls)) /\
    match r, r' with
    | Ok s, Ok m => map (fun x => (x, tt)) (fs_items s) = fm_iter m
    | Panic p, Panic p' => p = p'
    | UB u, UB u' => u = u'
    | OutOfFuel, OutOfFuel => True
    | _, _ => False
    end.
Proof.
  intros W O F E kd bh payload w w' r calls H. destruct (echo_fs_new F E kd payload bh w []) as (H1 & H2).
  rewrite H in H1, H2. cbn [fst snd] in H1, H2. split.
  { destruct (v_fs_new F E kd payload bh w). cbn [fst snd] in *. congruence. }
  pose proof (v_fs_new_map (recording F) E kd payload bh (w, [])) as Hm. unfold mbind in Hm. rewrite H in Hm.
  unfold with_unit in Hm. rewrite <- Hm. destruct r as [s|p|u|]; eexists; (split; [reflexivity|]); cbn; auto.
  symmetry. apply to_map_entries.
Qed.

Lemma set_lookup_calls :
  forall (W O : Type) (F : conduct W O) (E : env) (kd : kind) (bh : hasher O) (payload : list (key O))
         (s : set_types O) (w0 w1 : W),
  env_ok E -> (forall x, In x payload -> has_kind kd x) -> v_fs_new F E kd payload bh w0 = (Ok s, w1) ->
  forall (x : key O) (w w' : W) (r : res bool) (calls : list (event O)), has_kind kd x ->
  v_fs_contains (recording F) E s x (w, []) = (r, (w', calls)) ->
  v_fs_contains F E s x w = (r, w') /\
  asked kd bh (fs_items s) x (outcome r) calls /\
  at_most (zlen payload) 1 calls /\
  snd (v_fs_get (recording F) E s x (w, [])) = (w', calls).
Proof.
  intros W O F E kd bh payload s w0 w1 HE K B x w w' r calls Hx H.
  destruct (made_built F E kd payload bh w0 s w1 HE K B) as (HM & HP & _).
  destruct (contains_asked F E kd bh s x HM Hx w []) as (r' & w2 & c & H' & Ha).
  rewrite H in H'. cbn [app] in H'. injection H' as <- <- <-.
  assert (He : echo (v_fs_contains (recording F) E s x) (v_fs_contains F E s x)).
  { apply echo_bind; [|intros; apply echo_lift]. apply echo_bind; [|intros; apply echo_lift].
    rewrite !v_fs_find_map. apply echo_find. }
  destruct (He w []) as (H1 & H2). rewrite H in H1, H2. cbn [fst snd] in H1, H2.
  split. { destruct (v_fs_contains F E s x w). cbn [fst snd] in *. congruence. }
  split; [exact Ha|]. split.
  { apply asked_within in Ha. apply zlen_perm in HP. now rewrite HP. }
  rewrite v_fs_contains_get in H. destruct (v_fs_get (recording F) E s x (w, [])) as [q wq]. cbn [snd]. congruence.
Qed.

Lemma recorded_operations :
  forall (W O : Type) (F : conduct W O) (E : env) (s1 s2 : set_types O) (fuel : nat)
         (between : list (W -> W)) (w : W) (calls : list (event O)),
  let r1 := v_fs_running (recording F) E s1 in
  let r2 := v_fs_running (recording F) E s2 in
  let v1 := v_fs_running F E s1 in
  let v2 := v_fs_running F E s2 in
  let same_calls a b :=
    forall st, exists calls', v_calls a (map aside between) (st, (w, calls)) =
      let (os, x) := v_calls b between (st, w) in (os, (fst x, (snd x, calls'))) in
  let same_answer (a : M (W * list (event O)) bool) (b : M W bool) :=
    exists calls', a (w, calls) = let (r, w') := b w in (r, (w', calls')) in
  same_calls (v_union fuel r1 r2) (v_union fuel v1 v2) /\
  same_calls (v_intersection fuel r1 r2) (v_intersection fuel v1 v2) /\
  same_calls (v_difference fuel r1 r2) (v_difference fuel v1 v2) /\
  same_calls (v_symmetric_difference fuel r1 r2) (v_symmetric_difference fuel v1 v2) /\
  same_answer (v_is_disjoint fuel r1 r2) (v_is_disjoint fuel v1 v2) /\
  same_answer (v_is_subset fuel r1 r2) (v_is_subset fuel v1 v2) /\
  same_answer (v_is_superset fuel r1 r2) (v_is_superset fuel v1 v2) /\
  same_answer (v_set_eq fuel r1 r2) (v_set_eq fuel v1 v2).
Proof.
  intros W O F E s1 s2 fuel between w calls r1 r2 v1 v2 same_calls same_answer.
  assert (HR : forall s, with_record (v_fs_running (recording F) E s) (v_fs_running F E s)).
  { intros s. repeat split. intros x w0 l. cbn [v_fs_running vs_contains].
    assert (He : echo (v_fs_contains (recording F) E s x) (v_fs_contains F E s x)).
    { apply echo_bind; [|intros; apply echo_lift]. apply echo_bind; [|intros; apply echo_lift].
      rewrite !v_fs_find_map. apply echo_find. }
    destruct (He w0 l) as (H1 & H2). destruct (v_fs_contains (recording F) E s x (w0, l)) as [r [w2 l2]].
    destruct (v_fs_contains F E s x w0) as [r' w3]. cbn [fst snd] in *. exists l2. congruence. }
  pose proof (fun st => records_change_nothing r1 r2 v1 v2 fuel between st w calls (HR s1) (HR s2)) as N. cbv zeta in N.
  split; [intros st; apply (N st)|]. split; [intros st; apply (N st)|]. split; [intros st; apply (N st)|].
  split; [intros st; apply (N st)|].
  destruct (N (v_op_new v1 v2)) as (_ & _ & _ & _ & N'). exact N'.
Qed.
