(** FrozenSet and the set operations when equality and hashing have state and may panic. *)
From Coq Require Import List ZArith Bool Arith Lia Permutation.
From Verif Require Import EffectSpec VolatileSafety.
From Verif Require Import Spec MapSpec Base BaseLemmas IntKeyAnalyzer SliceKeyAnalyzer HashTable Maps FrozenMap FrozenMapProofs
  Iterators IterSpec IteratorProofs SetOps Sets FrozenSet FrozenSetProofs SetTheorems SetRunning RunSpec SetRunningProofs
  CallSpec Volatile VolatileProofs VolatileSets VolatileSetSpec VolatileSetProofs.
Import ListNotations.
Open Scope Z_scope.

(** C73 *)
Lemma volatile_operations :
  forall (W T St1 St2 : Type) (s1 : vol_set W T St1) (s2 : vol_set W T St2) (i1 i2 : list T) (fuel : nat),
  runs_through (vs_next s1) (vs_iter s1) i1 -> runs_through (vs_next s2) (vs_iter s2) i2 ->
  (forall x w, In x i2 -> (exists p, fst (vs_contains s1 x w) = Panic p) \/ exists b, fst (vs_contains s1 x w) = Ok b) ->
  (forall x w, In x i1 -> (exists p, fst (vs_contains s2 x w) = Panic p) \/ exists b, fst (vs_contains s2 x w) = Ok b) ->
  (length i1 < fuel)%nat -> (length i2 < fuel)%nat ->
  let n1 := noted First s1 in
  let n2 := noted Second s2 in
  let start := v_op_new n1 n2 in
  let asks2 := ask Second i1 in
  let asks1 := ask First i2 in
  (if vs_len s2 <? vs_len s1 then sifting (v_union fuel n1 n2) start i1 asks1 false
   else sifting (v_union fuel n1 n2) start i2 asks2 false) /\
  (if vs_len s1 <? vs_len s2 then sifting (v_intersection fuel n1 n2) start [] asks2 true
   else sifting (v_intersection fuel n1 n2) start [] asks1 true) /\
  sifting (v_difference fuel n1 n2) start [] asks2 false /\
  sifting (v_symmetric_difference fuel n1 n2) start [] (asks2 ++ asks1) false /\
  checking (v_is_disjoint fuel n1 n2) asks2 false /\
  (if vs_len s1 <=? vs_len s2 then checking (v_is_subset fuel n1 n2) asks2 true
   else forall wn, v_is_subset fuel n1 n2 wn = (Ok false, wn)) /\
  (if vs_len s2 <=? vs_len s1 then checking (v_is_superset fuel n1 n2) asks1 true
   else forall wn, v_is_superset fuel n1 n2 wn = (Ok false, wn)) /\
  (if vs_len s1 =? vs_len s2 then checking (v_set_eq fuel n1 n2) asks2 true
   else forall wn, v_set_eq fuel n1 n2 wn = (Ok false, wn)).
Proof.
  intros W T St1 St2 s1 s2 i1 i2 fuel R1 R2 A1 A2 F1 F2 n1 n2 start asks2 asks1.
  assert (A1' : forall x, In x i2 -> decides (vs_contains s1 x)) by (intros x Hx w; auto).
  assert (A2' : forall x, In x i1 -> decides (vs_contains s2 x)) by (intros x Hx w; auto).
  split; [exact (union_sifts fuel s1 s2 i1 i2 R1 R2 A1' A2' F1 F2)|].
  split.
  { pose proof (intersection_sifts fuel s1 s2 i1 i2 R1 R2 A1' A2' F1 F2) as H. now destruct (_ <? _). }
  split; [exact (difference_sifts fuel s1 s2 i1 i2 R1 R2 A2' F1 F2)|].
  split; [exact (symmetric_difference_sifts fuel s1 s2 i1 i2 R1 R2 A1' A2' F1 F2)|].
  pose proof (all1 fuel s1 s2 i1 i2 R1 R2 A1' F2) as H1. pose proof (all2 fuel s1 s2 i1 i2 R1 R2 A2' F1) as H2.
  split.
  { unfold v_is_disjoint. rewrite Z.leb_refl. exact (H2 false). }
  unfold v_is_subset, v_is_superset, v_set_eq. cbn [n1 n2 noted vs_len].
  split; [destruct (_ <=? _); [exact (H2 true)|reflexivity]|].
  split; [destruct (_ <=? _); [exact (H1 true)|reflexivity]|].
  destruct (_ =? _); cbn [negb]; [exact (H2 true)|reflexivity].
Qed.

(** ** Taking notes changes nothing *)

Section Echo.
Context {W T St1 St2 L : Type}.
Implicit Types (st : St1 * St2) (w : W) (l : L).

Definition echoed {A} (m : M (St1 * St2 * (W * L)) A) (m' : M (St1 * St2 * W) A) : Prop :=
  forall st w l, exists l', m (st, (w, l)) = let (r, x) := m' (st, w) in (r, (fst x, (snd x, l'))).

Lemma echoed_lift {A} (r : res A) : echoed (lift r) (lift r).
Proof. intros st w l. exists l. reflexivity. Qed.

Lemma echoed_bind {A B} m m' (f : A -> M _ B) f' :
  echoed m m' -> (forall a, echoed (f a) (f' a)) -> echoed (mbind m f) (mbind m' f').
Proof.
  intros H Hf st w l. destruct (H st w l) as (l1 & H1). unfold mbind. rewrite H1.
  destruct (m' (st, w)) as [[a|p|u|] [st1 w1]]; cbn [fst snd]; [|eauto|eauto|eauto].
  destruct (Hf a st1 w1 l1) as (l2 & ->). exists l2. reflexivity.
Qed.

Lemma echoed_loop m m' t t' n : echoed m m' -> (forall a : T, echoed (t a) (t' a)) ->
  echoed (v_loop_where m t n) (v_loop_where m' t' n).
Proof.
  intros H Ht. induction n; cbn [v_loop_where]; [apply echoed_lift|]. apply echoed_bind; auto.
  intros [a|]; [|apply echoed_lift]. apply echoed_bind; auto. intros []; [apply echoed_lift|auto].
Qed.
Lemma echoed_all m m' t t' n : echoed m m' -> (forall a : T, echoed (t a) (t' a)) ->
  echoed (v_all_loop m t n) (v_all_loop m' t' n).
Proof.
  intros H Ht. induction n; cbn [v_all_loop]; [apply echoed_lift|]. apply echoed_bind; auto.
  intros [a|]; [|apply echoed_lift]. apply echoed_bind; auto. intros []; [auto|apply echoed_lift].
Qed.
Lemma echoed_not t t' (a : T) : echoed (t a) (t' a) -> echoed (v_not t a) (v_not t' a).
Proof. intros H. apply echoed_bind; auto. intros b. apply echoed_lift. Qed.

(** [n] is the set [s] with a record of something that goes on in [contains]. *)
Definition with_record {St} (n : vol_set (W * L) T St) (s : vol_set W T St) : Prop :=
  vs_iter n = vs_iter s /\ vs_next n = vs_next s /\ vs_len n = vs_len s /\
  forall x w l, exists l', vs_contains n x (w, l) = let (r, w') := vs_contains s x w in (r, (w', l')).

Lemma echoed_next1 (n s : vol_set _ T St1) : with_record n s -> echoed (v_next1 n) (v_next1 s).
Proof.
  intros (_ & Hn & _) st w l. exists l. unfold v_next1. rewrite Hn. cbn [fst snd].
  destruct (vs_next s (fst st)) as [[]| | |]; reflexivity.
Qed.
Lemma echoed_next2 (n s : vol_set _ T St2) : with_record n s -> echoed (v_next2 n) (v_next2 s).
Proof.
  intros (_ & Hn & _) st w l. exists l. unfold v_next2. rewrite Hn. cbn [fst snd].
  destruct (vs_next s (snd st)) as [[]| | |]; reflexivity.
Qed.
Lemma echoed_within {St} (n s : vol_set _ T St) a : with_record n s ->
  echoed (v_within (vs_contains n a)) (v_within (vs_contains s a)).
Proof.
  intros (_ & _ & _ & Hc) st w l. unfold v_within. cbn [snd fst]. destruct (Hc a w l) as (l' & ->).
  destruct (vs_contains s a w) as [r w']. exists l'. reflexivity.
Qed.

Lemma echoed_calls (m : M (St1 * St2 * (W * L)) (option T)) (m' : M (St1 * St2 * W) (option T)) : echoed m m' -> forall between st w l, exists l',
  v_calls m (map aside between) (st, (w, l)) = let (os, x) := v_calls m' between (st, w) in (os, (fst x, (snd x, l'))).
Proof.
  intros H. induction between as [|f between IH]; intros st w l; cbn [map v_calls]; [exists l; reflexivity|].
  unfold aside at 1. cbn [fst snd]. destruct (H st (f w) l) as (l1 & ->).
  destruct (m' (st, f w)) as [r [st1 w1]]. cbn [fst snd]. destruct (IH st1 w1 l1) as (l2 & ->).
  destruct (v_calls m' between (st1, w1)) as [os x]. exists l2. reflexivity.
Qed.
End Echo.

Lemma records_change_nothing {W T St1 St2 L : Type} (n1 : vol_set (W * L) T St1) (n2 : vol_set (W * L) T St2) s1 s2 (fuel : nat)
         (between : list (W -> W)) (st : St1 * St2) (w : W) (log : L) :
  with_record n1 s1 -> with_record n2 s2 ->
  let same_calls (a : M (St1 * St2 * (W * L)) (option T)) (b : M (St1 * St2 * W) (option T)) :=
    exists log', v_calls a (map aside between) (st, (w, log)) =
      let (os, x) := v_calls b between (st, w) in (os, (fst x, (snd x, log'))) in
  let same_answer (a : M (W * L) bool) (b : M W bool) :=
    exists log', a (w, log) = let (r, w') := b w in (r, (w', log')) in
  same_calls (v_union fuel n1 n2) (v_union fuel s1 s2) /\
  same_calls (v_intersection fuel n1 n2) (v_intersection fuel s1 s2) /\
  same_calls (v_difference fuel n1 n2) (v_difference fuel s1 s2) /\
  same_calls (v_symmetric_difference fuel n1 n2) (v_symmetric_difference fuel s1 s2) /\
  same_answer (v_is_disjoint fuel n1 n2) (v_is_disjoint fuel s1 s2) /\
  same_answer (v_is_subset fuel n1 n2) (v_is_subset fuel s1 s2) /\
  same_answer (v_is_superset fuel n1 n2) (v_is_superset fuel s1 s2) /\
  same_answer (v_set_eq fuel n1 n2) (v_set_eq fuel s1 s2).
Proof.
  intros R1 R2 same_calls same_answer.
  pose proof (echoed_next1 (St2 := St2) n1 s1 R1) as N1. pose proof (echoed_next2 (St1 := St1) n2 s2 R2) as N2.
  assert (C1 : forall a, echoed (St1 := St1) (St2 := St2) (v_contains1 n1 a) (v_contains1 s1 a)) by (intros; now apply echoed_within).
  assert (C2 : forall a, echoed (St1 := St1) (St2 := St2) (v_contains2 n2 a) (v_contains2 s2 a)) by (intros; now apply echoed_within).
  assert (L1 : echoed (v_loop_where (v_next1 n1) (v_not (v_contains2 n2)) fuel)
                      (v_loop_where (v_next1 s1) (v_not (v_contains2 s2)) fuel)).
  { apply echoed_loop; [exact N1|]. intros a. now apply echoed_not. }
  assert (L2 : echoed (v_loop_where (v_next2 n2) (v_not (v_contains1 n1)) fuel)
                      (v_loop_where (v_next2 s2) (v_not (v_contains1 s1)) fuel)).
  { apply echoed_loop; [exact N2|]. intros a. now apply echoed_not. }
  destruct R1 as (I1 & _ & Z1 & _). destruct R2 as (I2 & _ & Z2 & _).
  split.
  { apply echoed_calls. unfold v_union. rewrite Z1, Z2.
    destruct (_ <? _); (apply echoed_bind; [assumption|]; intros [a|]; [apply echoed_lift|assumption]). }
  split.
  { apply echoed_calls. unfold v_intersection. rewrite Z1, Z2. destruct (_ <? _); now apply echoed_loop. }
  split; [apply echoed_calls; exact L1|].
  split.
  { apply echoed_calls. apply echoed_bind; auto. intros [a|]; [apply echoed_lift|assumption]. }
  assert (Hs : forall m m', echoed (A := bool) m m' -> exists log',
    v_start n1 n2 m (w, log) = let (r, w') := v_start s1 s2 m' w in (r, (w', log'))).
  { intros m m' H. unfold v_start. destruct (H (v_op_new s1 s2) w log) as (L' & HL).
    unfold v_op_new in *. rewrite I1, I2, HL. destruct (m' (_, w)) as [r x]. exists L'. reflexivity. }
  split.
  { apply Hs. rewrite !Z.leb_refl. apply echoed_all; [exact N1|]. intros a. now apply echoed_not. }
  split.
  { apply Hs. rewrite Z1, Z2. destruct (_ <=? _); [now apply echoed_all|apply echoed_lift]. }
  split.
  { apply Hs. rewrite Z1, Z2. destruct (_ <=? _); [now apply echoed_all|apply echoed_lift]. }
  apply Hs. rewrite Z1, Z2. destruct (_ =? _); cbn [negb]; [now apply echoed_all|apply echoed_lift].
Qed.

Lemma with_notes {W T St} which (s : vol_set W T St) : with_record (noted which s) s.
Proof.
  repeat split. intros x w l. cbn [noted vs_contains fst snd].
  destruct (vs_contains s x w) as [r w']. eexists. reflexivity.
Qed.

Lemma notes_change_nothing :
  forall (W T St1 St2 : Type) (s1 : vol_set W T St1) (s2 : vol_set W T St2) (fuel : nat)
         (between : list (W -> W)) (st : St1 * St2) (w : W) (log : notes T),
  let n1 := noted First s1 in
  let n2 := noted Second s2 in
  let same_calls (a : M (St1 * St2 * (W * notes T)) (option T)) (b : M (St1 * St2 * W) (option T)) :=
    exists log', v_calls a (map aside between) (st, (w, log)) =
      let (os, x) := v_calls b between (st, w) in (os, (fst x, (snd x, log'))) in
  let same_answer (a : M (W * notes T) bool) (b : M W bool) :=
    exists log', a (w, log) = let (r, w') := b w in (r, (w', log')) in
  same_calls (v_union fuel n1 n2) (v_union fuel s1 s2) /\
  same_calls (v_intersection fuel n1 n2) (v_intersection fuel s1 s2) /\
  same_calls (v_difference fuel n1 n2) (v_difference fuel s1 s2) /\
  same_calls (v_symmetric_difference fuel n1 n2) (v_symmetric_difference fuel s1 s2) /\
  same_answer (v_is_disjoint fuel n1 n2) (v_is_disjoint fuel s1 s2) /\
  same_answer (v_is_subset fuel n1 n2) (v_is_subset fuel s1 s2) /\
  same_answer (v_is_superset fuel n1 n2) (v_is_superset fuel s1 s2) /\
  same_answer (v_set_eq fuel n1 n2) (v_set_eq fuel s1 s2).
Proof.
  intros W T St1 St2 s1 s2 fuel between st w log n1 n2. apply records_change_nothing; apply with_notes.
Qed.

(** ** FrozenSet *)

Section Facade.
Context {W O : Type}.
Variable F : conduct W O.
Variable E : env.
Implicit Types (payload : list (key O)) (s : set_types O) (w : W).

Ltac step := match goal with
  | |- mbind (mbind ?x _) _ ?w = mbind ?x _ ?w =>
      unfold mbind at 1 2; unfold mbind at 1; destruct (x w) as [[]]; reflexivity
  end.

Lemma v_fs_new_map kd payload bh w :
  mbind (v_fs_new F E kd payload bh) (fun s => lift (Ok (to_map s))) w = v_new F E kd (with_unit payload) bh w.
Proof.
  unfold v_fs_new, v_new. rewrite with_unit_len. destruct (zlen payload <? 4) eqn:E4; [reflexivity|]. destruct kd.
  - pose proof (fs_new_map E KindU32 payload bh) as H. unfold fs_new, fm_new in H. rewrite with_unit_len, E4 in H.
    unfold mbind, lift. rewrite <- H. destruct (fs_new_u32_set E payload); reflexivity.
  - unfold v_fs_new_string_set, v_new_string_map. rewrite as_string_unit.
    destruct (items_as_string payload) as [p| | |]; [|reflexivity|reflexivity|reflexivity].
    cbn [bind]. unfold mbind. cbn [lift]. rewrite with_unit_keys, with_unit_len.
    destruct (v_analyze_slice_keys _ p w) as [[r| | |] w1]; try reflexivity.
    destruct (zlen p <=? imax u8); destruct r; unfold ls_from_vec, lift;
      match goal with |- context [match ?x w1 with (_, _) => _ end] => destruct (x w1) as [[]]
        | |- context [lm_from_vec ?a ?b ?c ?d] => destruct (lm_from_vec a b c d) end; reflexivity.
  - unfold v_fs_new_common_set, v_new_common_map. rewrite with_unit_len.
    destruct (zlen payload <=? imax u8); step.
Qed.

Lemma v_fs_new_ok kd payload bh w s w' : v_fs_new F E kd payload bh w = (Ok s, w') ->
  v_new F E kd (with_unit payload) bh w = (Ok (to_map s), w').
Proof. intros H. rewrite <- v_fs_new_map. unfold mbind. now rewrite H. Qed.

Lemma v_fs_find_map s x : v_fs_find F E s x = v_find F E (to_map s) x.
Proof. destruct s; reflexivity. Qed.

(** A set that has been built. *)
Lemma v_fs_built kd payload bh w s w' : env_ok E -> (forall x, In x payload -> has_kind kd x) ->
  v_fs_new F E kd payload bh w = (Ok s, w') ->
  Permutation payload (fs_items s) /\ fs_len s = zlen payload /\ fm_safe kd (to_map s).
Proof.
  intros HE K B. apply v_fs_new_ok in B.
  destruct (v_built F E HE kd (with_unit payload) bh w (to_map s) w') as (HP & Hs); auto.
  { now apply typed_with_unit. }
  split; [|split; auto].
  - rewrite fs_items_map. rewrite <- (with_unit_keys payload) at 1. now apply Permutation_map.
  - rewrite fs_len_map, fm_len_iter. apply zlen_perm in HP. now rewrite <- HP, with_unit_len.
Qed.

Lemma v_fs_get_cases kd s x w : fm_safe kd (to_map s) -> has_kind kd x ->
  fst (v_fs_get F E s x w) = Panic PForeign \/
  exists o, fst (v_fs_get F E s x w) = Ok o /\ forall y, o = Some y -> In y (fs_items s).
Proof.
  intros Hs Hx. unfold v_fs_get, mbind. rewrite v_fs_find_map.
  destruct (find_cases F E kd (to_map s) x w Hs Hx) as [(w1 & ->)|[(w1 & ->)|(i & e & w1 & -> & He)]]; cbn [lift fst].
  - auto.
  - right. exists None. split; auto. discriminate.
  - right. rewrite fs_items_map, nth_error_map, He. exists (Some (fst e)). split; auto.
    intros y [= <-]. apply in_map. eapply nth_error_In; eauto.
Qed.

Lemma v_fs_contains_get s x w :
  v_fs_contains F E s x w = let (r, w') := v_fs_get F E s x w in
    (o <- r ;; Ok (match o with Some _ => true | None => false end), w').
Proof. unfold v_fs_contains, mbind at 1. destruct (v_fs_get F E s x w) as [[]]; reflexivity. Qed.
End Facade.

Lemma volatile_set_use :
  forall (W O : Type) (F : conduct W O) (E : env) (kd : kind) (bh : hasher O) (payload : list (key O))
         (s : set_types O) (w w' : W),
  env_ok E -> zlen payload < 2 ^ 64 -> (forall x, In x payload -> has_kind kd x) ->
  v_fs_new F E kd payload bh w = (Ok s, w') ->
  let r := v_fs_running F E s in
  Permutation payload (fs_items s) /\ vs_len r = zlen payload /\
  runs_through (vs_next r) (vs_iter r) (fs_items s) /\
  forall x w1, has_kind kd x ->
    (fst (v_fs_get F E s x w1) = Panic PForeign /\ fst (vs_contains r x w1) = Panic PForeign) \/
    exists o, fst (v_fs_get F E s x w1) = Ok o /\ (forall y, o = Some y -> In y payload) /\
      fst (vs_contains r x w1) = Ok (match o with Some _ => true | None => false end).
Proof.
  intros W O F E kd bh payload s w w' HE Hz K B r.
  destruct (v_fs_built F E kd payload bh w s w' HE K B) as (HP & Hl & Hs).
  split; auto. split; auto. split.
  { apply library_iterators. apply zlen_perm in HP. lia. }
  intros x w1 Hx. cbn [r v_fs_running vs_contains]. rewrite v_fs_contains_get.
  destruct (v_fs_get_cases F E kd s x w1 Hs Hx) as [H|(o & H & Ho)];
    destruct (v_fs_get F E s x w1) as [q w2]; cbn [fst] in *; subst q.
  - left. auto.
  - right. exists o. split; auto. split; [|reflexivity]. intros y Hy.
    apply (Permutation_in _ (Permutation_sym HP)). auto.
Qed.

Lemma volatile_set_construction :
  forall (W O : Type) (F : conduct W O) (E : env) (kd : kind) (bh : hasher O) (payload : list (key O)) (w : W),
  env_ok E -> (forall x, In x payload -> has_kind kd x) ->
  match fst (v_fs_new F E kd payload bh w) with
  | Ok s => Permutation payload (fs_items s)
  | Panic _ => True
  | UB _ => kd = KindString /\
      exists i l w1, v_analyze_slice_keys (fun s => call (on_hash_slice F bh s)) (str_keys (with_unit payload)) w =
        (Ok (RightHandSubslice i l), w1)
  | OutOfFuel => False
  end.
Proof.
  intros W O F E kd bh payload w HE K.
  pose proof (volatile_construction W O unit F E kd bh (with_unit payload) w HE (typed_with_unit kd payload K)) as H.
  rewrite <- v_fs_new_map in H. unfold mbind in H.
  destruct (v_fs_new F E kd payload bh w) as [[s|p|u|] w1] eqn:En; cbn [fst lift] in *; auto.
  rewrite fs_items_map. rewrite <- (with_unit_keys payload) at 1. now apply Permutation_map.
Qed.

(** Two FrozenSets. *)
Lemma volatile_set_operations :
  forall (W O : Type) (F1 F2 : conduct W O) (E : env) (kd : kind) (bh1 bh2 : hasher O)
         (p1 p2 : list (key O)) (s1 s2 : set_types O) (w1 w1' w2 w2' : W) (fuel : nat),
  env_ok E -> zlen p1 < 2 ^ 64 -> zlen p2 < 2 ^ 64 ->
  (forall x, In x p1 -> has_kind kd x) -> (forall x, In x p2 -> has_kind kd x) ->
  v_fs_new F1 E kd p1 bh1 w1 = (Ok s1, w1') -> v_fs_new F2 E kd p2 bh2 w2 = (Ok s2, w2') ->
  (length p1 < fuel)%nat -> (length p2 < fuel)%nat ->
  let n1 := noted First (v_fs_running F1 E s1) in
  let n2 := noted Second (v_fs_running F2 E s2) in
  let start := v_op_new n1 n2 in
  let asks2 := ask Second (fs_items s1) in
  let asks1 := ask First (fs_items s2) in
  (if zlen p2 <? zlen p1 then sifting (v_union fuel n1 n2) start (fs_items s1) asks1 false
   else sifting (v_union fuel n1 n2) start (fs_items s2) asks2 false) /\
  (if zlen p1 <? zlen p2 then sifting (v_intersection fuel n1 n2) start [] asks2 true
   else sifting (v_intersection fuel n1 n2) start [] asks1 true) /\
  sifting (v_difference fuel n1 n2) start [] asks2 false /\
  sifting (v_symmetric_difference fuel n1 n2) start [] (asks2 ++ asks1) false /\
  checking (v_is_disjoint fuel n1 n2) asks2 false /\
  (if zlen p1 <=? zlen p2 then checking (v_is_subset fuel n1 n2) asks2 true
   else forall wn, v_is_subset fuel n1 n2 wn = (Ok false, wn)) /\
  (if zlen p2 <=? zlen p1 then checking (v_is_superset fuel n1 n2) asks1 true
   else forall wn, v_is_superset fuel n1 n2 wn = (Ok false, wn)) /\
  (if zlen p1 =? zlen p2 then checking (v_set_eq fuel n1 n2) asks2 true
   else forall wn, v_set_eq fuel n1 n2 wn = (Ok false, wn)).
Proof.
  intros W O F1 F2 E kd bh1 bh2 p1 p2 s1 s2 w1 w1' w2 w2' fuel HE Z1 Z2 K1 K2 B1 B2 L1 L2 n1 n2 start asks2 asks1.
  destruct (volatile_set_use W O F1 E kd bh1 p1 s1 w1 w1' HE Z1 K1 B1) as (P1 & E1 & R1 & G1).
  destruct (volatile_set_use W O F2 E kd bh2 p2 s2 w2 w2' HE Z2 K2 B2) as (P2 & E2 & R2 & G2).
  rewrite <- E1, <- E2.
  apply volatile_operations; auto.
  - intros x w Hx. destruct (G1 x w) as [(_ & H)|(o & _ & _ & H)]; [|eauto|right; eauto].
    apply K2, (Permutation_in _ (Permutation_sym P2)), Hx.
  - intros x w Hx. destruct (G2 x w) as [(_ & H)|(o & _ & _ & H)]; [|eauto|right; eauto].
    apply K1, (Permutation_in _ (Permutation_sym P1)), Hx.
  - apply Permutation_length in P1. lia.
  - apply Permutation_length in P2. lia.
Qed.

(** ** Agreement with SetRunning.v and FrozenSet.v *)

Section Regular.
Context {W T St1 St2 : Type}.
Variable fuel : nat.
Variable r1 : running_set T St1.
Variable r2 : running_set T St2.
Variable v1 : vol_set W T St1.
Variable v2 : vol_set W T St2.
Hypothesis A1 : acts_like v1 r1.
Hypothesis A2 : acts_like v2 r2.
Notation X := (St1 * St2 * W)%type.

Lemma plays_bind {A B} (m : M X A) f (k : A -> M X B) g :
  plays m f -> (forall a, plays (k a) (fun st => g (a, st))) -> plays (mbind m k) (fun st => r <- f st ;; g r).
Proof.
  intros H Hk st w. specialize (H st w). unfold mbind. destruct (f st) as [[a st1]|p|u|]; cbn [bind].
  - destruct H as (w' & ->). apply (Hk a st1 w').
  - destruct (m (st, w)) as [q x]. cbn [fst] in *. now subst q.
  - destruct (m (st, w)) as [q x]. cbn [fst] in *. now subst q.
  - destruct (m (st, w)) as [q x]. cbn [fst] in *. now subst q.
Qed.

Lemma plays_lift {A} (a : A) : plays (W := W) (S1 := St1) (S2 := St2) (lift (Ok a)) (fun st => Ok (a, st)).
Proof. intros st w. exists w. reflexivity. Qed.

(** The first and the second iterator. *)
Definition on1 {A} (f : St1 -> res (A * St1)) (st : St1 * St2) : res (A * (St1 * St2)) :=
  r <- f (fst st) ;; Ok (fst r, (snd r, snd st)).
Definition on2 {A} (f : St2 -> res (A * St2)) (st : St1 * St2) : res (A * (St1 * St2)) :=
  r <- f (snd st) ;; Ok (fst r, (fst st, snd r)).

Lemma plays_next1 : plays (W := W) (v_next1 v1) (on1 (r_next r1)).
Proof.
  destruct A1 as (_ & Hn & _). intros st w. unfold on1, v_next1. cbn [fst snd]. rewrite Hn.
  destruct (r_next r1 (fst st)) as [[]| | |]; cbn; eauto.
Qed.
Lemma plays_next2 : plays (W := W) (v_next2 v2) (on2 (r_next r2)).
Proof.
  destruct A2 as (_ & Hn & _). intros st w. unfold on2, v_next2. cbn [fst snd]. rewrite Hn.
  destruct (r_next r2 (snd st)) as [[]| | |]; cbn; eauto.
Qed.

Lemma plays_same {A} (m : M X A) (f g : St1 * St2 -> res (A * (St1 * St2))) : (forall st, f st = g st) -> plays m f -> plays m g.
Proof. intros H Hm st w. rewrite <- H. apply Hm. Qed.

(** The tests leave the iterators alone. *)
Definition tests (test : T -> M X bool) (q : T -> res bool) : Prop :=
  forall a, plays (test a) (fun st => b <- q a ;; Ok (b, st)).
Lemma tests_within {St} (v : vol_set W T St) (r : running_set T St) : acts_like v r ->
  tests (fun a => v_within (vs_contains v a)) (r_contains r).
Proof.
  intros (_ & _ & _ & Hc) a st w. unfold v_within. specialize (Hc a w). cbn [fst snd]. destruct (vs_contains v a w) as [o w'].
  cbn [fst] in Hc. subst o. destruct (r_contains r a); cbn; eauto.
Qed.
Lemma tests_not test q : tests test q -> tests (v_not test) (fun a => b <- q a ;; Ok (negb b)).
Proof.
  intros H a st w. specialize (H a st w). unfold v_not, mbind. destruct (q a); cbn [bind] in *.
  - destruct H as (w' & ->). exists w'. reflexivity.
  - destruct (test a (st, w)) as [o x]. cbn [fst] in *. now subst o.
  - destruct (test a (st, w)) as [o x]. cbn [fst] in *. now subst o.
  - destruct (test a (st, w)) as [o x]. cbn [fst] in *. now subst o.
Qed.

Lemma plays_loop1 test q n : tests test q ->
  plays (v_loop_where (v_next1 v1) test n) (on1 (loop_where (r_next r1) q n)).
Proof.
  intros Ht. induction n; cbn [v_loop_where]; [intros st w; reflexivity|].
  eapply plays_same; [|apply (plays_bind _ _ _ (fun r => match fst r with
      | None => Ok (None, snd r)
      | Some a => b <- q a ;; if b : bool then Ok (Some a, snd r) else on1 (loop_where (r_next r1) q n) (snd r) end) plays_next1)].
  - intros st. unfold on1 at 1 3. cbn [loop_where]. destruct (r_next r1 (fst st)) as [[[a|] st1]| | |]; cbn [bind fst snd]; auto.
    destruct (q a) as [[]| | |]; cbn [bind fst snd]; auto.
  - intros [a|]; cbn [fst snd]; [|apply plays_lift].
    eapply plays_same; [|apply (plays_bind _ _ _ (fun r => if fst r : bool then Ok (Some a, snd r)
      else on1 (loop_where (r_next r1) q n) (snd r)) (Ht a))].
    + intros st. destruct (q a); reflexivity.
    + intros []; [apply plays_lift|exact IHn].
Qed.
Lemma plays_loop2 test q n : tests test q ->
  plays (v_loop_where (v_next2 v2) test n) (on2 (loop_where (r_next r2) q n)).
Proof.
  intros Ht. induction n; cbn [v_loop_where]; [intros st w; reflexivity|].
  eapply plays_same; [|apply (plays_bind _ _ _ (fun r => match fst r with
      | None => Ok (None, snd r)
      | Some a => b <- q a ;; if b : bool then Ok (Some a, snd r) else on2 (loop_where (r_next r2) q n) (snd r) end) plays_next2)].
  - intros st. unfold on2 at 1 3. cbn [loop_where]. destruct (r_next r2 (snd st)) as [[[a|] st1]| | |]; cbn [bind fst snd]; auto.
    destruct (q a) as [[]| | |]; cbn [bind fst snd]; auto.
  - intros [a|]; cbn [fst snd]; [|apply plays_lift].
    eapply plays_same; [|apply (plays_bind _ _ _ (fun r => if fst r : bool then Ok (Some a, snd r)
      else on2 (loop_where (r_next r2) q n) (snd r)) (Ht a))].
    + intros st. destruct (q a); reflexivity.
    + intros []; [apply plays_lift|exact IHn].
Qed.

Notation in1 := (tests_within v1 r1 A1).
Notation in2 := (tests_within v2 r2 A2).
Lemma acts_len1 : vs_len v1 = r_len r1.
Proof. apply A1. Qed.
Lemma acts_len2 : vs_len v2 = r_len r2.
Proof. apply A2. Qed.

Lemma plays_union : plays (v_union fuel v1 v2) (run_union fuel r1 r2).
Proof.
  unfold v_union, run_union. rewrite acts_len1, acts_len2. destruct (_ <? _).
  - eapply plays_same; [|apply (plays_bind _ _ _ (fun r => match fst r with Some a => Ok (Some a, snd r)
      | None => on2 (loop_where (r_next r2) (r_lacks r1) fuel) (snd r) end) plays_next1)].
    + intros st. unfold on1. destruct (r_next r1 (fst st)) as [[[a|] st1]| | |]; reflexivity.
    + intros [a|]; [apply plays_lift|]. apply plays_loop2. apply (tests_not _ _ in1).
  - eapply plays_same; [|apply (plays_bind _ _ _ (fun r => match fst r with Some a => Ok (Some a, snd r)
      | None => on1 (loop_where (r_next r1) (r_lacks r2) fuel) (snd r) end) plays_next2)].
    + intros st. unfold on2. destruct (r_next r2 (snd st)) as [[[a|] st1]| | |]; reflexivity.
    + intros [a|]; [apply plays_lift|]. apply plays_loop1. apply (tests_not _ _ in2).
Qed.

Lemma plays_intersection : plays (v_intersection fuel v1 v2) (run_intersection fuel r1 r2).
Proof.
  unfold v_intersection, run_intersection. rewrite acts_len1, acts_len2.
  destruct (_ <? _); [apply plays_loop1; exact in2|apply plays_loop2; exact in1].
Qed.

Lemma plays_difference : plays (v_difference fuel v1 v2) (on1 (run_difference fuel r1 r2)).
Proof. apply plays_loop1. apply (tests_not _ _ in2). Qed.

Lemma plays_symmetric_difference : plays (v_symmetric_difference fuel v1 v2) (run_symmetric_difference fuel r1 r2).
Proof.
  unfold v_symmetric_difference, run_symmetric_difference.
  eapply plays_same; [|apply (plays_bind _ _ _ (fun r => match fst r with Some a => Ok (Some a, snd r)
      | None => on2 (loop_where (r_next r2) (r_lacks r1) fuel) (snd r) end)
      (plays_loop1 _ _ fuel (tests_not _ _ in2)))].
  - intros st. unfold on1, r_lacks. destruct (loop_where (r_next r1) _ fuel (fst st)) as [[[a|] st1]| | |]; reflexivity.
  - intros [a|]; [apply plays_lift|]. apply plays_loop2. apply (tests_not _ _ in1).
Qed.

Lemma same_all1 test q n : tests test q -> forall st w,
  fst (v_all_loop (v_next1 v1) test n (st, w)) = all_loop (r_next r1) q n (fst st).
Proof.
  intros Ht. induction n; intros st w; [reflexivity|]. cbn [v_all_loop all_loop]. unfold mbind at 1.
  pose proof (plays_next1 st w) as H. unfold on1 in H. destruct (r_next r1 (fst st)) as [[[a|] st1]|p|u|]; cbn [bind fst snd] in *.
  - destruct H as (w1 & ->). unfold mbind. specialize (Ht a (st1, snd st) w1).
    destruct (q a) as [[]|p|u|]; cbn [bind] in *.
    + destruct Ht as (w2 & ->). apply (IHn (st1, snd st)).
    + destruct Ht as (w2 & ->). reflexivity.
    + destruct (test a _) as [o x]. cbn [fst] in *. now subst o.
    + destruct (test a _) as [o x]. cbn [fst] in *. now subst o.
    + destruct (test a _) as [o x]. cbn [fst] in *. now subst o.
  - destruct H as (w1 & ->). reflexivity.
  - destruct (v_next1 v1 (st, w)) as [o x]. cbn [fst] in *. now subst o.
  - destruct (v_next1 v1 (st, w)) as [o x]. cbn [fst] in *. now subst o.
  - destruct (v_next1 v1 (st, w)) as [o x]. cbn [fst] in *. now subst o.
Qed.
Lemma same_all2 test q n : tests test q -> forall st w,
  fst (v_all_loop (v_next2 v2) test n (st, w)) = all_loop (r_next r2) q n (snd st).
Proof.
  intros Ht. induction n; intros st w; [reflexivity|]. cbn [v_all_loop all_loop]. unfold mbind at 1.
  pose proof (plays_next2 st w) as H. unfold on2 in H. destruct (r_next r2 (snd st)) as [[[a|] st1]|p|u|]; cbn [bind fst snd] in *.
  - destruct H as (w1 & ->). unfold mbind. specialize (Ht a (fst st, st1) w1).
    destruct (q a) as [[]|p|u|]; cbn [bind] in *.
    + destruct Ht as (w2 & ->). apply (IHn (fst st, st1)).
    + destruct Ht as (w2 & ->). reflexivity.
    + destruct (test a _) as [o x]. cbn [fst] in *. now subst o.
    + destruct (test a _) as [o x]. cbn [fst] in *. now subst o.
    + destruct (test a _) as [o x]. cbn [fst] in *. now subst o.
  - destruct H as (w1 & ->). reflexivity.
  - destruct (v_next2 v2 (st, w)) as [o x]. cbn [fst] in *. now subst o.
  - destruct (v_next2 v2 (st, w)) as [o x]. cbn [fst] in *. now subst o.
  - destruct (v_next2 v2 (st, w)) as [o x]. cbn [fst] in *. now subst o.
Qed.

Lemma start_fst (m : M X bool) w : fst (v_start v1 v2 m w) = fst (m ((r_iter r1, r_iter r2), w)).
Proof.
  unfold v_start, v_op_new. destruct A1 as (-> & _), A2 as (-> & _). now destruct (m _).
Qed.
End Regular.

Lemma regular_operations :
  forall (W T St1 St2 : Type) (r1 : running_set T St1) (r2 : running_set T St2) (v1 : vol_set W T St1) (v2 : vol_set W T St2)
         (fuel : nat) (w : W),
  acts_like v1 r1 -> acts_like v2 r2 ->
  plays (v_union fuel v1 v2) (run_union fuel r1 r2) /\
  plays (v_intersection fuel v1 v2) (run_intersection fuel r1 r2) /\
  plays (v_difference fuel v1 v2)
    (fun st => r <- run_difference fuel r1 r2 (fst st) ;; Ok (fst r, (snd r, snd st))) /\
  plays (v_symmetric_difference fuel v1 v2) (run_symmetric_difference fuel r1 r2) /\
  fst (v_is_disjoint fuel v1 v2 w) = run_is_disjoint fuel r1 r2 /\
  fst (v_is_subset fuel v1 v2 w) = run_is_subset fuel r1 r2 /\
  fst (v_is_superset fuel v1 v2 w) = run_is_superset fuel r1 r2 /\
  fst (v_set_eq fuel v1 v2 w) = run_eq fuel r1 r2.
Proof.
  intros W T St1 St2 r1 r2 v1 v2 fuel w A1 A2.
  split; [now apply plays_union|]. split; [now apply plays_intersection|]. split; [now apply plays_difference|].
  split; [now apply plays_symmetric_difference|].
  unfold v_is_disjoint, v_is_subset, v_is_superset, v_set_eq, run_is_disjoint, run_is_subset, run_is_superset, run_eq.
  rewrite (acts_len1 r1 v1 A1), (acts_len2 r2 v2 A2).
  pose proof (tests_within (St1 := St1) (St2 := St2) v1 r1 A1) as in1.
  pose proof (tests_within (St1 := St1) (St2 := St2) v2 r2 A2) as in2.
  rewrite !(start_fst r1 r2 v1 v2 A1 A2). split.
  { rewrite Z.leb_refl. apply (same_all1 r1 v1 A1 _ _ fuel (tests_not _ _ in2)). }
  split; [destruct (_ <=? _); [apply (same_all1 r1 v1 A1 _ _ fuel in2)|reflexivity]|].
  split; [destruct (_ <=? _); [apply (same_all2 r2 v2 A2 _ _ fuel in1)|reflexivity]|].
  destruct (_ =? _); cbn [negb]; [apply (same_all1 r1 v1 A1 _ _ fuel in2)|reflexivity].
Qed.

Lemma regular_set_agrees :
  forall (W O : Type) (F : conduct W O) (eqbO : O -> O -> bool) (E : env) (kd : kind) (bh : hasher O) (payload : list (key O)) (w : W),
  regular F eqbO -> env_ok E -> (forall x, In x payload -> has_kind kd x) ->
  fst (v_fs_new F E kd payload bh w) = fs_new E kd payload bh /\
  forall s, fs_new E kd payload bh = Ok s -> forall x, has_kind kd x ->
    fst (v_fs_get F E s x w) = fs_get eqbO E s x /\
    fst (v_fs_contains F E s x w) = fs_contains eqbO E s x.
Proof.
  intros W O F eqbO E kd bh payload w HF HE K.
  assert (Hnew : fst (v_fs_new F E kd payload bh w) = fs_new E kd payload bh).
  { unfold v_fs_new, fs_new. destruct (_ <? 4); [reflexivity|]. destruct kd.
    - reflexivity.
    - unfold v_fs_new_string_set, fs_new_string_set. revert w.
      apply same_bind; [apply same_lift|]. intros p.
      apply same_bind; [apply same_analyze; intros s; apply same_call, HF|]. intros an.
      destruct (_ <=? _); destruct an; apply same_bind;
        solve [apply same_lift|apply (same_cm eqbO), HF|apply (same_lsm eqbO), HF|apply (same_rsm eqbO), HF|intros x; apply same_lift].
    - unfold v_fs_new_common_set, fs_new_common_set. revert w.
      destruct (_ <=? _); (apply same_bind; [apply (same_cm eqbO), HF|intros x; apply same_lift]). }
  split; auto. intros s B x Hx. rewrite B in Hnew. destruct (v_fs_new F E kd payload bh w) as [r w'] eqn:B'. cbn [fst] in Hnew. subst r.
  destruct (v_fs_built F E kd payload bh w s w' HE K B') as (_ & _ & Hs).
  assert (Hg : fst (v_fs_get F E s x w) = fs_get eqbO E s x).
  { unfold v_fs_get. revert w B'. enough (H : same (mbind (v_fs_find F E s x) (fun r => lift (Ok (match r with
        | Some i => nth_error (fs_items s) i | None => None end)))) (fs_get eqbO E s x)) by (intros w _; apply H).
    rewrite v_fs_find_map. eapply same_eq; [apply (same_bind _ _ _ (fun r => Ok (match r with
        | Some i => nth_error (fs_items s) i | None => None end)) (same_find eqbO E F HF (to_map s) x)); intros; apply same_lift|].
    rewrite fs_get_map. destruct (fm_lookup_safe eqbO E kd (to_map s) x Hs Hx) as (r & -> & _ & _ & -> & _).
    unfold set_get_of. cbn [bind]. f_equal. rewrite fs_items_map.
    destruct r as [i|]; cbn [at_pos option_map]; [|reflexivity]. now rewrite nth_error_map. }
  split; auto. rewrite v_fs_contains_get, fs_contains_get. destruct (v_fs_get F E s x w) as [r w2]. cbn [fst] in Hg. subst r.
  unfold set_contains_of. destruct (fs_get eqbO E s x) as [[]| | |]; reflexivity.
Qed.
