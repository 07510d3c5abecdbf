(** The specialized sets and the set operations with arbitrary and with lawful code of the caller. *)
From Coq Require Import List ZArith Bool Arith Lia Permutation.
From Verif Require Import VolatileMaps VolatileMapSpec VolatileMapProofs VolatileSafety VolatileSetTheorems SetCallProofs
  EffectSpec EffectProofs SpecialCallSpec SpecialCallProofs.
From Verif Require Import Spec MapSpec SetSpec Base BaseLemmas HashTable HashTableProofs Maps ObjectSpec MapObjectProofs Iterators IterSpec SetOps SetOpsProofs Sets FrozenMap FrozenSet
  FrozenSetProofs SetTheorems SetRunning RunSpec SetRunningProofs CallSpec Volatile VolatileProofs VolatileSets
  VolatileSetSpec VolatileSetProofs SetCallSpec SpecialSets SpecialSetSpec.
Import ListNotations.
Open Scope Z_scope.

(** ** Arbitrary code *)

Lemma st_perm {T BH} (payload : list T) (s : special T unit BH) : Permutation (with_unit payload) (sp_entries s) ->
  Permutation payload (st_items s) /\ zlen (sp_entries s) = zlen payload.
Proof.
  intros H. split.
  - unfold st_items. rewrite <- (with_unit_keys payload) at 1. now apply Permutation_map.
  - apply zlen_perm in H. now rewrite <- H, with_unit_len.
Qed.

Lemma st_runs {W T BH} E (F : foreign W T T BH) (payload : list T) (s : special T unit BH) :
  zlen payload < 2 ^ 64 -> Permutation payload (st_items s) ->
  runs_through (vs_next (st_running E F s)) (vs_iter (st_running E F s)) (st_items s).
Proof. intros Hz HP. apply library_iterators. apply zlen_perm in HP. lia. Qed.

Lemma st_contains_get {W T Q BH} E (F : foreign W T Q BH) s q w :
  st_contains E F s q w =
    let (r, w') := st_get E F s q w in (over (fun o => match o with Some _ => true | None => false end) r, w').
Proof. unfold st_contains, mbind. destruct (st_get E F s q w) as [[]]; reflexivity. Qed.

Lemma special_set_use :
  forall (W T Q BH : Type) (F : foreign W T Q BH) (E : env) (S_ty : int_type) (sh : shape BH) (payload : list T) (w : W),
  env_ok E -> imin S_ty = 0 -> zlen payload < 2 ^ 64 ->
  match fst (st_from_vec E F S_ty sh payload w) with
  | Ok s =>
      Permutation payload (st_items s) /\
      (forall W' (G : foreign W' T T BH), vs_len (st_running E G s) = zlen payload /\
         runs_through (vs_next (st_running E G s)) (vs_iter (st_running E G s)) (st_items s)) /\
      forall W' (G : foreign W' T Q BH) (q : Q) (w1 : W'),
        (exists p, expected sh p /\ fst (st_get E G s q w1) = Panic p /\ fst (st_contains E G s q w1) = Panic p) \/
        exists o, fst (st_get E G s q w1) = Ok o /\ (forall y, o = Some y -> In y payload) /\
          fst (st_contains E G s q w1) = Ok (match o with Some _ => true | None => false end)
  | Panic p => fits S_ty (zlen payload) -> expected sh p
  | UB _ | OutOfFuel => False
  end.
Proof.
  intros W T Q BH F E S_ty sh payload w HE HS Hz.
  pose proof (special_construction W T Q unit BH F E S_ty sh (with_unit payload) w HE HS) as Hc.
  unfold st_from_vec. pose proof (sp_built F E S_ty sh (with_unit payload) w) as Hb.
  destruct (sp_from_vec F E S_ty sh (with_unit payload) w) as [[s|p|u|] w']; cbn [fst] in *; auto.
  2:{ now rewrite <- (with_unit_len payload). }
  destruct (Hb s w' HE HS eq_refl) as (Hs & HP & Hsh). destruct (st_perm payload s HP) as (HP' & Hl).
  split; auto. split; [intros W' G; split; [exact Hl|now apply (st_runs E G payload)]|].
  intros W' G q w1. rewrite st_contains_get. unfold st_get, sp_get_key_value, mbind.
  destruct (sp_find_cases G E s q w1 Hs) as [(p & w2 & -> & Hp)|[(w2 & ->)|(i & e & w2 & -> & He)]]; cbn [lift fst over].
  - left. exists p. rewrite Hsh in Hp. auto.
  - right. exists None. split; auto. split; auto. discriminate.
  - right. rewrite He. exists (Some (fst e)). split; auto. split; auto. intros y [= <-].
    apply (Permutation_in _ (Permutation_sym HP')). apply in_map. eapply nth_error_In; eauto.
Qed.

(** ** The calls made *)

Section Calls.
Context {W T BH : Type}.
Variable F : foreign W T T BH.
Variable E : env.
Notation R := (witness (V := unit) F).

(** The record may already hold something. *)
Lemma st_contains_asked sh n placed (s : special T unit BH) x : stored sh n placed s -> forall w l, exists r w' c,
  st_contains E R s x (w, l) = (r, (w', l ++ c)) /\ set_asked (prof E) sh n placed x (outcome r) c /\
  ((exists p, r = Panic p) \/ exists b, r = Ok b).
Proof.
  intros Hs w l. destruct (find_traces (V := unit) F E sh n placed s x Hs w l) as (r & w1 & c & Hf & _ & Ha).
  rewrite st_contains_get. unfold st_get, sp_get_key_value, mbind. rewrite Hf.
  destruct (lookup_sane _ _ _ _ _ _ _ Ha) as [([i|] & ->)|(pn & ->)].
  - destruct (stored_entry _ _ _ _ _ _ _ _ Hs Ha) as (e & He). cbn [lift]. rewrite He. cbn [option_map over].
    do 3 eexists. split; [reflexivity|]. split; [exists (Ok (Some i)); split; [exact Ha|exact I]|eauto].
  - cbn [lift option_map over]. do 3 eexists. split; [reflexivity|]. split; [exists (Ok None); split; [exact Ha|exact I]|eauto].
  - cbn [over]. do 3 eexists. split; [reflexivity|]. split; [exists (Panic pn); split; [exact Ha|reflexivity]|eauto].
Qed.
End Calls.

Lemma combine_with_unit {A T} (l : list A) (p : list T) :
  map (fun x : A * (T * unit) => (fst x, fst (snd x))) (combine l (with_unit p)) = combine l p.
Proof. revert p. induction l as [|a l IH]; intros [|x p]; cbn; auto. f_equal. apply IH. Qed.

Lemma st_placed {W T BH} (F : foreign W T T BH) E S_ty sh (payload : list T) w s w' :
  env_ok E -> fits S_ty (zlen payload) -> st_from_vec E F S_ty sh payload w = (Ok s, w') ->
  exists n placed, placement F E S_ty sh payload w n placed /\ st_items s = map snd placed /\ stored sh n placed s.
Proof.
  intros HE HF Hs. unfold st_from_vec in Hs.
  rewrite <- (with_unit_len payload) in HF.
  destruct (special_construction_stored W T T unit BH F E S_ty sh (with_unit payload) w HE HF) as (r & w1 & log & H1 & H2 & H).
  rewrite Hs in H2. injection H2 as <- <-.
  assert (Hcase : sh = Scanning \/ sh <> Scanning) by (destruct sh; auto; right; discriminate).
  destruct Hcase as [->|Hsh].
  { destruct H as (_ & [= ->] & Hst). exists 1, (map (pair 0) payload).
    assert (Hm : map (fun e : T * unit => (0, fst e)) (with_unit payload) = map (pair 0) payload)
      by (unfold with_unit; rewrite map_map; reflexivity).
    rewrite Hm in Hst. split; [reflexivity|]. split; [|exact Hst].
    unfold st_items. cbn [sp_entries]. rewrite with_unit_keys, map_map. symmetry. apply map_id. }
  assert (H' : exists rc, codes_asked (prof E) sh (map fst (with_unit payload)) rc log /\
        match rc with
        | Ok codes =>
            exists m n placed, Ok s = Ok m /\ 1 <= n /\
              Permutation (combine codes (with_unit payload)) placed /\ sp_entries m = map snd placed /\
              stored sh n (map (fun x => (fst x, fst (snd x))) placed) m
        | Panic p => Ok s = Panic p
        | UB _ | OutOfFuel => False
        end) by (destruct sh; [congruence|exact H..]). clear H.
  destruct H' as (rc & Hrc & H). destruct rc as [codes|p|u|]; try discriminate; try contradiction.
  destruct H as (m & n & placed & [= <-] & Hn & HP & He & Hst).
  exists n, (map (fun x => (fst x, fst (snd x))) placed). split; [|split; [|exact Hst]].
  - rewrite with_unit_keys in Hrc.
    assert (Hp : Permutation (combine codes payload) (map (fun x => (fst x, fst (snd x))) placed)).
    { rewrite <- combine_with_unit. now apply Permutation_map. }
    destruct sh; [congruence|..]; (split; [exact Hn|]; exists codes, s, w', log; auto).
  - unfold st_items. rewrite He, !map_map. reflexivity.
Qed.

Lemma special_set_operations :
  forall (W T BH : Type) (F : foreign W T T BH) (E : env) (S1 S2 : int_type) (sh1 sh2 : shape BH)
         (p1 p2 : list T) (s1 s2 : special T unit BH) (w1 w1' w2 w2' : W) (fuel : nat),
  env_ok E -> fits S1 (zlen p1) -> fits S2 (zlen p2) ->
  st_from_vec E F S1 sh1 p1 w1 = (Ok s1, w1') -> st_from_vec E F S2 sh2 p2 w2 = (Ok s2, w2') ->
  (length p1 < fuel)%nat -> (length p2 < fuel)%nat ->
  let r1 := st_running E (witness F) s1 in
  let r2 := st_running E (witness F) s2 in
  let start := v_op_new r1 r2 in
  let asks2 := ask Second (st_items s1) in
  let asks1 := ask First (st_items s2) in
  exists n1 placed1 n2 placed2,
  placement F E S1 sh1 p1 w1 n1 placed1 /\ st_items s1 = map snd placed1 /\
  placement F E S2 sh2 p2 w2 n2 placed2 /\ st_items s2 = map snd placed2 /\
  let per := answered (set_asked (prof E) sh1 n1 placed1) (set_asked (prof E) sh2 n2 placed2) in
  (if zlen p2 <? zlen p1 then sifting_with (v_union fuel r1 r2) start (st_items s1) asks1 false per
   else sifting_with (v_union fuel r1 r2) start (st_items s2) asks2 false per) /\
  (if zlen p1 <? zlen p2 then sifting_with (v_intersection fuel r1 r2) start [] asks2 true per
   else sifting_with (v_intersection fuel r1 r2) start [] asks1 true per) /\
  sifting_with (v_difference fuel r1 r2) start [] asks2 false per /\
  sifting_with (v_symmetric_difference fuel r1 r2) start [] (asks2 ++ asks1) false per /\
  checking_with (v_is_disjoint fuel r1 r2) asks2 false per /\
  (if zlen p1 <=? zlen p2 then checking_with (v_is_subset fuel r1 r2) asks2 true per
   else forall w, v_is_subset fuel r1 r2 w = (Ok false, w)) /\
  (if zlen p2 <=? zlen p1 then checking_with (v_is_superset fuel r1 r2) asks1 true per
   else forall w, v_is_superset fuel r1 r2 w = (Ok false, w)) /\
  (if zlen p1 =? zlen p2 then checking_with (v_set_eq fuel r1 r2) asks2 true per
   else forall w, v_set_eq fuel r1 r2 w = (Ok false, w)).
Proof.
  intros W T BH F E S1 S2 sh1 sh2 p1 p2 s1 s2 w1 w1' w2 w2' fuel HE Hf1 Hf2 B1 B2 L1 L2 r1 r2 start asks2 asks1.
  destruct (st_placed F E S1 sh1 p1 w1 s1 w1' HE Hf1 B1) as (n1 & placed1 & Hp1 & Hi1 & Hs1).
  destruct (st_placed F E S2 sh2 p2 w2 s2 w2' HE Hf2 B2) as (n2 & placed2 & Hp2 & Hi2 & Hs2).
  exists n1, placed1, n2, placed2. do 4 (split; auto).
  destruct (st_perm p1 s1) as (P1 & Z1).
  { apply (sp_built F E S1 sh1 (with_unit p1) w1 s1 w1'); auto. apply Hf1. }
  destruct (st_perm p2 s2) as (P2 & Z2).
  { apply (sp_built F E S2 sh2 (with_unit p2) w2 s2 w2'); auto. apply Hf2. }
  cbv zeta. rewrite <- Z1, <- Z2.
  rewrite (Permutation_length P1) in L1. rewrite (Permutation_length P2) in L2.
  apply (joint_operations r1 r2 (fun _ => True)); auto.
  - intros a _ w l. destruct (st_contains_asked F E sh1 n1 placed1 s1 a Hs1 w l) as (r & w' & c & H & Ha & _). eauto.
  - intros a _ w l. destruct (st_contains_asked F E sh2 n2 placed2 s2 a Hs2 w l) as (r & w' & c & H & Ha & _). eauto.
  - apply (st_runs E (witness F) p1); auto. apply (fits_small _ _ Hf1).
  - apply (st_runs E (witness F) p2); auto. apply (fits_small _ _ Hf2).
  - intros x [w l] _. destruct (st_contains_asked F E sh1 n1 placed1 s1 x Hs1 w l) as (r & w' & c & H & _ & Hr).
    cbn [r1 st_running vs_contains]. rewrite H. exact Hr.
  - intros x [w l] _. destruct (st_contains_asked F E sh2 n2 placed2 s2 x Hs2 w l) as (r & w' & c & H & _ & Hr).
    cbn [r2 st_running vs_contains]. rewrite H. exact Hr.
Qed.

(** ** Lawful code *)

Lemma results_firstn {A} : forall n (l : list A), results n l = firstn n (map Some l) ++ repeat None (n - length l).
Proof.
  induction n as [|n IH]; intros [|a l]; cbn [results firstn map app length repeat]; auto.
  - rewrite IH. cbn [map firstn length]. rewrite firstn_nil, Nat.sub_0_r. reflexivity.
  - now rewrite IH.
Qed.

Section Truth.
Context {T : Type}.
Variable truth : question T -> bool.
Notation right n := (snd n = inl (truth (fst n))).

Lemma replies_true wanted (log : notes T) : (forall n, In n log -> right n) ->
  flat_map (reply wanted) log = map (fun q => Ok (Some (snd q))) (filter (fun q => Bool.eqb (truth q) wanted) (map fst log)).
Proof.
  induction log as [|n log IH]; intros H; cbn [flat_map map filter]; auto.
  rewrite IH by (intros; apply H; now right). unfold reply at 1. rewrite (H n (or_introl eq_refl)).
  destruct (Bool.eqb _ _); reflexivity.
Qed.

Lemma firstn_prefix {A} n (l rest : list A) : (n <= length l)%nat -> firstn n (l ++ rest) = firstn n l.
Proof. intros H. rewrite firstn_app. replace (n - length l)%nat with O by lia. cbn [firstn]. now rewrite app_nil_r. Qed.

Lemma sifts_true lead (qs : list (question T)) wanted os log : sifts lead qs wanted os log ->
  (forall n, In n log -> right n) ->
  os = map Ok (results (length os) (lead ++ map snd (filter (fun q => Bool.eqb (truth q) wanted) qs))).
Proof.
  intros (Ho & (rest & Hp) & Hall & _) Ht. rewrite (replies_true wanted log Ht) in *. cbv zeta in *.
  set (sel := filter (fun q => Bool.eqb (truth q) wanted)) in *.
  assert (Hg : map (fun x => Ok (Some x)) lead ++ map (fun q : side * T => Ok (Some (snd q))) (sel (map fst log)) =
    map Ok (map Some (lead ++ map snd (sel (map fst log))))).
  { rewrite !map_app, !map_map. reflexivity. }
  rewrite Hg in Ho, Hall. rewrite !map_length in Ho, Hall. set (g := lead ++ map snd (sel (map fst log))) in *.
  assert (Hr : forall n l, map Ok (results n l) = firstn n (map Ok (map Some l)) ++ repeat (Ok (@None T)) (n - length l)).
  { intros n l. rewrite results_firstn, map_app, !firstn_map. f_equal. induction (n - length l)%nat as [|k IHk]; cbn [repeat map]; [reflexivity|now rewrite IHk]. }
  rewrite Hr. destruct (le_lt_dec (length os) (length g)) as [Hle|Hlt].
  - assert (Hpre : exists more, lead ++ map snd (sel qs) = g ++ more).
    { exists (map snd (sel rest)). unfold g. rewrite Hp. unfold sel. rewrite filter_app, map_app, app_assoc. reflexivity. }
    destruct Hpre as (more & ->). rewrite !map_app, firstn_prefix by (now rewrite !map_length).
    rewrite app_length. replace (length os - (length g + length more))%nat with (length os - length g)%nat by lia. exact Ho.
  - rewrite <- (Hall Hlt). exact Ho.
Qed.

Lemma checks_true (qs : list (question T)) wanted r log : checks qs wanted r log ->
  (forall n, In n log -> right n) -> r = Ok (forallb (fun q => Bool.eqb (truth q) wanted) qs).
Proof.
  intros Hc Ht. destruct r as [[]|p|u|]; cbn [checks] in Hc; try contradiction.
  - f_equal. symmetry. apply forallb_forall. intros q Hq. specialize (Ht (q, inl wanted)). cbn [fst snd] in Ht.
    assert (Hi : inl wanted = inl (truth q) :> bool + panic) by (apply Ht; subst log; now apply (in_map (fun q => (q, inl wanted)))).
    injection Hi as <-. apply eqb_reflx.
  - destruct Hc as (before & q & after & -> & ->). f_equal. symmetry. rewrite forallb_app. cbn [forallb].
    specialize (Ht (q, inl (negb wanted)) ltac:(apply in_or_app; right; now left)). cbn [fst snd] in Ht.
    injection Ht as <-. destruct (forallb _ before), wanted; reflexivity.
  - destruct Hc as (before & q & after & -> & ->).
    specialize (Ht (q, inr p) ltac:(apply in_or_app; right; now left)). discriminate.
Qed.
End Truth.

Lemma map_snd_ask {T} which (g : question T -> bool) (f : T -> bool) l : (forall x, g (which, x) = f x) ->
  map snd (filter g (ask which l)) = filter f l.
Proof.
  intros H. induction l as [|a l IH]; cbn; auto. rewrite H. destruct (f a); cbn; [f_equal|]; exact IH.
Qed.
Lemma forallb_ask {T} which (f : question T -> bool) l : forallb f (ask which l) = forallb (fun x => f (which, x)) l.
Proof. induction l as [|a l IH]; cbn; auto. f_equal. exact IH. Qed.

Section Lawful.
Context {W T St1 St2 : Type}.
Variable eqb : T -> T -> bool.
Variable D : T -> Prop.
Variable v1 : vol_set W T St1.
Variable v2 : vol_set W T St2.
Variables i1 i2 : list T.
Variable fuel : nat.
Hypothesis He : equivalence eqb.
Hypothesis V1 : serves eqb D v1 i1.
Hypothesis V2 : serves eqb D v2 i2.
Hypothesis F1 : (length i1 < fuel)%nat.
Hypothesis F2 : (length i2 < fuel)%nat.
Notation n1 := (noted First v1).
Notation n2 := (noted Second v2).
Notation inb l x := (existsb (eqb x) l).

Definition in_truth (q : question T) : bool := inb (match fst q with First => i1 | Second => i2 end) (snd q).
Definition honest (wn : W * notes T) : Prop :=
  forall n, In n (snd wn) -> D (snd (fst n)) -> snd n = inl (in_truth (fst n)).

Lemma serves_answer {St} (v : vol_set W T St) items x w : serves eqb D v items -> D x ->
  fst (vs_contains v x w) = Ok (inb items x).
Proof.
  intros Hv Hx. destruct (sv_contains _ _ _ _ Hv x w Hx) as (b & -> & Hb). f_equal.
  apply eq_true_iff_eq. rewrite Hb. symmetry. now apply existsb_member.
Qed.

Lemma honest1 a wn : honest wn -> honest (snd (vs_contains n1 a wn)).
Proof.
  destruct wn as [w log]. intros H. cbn [noted vs_contains fst snd].
  pose proof (serves_answer v1 i1 a w V1) as Ha. destruct (vs_contains v1 a w) as [r w']. cbn [fst] in Ha.
  intros n Hn Hd. cbn [snd] in Hn. apply in_app_or in Hn. destruct Hn as [Hn|[<-|[]]]; [now apply H|].
  cbn [fst snd] in *. rewrite (Ha Hd). reflexivity.
Qed.
Lemma honest2 a wn : honest wn -> honest (snd (vs_contains n2 a wn)).
Proof.
  destruct wn as [w log]. intros H. cbn [noted vs_contains fst snd].
  pose proof (serves_answer v2 i2 a w V2) as Ha. destruct (vs_contains v2 a w) as [r w']. cbn [fst] in Ha.
  intros n Hn Hd. cbn [snd] in Hn. apply in_app_or in Hn. destruct Hn as [Hn|[<-|[]]]; [now apply H|].
  cbn [fst snd] in *. rewrite (Ha Hd). reflexivity.
Qed.
Lemma honest_start w : honest (w, []).
Proof. intros n []. Qed.

Lemma sifting_honest next nextn st lead qs wanted :
  (forall between w log, exists log', v_calls nextn (map aside between) (st, (w, log)) =
      let (os, x) := v_calls next between (st, w) in (os, (fst x, (snd x, log')))) ->
  sifting (S1 := St1) (S2 := St2) nextn st lead qs wanted -> keeps honest nextn -> (forall q, In q qs -> D (snd q)) ->
  steadily next st (lead ++ map snd (filter (fun q => Bool.eqb (in_truth q) wanted) qs)).
Proof.
  intros Hsame Hsift Hkeep Hq between w. destruct (Hsame between w []) as (log & H). specialize (Hsift between w).
  assert (Ht : honest (snd (snd (v_calls nextn (map aside between) (st, (w, [])))))).
  { apply keeps_calls; [exact Hkeep| |apply honest_start].
    intros f Hf wn Hwn. apply in_map_iff in Hf. destruct Hf as (g & <- & _). exact Hwn. }
  unfold notes, question in *. rewrite H in Hsift, Ht. destruct (v_calls next between (st, w)) as [os x].
  cbn [fst snd] in *. destruct Hsift as (Hl & Hs). rewrite <- Hl. apply (sifts_true in_truth _ _ _ _ _ Hs).
  intros n Hn. apply Ht; auto. destruct Hs as (_ & Hp & _). eapply kinds_of_prefix; eauto.
Qed.
Lemma checking_honest (m : M W bool) mn qs wanted :
  (forall w log, exists log', mn (w, log) = let (r, w') := m w in (r, (w', log'))) ->
  checking mn qs wanted -> (forall wn, honest wn -> honest (snd (mn wn))) -> (forall q, In q qs -> D (snd q)) ->
  forall w, fst (m w) = Ok (forallb (fun q => Bool.eqb (in_truth q) wanted) qs).
Proof.
  unfold checking. intros Hsame Hcheck Hkeep Hq w. destruct (Hsame w []) as (log & H). specialize (Hcheck w).
  pose proof (Hkeep _ (honest_start w)) as Ht. unfold notes, question in *. rewrite H in Hcheck, Ht.
  destruct (m w) as [r x]. cbn [fst snd] in *. apply (checks_true in_truth _ _ _ _ Hcheck).
  intros n Hn. apply Ht; auto. eapply kinds_of_prefix; [eapply checks_asked|..]; eauto.
Qed.

(** The same sets without foreign state. *)
Definition plain (items : list T) : set_impl T :=
  {| s_items := items; s_len := zlen items; s_contains := fun x => Ok (inb items x) |}.
Lemma plain_lawful {St} (v : vol_set W T St) items : serves eqb D v items -> lawful_set eqb D (plain items).
Proof.
  intros Hv. split; [apply (sv_typed _ _ _ _ Hv)|reflexivity|]. intros x _. eexists. split; [reflexivity|].
  now apply existsb_member.
Qed.
Lemma eqb_true_id b : Bool.eqb b true = b.
Proof. now destruct b. Qed.
Lemma eqb_false_not b : Bool.eqb b false = negb b.
Proof. now destruct b. Qed.
Lemma all_plain (f : T -> bool) l : all_res (fun x => Ok (f x)) l = Ok (forallb f l).
Proof. now apply all_res_forallb. Qed.
Lemma forallb_equal {A} (f g : A -> bool) l : (forall a, f a = g a) -> forallb f l = forallb g l.
Proof. intros H. induction l as [|a l IH]; cbn; congruence. Qed.

Lemma serving_operations :
  let start := v_op_new v1 v2 in
  let lacks l x := negb (inb l x) in
  let has l x := inb l x in
  steadily (v_union fuel v1 v2) start
    (if zlen i2 <? zlen i1 then i1 ++ filter (lacks i1) i2 else i2 ++ filter (lacks i2) i1) /\
  steadily (v_intersection fuel v1 v2) start (if zlen i1 <? zlen i2 then filter (has i2) i1 else filter (has i1) i2) /\
  steadily (v_difference fuel v1 v2) start (filter (lacks i2) i1) /\
  steadily (v_symmetric_difference fuel v1 v2) start (filter (lacks i2) i1 ++ filter (lacks i1) i2) /\
  forall w,
  fst (v_is_disjoint fuel v1 v2 w) = is_disjoint (plain i1) (plain i2) /\
  fst (v_is_subset fuel v1 v2 w) = is_subset (plain i1) (plain i2) /\
  fst (v_is_superset fuel v1 v2 w) = is_superset (plain i1) (plain i2) /\
  fst (v_set_eq fuel v1 v2 w) = set_eq (plain i1) (plain i2).
Proof.
  intros start lacks has.
  assert (Q1 : forall q, In q (ask First i2) -> D (snd q)).
  { intros q Hq. apply in_map_iff in Hq. destruct Hq as (x & <- & Hx). now apply (sv_typed _ _ _ _ V2). }
  assert (Q2 : forall q, In q (ask Second i1) -> D (snd q)).
  { intros q Hq. apply in_map_iff in Hq. destruct Hq as (x & <- & Hx). now apply (sv_typed _ _ _ _ V1). }
  assert (Q : forall q, In q (ask Second i1 ++ ask First i2) -> D (snd q)).
  { intros q Hq. apply in_app_or in Hq. destruct Hq; auto. }
  assert (A1 : forall x w, In x i2 -> (exists p, fst (vs_contains v1 x w) = Panic p) \/ exists b, fst (vs_contains v1 x w) = Ok b).
  { intros x w Hx. right. eexists. apply (serves_answer v1 i1 x w V1). now apply (sv_typed _ _ _ _ V2). }
  assert (A2 : forall x w, In x i1 -> (exists p, fst (vs_contains v2 x w) = Panic p) \/ exists b, fst (vs_contains v2 x w) = Ok b).
  { intros x w Hx. right. eexists. apply (serves_answer v2 i2 x w V2). now apply (sv_typed _ _ _ _ V1). }
  destruct (volatile_operations W T _ _ v1 v2 i1 i2 fuel (sv_iter _ _ _ _ V1) (sv_iter _ _ _ _ V2) A1 A2 F1 F2)
    as (A & B & C & G0 & G & H & I & J).
  cbv zeta in *. rewrite (sv_len _ _ _ _ V1), (sv_len _ _ _ _ V2) in *.
  pose proof (fun between w log => notes_change_nothing W T _ _ v1 v2 fuel between start w log) as N.
  pose proof (keeps_union honest n1 n2 fuel honest1 honest2) as KU.
  pose proof (keeps_intersection honest n1 n2 fuel honest1 honest2) as KI.
  pose proof (keeps_difference honest n1 n2 fuel honest2) as KD.
  pose proof (keeps_symmetric_difference honest n1 n2 fuel honest1 honest2) as KS.
  pose proof (keeps_answers honest n1 n2 fuel honest1 honest2) as KA.
  assert (E1 : forall l, map snd (filter (fun q => Bool.eqb (in_truth q) false) (ask First l)) = filter (lacks i1) l).
  { intros l. apply map_snd_ask. intros x. apply eqb_false_not. }
  assert (E2 : forall l, map snd (filter (fun q => Bool.eqb (in_truth q) false) (ask Second l)) = filter (lacks i2) l).
  { intros l. apply map_snd_ask. intros x. apply eqb_false_not. }
  assert (E3 : forall l, map snd (filter (fun q => Bool.eqb (in_truth q) true) (ask First l)) = filter (has i1) l).
  { intros l. apply map_snd_ask. intros x. apply eqb_true_id. }
  assert (E4 : forall l, map snd (filter (fun q => Bool.eqb (in_truth q) true) (ask Second l)) = filter (has i2) l).
  { intros l. apply map_snd_ask. intros x. apply eqb_true_id. }
  split.
  { assert (Hsame := fun between w log => proj1 (N between w log)).
    destruct (zlen i2 <? zlen i1); [rewrite <- E1|rewrite <- E2];
      (eapply sifting_honest; [exact Hsame|exact A|exact KU|assumption]). }
  split.
  { assert (Hsame := fun between w log => proj1 (proj2 (N between w log))).
    destruct (zlen i1 <? zlen i2); [rewrite <- E4|rewrite <- E3];
      (eapply (sifting_honest _ _ _ []); [exact Hsame|exact B|exact KI|assumption]). }
  split.
  { rewrite <- E2. eapply (sifting_honest _ _ _ []); [exact (fun between w log => proj1 (proj2 (proj2 (N between w log))))|exact C|exact KD|assumption]. }
  split.
  { rewrite <- E1, <- E2, <- map_app, <- filter_app.
    eapply (sifting_honest _ _ _ []); [exact (fun between w log => proj1 (proj2 (proj2 (proj2 (N between w log)))))|exact G0|exact KS|assumption]. }
  assert (N' := fun w log => proj2 (proj2 (proj2 (proj2 (N [] w log))))). clear N. cbv zeta in N'.
  assert (B2 : forall l, forallb (fun q => Bool.eqb (in_truth q) false) (ask Second l) = forallb (fun x => negb (inb i2 x)) l).
  { intros l. rewrite forallb_ask. apply forallb_equal. intros x. apply eqb_false_not. }
  assert (B4 : forall l, forallb (fun q => Bool.eqb (in_truth q) true) (ask Second l) = forallb (fun x => inb i2 x) l).
  { intros l. rewrite forallb_ask. apply forallb_equal. intros x. apply eqb_true_id. }
  assert (B3 : forall l, forallb (fun q => Bool.eqb (in_truth q) true) (ask First l) = forallb (fun x => inb i1 x) l).
  { intros l. rewrite forallb_ask. apply forallb_equal. intros x. apply eqb_true_id. }
  intros w. unfold is_disjoint, is_subset, is_superset, set_eq, not_in. cbn [plain s_len s_items s_contains bind].
  rewrite Z.leb_refl, !all_plain. split.
  { rewrite <- B2. eapply checking_honest; [exact (fun w log => proj1 (N' w log))|exact G|exact (fun wn Hwn => proj1 (KA wn Hwn))|assumption]. }
  split.
  { destruct (zlen i1 <=? zlen i2) eqn:El.
    - rewrite <- B4. eapply checking_honest; [exact (fun w log => proj1 (proj2 (N' w log)))|exact H|exact (fun wn Hwn => proj1 (proj2 (KA wn Hwn)))|assumption].
    - unfold v_is_subset, v_start. rewrite (sv_len _ _ _ _ V1), (sv_len _ _ _ _ V2), El. reflexivity. }
  split.
  { destruct (zlen i2 <=? zlen i1) eqn:El.
    - rewrite <- B3. eapply checking_honest; [exact (fun w log => proj1 (proj2 (proj2 (N' w log))))|exact I|exact (fun wn Hwn => proj1 (proj2 (proj2 (KA wn Hwn))))|assumption].
    - unfold v_is_superset, v_start. rewrite (sv_len _ _ _ _ V1), (sv_len _ _ _ _ V2), El. reflexivity. }
  destruct (zlen i1 =? zlen i2) eqn:El; cbn [negb].
  - rewrite <- B4. eapply checking_honest; [exact (fun w log => proj2 (proj2 (proj2 (N' w log))))|exact J|exact (fun wn Hwn => proj2 (proj2 (proj2 (KA wn Hwn))))|assumption].
  - unfold v_set_eq, v_start. rewrite (sv_len _ _ _ _ V1), (sv_len _ _ _ _ V2), El. reflexivity.
Qed.
End Lawful.

Lemma lawful_volatile_operations :
  forall (W T St1 St2 : Type) (eqb : T -> T -> bool) (D : T -> Prop) (v1 : vol_set W T St1) (v2 : vol_set W T St2)
         (i1 i2 : list T) (fuel : nat),
  equivalence eqb -> serves eqb D v1 i1 -> serves eqb D v2 i2 -> (length i1 < fuel)%nat -> (length i2 < fuel)%nat ->
  let start := v_op_new v1 v2 in
  let lacks l x := negb (existsb (eqb x) l) in
  let has l x := existsb (eqb x) l in
  steadily (v_union fuel v1 v2) start
    (if zlen i2 <? zlen i1 then i1 ++ filter (lacks i1) i2 else i2 ++ filter (lacks i2) i1) /\
  steadily (v_intersection fuel v1 v2) start (if zlen i1 <? zlen i2 then filter (has i2) i1 else filter (has i1) i2) /\
  steadily (v_difference fuel v1 v2) start (filter (lacks i2) i1) /\
  steadily (v_symmetric_difference fuel v1 v2) start (filter (lacks i2) i1 ++ filter (lacks i1) i2) /\
  forall w : W,
  (exists b, fst (v_is_disjoint fuel v1 v2 w) = Ok b /\
     (b = true <-> forall x, ~ (member eqb i1 x /\ member eqb i2 x))) /\
  (distinct eqb i1 -> exists b, fst (v_is_subset fuel v1 v2 w) = Ok b /\
     (b = true <-> forall x, member eqb i1 x -> member eqb i2 x)) /\
  (distinct eqb i2 -> exists b, fst (v_is_superset fuel v1 v2 w) = Ok b /\
     (b = true <-> forall x, member eqb i2 x -> member eqb i1 x)) /\
  (distinct eqb i1 -> distinct eqb i2 -> exists b, fst (v_set_eq fuel v1 v2 w) = Ok b /\
     (b = true <-> forall x, member eqb i1 x <-> member eqb i2 x)).
Proof.
  intros W T St1 St2 eqb D v1 v2 i1 i2 fuel He V1 V2 F1 F2 start lacks has.
  destruct (serving_operations eqb D v1 v2 i1 i2 fuel He V1 V2 F1 F2) as (A & B & C & G & H).
  do 4 (split; auto). intros w. destruct (H w) as (-> & -> & -> & ->).
  pose proof (plain_lawful eqb D He v1 i1 V1) as P1. pose proof (plain_lawful eqb D He v2 i2 V2) as P2.
  destruct (set_relations eqb D _ _ He P1 P2) as (R1 & R2 & R3).
  split; auto. split; auto. split; auto. intros D1 D2. now apply (set_eq_extensional eqb D _ _ He P1 P2).
Qed.

(** A specialized set over lawful items serves them. *)
Lemma lawful_special_set :
  forall (W T Q BH : Type) (F : foreign W T Q BH) (a : oracle T Q BH) (E : env) (S_ty : int_type) (sh : shape BH)
         (payload : list T) (w : W),
  regular_foreign F a -> env_ok E -> fits S_ty (zlen payload) -> equivalence (a_eq a) -> fitting a sh payload ->
  exists s w', st_from_vec E F S_ty sh payload w = (Ok s, w') /\ Permutation payload (st_items s) /\
  forall q w1,
    (exists x, In x payload /\ a_eq a q (a_borrow a x) = true /\
       fst (st_get E F s q w1) = Ok (Some x) /\ fst (st_contains E F s q w1) = Ok true) \/
    ((forall x, In x payload -> a_eq a q (a_borrow a x) = false) /\
       fst (st_get E F s q w1) = Ok None /\ fst (st_contains E F s q w1) = Ok false).
Proof.
  intros W T Q BH F a E S_ty sh payload w HF HE HS He Hfit.
  rewrite <- (with_unit_len payload) in HS. rewrite <- (with_unit_keys payload) in Hfit.
  destruct (lawful_special F a E HF S_ty sh (with_unit payload) w HE HS Hfit) as (s & Hs & HP & Ho).
  unfold st_from_vec. destruct (sp_from_vec F E S_ty sh (with_unit payload) w) as [r w']. cbn [fst] in Hs. subst r.
  destruct (st_perm payload s HP) as (HP' & _).
  exists s, w'. split; auto. split; auto. intros q w1.
  pose proof (lawful_find F a E HF sh s q He Ho w1) as Hf.
  assert (Hg : fst (st_get E F s q w1) =
    Ok (option_map fst (match find_pos (names (a_eq a) (a_borrow a) q) (sp_entries s) with
                        | Some i => nth_error (sp_entries s) i | None => None end))).
  { unfold st_get, sp_get_key_value, mbind. destruct (sp_find F E s q w1) as [r w2]. cbn [fst] in Hf. subst r. reflexivity. }
  assert (Hc : fst (st_contains E F s q w1) = over (fun o => match o with Some _ => true | None => false end) (fst (st_get E F s q w1))).
  { rewrite st_contains_get. now destruct (st_get E F s q w1). }
  rewrite Hc, Hg. clear Hc Hg Hf.
  destruct (find_pos (names (a_eq a) (a_borrow a) q) (sp_entries s)) as [i|] eqn:Hp.
  - destruct (find_pos_some _ _ _ Hp) as (e & He1 & He2). rewrite He1. left. exists (fst e). split.
    { apply (Permutation_in _ (Permutation_sym HP')). apply in_map. eapply nth_error_In; eauto. }
    split; [exact (proj1 He2)|split; reflexivity].
  - right. split; [|split; reflexivity]. intros x Hx. apply (Permutation_in _ HP') in Hx.
    apply in_map_iff in Hx. destruct Hx as (e & <- & Hx). exact (proj1 (find_pos_none _ _) Hp e Hx).
Qed.

Lemma lawful_special_serves :
  forall (W T BH : Type) (F : foreign W T T BH) (a : oracle T T BH) (E : env) (S_ty : int_type) (sh : shape BH)
         (payload : list T) (s : special T unit BH) (w w' : W),
  regular_foreign F a -> env_ok E -> fits S_ty (zlen payload) -> equivalence (a_eq a) -> fitting a sh payload ->
  (forall x, a_borrow a x = x) ->
  st_from_vec E F S_ty sh payload w = (Ok s, w') ->
  serves (a_eq a) (fun _ => True) (st_running E F s) (st_items s) /\ Permutation payload (st_items s).
Proof.
  intros W T BH F a E S_ty sh payload s w w' HF HE HS He Hfit Hb Hs.
  destruct (lawful_special_set W T T BH F a E S_ty sh payload w HF HE HS He Hfit) as (s' & w2 & Hs' & HP & Hq).
  rewrite Hs in Hs'. injection Hs' as <- <-. split; auto. split; auto.
  - cbn [st_running vs_len]. unfold st_items, zlen. now rewrite map_length.
  - apply (st_runs E F payload); auto. apply (fits_small _ _ HS).
  - intros x w1 _. cbn [st_running vs_contains]. destruct (Hq x w1) as [(y & Hy & Hxy & _ & ->)|(Hn & _ & ->)].
    + exists true. split; auto. split; auto. intros _. exists y. rewrite Hb in Hxy. split; auto.
      now apply (Permutation_in _ HP).
    + exists false. split; auto. split; [discriminate|]. intros (y & Hy & Hxy).
      apply (Permutation_in _ (Permutation_sym HP)) in Hy. specialize (Hn y Hy). rewrite Hb in Hn. congruence.
Qed.

Lemma lawful_frozen_set_serves :
  forall (W O : Type) (F : conduct W O) (eqbO : O -> O -> bool) (E : env) (kd : kind) (bh : hasher O)
         (items : list (key O)) (s : set_types O) (w w' : W),
  regular F eqbO -> env_ok E -> equivalence eqbO -> lawful_hash eqbO bh ->
  countable (prof E) (zlen items) -> zlen items < 2 ^ 64 -> (forall y, In y items -> has_kind kd y) ->
  (kd = KindU32 -> distinct (key_eqb eqbO) items) ->
  v_fs_new F E kd items bh w = (Ok s, w') ->
  serves (key_eqb eqbO) (has_kind kd) (v_fs_running F E s) (fs_items s) /\ Permutation items (fs_items s).
Proof.
  intros W O F eqbO E kd bh items s w w' HF HE He Hl Hc Hz Ht Hd Hs.
  destruct (volatile_set_use W O F E kd bh items s w w' HE Hz Ht Hs) as (HP & Hlen & Hrun & _).
  split; auto. split.
  - intros x Hx. apply Ht. now apply (Permutation_in _ (Permutation_sym HP)).
  - rewrite Hlen. now apply zlen_perm.
  - exact Hrun.
  - intros x w1 Hx. cbn [v_fs_running vs_contains].
    assert (Hm : member (key_eqb eqbO) items x <-> member (key_eqb eqbO) (fs_items s) x).
    { split; intros (y & Hy & Hxy); exists y; split; auto; [now apply (Permutation_in _ HP)|now apply (Permutation_in _ (Permutation_sym HP))]. }
    destruct (lawful_set_items W O F eqbO E kd bh items s w w' w1 x HF HE He Hl Hc Hz Ht Hd Hs Hx) as [(H & -> & _)|(H & -> & _)].
    + exists true. tauto.
    + exists false. split; auto. split; [discriminate|tauto].
Qed.
