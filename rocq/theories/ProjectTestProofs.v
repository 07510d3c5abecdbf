From Coq Require Import String Ascii List ZArith Bool Lia Permutation.
From Verif Require Import Base BaseLemmas EqbLists SliceKeyAnalyzer HashCodeAnalyzer IntKeyAnalyzer HashTable Maps
  FrozenMap FrozenMapFacts Iterators Sets FrozenSet Constructors SpecializedConstructors MapObjects DebugModel MacroModel
  Spec IterSpec MapSpec SetSpec SizeSpec HistorySpec ObjectSpec CallSpec ProjectTests CollisionSpec
  MapsProofs ConstructorProofs SpecializedConstructorProofs MapObjectProofs ComponentTheorems MapTheorems SetTheorems TableSizeProofs LookupCostProofs DebugProofs MacroProofs.
Import ListNotations.
Open Scope Z_scope.

(** ** The analysis of slices depends on collisions only *)

Section Collisions.
Context {T : Type}.
Variables h1 h2 : list T -> Z.

Lemma take_subslice_window lj i l (s x : list T) : 1 <= l <= 16 -> take_subslice lj i l s = Ok x -> window_of s x.
Proof.
  intros Hl H. assert (Hs : forall a, slice_checked a (a + l) s = Ok x -> window_of s x).
  { intros a Ha. unfold slice_checked in Ha. destruct (range_ok a (a + l) s) eqn:Er; [|discriminate].
    injection Ha as <-. apply range_ok_iff in Er. unfold sub. replace (a + l - a) with l by lia. unfold zlen in Er. split.
    - rewrite firstn_length, skipn_length. lia.
    - exists (firstn (Z.to_nat a) s), (skipn (Z.to_nat l) (skipn (Z.to_nat a) s)).
      now rewrite firstn_skipn, firstn_skipn. }
  unfold take_subslice in H. destruct lj; [eauto|]. cbv zeta in H. destruct (_ <? 0); [discriminate|]. eauto.
Qed.

Variable all : list (list T).
Hypothesis Ha : collide_alike h1 h2 all.
Let win (x : list T) : Prop := exists s, In s all /\ window_of s x.

Lemma seen_alike x : forall seen, win x -> Forall win seen ->
  existsb (Z.eqb (h1 x)) (map h1 seen) = existsb (Z.eqb (h2 x)) (map h2 seen).
Proof.
  intros seen (s & Hs & Hx) HF. induction HF as [|y seen (t & Ht & Hy) HF IH]; [reflexivity|].
  cbn [map existsb]. rewrite IH. f_equal. specialize (Ha s t x y Hs Ht Hx Hy).
  destruct (Z.eqb_spec (h1 x) (h1 y)), (Z.eqb_spec (h2 x) (h2 y)); tauto.
Qed.

Lemma uniqueness_alike lj i l : 1 <= l <= 16 -> forall keys seen acc, incl keys all -> Forall win seen ->
  uniqueness_loop h1 lj i l keys (map h1 seen) acc = uniqueness_loop h2 lj i l keys (map h2 seen) acc.
Proof.
  intros Hl. induction keys as [|s keys IH]; intros seen acc Hin HF; [reflexivity|].
  cbn [uniqueness_loop]. destruct (take_subslice lj i l s) as [x| | |] eqn:Et; [|reflexivity..]. cbn [bind].
  assert (Hw : win x).
  { exists s. split; [apply Hin; now left|]. eapply take_subslice_window; eauto. }
  assert (Hin' : incl keys all) by (intros y Hy; apply Hin; now right).
  rewrite (seen_alike x seen Hw HF). destruct (existsb _ _).
  - destruct (acc =? 0); [reflexivity|]. now apply IH.
  - apply (IH (x :: seen)); auto.
Qed.

Lemma find_index_alike lj l acc keys : 1 <= l <= 16 -> incl keys all -> forall n i,
  find_index h1 keys l lj acc n i = find_index h2 keys l lj acc n i.
Proof.
  intros Hl Hin. induction n as [|n IH]; intros i; [reflexivity|]. cbn [find_index]. unfold is_sufficiently_unique.
  rewrite (uniqueness_alike lj i l Hl keys [] acc Hin (Forall_nil _) : _ h1 _ _ _ _ [] _ = _ h2 _ _ _ _ [] _).
  now rewrite IH.
Qed.

Lemma find_subslice_alike keys mn mx acc : incl keys all -> forall n l, 1 <= l -> l + Z.of_nat n <= 17 ->
  find_subslice h1 keys mn mx acc n l = find_subslice h2 keys mn mx acc n l.
Proof.
  intros Hin. induction n as [|n IH]; intros l H1 H2; [reflexivity|]. cbn [find_subslice].
  assert (Hl : 1 <= l <= 16) by lia. rewrite !(find_index_alike _ l acc keys Hl Hin), IH by lia. reflexivity.
Qed.
End Collisions.

Lemma analysis_sees_collisions :
  forall (T : Type) (h1 h2 : list T -> Z) (keys : list (list T)),
  collide_alike h1 h2 keys -> analyze_slice_keys h1 keys = analyze_slice_keys h2 keys.
Proof.
  intros T h1 h2 keys Ha. unfold analyze_slice_keys. destruct (analyze_lengths keys); auto.
  unfold analyze_subslices. apply (find_subslice_alike h1 h2 keys Ha); try lia. apply incl_refl.
Qed.

(** ** How construction from strings ends depends on collisions only *)

Lemma repeated_alike {A} (f g : A -> Z) : forall l : list A,
  (forall x y, In x l -> In y l -> (f x = f y <-> g x = g y)) -> repeated (map f l) = repeated (map g l).
Proof.
  induction l as [|x l IH]; intros H; [reflexivity|]. cbn [map]. rewrite !repeated_cons, IH by (intros; apply H; now right).
  f_equal. assert (Hin : In (f x) (map f l) <-> In (g x) (map g l)).
  { rewrite !in_map_iff. split; intros (y & Hy & Iy); exists y; split; auto; apply (H y x); auto; try (now left); now right. }
  destruct (in_dec Z.eq_dec (f x) _), (in_dec Z.eq_dec (g x) _); tauto.
Qed.

Lemma repeated_perm l l' : Permutation l l' -> repeated l = repeated l'.
Proof.
  induction 1 as [|x l l' HP IH|x y l|l1 l2 l3 _ IH1 _ IH2]; [reflexivity| | |congruence].
  - rewrite !repeated_cons, IH. f_equal. assert (H : In x l <-> In x l') by (split; apply Permutation_in; auto using Permutation_sym).
    destruct (in_dec _ x l), (in_dec _ x l'); tauto.
  - rewrite !repeated_cons.
    destruct (in_dec _ y (x :: l)) as [H1|H1], (in_dec _ x (y :: l)) as [H2|H2],
      (in_dec _ y l) as [H3|H3], (in_dec _ x l) as [H4|H4]; cbn [In] in *; try lia; exfalso;
      repeat match goal with H : _ \/ _ |- _ => destruct H end; subst; tauto.
Qed.

Section Alike.
Variables h1 h2 : list Z -> Z.
Variables keys1 keys2 : list (list Z).
Hypothesis HP : Permutation keys1 keys2.
Hypothesis Ha : collide_alike h1 h2 keys1.

Lemma keys_in s : In s keys2 <-> In s keys1.
Proof. split; apply Permutation_in; auto using Permutation_sym. Qed.

Lemma left_win_window i l (s : list Z) : (1 <= l <= 16)%nat -> (i + l <= length s)%nat -> window_of s (left_win i l s).
Proof.
  intros Hl Hi. unfold left_win. split; [rewrite firstn_length, skipn_length; lia|].
  exists (firstn i s), (skipn l (skipn i s)). now rewrite firstn_skipn, firstn_skipn.
Qed.

Lemma distinctive_alike w : (forall s, In s keys1 -> window_of s (w s)) ->
  (distinctive h1 w keys1 <-> distinctive h2 w keys2).
Proof.
  intros Hw. unfold distinctive.
  rewrite (repeated_alike (fun s => h1 (w s)) (fun s => h2 (w s)) keys1)
    by (intros x y Hx Hy; apply (Ha x y); auto).
  now rewrite (repeated_perm _ _ (Permutation_map _ HP)), (Permutation_length HP).
Qed.

Lemma left_window_alike l : (1 <= l <= 16)%nat -> (some_left_window h1 l keys1 <-> some_left_window h2 l keys2).
Proof.
  intros Hl. unfold some_left_window. split; intros (i & Hi & Hd); exists i.
  - split; [intros s Hs; apply Hi, keys_in, Hs|]. apply distinctive_alike in Hd; auto.
    intros s Hs. apply left_win_window; auto.
  - assert (Hi' : forall s, In s keys1 -> (i + l <= length s)%nat) by (intros s Hs; apply Hi, keys_in, Hs).
    split; auto. apply distinctive_alike; auto. intros s Hs. apply left_win_window; auto.
Qed.

Lemma right_byte_alike : some_right_byte h1 keys1 <-> some_right_byte h2 keys2.
Proof.
  assert (Hw : forall i (s : list Z), (i + 1 <= length s)%nat -> window_of s (right_win i s)).
  { intros i s Hi. apply (left_win_window (length s - 1 - i) 1 s); lia. }
  unfold some_right_byte. split; intros (i & Hi & Hd); exists i.
  - split; [intros s Hs; apply Hi, keys_in, Hs|]. apply distinctive_alike in Hd; auto.
  - assert (Hi' : forall s, In s keys1 -> (i + 1 <= length s)%nat) by (intros s Hs; apply Hi, keys_in, Hs).
    split; auto. apply distinctive_alike; auto.
Qed.

Lemma filter_perm {A} (f : A -> bool) l l' : Permutation l l' -> Permutation (filter f l) (filter f l').
Proof.
  induction 1 as [|x l l' _ IH|x y l|]; [constructor| | |econstructor; eauto]; cbn [filter].
  - destruct (f x); auto.
  - destruct (f x), (f y); auto. constructor.
Qed.

Lemma few_lengths_alike : few_equal_lengths keys1 <-> few_equal_lengths keys2.
Proof.
  unfold few_equal_lengths. rewrite (Permutation_length HP).
  split; intros (H1 & H2); split; auto; intros L; specialize (H2 L).
  - now rewrite <- (Permutation_length (filter_perm _ _ _ HP)).
  - now rewrite (Permutation_length (filter_perm _ _ _ HP)).
Qed.

Lemma trouble_alike : string_trouble h1 keys1 <-> string_trouble h2 keys2.
Proof.
  unfold string_trouble. rewrite few_lengths_alike, (left_window_alike 1) by lia. rewrite (Permutation_length HP).
  assert (H1 : (exists s s', In s keys1 /\ In s' keys1 /\ length s <> length s') <->
               (exists s s', In s keys2 /\ In s' keys2 /\ length s <> length s')).
  { split; intros (s & s' & A & B & C); exists s, s'; repeat split; auto; apply keys_in; auto. }
  assert (H2 : (forall s, In s keys1 -> s <> []) <-> (forall s, In s keys2 -> s <> [])).
  { split; intros H s Hs; apply H, keys_in, Hs. }
  rewrite H1, H2. reflexivity.
Qed.

Lemma ub_alike : string_ub h1 keys1 <-> string_ub h2 keys2.
Proof. unfold string_ub. now rewrite trouble_alike, right_byte_alike. Qed.

Lemma panic_alike : string_panic h1 keys1 <-> string_panic h2 keys2.
Proof.
  unfold string_panic. rewrite trouble_alike, right_byte_alike, (left_window_alike 2) by lia.
  assert (H2 : (forall s, In s keys1 -> (2 <= length s)%nat) <-> (forall s, In s keys2 -> (2 <= length s)%nat)).
  { split; intros H s Hs; apply H, keys_in, Hs. }
  now rewrite H2.
Qed.
End Alike.

Lemma string_construction_alike :
  forall (O V1 V2 : Type) (E1 E2 : env) (bh1 bh2 : hasher O) (p1 : list (key O * V1)) (p2 : list (key O * V2)),
  env_ok E1 -> env_ok E2 -> zlen p1 < 2 ^ 31 -> typed KindString p1 -> Permutation (map fst p1) (map fst p2) ->
  collide_alike (hash_one_slice bh1) (hash_one_slice bh2) (str_keys p1) ->
  ends_alike (fm_new E1 KindString p1 bh1) (fm_new E2 KindString p2 bh2) /\
  ends_alike (fm_new E1 KindString p1 bh1) (fs_new E2 KindString (map fst p2) bh2).
Proof.
  intros O V1 V2 E1 E2 bh1 bh2 p1 p2 H1 H2 Hn Ht HP Ha.
  assert (HPs : Permutation (str_keys p1) (str_keys p2)).
  { unfold str_keys. apply (Permutation_map str_of) in HP. now rewrite !map_map in HP. }
  assert (Hz : zlen p2 = zlen p1).
  { apply Permutation_length in HP. rewrite !map_length in HP. unfold zlen. now rewrite HP. }
  assert (Hi : forall k, In k (map fst p2) -> has_kind KindString k).
  { intros k Hk. apply Permutation_sym in HP. apply (Permutation_in k) in HP; auto. apply in_map_iff in HP.
    destruct HP as (e & <- & He). apply Ht, He. }
  assert (Ht2 : typed KindString p2) by (intros e He; apply Hi, in_map, He).
  assert (Hu := ub_alike _ _ _ _ HPs Ha). assert (Hp := panic_alike _ _ _ _ HPs Ha).
  assert (Hk : map str_of (map fst p2) = str_keys p2) by (unfold str_keys; apply map_map).
  pose proof (map_new_string_outcome O V1 E1 bh1 p1 H1 Hn Ht) as Q1.
  pose proof (map_new_string_outcome O V2 E2 bh2 p2 H2 ltac:(lia) Ht2) as Q2.
  destruct (set_new_total O E2 KindString bh2 (map fst p2) H2) as (_ & Q3); auto.
  { unfold zlen in *. rewrite map_length. lia. }
  specialize (Q3 eq_refl). cbv zeta in *. rewrite Hk in Q3.
  assert (X : ~ (string_ub (hash_one_slice bh1) (str_keys p1) /\ string_panic (hash_one_slice bh1) (str_keys p1))).
  { unfold string_ub, string_panic. tauto. }
  destruct Q1 as [(A1 & ->)|[(A1 & ->)|(A1 & A1' & m1 & ->)]];
  destruct Q2 as [(A2 & ->)|[(A2 & ->)|(A2 & A2' & m2 & ->)]];
  destruct Q3 as [(A3 & ->)|[(A3 & ->)|(A3 & A3' & m3 & ->)]]; cbn; tauto.
Qed.

(** An injective code of byte strings. *)
Definition byte_code (w : list Z) : Z := fold_left (fun acc b => acc * 256 + b) w 1.

Lemma byte_code_snoc w x : byte_code (w ++ [x]) = byte_code w * 256 + x.
Proof. unfold byte_code. now rewrite fold_left_app. Qed.

Lemma byte_code_pos w : Forall (fun b => 0 <= b < 256) w -> 1 <= byte_code w.
Proof.
  induction w as [|x w IH] using rev_ind; intros H; [cbn; lia|]. apply Forall_app in H. destruct H as (H1 & H2).
  inversion H2; subst. rewrite byte_code_snoc. specialize (IH H1). lia.
Qed.

Lemma byte_code_inj a : forall b, Forall (fun b => 0 <= b < 256) a -> Forall (fun b => 0 <= b < 256) b ->
  byte_code a = byte_code b -> a = b.
Proof.
  induction a as [|x a IH] using rev_ind; intros b Ha Hb H; destruct b as [|y b _] using rev_ind; auto.
  - apply Forall_app in Hb. destruct Hb as (H1 & H2). inversion H2; subst. rewrite byte_code_snoc in H.
    pose proof (byte_code_pos b H1). change (byte_code []) with 1 in H. lia.
  - apply Forall_app in Ha. destruct Ha as (H1 & H2). inversion H2; subst. rewrite byte_code_snoc in H.
    pose proof (byte_code_pos a H1). change (byte_code []) with 1 in H. lia.
  - apply Forall_app in Ha, Hb. destruct Ha as (H1 & H2), Hb as (H3 & H4). inversion H2; inversion H4; subst.
    rewrite !byte_code_snoc in H. f_equal; [apply IH; auto; lia|]. f_equal. lia.
Qed.

Lemma literal_in_bytes s : Forall (fun b => 0 <= b < 256) (literal_bytes s).
Proof.
  unfold literal_bytes. apply Forall_forall. intros b Hb. apply in_map_iff in Hb. destruct Hb as (c & <- & _).
  pose proof (N_ascii_bounded c). lia.
Qed.

Lemma window_in_bytes s w : window_of (literal_bytes s) w -> Forall (fun b => 0 <= b < 256) w.
Proof.
  intros (_ & before & after & H). pose proof (literal_in_bytes s) as Hs. rewrite H in Hs.
  apply Forall_app in Hs. destruct Hs as (_ & Hs). now apply Forall_app in Hs.
Qed.

Lemma separating_alike h slices : separates h (map literal_bytes slices) ->
  collide_alike h byte_code (map literal_bytes slices).
Proof.
  intros Hs s t a b Is It Wa Wb. split; intros H; [now rewrite (Hs s t a b Is It Wa Wb H)|].
  apply in_map_iff in Is, It. destruct Is as (s' & <- & _), It as (t' & <- & _).
  f_equal. apply byte_code_inj; auto; eapply window_in_bytes; eauto.
Qed.

Lemma slice_tests :
  forall h : list Z -> Z,
  Forall (fun c => let keys := map literal_bytes (fst c) in
            separates h keys -> analyze_slice_keys h keys = Ok (snd c)) slice_test_cases.
Proof.
  intros h. apply Forall_forall. intros c Hc. cbv zeta. intros Hs.
  rewrite (analysis_sees_collisions _ h byte_code _ (separating_alike h _ Hs)). clear Hs.
  revert c Hc. apply Forall_forall. unfold slice_test_cases.
  repeat constructor; vm_compute; reflexivity.
Qed.

(** ** The analyses of numbers *)

Lemma repeated_none l : NoDup l -> repeated l = 0%nat.
Proof. intros H. unfold repeated. rewrite (nodup_fixed_point Z.eq_dec H). lia. Qed.

Lemma counting_codes n : zlen (map Z.of_nat (seq 0 n)) = Z.of_nat n.
Proof. unfold zlen. now rewrite map_length, seq_length. Qed.

Lemma counting_collisions n : collisions (Z.of_nat n) (map Z.of_nat (seq 0 n)) = 0%nat.
Proof.
  unfold collisions. rewrite map_map. rewrite (map_ext_in _ Z.of_nat).
  - apply repeated_none. apply FinFun.Injective_map_NoDup; [intros x y; lia|apply seq_NoDup].
  - intros i Hi. apply in_seq in Hi. apply Z.mod_small. lia.
Qed.

Lemma hash_code_tests :
  analyze_hash_codes (random_codes 0) = Ok (0, 0) /\
  analyze_hash_codes (random_codes 2) = Ok (2, 0) /\
  analyze_hash_codes (random_codes 1000) = Ok (1000, 359) /\
  (forall n, Z.of_nat n < 2 ^ 60 -> analyze_hash_codes (map Z.of_nat (seq 0 n)) = Ok (Z.of_nat n, 0)).
Proof.
  split; [|split; [|split]]; [vm_compute; reflexivity..|]. intros n Hn.
  destruct n as [|n]; [reflexivity|].
  destruct (table_size_choice (map Z.of_nat (seq 0 (S n)))) as (l & s & c & _ & H & Hc & Hch);
    [discriminate|now rewrite counting_codes|].
  rewrite H. rewrite counting_codes in Hch.
  assert (H0 : accepted (map Z.of_nat (seq 0 (S n))) 0 (Z.of_nat (S n))).
  { split; [|now left]. rewrite counting_collisions. cbn [tolerance]. unfold tolerated. destruct (_ <? _); [lia|].
    rewrite map_length, seq_length. pose proof (Z.div_pos (Z.of_nat (S n)) 100). lia. }
  assert (Hs : s = Z.of_nat (S n)).
  { destruct Hch as [([|i] & Hi & _ & Hf)|(Hi & Hf)].
    - now injection Hi as <-.
    - exfalso. now apply (Hf 0%nat (Z.of_nat (S n))); [lia|reflexivity|].
    - now injection Hi as <-. }
  subst s c. now rewrite counting_collisions.
Qed.

Lemma int_key_tests :
  forall pr : profile,
  analyze_int_keys pr i32 [1; 3; 5; 7; 9] = Ok IntNormal /\ analyze_int_keys pr i32 [1; 2; 3; 4; 5] = Ok IntRange /\
  analyze_int_keys pr i32 [] = Ok IntNormal /\ analyze_int_keys pr i32 [1] = Ok IntRange.
Proof. intros []; vm_compute; repeat split. Qed.

(** ** The specialized maps *)

Lemma obs_exact {K V} (l l' : list (obs K V)) : Forall2 same_obs l l' ->
  (forall b, In b l' -> match b with SawItems _ => False | _ => True end) -> l = l'.
Proof.
  induction 1 as [|a b l l' Hab HF IH]; intros Hb; [reflexivity|]. f_equal; [|apply IH; intros c Hc; apply Hb; now right].
  specialize (Hb b (or_introl eq_refl)). destruct a, b; cbn in Hab; auto; discriminate || contradiction.
Qed.

Definition plain_obs {K V} (b : obs K V) : bool := match b with SawItems _ => false | _ => true end.

Lemma obs_same {K V} (l l' : list (obs K V)) : Forall2 same_obs l l' -> forallb plain_obs l' = true -> l = l'.
Proof.
  intros H Hp. apply obs_exact; auto. intros b Hb. rewrite forallb_forall in Hp. specialize (Hp b Hb). now destruct b.
Qed.

Ltac few_keys := cbn; repeat (constructor; [cbn; intuition (lia || discriminate)|]); constructor.

Lemma common_map_tests :
  forall (BH : Type) (hash : BH -> Z -> Z) (E : env) (rs : BH),
  env_ok E ->
  let collect payload := cm_from_iter hash E u32 rs list_next (S (length payload)) payload in
  let run m := mo_run (prof E) Z.eqb (cm_object Z.eqb (fun k => k) hash) m in
  (exists m, collect [] = Ok m /\ run m [@OIsEmpty Z Z] = [SawBool true]) /\
  (exists m, collect [(1, 2)] = Ok m /\ run m [OGet 1] = [SawValue (Some 2)]) /\
  (exists m, collect [(1, 2); (3, 4); (5, 6)] = Ok m /\
     run m [OGet 1; OGet 3; OGet 5] = [SawValue (Some 2); SawValue (Some 4); SawValue (Some 6)]).
Proof.
  intros BH hash E rs HE collect run.
  assert (H : forall payload history, NoDup (map fst payload) -> zlen payload < 100 ->
            forallb plain_obs (object_run Z.eqb (fun k => k) payload history) = true ->
            exists m, collect payload = Ok m /\ run m history = object_run Z.eqb (fun k => k) payload history).
  { intros payload history Hd Hn Hp.
    destruct (common_map_history Z Z Z BH Z.eqb (fun k => k) hash hash E u32 payload rs) as (m & Hm & Hh); auto.
    - unfold fits. cbn. lia.
    - apply Z_equiv.
    - intros a b. rewrite Z.eqb_eq. congruence.
    - now apply map_eq_distinct_Z.
    - exists m. split; [|now apply obs_same].
      unfold collect, cm_from_iter. rewrite collect_array. exact Hm. }
  split; [|split]; (apply H; [few_keys|reflexivity|reflexivity]).
Qed.

Lemma integer_map_tests :
  forall E : env,
  env_ok E ->
  let collect payload := im_from_iter E u32 list_next (S (length payload)) payload in
  let run m := mo_run (prof E) Z.eqb im_object m in
  (exists m, collect [] = Ok m /\ run m [@OIsEmpty Z Z] = [SawBool true]) /\
  (exists m, collect [(1, 2)] = Ok m /\ run m [OGet 1] = [SawValue (Some 2)]) /\
  (exists m, collect [(1, 2); (3, 4); (5, 6)] = Ok m /\
     run m [OGet 1; OGet 3; OGet 5] = [SawValue (Some 2); SawValue (Some 4); SawValue (Some 6)]).
Proof.
  intros E HE collect run.
  assert (H : forall payload history, NoDup (map fst payload) -> zlen payload < 100 ->
            forallb plain_obs (object_run Z.eqb (fun k => k) payload history) = true ->
            exists m, collect payload = Ok m /\ run m history = object_run Z.eqb (fun k => k) payload history).
  { intros payload history Hd Hn Hp.
    destruct (integer_map_history Z E u32 payload) as (m & Hm & Hh); auto.
    - unfold fits. cbn. lia.
    - exists m. split; [|now apply obs_same].
      unfold collect, im_from_iter. rewrite collect_array. exact Hm. }
  split; [|split]; (apply H; [few_keys|reflexivity|reflexivity]).
Qed.

Lemma length_map_tests :
  forall E : env,
  env_ok E ->
  let from (payload : list (bytes * Z)) := lm_from zlen E payload in
  let collect (payload : list (bytes * Z)) := lm_from_iter zlen E list_next (S (length payload)) payload in
  let run m := mo_run (prof E) bytes_eqb (lm_object bytes_eqb (fun k => k) zlen) m in
  forall build, build = from \/ build = collect ->
  (exists m, build [] = Ok m /\ run m [@OIsEmpty bytes Z] = [SawBool true]) /\
  (exists m, build [(test_key1, 1)] = Ok m /\ run m [OGet test_key1] = [SawValue (Some 1)]) /\
  (exists m, build [(test_key1, 1); (test_key2, 2); (test_key3, 3)] = Ok m /\
     run m [OGet test_key1; OGet test_key2; OGet test_key3] = [SawValue (Some 1); SawValue (Some 2); SawValue (Some 3)]).
Proof.
  intros E HE from collect run build Hb.
  assert (H : forall payload history, distinct bytes_eqb (map fst payload) -> zlen payload < 100 ->
            forallb plain_obs (object_run bytes_eqb (fun k => k) payload history) = true ->
            exists m, build payload = Ok m /\ run m history = object_run bytes_eqb (fun k => k) payload history).
  { intros payload history Hd Hn Hp.
    destruct (length_map_history bytes Z bytes bytes_eqb (fun k => k) zlen zlen E u8 payload) as (m & Hm & Hh); auto.
    - unfold fits. cbn. lia.
    - apply bytes_equiv.
    - intros a b Hab. apply bytes_eqb_eq in Hab. congruence.
    - exists m. split; [|now apply obs_same].
      destruct Hb as [-> | ->]; unfold from, collect, lm_from, lm_from_iter; rewrite collect_array; exact Hm. }
  split; [|split]; (apply H; [apply NoDup_bytes; vm_compute; few_keys|reflexivity|reflexivity]).
Qed.

Lemma scanning_map_tests :
  forall pr : profile,
  let payload := [(10, 20); (30, 40); (50, 60)] in
  let run := mo_run pr Z.eqb (sm_object Z.eqb (fun k => k)) (sm_from_vec payload) in
  run [OLen] = [SawNumber 3] /\
  run [OGet 10; OGet 30; OGet 50; OGet 0] = [SawValue (Some 20); SawValue (Some 40); SawValue (Some 60); SawValue None] /\
  run [OGetMut 10 20; OGetMut 30 40; OGetMut 50 60; OGetMut 0 0] = [SawBool true; SawBool true; SawBool true; SawBool false] /\
  run [OGetKeyValue 10; OGetKeyValue 30; OGetKeyValue 50; OGetKeyValue 0] =
    [SawEntry (Some (10, 20)); SawEntry (Some (30, 40)); SawEntry (Some (50, 60)); SawEntry None] /\
  plain_text decimal decimal (sm_fmt (sm_from_vec [(10, 20)])) = scanning_test_text.
Proof. intros pr. repeat split; destruct pr; vm_compute; reflexivity. Qed.

Lemma ok_result {A} (r : res A) (P : A -> Prop) : match r with Ok a => P a | _ => False end -> exists a, r = Ok a /\ P a.
Proof. destruct r as [a| | |]; intros H; [eauto|destruct H..]. Qed.

Lemma range_map_tests :
  forall (pr : profile) (min : Z), In min [-11; -10; -9; 0; 1] ->
  exists m, irm_from_vec pr i32 (map (fun i => (min + i, i)) [0; 1; 2; 3; 4; 5; 6; 7; 8; 9]) = Ok m /\
    mo_run pr Z.eqb (irm_object pr i32) m (map fst (range_test min)) = map snd (range_test min) /\
    (min = -11 -> plain_text decimal decimal (irm_fmt m) = range_test_text).
Proof.
  intros pr min H.
  set (text := range_test_text). apply (ok_result (irm_from_vec pr i32 (map (fun i => (min + i, i)) [0; 1; 2; 3; 4; 5; 6; 7; 8; 9]))
    (fun m => mo_run pr Z.eqb (irm_object pr i32) m (map fst (range_test min)) = map snd (range_test min) /\
              (min = -11 -> plain_text decimal decimal (irm_fmt m) = text))).
  destruct H as [<-|[<-|[<-|[<-|[<-|[]]]]]]; destruct pr; vm_compute;
    (split; [reflexivity|]; intros Hm; first [reflexivity|discriminate Hm]).
Qed.

(** ** The facades *)

Lemma number_hash (bh : hasher Z) : lawful_hash Z.eqb bh.
Proof. intros a b H. apply Z.eqb_eq in H. now subst. Qed.

Lemma set_facade_test :
  forall (E : env) (rs : hasher Z) (size : nat),
  env_ok E -> Z.of_nat size < 2 ^ 31 ->
  let number i := KOther (Z.of_nat i) in
  exists s, fs_from_vec E KindOther rs (map number (seq 0 size)) = Ok s /\
    fs_len s = Z.of_nat size /\ fs_is_empty s = (Z.of_nat size =? 0) /\
    (forall i, (i < size)%nat -> fs_get Z.eqb E s (number i) = Ok (Some (number i)) /\
                                 fs_contains Z.eqb E s (number i) = Ok true) /\
    exists items, yields (keys_next (prof E)) (it_new (with_unit (fs_items s))) items /\
      forall i, (i < size)%nat -> In (number i) items.
Proof.
  intros E rs size HE Hn number.
  assert (Hl : zlen (map number (seq 0 size)) = Z.of_nat size) by (unfold zlen; now rewrite map_length, seq_length).
  assert (Hk : forall x, In x (map number (seq 0 size)) -> has_kind KindOther x).
  { intros x Hx. apply in_map_iff in Hx. destruct Hx as (i & <- & _). exact I. }
  destruct (proj1 (set_new_total Z E KindOther rs (map number (seq 0 size)) HE ltac:(lia) Hk)) as (s & Hs);
    [discriminate|].
  exists s. split; [exact Hs|].
  destruct (frozen_set_exact Z Z.eqb E KindOther rs (map number (seq 0 size)) s) as (HP & Hy & Hlen & Hem & Hx); auto.
  - apply Z_equiv.
  - apply number_hash.
  - right. lia.
  - lia.
  - discriminate.
  - split; [lia|]. split; [|split].
    + destruct (Z.eqb_spec (Z.of_nat size) 0) as [H0|H0].
      * apply Hem. now replace size with 0%nat by lia.
      * destruct (fs_is_empty s); [|reflexivity]. exfalso. apply H0.
        rewrite <- Hl. rewrite (proj1 Hem eq_refl). reflexivity.
    + intros i Hi. assert (Hin : In (number i) (map number (seq 0 size))) by (apply in_map, in_seq; lia).
      destruct (Hx (number i) I) as [(_ & Hc & y & Hg & _ & Hiy)|(Hno & _)].
      * split; auto. rewrite Hg. destruct y as [| |y]; cbn in Hiy; try discriminate. apply Z.eqb_eq in Hiy. now subst.
      * exfalso. apply Hno. exists (number i). split; auto. cbn. apply Z.eqb_refl.
    + exists (fs_items s). split; auto. intros i Hi. apply (Permutation_in _ HP). apply in_map, in_seq. lia.
Qed.
Lemma u32_facade_test :
  forall (V : Type) (text : nat -> V) (E : env) (rs : hasher Z) (max step : nat) (payload : list (key Z * V)),
  env_ok E -> Z.of_nat max < 2 ^ 31 -> (1 <= step)%nat -> Z.of_nat (max * step) <= 2 ^ 32 ->
  let number i := KU32 (Z.of_nat (i * step)) in
  Permutation payload (map (fun i => (number i, text i)) (seq 0 max)) ->
  exists m, fm_from_iter E KindU32 rs list_next (S (length payload)) payload = Ok m /\
    fm_len m = Z.of_nat max /\ fm_is_empty m = (Z.of_nat max =? 0) /\
    forall i, (i < max)%nat ->
      fm_contains_key Z.eqb E m (number i) = Ok true /\ fm_get Z.eqb E m (number i) = Ok (Some (text i)) /\
      fm_get_key_value Z.eqb E m (number i) = Ok (Some (number i, text i)).
Proof.
  intros V text E rs max step payload HE Hn Hs Hm number HP.
  assert (Hl : zlen payload = Z.of_nat max) by (rewrite (zlen_perm _ _ HP); unfold zlen; now rewrite map_length, seq_length).
  assert (Hin : forall e, In e payload <-> exists i, e = (number i, text i) /\ (i < max)%nat).
  { intros e. split.
    - intros He. apply (Permutation_in _ HP), in_map_iff in He. destruct He as (i & <- & H). apply in_seq in H.
      exists i. split; [reflexivity|lia].
    - intros (i & -> & H). apply (Permutation_in _ (Permutation_sym HP)).
      apply (in_map (fun i => (number i, text i))), in_seq. lia. }
  assert (Ht : typed KindU32 payload).
  { intros e He. apply Hin in He. destruct He as (i & -> & Hi). cbn. nia. }
  assert (Hd : distinct (key_eqb Z.eqb) (map fst payload)).
  { apply (distinct_perm (key_eqb Z.eqb) (key_eqb_equiv Z.eqb Z_equiv) (map fst (map (fun i => (number i, text i)) (seq 0 max)))).
    - apply Permutation_map. now symmetry.
    - rewrite map_map. cbn [fst]. generalize (seq_NoDup max 0). generalize (seq 0 max).
      induction l as [|i l IH]; intros Hnd; cbn [map distinct]; auto. inversion Hnd as [|? ? Hi Hnd']; subst. split; auto.
      intros x Hx. apply in_map_iff in Hx. destruct Hx as (j & <- & Hj). cbn. apply Z.eqb_neq.
      intros Heq. apply Hi. replace i with j; [assumption|]. nia. }
  destruct (map_new_u32_total Z V E rs payload HE ltac:(lia) Ht) as (m & Hm' & _).
  exists m. split; [unfold fm_from_iter, fm_from_iter_with_hasher; rewrite collect_array; exact Hm'|].
  destruct (map_content Z V E KindU32 rs payload m HE ltac:(lia) Hm') as (_ & _ & _ & _ & _ & Hlen & Hem).
  split; [lia|]. split.
  { destruct (Z.eqb_spec (Z.of_nat max) 0) as [H0|H0].
    - apply Hem. destruct payload; [reflexivity|]. rewrite zlen_cons in Hl. pose proof (zlen_nonneg payload). lia.
    - destruct (fm_is_empty m); [|reflexivity]. exfalso. apply H0. rewrite <- Hl, (proj1 Hem eq_refl). reflexivity. }
  intros i Hi. assert (Hk : has_kind KindU32 (number i)) by (cbn; nia).
  assert (Hg : fm_get Z.eqb E m (number i) = Ok (Some (text i))).
  { destruct (map_get_exact Z V Z.eqb E KindU32 rs payload m) with (k := number i) as (_ & Hg & _); auto.
    - apply Z_equiv.
    - apply number_hash.
    - right. lia.
    - apply Hg. exists (number i). split; [apply Hin; eauto|]. cbn. apply Z.eqb_refl. }
  destruct (map_lookups_agree Z V Z.eqb E KindU32 rs payload m HE Ht Hm' (number i) Hk)
    as [(H & _)|(j & k' & v & Hnth & Hg' & Hkv & Hc & _ & Heq)]; [congruence|].
  rewrite Hg in Hg'. injection Hg' as <-. split; auto. split; auto. rewrite Hkv.
  specialize (Heq (or_intror (or_introl Hd))). destruct k'; cbn in Heq; try discriminate. apply Z.eqb_eq in Heq. now subst.
Qed.

Lemma map_facade_tests :
  forall (E : env) (rs : hasher Z),
  env_ok E ->
  let number n := KOther n in
  fm_len (fm_default (O := Z) (V := Z)) = 0 /\
  (exists m, fm_from E KindOther rs (map (fun n => (number n, n)) [1; 2; 3; 4; 5; 6]) = Ok m /\
     fm_get Z.eqb E m (number 6) = Ok (Some 6)) /\
  (exists m, fm_from E KindOther rs [(number 0, 1); (number 2, 3); (number 4, 5)] = Ok m /\
     fm_contains_key Z.eqb E m (number 0) = Ok true) /\
  (forall payload, Permutation payload [(number 1, 10); (number 2, 20); (number 3, 30); (number 4, 40)] ->
     exists m e es it, fm_from_iter E KindOther rs list_next (S (length payload)) payload = Ok m /\
       Permutation payload (e :: es) /\
       iter_fmt (it_next (prof E)) 5 (fm_iter_new m) = Ok (DList (e :: es)) /\
       it_next (prof E) (fm_iter_new m) = Ok (Some e, it) /\
       iter_fmt (it_next (prof E)) 5 it = Ok (DList es)).
Proof.
  intros E rs HE number.
  assert (Hget : forall (payload : list (key Z * Z)) k v, zlen payload < 2 ^ 31 -> typed KindOther payload -> NoDup (map fst payload) ->
            In (number k, v) payload ->
            exists m, fm_from E KindOther rs payload = Ok m /\ fm_get Z.eqb E m (number k) = Ok (Some v) /\
              fm_contains_key Z.eqb E m (number k) = Ok true).
  { intros payload k v Hn Ht Hd Hi. destruct (map_new_other_total Z Z E rs payload HE Hn) as (m & Hm).
    exists m. split; [unfold fm_from, fm_from_iter_with_hasher; rewrite collect_array; exact Hm|].
    assert (Hd' : distinct (key_eqb Z.eqb) (map fst payload)).
    { clear Hi Hm m. revert Ht Hd. clear Hn. induction payload as [|e payload IH]; intros Ht Hd; cbn [map distinct]; auto.
      inversion Hd as [|? ? Hx Hd']; subst. split; [|apply IH; auto; intros e' He'; apply Ht; now right].
      intros k' Hk'. destruct (key_eqb Z.eqb (fst e) k') eqn:Ek; auto. exfalso. apply Hx.
      destruct (fst e) as [a|a|a], k' as [b|b|b]; cbn in Ek; try discriminate.
      - apply Z.eqb_eq in Ek. now subst.
      - apply bytes_eqb_eq in Ek. now subst.
      - apply Z.eqb_eq in Ek. now subst. }
    assert (Hg : fm_get Z.eqb E m (number k) = Ok (Some v)).
    { destruct (map_get_exact Z Z Z.eqb E KindOther rs payload m) with (k := number k) as (_ & Hg & _); auto.
      - apply Z_equiv.
      - apply number_hash.
      - right. lia.
      - exact I.
      - apply Hg. exists (number k). split; auto. cbn. apply Z.eqb_refl. }
    split; auto. unfold fm_contains_key, contains_key. now rewrite Hg. }
  split; [reflexivity|]. split; [|split].
  - destruct (Hget (map (fun n => (number n, n)) [1; 2; 3; 4; 5; 6]) 6 6) as (m & Hm & Hg & _); [reflexivity| | | |eauto].
    + intros e He. cbn in He. repeat (destruct He as [<-|He]; [exact I|]). destruct He.
    + few_keys.
    + cbn. auto 7.
  - destruct (Hget [(number 0, 1); (number 2, 3); (number 4, 5)] 0 1) as (m & Hm & _ & Hc); [reflexivity| | | |eauto].
    + intros e He. cbn in He. repeat (destruct He as [<-|He]; [exact I|]). destruct He.
    + few_keys.
    + cbn. auto.
  - intros payload HP. assert (Hl := Permutation_length HP). cbn in Hl.
    destruct (map_new_other_total Z Z E rs payload HE) as (m & Hm); [unfold zlen; lia|].
    destruct (map_debug Z Z E KindOther rs payload m HE) as (es & Hf & HP' & _); auto; [unfold zlen; lia|].
    assert (Hes : fm_iter m = es) by (rewrite fm_fmt_iter in Hf; congruence).
    destruct es as [|e es]; [apply Permutation_length in HP'; cbn in HP'; lia|].
    assert (Hl' := Permutation_length HP'). rewrite Hl in Hl'. cbn in Hl'.
    destruct (iterators_debug _ _ (prof E) (e :: es) 0 5) as ((it0 & H0 & F0) & _); [unfold zlen; cbn; lia|cbn; lia|].
    destruct (iterators_debug _ _ (prof E) (e :: es) 1 5) as ((it1 & H1 & F1) & _); [unfold zlen; cbn; lia|cbn; lia|].
    cbn [calls results skipn] in H0, F0, H1, F1. injection H0 as <-.
    exists m, e, es, it1. unfold fm_iter_new. rewrite Hes.
    split; [unfold fm_from_iter, fm_from_iter_with_hasher; rewrite collect_array; exact Hm|]. split; auto. split; auto.
    split; auto. destruct (it_next (prof E) (it_new (e :: es))) as [[r it]| | |]; cbn in H1; try discriminate. congruence.
Qed.

(** ** The macro *)

Lemma macro_tests :
  forall (O : Type) (pr : profile) (h : bytes -> Z),
  let call keys := frozen_map_macro pr h TStr (map (fun s => @LStr O (literal_bytes s)) keys) in
  call macro_test_keys = Ok (XPlain NLengthMap u8) /\
  (separates h (map literal_bytes example_keys) ->
     call example_keys = Ok (XRanged NLeftSliceMap u8 2 3) /\
     forall (V BH : Type) (hash_string hash_write : BH -> bytes -> Z) (E : env) (bh : BH) (values : list V),
     env_ok E -> length values = 7%nat ->
     let payload := combine (map literal_bytes example_keys) values in
     exists get, run_str hash_string hash_write E bh (XRanged NLeftSliceMap u8 2 3) payload = Some (Ok get) /\
       exact_get bytes_eqb (fun _ => True) payload get).
Proof.
  intros O pr h call. split; [reflexivity|]. intros Hs. split.
  - assert (H : call example_keys = frozen_map_macro pr byte_code TStr (map (fun s => @LStr O (literal_bytes s)) example_keys)).
    { unfold call, frozen_map_macro. destruct (_ <? 3); [reflexivity|]. cbn [analyze_literals].
      replace (process_string_keys h (map (fun s => @LStr O (literal_bytes s)) example_keys))
        with (process_string_keys byte_code (map (fun s => @LStr O (literal_bytes s)) example_keys)); [reflexivity|].
      unfold process_string_keys. replace (mapM _ _) with (Ok (map literal_bytes example_keys)) by reflexivity. cbn [bind].
      symmetry. apply analysis_sees_collisions. now apply separating_alike. }
    rewrite H. vm_compute. reflexivity.
  - intros V BH hs hw E bh values HE Hv payload. cbn [run_str].
    do 7 (destruct values as [|? values]; [discriminate|]). destruct values; [|discriminate]. unfold payload in *.
    destruct (left_slice_exact V BH hw E u8 payload 2 3 bh) as (m & Hm & _ & Hg); auto.
    + refine (conj _ (conj _ (conj _ _))); vm_compute; first [reflexivity|discriminate].
    + lia.
    + intros e He. vm_compute in He. repeat (destruct He as [<-|He]; [vm_compute; discriminate|]). destruct He.
    + apply NoDup_bytes. vm_compute. few_keys.
    + unfold payload in Hm. rewrite Hm. cbn [bind]. eauto.
Qed.
