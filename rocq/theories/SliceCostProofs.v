(** The number of windows tried by the analysis of slice keys. *)
From Coq Require Import List ZArith Bool Lia Arith.
From Verif Require Import Spec CostSpec Base BaseLemmas IntProofs SliceKeyAnalyzer SliceKeyAnalyzerProofs SliceCost.
Import ListNotations.
Open Scope Z_scope.

Section Proofs.
Context {T : Type}.
Variable h : list T -> Z.
Implicit Types keys : list (list T).

Lemma uniqueness_steps_ok lj i l : forall keys set acc hashes,
  exists k, uniqueness_steps h lj i l keys set acc hashes =
      (uniqueness_loop h lj i l keys set acc, hashes + k) /\ 0 <= k <= zlen keys.
Proof.
  induction keys as [|s keys IH]; intros set acc hashes; cbn [uniqueness_steps uniqueness_loop].
  - exists 0. rewrite Z.add_0_r. split; auto. change (zlen []) with 0. lia.
  - rewrite zlen_cons. pose proof (zlen_nonneg keys).
    destruct (take_subslice lj i l s); cbn [bind].
    2,3,4: exists 0; rewrite Z.add_0_r; split; [reflexivity|lia].
    cbv zeta. destruct (existsb _ set); [destruct (acc =? 0)|].
    + exists 1. split; [reflexivity|lia].
    + destruct (IH set (acc - 1) (hashes + 1)) as (k & -> & Hk). exists (1 + k). split; [f_equal; lia|lia].
    + destruct (IH (h a :: set) acc (hashes + 1)) as (k & -> & Hk). exists (1 + k). split; [f_equal; lia|lia].
Qed.

Lemma find_index_steps_ok keys l lj acc : forall remaining i windows hashes,
  exists w k, find_index_steps h keys l lj acc remaining i windows hashes =
      (find_index h keys l lj acc remaining i, (windows + w, hashes + k)) /\
    0 <= w <= Z.of_nat remaining /\ 0 <= k <= w * zlen keys /\
    (find_index h keys l lj acc remaining i = Ok None -> w = Z.of_nat remaining).
Proof.
  induction remaining as [|n IH]; intros i windows hashes; cbn [find_index_steps find_index].
  - exists 0, 0. rewrite !Z.add_0_r. split; auto. lia.
  - unfold is_sufficiently_unique.
    destruct (uniqueness_steps_ok lj i l keys [] acc hashes) as (k & -> & Hk).
    destruct (uniqueness_loop h lj i l keys [] acc) as [[]| | |]; cbn [bind].
    1,3,4,5: exists 1, k; split; [reflexivity|]; split; [lia|]; split; [lia|discriminate].
    destruct (IH (i + 1) (windows + 1) (hashes + k)) as (w & k' & -> & Hw & Hk' & He).
    exists (1 + w), (k + k'). split; [do 2 f_equal; lia|]. split; [lia|]. split; [lia|].
    intros H. specialize (He H). lia.
Qed.

(** Windows of lengths [l], ..., [l + r - 1] on one side. *)
Fixpoint side (mn : Z) (r : nat) (l : Z) : Z :=
  match r with O => 0 | S r' => (mn - l + 1) + side mn r' (l + 1) end.

Lemma side_closed mn : forall r l, side mn r l = Z.of_nat r * (mn - l + 1) - Z.of_nat r * (Z.of_nat r - 1) / 2.
Proof.
  induction r as [|r IH]; intros l; cbn [side]; [reflexivity|]. rewrite IH.
  replace (Z.of_nat (S r) * (Z.of_nat (S r) - 1)) with (Z.of_nat r * (Z.of_nat r - 1) + Z.of_nat r * 2) by nia.
  rewrite Z.div_add by lia. nia.
Qed.

Lemma side_within mn : 0 <= mn -> side mn (Z.to_nat (Z.min mn 16)) 1 = windows_within mn.
Proof.
  intros H. rewrite side_closed. unfold windows_within. rewrite Z2Nat.id by lia.
  destruct (Z.ltb_spec mn 16).
  - rewrite Z.min_l by lia. replace (mn * (mn + 1)) with (mn * (mn - 1) + mn * 2) by nia.
    rewrite Z.div_add by lia. 
    assert (Hd : 2 * (mn * (mn - 1) / 2) = mn * (mn - 1)).
    { assert (Hev : Z.even (mn * (mn - 1)) = true).
      { rewrite Z.even_mul, Z.even_sub. destruct (Z.even mn); reflexivity. }
      apply Z.even_spec in Hev. destruct Hev as (q & ->).
      replace (2 * q) with (q * 2) by lia. rewrite Z.div_mul; lia. }
    nia.
  - rewrite Z.min_r by lia. change (16 * (16 - 1) / 2) with 120. lia.
Qed.

Lemma side_nonneg mn : forall r l, l + Z.of_nat r <= mn + 1 -> 0 <= side mn r l.
Proof. induction r as [|r IH]; intros l H; cbn [side]; [lia|]. specialize (IH (l + 1)). lia. Qed.

Lemma find_subslice_steps_ok keys mn mx acc : forall r l windows hashes,
  1 <= l -> l + Z.of_nat r <= mn + 1 ->
  let sides := if mn =? mx then 1 else 2 in
  exists w k, find_subslice_steps h keys mn mx acc r l windows hashes =
      (find_subslice h keys mn mx acc r l, (windows + w, hashes + k)) /\
    0 <= w <= sides * side mn r l /\ 0 <= k <= w * zlen keys /\
    (l + Z.of_nat r <= mx -> find_subslice h keys mn mx acc r l = Ok SliceNormal -> w = sides * side mn r l).
Proof.
  induction r as [|r IH]; intros l windows hashes Hl Hr sides; cbn [find_subslice_steps find_subslice side].
  - exists 0, 0. rewrite !Z.add_0_r, Z.mul_0_r. split; auto. lia.
  - cbv zeta. pose proof (zlen_nonneg keys) as Hn. pose proof (side_nonneg mn r (l + 1) ltac:(lia)) as Hs0.
    set (indices := Z.to_nat (mn - l + 1)). assert (Hi : Z.of_nat indices = mn - l + 1) by (unfold indices; lia).
    assert (Hsides : 1 <= sides) by (unfold sides; destruct (mn =? mx); lia).
    destruct (find_index_steps_ok keys l true acc indices 0 windows hashes) as (w1 & k1 & -> & Hw1 & Hk1 & He1).
    destruct (find_index h keys l true acc indices 0) as [[i|]| | |]; cbn [bind].
    1,3,4,5: exists w1, k1; split; [reflexivity|]; split; [nia|]; split; [lia|]; try discriminate.
    { intros Hmx. destruct (Z.eqb_spec l mx); [lia|discriminate]. }
    specialize (He1 eq_refl). subst w1. unfold sides in *. destruct (Z.eqb_spec mn mx) as [Em|Em]; cbn [bind].
    + destruct (IH (l + 1) (windows + Z.of_nat indices) (hashes + k1)) as (w & k & -> & Hw & Hk & He); try lia.
      exists (Z.of_nat indices + w), (k1 + k). split; [do 2 f_equal; lia|]. split; [lia|]. split; [lia|].
      intros Hmx H. specialize (He ltac:(lia) H). lia.
    + destruct (find_index_steps_ok keys l false acc indices 0 (windows + Z.of_nat indices) (hashes + k1))
        as (w2 & k2 & -> & Hw2 & Hk2 & He2).
      destruct (find_index h keys l false acc indices 0) as [[i|]| | |]; cbn [bind].
      1,3,4,5: exists (Z.of_nat indices + w2), (k1 + k2); split; [do 2 f_equal; lia|]; split; [nia|]; split; [lia|discriminate].
      specialize (He2 eq_refl). subst w2.
      destruct (IH (l + 1) (windows + Z.of_nat indices + Z.of_nat indices) (hashes + k1 + k2)) as (w & k & -> & Hw & Hk & He); try lia.
      exists (Z.of_nat indices + Z.of_nat indices + w), (k1 + k2 + k). split; [do 2 f_equal; lia|]. split; [lia|]. split; [lia|].
      intros Hmx H. specialize (He ltac:(lia) H). lia.
Qed.

(** A right window of two or more elements panics on the first key. *)
Lemma right_window_panics s keys acc l : 1 <= zlen s -> 2 <= l ->
  uniqueness_loop h false 0 l (s :: keys) [] acc = Panic PIndexOutOfBounds.
Proof.
  intros Hs Hl. cbn [uniqueness_loop take_subslice].
  destruct (Z.ltb_spec (zlen s - 0 - 1) 0); [lia|].
  unfold slice_checked. destruct (range_ok _ _ s) eqn:E; [|reflexivity].
  apply range_ok_iff in E. lia.
Qed.

(** With keys of different lengths the search ends at the second window
    length at the latest: by success, by exhaustion or by a panic. *)
Lemma find_subslice_unequal keys mn mx acc r : keys <> [] -> (forall s, In s keys -> mn <= zlen s) ->
  1 <= mn -> mn <> mx -> r = Z.to_nat (Z.min mn 16) ->
  exists w k, find_subslice_steps h keys mn mx acc r 1 0 0 = (find_subslice h keys mn mx acc r 1, (w, k)) /\
    0 <= w <= 3 * mn /\ 0 <= k <= w * zlen keys /\
    (2 < mx -> find_subslice h keys mn mx acc r 1 = Ok SliceNormal -> mn = 1 /\ w = 2).
Proof.
  intros Hne Hlen H1 Hmx Hr. pose proof (zlen_nonneg keys) as Hn.
  destruct r as [|r]; [lia|]. cbn [find_subslice_steps find_subslice].
  assert (Hi : Z.of_nat (Z.to_nat (mn - 1 + 1)) = mn) by lia. set (indices := Z.to_nat (mn - 1 + 1)) in *.
  destruct (find_index_steps_ok keys 1 true acc indices 0 0 0) as (w1 & k1 & -> & Hw1 & Hk1 & He1).
  cbv zeta. rewrite !Z.add_0_l.
  destruct (find_index h keys 1 true acc indices 0) as [[i|]| | |]; cbn [bind].
  1,3,4,5: exists w1, k1; split; [reflexivity|]; split; [lia|]; split; [lia|]; try discriminate.
  { destruct (Z.eqb_spec 1 mx); [lia|discriminate]. }
  specialize (He1 eq_refl). destruct (Z.eqb_spec mn mx) as [Em|Em]; [lia|]. cbn [bind].
  destruct (find_index_steps_ok keys 1 false acc indices 0 w1 k1) as (w2 & k2 & -> & Hw2 & Hk2 & He2).
  destruct (find_index h keys 1 false acc indices 0) as [[i|]| | |]; cbn [bind].
  1,3,4,5: exists (w1 + w2), (k1 + k2); split; [reflexivity|]; split; [lia|]; split; [lia|discriminate].
  specialize (He2 eq_refl). change (1 + 1) with 2.
  destruct r as [|r]; cbn [find_subslice_steps find_subslice].
  { exists (w1 + w2), (k1 + k2). split; [reflexivity|]. split; [lia|]. split; [lia|]. intros _ _. lia. }
  set (indices2 := Z.to_nat (mn - 2 + 1)). assert (Hi2 : Z.of_nat indices2 = mn - 1) by (unfold indices2; lia).
  destruct (find_index_steps_ok keys 2 true acc indices2 0 (w1 + w2) (k1 + k2)) as (w3 & k3 & -> & Hw3 & Hk3 & He3).
  cbv zeta. destruct (find_index h keys 2 true acc indices2 0) as [[i|]| | |]; cbn [bind].
  1,3,4,5: exists (w1 + w2 + w3), (k1 + k2 + k3); split; [reflexivity|]; split; [lia|]; split; [lia|]; try discriminate.
  { destruct (Z.eqb_spec 2 mx); [lia|discriminate]. }
  specialize (He3 eq_refl). destruct (Z.eqb_spec mn mx); [lia|]. cbn [bind].
  destruct indices2 as [|n2]; [lia|]. cbn [find_index_steps find_index]. unfold is_sufficiently_unique.
  destruct keys as [|s keys]; [congruence|].
  destruct (uniqueness_steps_ok false 0 2 (s :: keys) [] acc (k1 + k2 + k3)) as (k4 & -> & Hk4).
  assert (Hs : 1 <= zlen s) by (specialize (Hlen s (or_introl eq_refl)); lia).
  rewrite right_window_panics by lia. cbn [bind].
  exists (w1 + w2 + w3 + 1), (k1 + k2 + k3 + k4). split; [reflexivity|]. split; [lia|]. split; [lia|discriminate].
Qed.
End Proofs.

Lemma fold_left_map_zlen {T} (f : Z -> Z -> Z) (keys : list (list T)) : forall m,
  fold_left f (map zlen keys) m = fold_left (fun m s => f m (zlen s)) keys m.
Proof. induction keys as [|s keys IH]; intros m; cbn; auto. Qed.

(** C67 *)
Lemma slice_analysis_steps :
  forall (T : Type) (h : list T -> Z) (keys : list (list T)) (shortest longest : Z),
  (forall s, In s keys -> zlen s < 2 ^ 64) ->
  is_min shortest (map zlen keys) -> is_max longest (map zlen keys) ->
  let bound := if shortest =? longest then windows_within shortest else 3 * shortest in
  exists windows hashes,
    analyze_slice_keys_steps h keys = (analyze_slice_keys h keys, (windows, hashes)) /\
    0 <= windows <= bound /\ 0 <= hashes <= windows * zlen keys /\
    (analyze_slice_keys h keys = Ok SliceLength -> windows = 0) /\
    (16 < longest -> analyze_slice_keys h keys = Ok SliceNormal ->
     if shortest =? longest then windows = bound else shortest <= 1 /\ windows = 2 * shortest).
Proof.
  intros T h keys mn mx H64 Hmn Hmx bound.
  assert (Hne : map zlen keys <> []) by (intros E; rewrite E in Hmn; destruct Hmn as ([] & _)).
  assert (Hmn' : fold_left (fun m s => Z.min m (zlen s)) keys (imax usize) = mn).
  { rewrite <- (fold_left_map_zlen Z.min).
    eapply is_min_unique; [apply fold_min_is_min; auto|exact Hmn].
    intros x Hx. apply in_map_iff in Hx. destruct Hx as (s & <- & Hs). specialize (H64 s Hs).
    change (imax usize) with (2 ^ 64 - 1). lia. }
  assert (Hmx' : fold_left (fun m s => Z.max m (zlen s)) keys 0 = mx).
  { rewrite <- (fold_left_map_zlen Z.max).
    eapply is_max_unique; [apply fold_max_is_max; auto|exact Hmx].
    intros x Hx. apply in_map_iff in Hx. destruct Hx as (s & <- & Hs). apply zlen_nonneg. }
  assert (H0 : 0 <= mn).
  { destruct Hmn as (Hin & _). apply in_map_iff in Hin. destruct Hin as (s & <- & _). apply zlen_nonneg. }
  assert (Hle : mn <= mx) by (apply Hmx, Hmn).
  assert (Hb : 0 <= bound).
  { unfold bound. rewrite <- side_within by auto. pose proof (side_nonneg mn (Z.to_nat (Z.min mn 16)) 1 ltac:(lia)).
    destruct (mn =? mx); lia. }
  unfold analyze_slice_keys_steps, analyze_slice_keys.
  destruct (analyze_lengths keys) as [|i l|i l|] eqn:El.
  - cbv zeta. rewrite Hmn', Hmx'. unfold analyze_subslices. rewrite Hmn', Hmx'.
    set (acc := f64_five_percent (zlen keys)).
    assert (Hnl : find_subslice h keys mn mx acc (Z.to_nat (Z.min mn 16)) 1 <> Ok SliceLength).
    { generalize (Z.to_nat (Z.min mn 16)) as r. generalize 1 as l.
      intros l r. revert l. induction r as [|r IH]; intros l; cbn [find_subslice]; [discriminate|].
      destruct (find_index _ _ _ _ _ _ _) as [[]| | |]; cbn [bind]; try discriminate.
      { destruct (l =? mx); discriminate. }
      destruct (mn =? mx); cbn [bind]; [apply IH|].
      destruct (find_index _ _ _ _ _ _ _) as [[]| | |]; cbn [bind]; try discriminate. apply IH. }
    destruct (Z.eqb_spec mn mx) as [Em|Em].
    + destruct (find_subslice_steps_ok h keys mn mx acc (Z.to_nat (Z.min mn 16)) 1 0 0)
        as (w & k & -> & Hw & Hk & He); try lia.
      rewrite side_within in * by auto. destruct (Z.eqb_spec mn mx) as [_|]; [|lia].
      exists w, k. split; [reflexivity|]. split; [unfold bound; lia|]. split; [lia|]. split; [congruence|].
      intros H16 H. unfold bound. specialize (He ltac:(lia) H). lia.
    + destruct (Z.eq_dec mn 0) as [E0|E0].
      { rewrite E0 in *. change (Z.to_nat (Z.min 0 16)) with O. cbn [find_subslice_steps find_subslice].
        exists 0, 0. split; [reflexivity|]. split; [lia|]. split; [lia|]. split; [discriminate|lia]. }
      destruct (find_subslice_unequal h keys mn mx acc (Z.to_nat (Z.min mn 16))) as (w & k & -> & Hw & Hk & He);
        auto; try lia.
      { intros ->. now apply Hne. }
      { intros s Hs. apply Hmn. now apply in_map. }
      exists w, k. split; [reflexivity|]. split; [unfold bound; lia|]. split; [lia|]. split; [congruence|].
      intros H16 H. destruct (He ltac:(lia) H) as (-> & ->). lia.
  - exists 0, 0. split; auto. split; [lia|]. split; [lia|]. split; [auto|discriminate].
  - exists 0, 0. split; auto. split; [lia|]. split; [lia|]. split; [auto|discriminate].
  - exists 0, 0. split; auto. split; [lia|]. split; [lia|]. split; [auto|discriminate].
Qed.
