(** Integer key analysis when the arithmetic of the key type overflows. *)
From Coq Require Import List ZArith Bool Lia Permutation.
From Verif Require Import Spec Base BaseLemmas IntKeyAnalyzer IntProofs.
Import ListNotations.
Open Scope Z_scope.

Lemma type_size ty : 1 <= bits ty -> imax ty - imin ty = 2 ^ bits ty - 1.
Proof.
  intros H. unfold imin, imax. destruct (signed ty); [|lia].
  replace (bits ty) with (Z.succ (bits ty - 1)) at 3 by lia. rewrite Z.pow_succ_r by lia. lia.
Qed.

Lemma wrap_range ty z : 1 <= bits ty -> imin ty <= wrap ty z <= imax ty.
Proof.
  intros H. unfold wrap, imin, imax.
  pose proof (Z.mod_pos_bound z (2 ^ bits ty) ltac:(apply Z.pow_pos_nonneg; lia)) as Hm.
  assert (2 ^ bits ty = 2 * 2 ^ (bits ty - 1)).
  { rewrite <- Z.pow_succ_r by lia. f_equal. lia. }
  destruct (signed ty); cbn [andb]; [|lia].
  destruct (Z.leb_spec (2 ^ (bits ty - 1)) (z mod 2 ^ bits ty)); lia.
Qed.

Lemma wrap_mod ty z : 1 <= bits ty -> wrap ty z mod 2 ^ bits ty = z mod 2 ^ bits ty.
Proof.
  intros H. unfold wrap. pose proof (Z.pow_pos_nonneg 2 (bits ty) ltac:(lia) ltac:(lia)).
  destruct (_ && _).
  - rewrite Zminus_mod, Z.mod_same, Z.sub_0_r, !Zmod_mod by lia. reflexivity.
  - now apply Zmod_mod.
Qed.

Lemma arith_wrapping ty z : 1 <= bits ty ->
  exists r, arith Wrapping ty z = Ok r /\ imin ty <= r <= imax ty /\
    r mod 2 ^ bits ty = z mod 2 ^ bits ty.
Proof.
  intros H. unfold arith, in_type. destruct (_ && _) eqn:E.
  - exists z. repeat split; lia.
  - exists (wrap ty z). split; auto. split; [now apply wrap_range|now apply wrap_mod].
Qed.

Lemma congruent_eq ty a b : 1 <= bits ty ->
  imin ty <= a <= imax ty -> imin ty <= b <= imax ty ->
  a mod 2 ^ bits ty = b mod 2 ^ bits ty -> a = b.
Proof.
  intros H Ha Hb E. pose proof (type_size ty H) as Hs.
  pose proof (Z.pow_pos_nonneg 2 (bits ty) ltac:(lia) ltac:(lia)) as Hpos.
  set (M := 2 ^ bits ty) in *.
  pose proof (Z.div_mod a M ltac:(lia)) as Ea. pose proof (Z.div_mod b M ltac:(lia)) as Eb.
  rewrite E in Ea. revert Ea Eb. clear E. generalize (a / M) (b / M) (b mod M). intros qa qb r Ea Eb.
  assert (- M < a - b < M) by lia. assert (qa - qb = 0) by nia. nia.
Qed.

Lemma scan_int_keys_wrapping ty keys : 1 <= bits ty -> forall mn mx c n,
  imin ty <= c <= imax ty -> c mod 2 ^ bits ty = n mod 2 ^ bits ty ->
  exists r, scan_int_keys Wrapping ty keys mn mx c =
      Ok (fold_left Z.min keys mn, fold_left Z.max keys mx, r) /\
    imin ty <= r <= imax ty /\ r mod 2 ^ bits ty = (n + zlen keys) mod 2 ^ bits ty.
Proof.
  intros Hb. pose proof (Z.pow_pos_nonneg 2 (bits ty) ltac:(lia) ltac:(lia)).
  induction keys as [|k keys IH]; intros mn mx c n Hc Hn; cbn [scan_int_keys fold_left].
  - exists c. change (zlen []) with 0. rewrite Z.add_0_r. auto.
  - destruct (arith_wrapping ty (c + 1) Hb) as (c' & -> & Hc' & Hm). cbn [bind].
    destruct (IH (Z.min mn k) (Z.max mx k) c' (n + 1)) as (r & Hr & Hr1 & Hr2); auto.
    { rewrite Hm, <- (Zplus_mod_idemp_l c), Hn, Zplus_mod_idemp_l. reflexivity. }
    exists r. split; auto. split; auto. rewrite Hr2, zlen_cons. f_equal. lia.
Qed.

Lemma typed_count ty keys : 1 <= bits ty -> NoDup keys ->
  (forall k, In k keys -> imin ty <= k <= imax ty) -> zlen keys <= 2 ^ bits ty.
Proof.
  intros Hb Hd Hin. pose proof (type_size ty Hb).
  pose proof (Z.pow_pos_nonneg 2 (bits ty) ltac:(lia) ltac:(lia)).
  assert (length keys <= length (interval (imin ty) (Z.to_nat (2 ^ bits ty))))%nat.
  { apply NoDup_incl_length; auto. intros k Hk. apply interval_In. specialize (Hin k Hk). lia. }
  rewrite interval_length in H1. unfold zlen. lia.
Qed.

Lemma int_range_wrapping :
  forall (ty : int_type) (keys : list Z),
  1 <= bits ty -> NoDup keys -> (forall k, In k keys -> imin ty <= k <= imax ty) ->
  (keys <> [] /\ consecutive keys /\ zlen keys < 2 ^ bits ty -> analyze_int_keys Wrapping ty keys = Ok IntRange) /\
  (keys = [] \/ ~ consecutive keys \/ zlen keys = 2 ^ bits ty -> analyze_int_keys Wrapping ty keys = Ok IntNormal).
Proof.
  intros ty keys Hb Hd Hin. pose proof (typed_count ty keys Hb Hd Hin) as Hcount.
  pose proof (Z.pow_pos_nonneg 2 (bits ty) ltac:(lia) ltac:(lia)) as Hpos.
  pose proof (imin_imax_0 ty Hb) as H0. pose proof (type_size ty Hb) as Hsz.
  destruct keys as [|k0 l] eqn:Hk.
  { split; [tauto|]. intros _. reflexivity. }
  rewrite <- Hk in *. assert (Hne : keys <> []) by (subst; discriminate).
  assert (Hn : 0 < zlen keys) by (subst; rewrite zlen_cons; pose proof (zlen_nonneg l); lia). clear Hk.
  destruct (min_max_exist keys Hne) as (mn & mx & Hmn & Hmx).
  assert (E1 : fold_left Z.min keys (imax ty) = mn).
  { eapply is_min_unique; [apply fold_min_is_min|]; auto. intros; now apply Hin. }
  assert (E2 : fold_left Z.max keys (imin ty) = mx).
  { eapply is_max_unique; [apply fold_max_is_max|]; auto. intros; now apply Hin. }
  pose proof (consecutive_iff keys mn mx Hne Hd Hmn Hmx) as Hc.
  assert (Hsp : 0 <= mx - mn < 2 ^ bits ty).
  { pose proof (Hin mn (proj1 Hmn)). pose proof (Hin mx (proj1 Hmx)).
    pose proof (proj2 Hmx mn (proj1 Hmn)). lia. }
  unfold analyze_int_keys.
  destruct (scan_int_keys_wrapping ty keys Hb (imax ty) (imin ty) 0 0) as (c & -> & Hc1 & Hc2); auto.
  cbn [bind]. rewrite E1, E2. rewrite Z.add_0_l in Hc2.
  assert (Hfull : c = 0 <-> zlen keys = 2 ^ bits ty).
  { split.
    - intros ->. rewrite Z.mod_0_l in Hc2 by lia. symmetry in Hc2. apply Z.mod_divide in Hc2; [|lia].
      destruct Hc2 as (q & Hq). assert (q = 1) by nia. subst q. lia.
    - intros E. rewrite E, Z.mod_same in Hc2 by lia. apply (congruent_eq ty); auto. }
  destruct (Z.eqb_spec c 0) as [Hz|Hz].
  { apply Hfull in Hz. split; [lia|reflexivity]. }
  destruct (arith_wrapping ty (mx - mn) Hb) as (s & -> & Hs1 & Hs2). cbn [bind].
  destruct (arith_wrapping ty (c - 1) Hb) as (d & -> & Hd1 & Hd2). cbn [bind].
  assert (Hdn : d mod 2 ^ bits ty = (zlen keys - 1) mod 2 ^ bits ty).
  { rewrite Hd2, Zminus_mod, Hc2, <- Zminus_mod. reflexivity. }
  assert (Heq : s = d <-> mx - mn = zlen keys - 1).
  { split.
    - intros ->. rewrite Hdn in Hs2. rewrite !Z.mod_small in Hs2 by lia. lia.
    - intros E. rewrite E in Hs2. apply (congruent_eq ty); auto. now rewrite Hs2, Hdn. }
  destruct (Z.eqb_spec s d) as [E|E].
  - apply Heq in E. split; [reflexivity|]. intros [H|[H|H]]; tauto.
  - split; [|reflexivity]. intros (_ & H & _). tauto.
Qed.

Lemma scan_count_overflow ty keys : 1 <= bits ty -> forall mn mx c,
  0 <= c <= imax ty -> imax ty < c + zlen keys ->
  scan_int_keys Checked ty keys mn mx c = Panic POverflow.
Proof.
  intros Hb. pose proof (imin_imax_0 ty Hb).
  induction keys as [|k keys IH]; intros mn mx c Hc Hn; cbn [scan_int_keys].
  - change (zlen []) with 0 in Hn. lia.
  - rewrite zlen_cons in Hn. unfold arith, in_type. destruct (_ && _) eqn:E; [|reflexivity].
    cbn [bind]. apply IH; lia.
Qed.

(** The complete answer of the analyzer on distinct keys with overflow checks on. *)
Lemma int_range_checked :
  forall (ty : int_type) (keys : list Z),
  1 <= bits ty -> NoDup keys -> (forall k, In k keys -> imin ty <= k <= imax ty) ->
  (imax ty < zlen keys \/ (exists x y, In x keys /\ In y keys /\ imax ty < y - x)) /\
    analyze_int_keys Checked ty keys = Panic POverflow \/
  (zlen keys <= imax ty /\ forall x y, In x keys -> In y keys -> y - x <= imax ty) /\
    (keys <> [] /\ consecutive keys /\ analyze_int_keys Checked ty keys = Ok IntRange \/
     (keys = [] \/ ~ consecutive keys) /\ analyze_int_keys Checked ty keys = Ok IntNormal).
Proof.
  intros ty keys Hb Hd Hin. pose proof (imin_imax_0 ty Hb) as H0.
  destruct (Z_lt_le_dec (imax ty) (zlen keys)) as [Hl|Hl].
  { left. split; auto. unfold analyze_int_keys. rewrite scan_count_overflow; auto; try lia. }
  destruct keys as [|k0 l] eqn:Hk.
  { right. split; [split; [exact Hl|intros ? ? []]|]. right. auto. }
  rewrite <- Hk in *. assert (Hne : keys <> []) by (subst; discriminate). clear Hk.
  destruct (min_max_exist keys Hne) as (mn & mx & Hmn & Hmx).
  destruct (Z_lt_le_dec (imax ty) (mx - mn)) as [Hs|Hs].
  { left. split; [right; exists mn, mx; split; [apply Hmn|split; [apply Hmx|auto]]|].
    apply (analyze_int_keys_spread_overflow ty keys mn mx); auto. now apply Forall_forall. }
  right. split.
  { split; auto. intros x y Hx Hy. pose proof (proj2 Hmn x Hx). pose proof (proj2 Hmx y Hy). lia. }
  rewrite (analyze_int_keys_ok Checked ty keys mn mx); auto; [|now apply Forall_forall].
  pose proof (consecutive_iff keys mn mx Hne Hd Hmn Hmx) as Hc.
  destruct (Z.eqb_spec (mx - mn) (zlen keys - 1)); [left|right]; tauto.
Qed.
