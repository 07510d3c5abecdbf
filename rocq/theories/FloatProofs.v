(** The rounding used by the model is rounding to nearest even. *)
From Coq Require Import ZArith Bool Lia.
From Verif Require Import Base FloatSpec.
Open Scope Z_scope.

Lemma representable_gap m e x : 2 ^ 52 <= m -> 0 <= e -> representable x ->
  x <= m * 2 ^ e \/ (m + 1) * 2 ^ e <= x.
Proof.
  intros Hm He (m' & e' & Hm' & He' & ->). destruct (Z.le_gt_cases e e') as [H|H].
  - replace (2 ^ e') with (2 ^ (e' - e) * 2 ^ e) by (rewrite <- Z.pow_add_r by lia; f_equal; lia).
    assert (0 < 2 ^ e) by (apply Z.pow_pos_nonneg; lia).
    destruct (Z.le_gt_cases (m' * 2 ^ (e' - e)) m); [left|right]; nia.
  - left. assert (2 ^ e' <= 2 ^ (e - 1)) by (apply Z.pow_le_mono_r; lia).
    assert (2 ^ e = 2 * 2 ^ (e - 1)) by (rewrite <- Z.pow_succ_r by lia; f_equal; lia).
    assert (0 < 2 ^ e') by (apply Z.pow_pos_nonneg; lia).
    change (2 ^ 53) with (2 * 2 ^ 52) in Hm'. nia.
Qed.

Lemma float_rounding :
  forall n, 0 <= n -> nearest_even n (round53 n).
Proof.
  intros n Hn. unfold round53. destruct (Z.ltb_spec n (2 ^ 53)) as [H|H].
  - repeat split.
    + exists n, 0. rewrite Z.mul_1_r. lia.
    + intros x _. rewrite Z.sub_diag. cbn [Z.abs]. lia.
    + intros x _ Hx E. rewrite Z.sub_diag in E. lia.
  - set (e := Z.log2 n - 52).
    assert (Hlog : 2 ^ Z.log2 n <= n < 2 ^ (Z.log2 n + 1)).
    { pose proof (Z.log2_spec n ltac:(lia)). unfold Z.succ in *. lia. }
    assert (He : 1 <= e). { unfold e. assert (53 <= Z.log2 n) by (apply Z.log2_le_pow2; lia). lia. }
    assert (Hp : 0 < 2 ^ (e - 1)) by (apply Z.pow_pos_nonneg; lia).
    assert (H2 : 2 ^ e = 2 * 2 ^ (e - 1)) by (rewrite <- Z.pow_succ_r by lia; f_equal; lia).
    assert (Hlo : 2 ^ Z.log2 n = 2 ^ 52 * 2 ^ e) by (rewrite <- Z.pow_add_r by lia; f_equal; unfold e; lia).
    assert (Hhi : 2 ^ (Z.log2 n + 1) = 2 ^ 53 * 2 ^ e) by (rewrite <- Z.pow_add_r by lia; f_equal; unfold e; lia).
    pose proof (Z.div_mod n (2 ^ e) ltac:(lia)) as Hdm. pose proof (Z.mod_pos_bound n (2 ^ e) ltac:(lia)) as Hr.
    set (m := n / 2 ^ e) in *. set (r := n mod 2 ^ e) in *. set (half := 2 ^ (e - 1)) in *. set (P := 2 ^ e) in *.
    assert (Hm : 2 ^ 52 <= m < 2 ^ 53) by nia. clearbody m r.
    assert (Hgap : forall x, representable x -> x <= m * P \/ (m + 1) * P <= x)
      by (intros x Hx; apply representable_gap; auto; lia).
    cbv zeta. destruct ((half <? r) || (half =? r) && Z.odd m) eqn:Ec.
    + assert (Hup : half < r \/ half = r /\ Z.odd m = true).
      { apply orb_true_iff in Ec. rewrite andb_true_iff, Z.ltb_lt, Z.eqb_eq in Ec. exact Ec. }
      repeat split.
      * destruct (Z.eq_dec (m + 1) (2 ^ 53)) as [E|E].
        -- exists (2 ^ 52), (e + 1). rewrite E. unfold P. rewrite Z.pow_add_r by lia. split; [lia|]. split; lia.
        -- exists (m + 1), e. split; [lia|]. split; [lia|reflexivity].
      * intros x Hx. destruct (Hgap x Hx); lia.
      * intros x Hx Hne Heq. assert (Hodd : Z.odd m = true) by (destruct (Hgap x Hx); [|lia]; destruct Hup as [|[]]; [lia|auto]).
        assert (Hev : Z.even (m + 1) = true).
        { rewrite Z.even_add. rewrite <- Z.negb_odd, Hodd. reflexivity. }
        destruct (Z.eq_dec (m + 1) (2 ^ 53)) as [E|E].
        -- exists (2 ^ 52), (e + 1). rewrite E. unfold P. rewrite Z.pow_add_r by lia. split; [lia|]. split; [lia|]. split; [lia|reflexivity].
        -- exists (m + 1), e. split; [lia|]. split; [lia|]. split; [reflexivity|exact Hev].
    + assert (Hdown : r < half \/ half = r /\ Z.odd m = false).
      { apply orb_false_iff in Ec. rewrite andb_false_iff, Z.ltb_ge, Z.eqb_neq in Ec.
        destruct Ec as [Ec1 [Ec2|Ec2]]; [left; lia|]. destruct (Z.eq_dec half r); [auto|left; lia]. }
      repeat split.
      * exists m, e. split; [lia|]. split; [lia|reflexivity].
      * intros x Hx. destruct (Hgap x Hx); lia.
      * intros x Hx Hne Heq. exists m, e. split; [lia|]. split; [lia|]. split; [reflexivity|].
        rewrite <- Z.negb_odd. destruct Hdown as [|[_ ->]]; auto. destruct (Hgap x Hx); lia.
Qed.

Lemma representable_multiple x : representable x -> 2 ^ 54 <= x -> exists k, x = 4 * k.
Proof.
  intros (m & e & Hm & He & ->) Hx. assert (2 <= e).
  { destruct (Z.lt_ge_cases e 2) as [H|]; auto. assert (2 ^ e <= 2 ^ 1) by (apply Z.pow_le_mono_r; lia).
    assert (0 < 2 ^ e) by (apply Z.pow_pos_nonneg; lia). change (2 ^ 54) with (2 ^ 53 * 2) in Hx. nia. }
  exists (m * 2 ^ (e - 2)). replace (2 ^ e) with (2 ^ 2 * 2 ^ (e - 2)) by (rewrite <- Z.pow_add_r by lia; f_equal; lia).
  change (2 ^ 2) with 4. lia.
Qed.

(** The model of [f64::sqrt(c as f64) as u64]: the square root in units of 2^-65. *)
Lemma float_sqrt :
  forall c, 0 < c ->
  exists c' r, nearest_even c c' /\ nearest_root (c' * 2 ^ 130) r /\ f64_sqrt c = r / 2 ^ 65.
Proof.
  intros c Hc. exists (round53 c). unfold f64_sqrt. set (c' := round53 c).
  pose proof (float_rounding c ltac:(lia)) as Hn. fold c' in Hn.
  assert (Hc1 : 1 <= c').
  { destruct Hn as (_ & Hn & _). specialize (Hn 1). destruct (Z.lt_ge_cases c' 1); [|lia].
    assert (Z.abs (c - c') <= Z.abs (c - 1)); [|lia]. apply Hn. exists 1, 0. lia. }
  assert (Hs : 0 <= c' * 2 ^ 128) by lia.
  pose proof (Z.sqrt_spec (c' * 2 ^ 128) Hs) as Hsq. cbv zeta in Hsq. unfold Z.succ in Hsq.
  set (s := Z.sqrt (c' * 2 ^ 128)) in *.
  assert (Hs64 : 2 ^ 64 <= s).
  { apply Z.sqrt_le_square; [lia|lia|]. change (2 ^ 64 * 2 ^ 64) with (2 ^ 128). lia. }
  set (st := if s * s =? c' * 2 ^ 128 then 0 else 1).
  assert (Hst : st = 0 /\ s * s = c' * 2 ^ 128 \/ st = 1 /\ s * s < c' * 2 ^ 128).
  { unfold st. destruct (Z.eqb_spec (s * s) (c' * 2 ^ 128)); [left|right]; lia. }
  clearbody st s c'. pose proof (float_rounding (2 * s + st) ltac:(lia)) as (Hr & Hnear & _).
  set (r := round53 (2 * s + st)) in *. clearbody r.
  assert (Hrbig : 2 ^ 64 <= r).
  { assert (H : Z.abs (2 * s + st - r) <= Z.abs (2 * s + st - 2 ^ 64)).
    { apply Hnear. exists 1, 64. lia. }
    lia. }
  exists r. split; [exact Hn|]. split; [|reflexivity].
  change (2 ^ 130) with (4 * 2 ^ 128). set (C := c' * 2 ^ 128) in *.
  replace (c' * (4 * 2 ^ 128)) with (4 * C) by (unfold C; lia). clearbody C.
  destruct (representable_multiple r Hr ltac:(lia)) as (k & Hk).
  split; [exact Hr|split]; intros x Hx Hlt; pose proof (Hnear x Hx) as Hd.
  - assert (Hmid : x + r <= 4 * s).
    { destruct (Z.lt_ge_cases x (2 ^ 54)) as [Hsm|Hbig].
      - assert (H : Z.abs (2 * s + st - r) <= Z.abs (2 * s + st - 2 ^ 64)) by (apply Hnear; exists 1, 64; lia). lia.
      - destruct (representable_multiple x Hx Hbig) as (k' & Hk'). lia. }
    nia.
  - destruct (representable_multiple x Hx ltac:(lia)) as (k' & Hk').
    destruct Hst as [[-> Heq]|[-> Hlt']].
    + assert (4 * s <= x + r) by lia. nia.
    + assert (4 * s + 4 <= x + r) by lia. nia.
Qed.
