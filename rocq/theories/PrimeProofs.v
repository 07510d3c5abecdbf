(** The primality test on all 64-bit numbers, and a prime large enough to stop the search for
    table sizes before it leaves the machine word. *)
From Coq Require Import List ZArith Bool Lia Znumtheory Zpow_facts Permutation.
From Verif Require Import Base BaseLemmas HashCodeAnalyzer HashCodeAnalyzerProofs.
Import ListNotations.
Open Scope Z_scope.

(** ** The rounded square root is never too small *)

Lemma round53_down n e : 2 ^ 53 <= n < 2 ^ (e + 53) -> 1 <= e -> n - 2 ^ (e - 1) <= round53 n.
Proof.
  intros H He1. unfold round53. destruct (Z.ltb_spec n (2 ^ 53)); [lia|].
  set (e0 := Z.log2 n - 52).
  assert (He : 1 <= e0).
  { unfold e0. pose proof (Z.log2_le_mono (2 ^ 53) n ltac:(lia)) as L. rewrite Z.log2_pow2 in L; lia. }
  assert (He' : e0 <= e).
  { unfold e0. assert (Z.log2 n < e + 53) by (apply Z.log2_lt_pow2; lia). lia. }
  assert (Hmono : 2 ^ (e0 - 1) <= 2 ^ (e - 1)) by (apply Z.pow_le_mono_r; lia).
  assert (Hhalf : 2 ^ e0 = 2 * 2 ^ (e0 - 1)) by (rewrite <- Z.pow_succ_r by lia; f_equal; lia).
  assert (0 < 2 ^ (e0 - 1)) by (apply Z.pow_pos_nonneg; lia).
  pose proof (Z.div_mod n (2 ^ e0) ltac:(lia)) as Hdm.
  pose proof (Z.mod_pos_bound n (2 ^ e0) ltac:(lia)) as Hm.
  set (q := n / 2 ^ e0) in *. set (r := n mod 2 ^ e0) in *.
  destruct ((2 ^ (e0 - 1) <? r) || ((2 ^ (e0 - 1) =? r) && Z.odd q)) eqn:C.
  - nia.
  - apply orb_false_iff in C. destruct C as (C & _). apply Z.ltb_ge in C. nia.
Qed.

(** A grid point less than half a unit above is reached. *)
Lemma round53_reach n k j e :
  2 ^ (e + 52) <= n < k * 2 ^ j -> 1 <= e <= j -> n < 2 ^ (j + 53) -> k * 2 ^ j - n < 2 ^ (e - 1) ->
  k * 2 ^ j <= round53 n.
Proof.
  intros Hn He Hj Hd.
  assert (H53 : 2 ^ 53 <= n).
  { apply Z.le_trans with (2 ^ (e + 52)); [apply Z.pow_le_mono_r; lia|lia]. }
  unfold round53. destruct (Z.ltb_spec n (2 ^ 53)); [lia|].
  set (e0 := Z.log2 n - 52).
  assert (He0 : e <= e0).
  { unfold e0. pose proof (Z.log2_le_mono (2 ^ (e + 52)) n ltac:(lia)) as L. rewrite Z.log2_pow2 in L; lia. }
  assert (He1 : e0 <= j).
  { unfold e0. assert (Z.log2 n < j + 53) by (apply Z.log2_lt_pow2; lia). lia. }
  assert (Hmono : 2 ^ (e - 1) <= 2 ^ (e0 - 1)) by (apply Z.pow_le_mono_r; lia).
  assert (Hhalf : 2 ^ e0 = 2 * 2 ^ (e0 - 1)) by (rewrite <- Z.pow_succ_r by lia; f_equal; lia).
  assert (Hpos : 0 < 2 ^ (e0 - 1)) by (apply Z.pow_pos_nonneg; lia).
  pose proof (Z.div_mod n (2 ^ e0) ltac:(lia)) as Hdm.
  pose proof (Z.mod_pos_bound n (2 ^ e0) ltac:(lia)) as Hm.
  set (q := n / 2 ^ e0) in *. set (r := n mod 2 ^ e0) in *.
  assert (Hk : k * 2 ^ j = (k * 2 ^ (j - e0)) * 2 ^ e0).
  { rewrite <- Z.mul_assoc, <- Z.pow_add_r by lia. do 2 f_equal. lia. }
  rewrite Hk in *. set (K := k * 2 ^ (j - e0)) in *.
  assert (q + 1 <= K) by nia. assert (K <= q + 1) by nia.
  assert (Hr : 2 ^ (e0 - 1) < r) by nia.
  apply Z.ltb_lt in Hr. rewrite Hr. cbn [orb]. nia.
Qed.


Lemma sqrt_binade (f H B Pm c' p s st : Z) :
  0 <= f <= 5 -> 0 <= H -> 2 ^ (52 + 2 * f) <= B ->
  B <= c' -> p * p - H <= c' < p * p -> p < 2 ^ 32 ->
  0 <= s -> s * s <= c' * 2 ^ 128 < (s + 1) * (s + 1) ->
  st = (if s * s =? c' * 2 ^ 128 then 0 else 1) ->
  0 <= Pm -> (Pm - 1) * (Pm - 1) < B ->
  2 ^ 130 * H + (2 ^ (38 + f) - 1) * (2 ^ (38 + f) - 1) < 2 * Pm * 2 ^ 65 * (2 ^ (38 + f) - 1) ->
  0 <= p ->
  p * 2 ^ 65 <= round53 (2 * s + st).
Proof.
  intros Hf HH HB HBc Hc Hp32 Hs0 Hs Hst HPm HPmB Hgap Hp0.
  assert (Hpm : Pm <= p) by nia.
  assert (Hst' : 0 <= st <= 1) by (subst st; destruct (_ =? _); lia).
  set (x := 2 * s + st).
  assert (Hx1 : c' * 2 ^ 130 <= (x + 1) * (x + 1)).
  { unfold x. subst st. destruct (Z.eqb_spec (s * s) (c' * 2 ^ 128)); nia. }
  assert (HsB : 2 ^ (90 + f) <= s).
  { apply Z.nlt_ge. intros Hlt. assert ((s + 1) * (s + 1) <= 2 ^ (90 + f) * 2 ^ (90 + f)) by (apply Z.mul_le_mono_nonneg; lia).
    rewrite <- Z.pow_add_r in H0 by lia.
    assert (2 ^ (52 + 2 * f) * 2 ^ 128 <= c' * 2 ^ 128) by (apply Z.mul_le_mono_nonneg_r; lia).
    rewrite <- Z.pow_add_r in H1 by lia. replace (90 + f + (90 + f)) with (52 + 2 * f + 128) in H0 by lia. lia. }
  assert (Hs97 : s < p * 2 ^ 64).
  { apply Z.nle_gt. intros Hle. assert ((p * 2 ^ 64) * (p * 2 ^ 64) <= s * s) by (apply Z.mul_le_mono_nonneg; lia). nia. }
  destruct (Z.le_gt_cases (p * 2 ^ 65) x) as [Hle|Hlt].
  - apply round53_grid; auto; [|lia]. unfold x. change (2 ^ (65 + 53)) with (2 ^ 118). clear - Hs97 Hp32 Hst'. lia.
  - assert (Hpow : 2 ^ (39 + f + 52) = 2 * 2 ^ (90 + f)).
    { rewrite <- Z.pow_succ_r by lia. f_equal. lia. }
    apply (round53_reach x p 65 (39 + f)).
    + split; [|exact Hlt]. rewrite Hpow. unfold x. lia.
    + lia.
    + unfold x. change (2 ^ (65 + 53)) with (2 ^ 118). clear - Hs97 Hp32 Hst'. lia.
    + replace (39 + f - 1) with (38 + f) by lia.
      set (Q := 2 ^ (38 + f)) in *. assert (HQ : 0 < Q) by (apply Z.pow_pos_nonneg; lia).
      set (A := p * 2 ^ 65) in *.
      apply Z.nle_gt. intros HD.
      assert (Hy : x + 1 <= A - (Q - 1)) by lia.
      assert (H1 : (x + 1) * (x + 1) <= (A - (Q - 1)) * (A - (Q - 1))) by (apply Z.mul_le_mono_nonneg; lia).
      assert (H2 : A * A = p * p * 2 ^ 130) by (unfold A; ring).
      assert (H3 : A * A - 2 ^ 130 * H <= c' * 2 ^ 130) by lia.
      assert (H4 : 2 * Pm * 2 ^ 65 * (Q - 1) <= 2 * A * (Q - 1)).
      { apply Z.mul_le_mono_nonneg_r; [lia|]. unfold A. lia. }
      assert (H5 : (A - (Q - 1)) * (A - (Q - 1)) = A * A - 2 * A * (Q - 1) + (Q - 1) * (Q - 1)) by ring.
      lia.
Qed.

(** The numeric conditions of the previous lemma for a radicand of [k + 1] bits. *)
Definition binade_check (k : Z) : bool :=
  let f := (k - 52) / 2 in
  let H := if k =? 52 then 0 else 2 ^ (k - 53) in
  let Pm := Z.sqrt (2 ^ k) in
  (0 <=? f) && (f <=? 5) && (0 <=? H) && (2 ^ (52 + 2 * f) <=? 2 ^ k) && (0 <=? Pm) &&
  ((Pm - 1) * (Pm - 1) <? 2 ^ k) &&
  (2 ^ 130 * H + (2 ^ (38 + f) - 1) * (2 ^ (38 + f) - 1) <? 2 * Pm * 2 ^ 65 * (2 ^ (38 + f) - 1)).
Lemma binade_checks : forallb binade_check [52; 53; 54; 55; 56; 57; 58; 59; 60; 61; 62; 63] = true.
Proof. vm_compute. reflexivity. Qed.

Lemma f64_sqrt_ge c p : 0 <= p -> p * p <= c < 2 ^ 64 -> p <= f64_sqrt c.
Proof.
  intros Hp0 Hc. destruct (Z.lt_ge_cases c (2 ^ 52)) as [Hsmall|Hbig].
  { rewrite f64_sqrt_exact by nia. apply Z.sqrt_le_square; nia. }
  assert (Hp32 : p < 2 ^ 32) by nia.
  unfold f64_sqrt. set (c' := round53 c).
  assert (Hc'0 : 0 <= c') by (apply round53_bounds; lia).
  pose proof (Z.sqrt_spec (c' * 2 ^ 128) ltac:(lia)) as Hs. unfold Z.succ in Hs.
  pose proof (Z.sqrt_nonneg (c' * 2 ^ 128)) as Hs0.
  set (s := Z.sqrt (c' * 2 ^ 128)) in *.
  set (st := if s * s =? c' * 2 ^ 128 then 0 else 1).
  assert (Hst' : 0 <= st <= 1) by (unfold st; destruct (_ =? _); lia).
  apply Z.div_le_lower_bound; [lia|]. rewrite Z.mul_comm.
  destruct (Z.le_gt_cases (p * p) c') as [Hle|Hlt].
  - assert (p * 2 ^ 64 <= s) by nia.
    assert (c' <= 2 * c) by (apply round53_bounds; lia).
    assert (s < 2 ^ 98) by nia.
    apply round53_grid; try lia.
  - assert (Hlog : 52 <= Z.log2 c < 64).
    { split; [apply Z.log2_le_pow2; lia|apply Z.log2_lt_pow2; lia]. }
    assert (Hc2 : 2 ^ Z.log2 c <= c < 2 ^ (Z.log2 c + 1)).
    { pose proof (Z.log2_spec c ltac:(lia)). unfold Z.succ in *. lia. }
    assert (Hlow : 2 ^ Z.log2 c <= c').
    { unfold c'. replace (2 ^ Z.log2 c) with (2 ^ 52 * 2 ^ (Z.log2 c - 52)).
      - apply round53_grid; try lia.
        + replace (Z.log2 c - 52 + 53) with (Z.log2 c + 1) by lia. lia.
        + rewrite <- Z.pow_add_r by lia. replace (52 + (Z.log2 c - 52)) with (Z.log2 c) by lia. lia.
      - rewrite <- Z.pow_add_r by lia. f_equal. lia. }
    assert (Hdown : p * p - (if Z.log2 c =? 52 then 0 else 2 ^ (Z.log2 c - 53)) <= c').
    { destruct (Z.eqb_spec (Z.log2 c) 52) as [E|E].
      - unfold c'. rewrite E in *. rewrite round53_small by lia. lia.
      - pose proof (round53_down c (Z.log2 c - 52)) as R. fold c' in R.
        replace (Z.log2 c - 52 + 53) with (Z.log2 c + 1) in R by lia.
        replace (Z.log2 c - 52 - 1) with (Z.log2 c - 53) in R by lia.
        assert (2 ^ 53 <= 2 ^ Z.log2 c) by (apply Z.pow_le_mono_r; lia). lia. }
    set (k := Z.log2 c) in *. clearbody k.
    assert (Hk : In k [52; 53; 54; 55; 56; 57; 58; 59; 60; 61; 62; 63]) by (cbn [In]; lia).
    pose proof (proj1 (forallb_forall _ _) binade_checks k Hk) as Hchk. unfold binade_check in Hchk.
    rewrite !andb_true_iff in Hchk. destruct Hchk as ((((((C1 & C2) & C3) & C4) & C5) & C6) & C7).
    apply Z.leb_le in C1, C2, C3, C4, C5. apply Z.ltb_lt in C6, C7.
    apply (sqrt_binade ((k - 52) / 2) (if k =? 52 then 0 else 2 ^ (k - 53)) (2 ^ k) (Z.sqrt (2 ^ k)) c' p s st); auto.
Qed.

(** ** The primality test on 64-bit numbers *)

Lemma is_prime_correct64 c : 5 < c < 2 ^ 64 -> Z.odd c = true ->
  exists b, is_prime c = Ok b /\ (b = true <-> prime c).
Proof.
  intros Hc Hodd. destruct (Z.lt_ge_cases c (2 ^ 52)) as [|Hbig]; [apply is_prime_correct; auto; lia|].
  destruct (is_prime_total c) as (b & Hb). exists b. split; auto. split.
  2:{ intros Hp. rewrite is_prime_of_prime in Hb by (auto; lia). congruence. }
  intros ->. unfold is_prime in Hb.
  destruct ((c mod 3 =? 0) || (c mod 5 =? 0)); [discriminate|]. cbv zeta in Hb.
  destruct (trial_division_spec (S (Z.to_nat (f64_sqrt c))) c (f64_sqrt c) 3) as (b & Hb' & Hiff); [lia|lia|].
  rewrite Hb in Hb'. injection Hb' as <-.
  destruct (prime_dec c) as [Hp|Hp]; auto. exfalso.
  destruct (not_prime_divide c ltac:(lia) Hp) as (m & Hm & (q & Hq)).
  assert (Hex : exists d, 1 < d /\ d * d <= c /\ (d | c)).
  { destruct (Z.le_gt_cases (m * m) c).
    - exists m. repeat split; try lia. exists q; auto.
    - exists q. assert (1 < q) by nia. assert (q < m) by nia. repeat split; auto; [nia|exists m; lia]. }
  destruct Hex as (d & Hd1 & Hd2 & (q' & Hq')).
  assert (Hdo : Z.odd d = true).
  { rewrite Hq', Z.odd_mul in Hodd. apply andb_true_iff in Hodd. tauto. }
  apply Z.odd_spec in Hdo. destruct Hdo as (j & Hj).
  pose proof (f64_sqrt_ge c d ltac:(lia) ltac:(lia)).
  assert (true = false); [|discriminate]. apply Hiff.
  exists (j - 1). replace (3 + 2 * (j - 1)) with d by lia.
  split; [lia|]. split; [lia|]. rewrite Hq'. apply Z.mod_mul. lia.
Qed.

(** ** Proth's theorem *)

Section Order.
Variables q b : Z.
Variable m : nat.
Hypothesis Hq : 2 < q.
Let M := Z.of_nat m.
Hypothesis Hm : (1 <= m)%nat.
Hypothesis Hb : b ^ (2 ^ (M - 1)) mod q = q - 1.

Lemma minus_one_pow u : 0 <= u -> ((q - 1) ^ u) mod q = if Z.odd u then q - 1 else 1.
Proof.
  intros Hu. pattern u. apply natlike_ind; auto; clear u Hu.
  - cbn [Z.odd Z.pow]. apply Z.mod_1_l. lia.
  - intros u Hu IH. rewrite Z.pow_succ_r by auto. rewrite Z.mul_mod, IH by lia.
    rewrite Z.odd_succ, <- Z.negb_odd. destruct (Z.odd u); cbn [negb].
    + rewrite (Z.mod_small (q - 1)) by lia. symmetry. apply (Z.mod_unique _ _ (q - 2)); [left; lia|ring].
    + rewrite Z.mul_1_r, Z.mod_mod by lia. apply Z.mod_small. lia.
Qed.

Lemma order_divides d : 0 <= d -> b ^ d mod q = 1 -> forall t, (t <= m)%nat -> (2 ^ Z.of_nat t | d).
Proof.
  intros Hd H1 t. induction t as [|t IH]; intros Ht.
  - exists d. cbn [Z.of_nat Z.pow]. lia.
  - destruct IH as (u & Hu); [lia|].
    assert (Hp : 0 < 2 ^ Z.of_nat t) by (apply Z.pow_pos_nonneg; lia).
    assert (Hu0 : 0 <= u) by nia.
    destruct (Z.odd u) eqn:Ho.
    + exfalso. set (r := 2 ^ (M - 1 - Z.of_nat t)).
      assert (E : d * r = 2 ^ (M - 1) * u).
      { unfold r. rewrite Hu. rewrite <- Z.mul_assoc, <- Z.pow_add_r by (unfold M; lia).
        replace (Z.of_nat t + (M - 1 - Z.of_nat t)) with (M - 1) by lia. ring. }
      assert (E1 : b ^ (d * r) mod q = 1).
      { rewrite Z.pow_mul_r by (unfold r; auto; apply Z.pow_nonneg; lia).
        rewrite Zpower_mod, H1, Z.pow_1_l by (try apply Z.pow_nonneg; lia). apply Z.mod_1_l. lia. }
      rewrite E in E1. rewrite Z.pow_mul_r in E1 by (auto; apply Z.pow_nonneg; lia).
      rewrite Zpower_mod, Hb in E1 by lia. rewrite minus_one_pow, Ho in E1 by auto. lia.
    + rewrite <- Z.negb_even in Ho. apply negb_false_iff, Z.even_spec in Ho. destruct Ho as (v & ->).
      exists v. rewrite Nat2Z.inj_succ, Z.pow_succ_r by lia. lia.
Qed.

Lemma powers_differ i j : 0 <= i < j -> j < 2 ^ M -> b ^ i mod q <> b ^ j mod q.
Proof.
  intros Hij Hj E.
  set (H := 2 ^ (M - 1)) in *.
  assert (HH : 2 ^ M = 2 * H).
  { unfold H. rewrite <- Z.pow_succ_r by (unfold M; lia). f_equal. lia. }
  assert (HHpos : 0 < H) by (apply Z.pow_pos_nonneg; unfold M; lia).
  (* b^(2H) = 1, multiply both sides by b^(2H - i) *)
  assert (E2 : b ^ (2 * H) mod q = 1).
  { rewrite Z.mul_comm, Z.pow_mul_r by lia. rewrite Zpower_mod, Hb by lia.
    rewrite minus_one_pow by lia. reflexivity. }
  assert (E3 : b ^ (j - i) mod q = 1).
  { assert (F : (b ^ i * b ^ (2 * H - i)) mod q = (b ^ j * b ^ (2 * H - i)) mod q).
    { rewrite Z.mul_mod, E, <- Z.mul_mod by (clear - Hq; lia). reflexivity. }
    rewrite <- !Z.pow_add_r in F by (clear - Hij Hj HH HHpos Hq; lia).
    replace (i + (2 * H - i)) with (2 * H) in F by (clear - Hij Hj HH HHpos Hq; lia).
    replace (j + (2 * H - i)) with ((j - i) + 2 * H) in F by (clear - Hij Hj HH HHpos Hq; lia).
    rewrite Z.pow_add_r, Z.mul_mod, E2, Z.mul_1_r, Z.mod_mod in F by (clear - Hij Hj HH HHpos Hq; lia). now symmetry. }
  destruct (order_divides (j - i) ltac:(clear - Hij; lia) E3 m (Nat.le_refl m)) as (u & Hu). fold M in Hu.
  rewrite HH in Hu. rewrite HH in Hj. clearbody H. clear - Hu Hij Hj HHpos. destruct (Z.le_gt_cases u 0); nia.
Qed.

Lemma order_bound : 2 ^ M <= q.
Proof.
  set (N := Z.to_nat (2 ^ M)).
  assert (HN : Z.of_nat N = 2 ^ M) by (unfold N; rewrite Z2Nat.id; [reflexivity|apply Z.pow_nonneg; lia]).
  clearbody N.
  set (l := map (fun i => Z.to_nat (b ^ Z.of_nat i mod q)) (seq 0 N)).
  assert (Hl : NoDup l).
  { apply NoDup_nth_error. intros i j Hi E. unfold l in Hi. rewrite map_length, seq_length in Hi.
    assert (Hj : (j < N)%nat).
    { assert (nth_error l j <> None) as Hn.
      { rewrite <- E. apply nth_error_Some. unfold l. now rewrite map_length, seq_length. }
      apply nth_error_Some in Hn. unfold l in Hn. now rewrite map_length, seq_length in Hn. }
    unfold l in E. rewrite !nth_error_map in E.
    rewrite !(nth_error_nth' _ 0%nat) in E by now rewrite seq_length.
    rewrite !seq_nth in E by auto. cbn [option_map plus] in E. injection E as E.
    pose proof (Z.mod_pos_bound (b ^ Z.of_nat i) q ltac:(lia)).
    pose proof (Z.mod_pos_bound (b ^ Z.of_nat j) q ltac:(lia)).
    assert (E' : b ^ Z.of_nat i mod q = b ^ Z.of_nat j mod q) by lia.
    destruct (Nat.lt_trichotomy i j) as [L|[L|L]]; auto; exfalso.
    - apply (powers_differ (Z.of_nat i) (Z.of_nat j)); auto; lia.
    - apply (powers_differ (Z.of_nat j) (Z.of_nat i)); auto; lia. }
  assert (Hincl : incl l (seq 0 (Z.to_nat q))).
  { intros x Hx. unfold l in Hx. apply in_map_iff in Hx. destruct Hx as (i & <- & _).
    pose proof (Z.mod_pos_bound (b ^ Z.of_nat i) q ltac:(lia)). apply in_seq. lia. }
  pose proof (NoDup_incl_length Hl Hincl) as L. unfold l in L. rewrite map_length, !seq_length in L. lia.
Qed.
End Order.

Lemma proth a k m : (1 <= m)%nat -> 0 < k < 2 ^ Z.of_nat m -> 0 < a ->
  let P := k * 2 ^ Z.of_nat m + 1 in
  a ^ (k * 2 ^ (Z.of_nat m - 1)) mod P = P - 1 -> prime P.
Proof.
  intros Hm Hk Ha P H. set (T := 2 ^ Z.of_nat m) in *.
  assert (HT : T = 2 * 2 ^ (Z.of_nat m - 1)).
  { unfold T. rewrite <- Z.pow_succ_r by lia. f_equal. lia. }
  assert (Hh : 0 < 2 ^ (Z.of_nat m - 1)) by (apply Z.pow_pos_nonneg; lia).
  set (h := 2 ^ (Z.of_nat m - 1)) in *.
  assert (HP : 1 < P) by (unfold P; nia).
  destruct (prime_dec P) as [|Hnp]; auto. exfalso.
  destruct (not_prime_divide P HP Hnp) as (d & Hd & (e & He)).
  assert (Hex : exists q, 1 < q /\ q * q <= P /\ (q | P)).
  { destruct (Z.le_gt_cases (d * d) P).
    - exists d. repeat split; try lia. exists e; auto.
    - exists e. assert (1 < e) by nia. assert (e < d) by nia. repeat split; auto; [nia|exists d; lia]. }
  destruct Hex as (q & Hq1 & Hqq & (r & Hr)).
  assert (Hq2 : 2 < q).
  { destruct (Z.eq_dec q 2) as [->|]; [|lia]. exfalso. unfold P in Hr. rewrite HT in Hr. lia. }
  assert (Hb : (a ^ k) ^ h mod q = q - 1).
  { rewrite <- Z.pow_mul_r by lia.
    pose proof (Z.div_mod (a ^ (k * h)) P ltac:(lia)) as D. rewrite H in D.
    set (w := a ^ (k * h) / P) in *.
    symmetry. apply (Z.mod_unique _ _ (r * w + r - 1)); [left; lia|].
    rewrite D. rewrite Hr. ring. }
  pose proof (order_bound q (a ^ k) m Hq2 Hm Hb) as Hob. fold T in Hob.
  unfold P in *. nia.
Qed.

(** A prime just above 2^62. *)
Definition big_prime : Z := 4194322 * 2 ^ 40 + 1.
Lemma big_prime_prime : prime big_prime.
Proof.
  apply (proth 3 4194322 40); [lia|split; reflexivity|reflexivity|].
  rewrite <- Zpow_mod_correct by (vm_compute; discriminate). vm_compute. reflexivity.
Qed.
