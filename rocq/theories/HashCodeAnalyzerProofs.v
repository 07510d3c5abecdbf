(** Proofs about HashCodeAnalyzer.v. *)
From Coq Require Import List ZArith Bool Lia Permutation Znumtheory Factorial.
From Verif Require Import Base BaseLemmas HashCodeAnalyzer.
Import ListNotations.
Open Scope Z_scope.

(** ** round53 *)

Lemma round53_small n : n < 2 ^ 53 -> round53 n = n.
Proof. intros H. unfold round53. destruct (Z.ltb_spec n (2 ^ 53)); lia. Qed.

(** Shape of a rounded value: error at most half a unit in the last place. *)
Lemma round53_spec n : 2 ^ 53 <= n ->
  let e := Z.log2 n - 52 in
  1 <= e /\ 2 ^ e <= n /\
  (n / 2 ^ e) * 2 ^ e <= round53 n <= n + 2 ^ (e - 1).
Proof.
  intros H e. unfold round53. destruct (Z.ltb_spec n (2 ^ 53)); [lia|].
  fold e.
  assert (He : 1 <= e).
  { unfold e. pose proof (Z.log2_le_mono (2 ^ 53) n H) as L. rewrite Z.log2_pow2 in L; lia. }
  assert (Hpe : 0 < 2 ^ e) by (apply Z.pow_pos_nonneg; lia).
  assert (Hle : 2 ^ e <= n).
  { pose proof (Z.log2_spec n ltac:(lia)) as [L _].
    apply Z.le_trans with (2 ^ Z.log2 n); auto. apply Z.pow_le_mono_r; unfold e; lia. }
  assert (Hhalf : 2 ^ e = 2 * 2 ^ (e - 1)).
  { rewrite <- Z.pow_succ_r by lia. f_equal. lia. }
  pose proof (Z.div_mod n (2 ^ e) ltac:(lia)) as Hdm.
  pose proof (Z.mod_pos_bound n (2 ^ e) Hpe) as Hm.
  split; [lia|]. split; [lia|].
  set (q := n / 2 ^ e) in *. set (r := n mod 2 ^ e) in *.
  destruct ((2 ^ (e - 1) <? r) || ((2 ^ (e - 1) =? r) && Z.odd q)) eqn:C.
  - assert (2 ^ (e - 1) <= r).
    { apply orb_true_iff in C. destruct C as [C|C]; [lia|].
      apply andb_true_iff in C. lia. }
    nia.
  - nia.
Qed.

Lemma round53_bounds n : 0 <= n -> 0 <= round53 n <= 2 * n.
Proof.
  intros H. destruct (Z.lt_ge_cases n (2 ^ 53)).
  - rewrite round53_small by lia. lia.
  - destruct (round53_spec n H0) as (He & Hle & Hlo & Hhi).
    set (e := Z.log2 n - 52) in *.
    assert (0 < 2 ^ e) by (apply Z.pow_pos_nonneg; lia).
    assert (2 ^ e = 2 * 2 ^ (e - 1)).
    { rewrite <- Z.pow_succ_r by lia. f_equal. lia. }
    assert (0 <= n / 2 ^ e) by (apply Z.div_pos; lia).
    nia.
Qed.

(** Rounding does not cross a coarser grid point downwards. *)
Lemma round53_grid n k j :
  0 <= k -> n < 2 ^ (j + 53) -> 0 <= j -> k * 2 ^ j <= n -> k * 2 ^ j <= round53 n.
Proof.
  intros Hk Hn Hj Hle.
  destruct (Z.lt_ge_cases n (2 ^ 53)).
  - rewrite round53_small by lia. lia.
  - destruct (round53_spec n H) as (He & Hle' & Hlo & Hhi).
    set (e := Z.log2 n - 52) in *.
    assert (e <= j).
    { unfold e. assert (Z.log2 n < j + 53) by (apply Z.log2_lt_pow2; lia). lia. }
    apply Z.le_trans with ((n / 2 ^ e) * 2 ^ e); [|lia].
    assert (Hpe : 0 < 2 ^ e) by (apply Z.pow_pos_nonneg; lia).
    replace (k * 2 ^ j) with ((k * 2 ^ (j - e)) * 2 ^ e).
    2:{ rewrite <- Z.mul_assoc, <- Z.pow_add_r by lia. do 2 f_equal. lia. }
    apply Z.mul_le_mono_nonneg_r; [lia|].
    apply Z.div_le_lower_bound; [lia|].
    rewrite Z.mul_comm, <- Z.mul_assoc, <- Z.pow_add_r by lia.
    replace (j - e + e) with j by lia. lia.
Qed.

Lemma round53_up n j : n < 2 ^ j -> 53 <= j -> round53 n <= n + 2 ^ (j - 54).
Proof.
  intros Hn Hj. destruct (Z.lt_ge_cases n (2 ^ 53)).
  - rewrite round53_small by lia.
    pose proof (Z.pow_nonneg 2 (j - 54) ltac:(lia)). lia.
  - destruct (round53_spec n H) as (He & Hle' & Hlo & Hhi).
    set (e := Z.log2 n - 52) in *.
    assert (e - 1 <= j - 54).
    { unfold e. assert (Z.log2 n < j) by (apply Z.log2_lt_pow2; lia). lia. }
    pose proof (Z.pow_le_mono_r 2 (e - 1) (j - 54) ltac:(lia) ltac:(lia)). lia.
Qed.

(** ((n as f64) * 0.05) as usize = floor(n / 20) *)
Lemma f64_five_percent_spec n : 0 <= n < 2 ^ 52 -> f64_five_percent n = n / 20.
Proof.
  intros Hn. unfold f64_five_percent. rewrite (round53_small n) by lia.
  set (x := n * 7205759403792794).
  assert (Hx : 20 * x = n * 2 ^ 57 + 8 * n) by (unfold x; lia).
  pose proof (Z.div_mod n 20 ltac:(lia)) as Hd.
  pose proof (Z.mod_pos_bound n 20 ltac:(lia)) as Hm.
  set (q := n / 20) in *. set (r := n mod 20) in *.
  assert (0 <= q) by lia.
  assert (Hxb : x < 2 ^ 105) by lia.
  assert (Hlo : q * 2 ^ 57 <= round53 x) by (apply round53_grid; lia).
  assert (Hhi : round53 x <= x + 2 ^ 51) by (apply (round53_up x 105); lia).
  symmetry. apply Z.div_unique with (round53 x - q * 2 ^ 57); [|lia].
  left. split; [lia|]. lia.
Qed.

Lemma f64_sqrt_lt c : 33 <= c -> f64_sqrt c < c.
Proof.
  intros H. unfold f64_sqrt.
  pose proof (round53_bounds c ltac:(lia)). set (c' := round53 c) in *.
  pose proof (Z.sqrt_spec (c' * 2 ^ 128) ltac:(lia)) as [Hs1 _].
  pose proof (Z.sqrt_nonneg (c' * 2 ^ 128)).
  set (s := Z.sqrt (c' * 2 ^ 128)) in *.
  set (st := if s * s =? c' * 2 ^ 128 then 0 else 1).
  assert (0 <= st <= 1) by (unfold st; destruct (_ =? _); lia).
  pose proof (round53_bounds (2 * s + st) ltac:(lia)).
  assert (s < c * 2 ^ 62).
  { apply Z.nle_gt. intros Hc. assert ((c * 2 ^ 62) * (c * 2 ^ 62) <= s * s).
    { apply Z.mul_le_mono_nonneg; lia. }
    assert (33 * c <= c * c) by nia. lia. }
  apply Z.div_lt_upper_bound; lia.
Qed.

Lemma f64_sqrt_exact c : 0 <= c < 2 ^ 52 -> f64_sqrt c = Z.sqrt c.
Proof.
  intros Hc. unfold f64_sqrt. rewrite (round53_small c) by lia.
  pose proof (Z.sqrt_spec (c * 2 ^ 128) ltac:(lia)) as [Hs1 Hs2].
  pose proof (Z.sqrt_nonneg (c * 2 ^ 128)).
  set (s := Z.sqrt (c * 2 ^ 128)) in *.
  pose proof (Z.sqrt_spec c ltac:(lia)) as [Ht1 Ht2].
  pose proof (Z.sqrt_nonneg c).
  set (t := Z.sqrt c) in *. unfold Z.succ in *.
  set (st := if s * s =? c * 2 ^ 128 then 0 else 1).
  assert (0 <= st <= 1) by (unfold st; destruct (_ =? _); lia).
  assert (Ht26 : t < 2 ^ 26) by nia.
  set (B := 2 ^ 64) in *.
  assert (HB : 2 ^ 128 = B * B) by reflexivity.
  rewrite HB in *.
  assert (Hst : t * B <= s).
  { apply Z.nlt_ge. intros Hlt. assert (s + 1 <= t * B) by lia.
    assert ((s + 1) * (s + 1) <= (t * B) * (t * B)) by (apply Z.mul_le_mono_nonneg; lia).
    assert ((t * B) * (t * B) <= c * (B * B)) by nia. lia. }
  set (T := (t + 1) * B).
  assert (HT : T * T = (t + 1) * (t + 1) * (B * B)) by (unfold T; ring).
  assert (Hgap : s * s + B * B <= T * T) by (rewrite HT; nia).
  assert (HTb : T <= 2 ^ 90) by (unfold T, B; lia).
  assert (HsT : s < T) by nia.
  assert (Hd : 2 ^ 37 + 1 <= T - s).
  { apply Z.nlt_ge. intros Hlt.
    assert (Hp : B * B <= (T - s) * (T + s)) by lia.
    assert ((T - s) * (T + s) <= 2 ^ 37 * (T + s)) by (apply Z.mul_le_mono_nonneg_r; lia).
    unfold B in Hp. lia. }
  assert (H2 : 2 * s + st < 2 ^ 92) by lia.
  assert (Hlo : t * 2 ^ 65 <= round53 (2 * s + st)).
  { apply round53_grid; unfold B in *; lia. }
  assert (Hhi : round53 (2 * s + st) <= 2 * s + st + 2 ^ 38) by (apply (round53_up _ 92); lia).
  symmetry. apply Z.div_unique with (round53 (2 * s + st) - t * 2 ^ 65); [|lia].
  left. unfold T, B in *. lia.
Qed.

(** ** Primality *)

Lemma trial_division_spec fuel c limit d :
  0 < d -> (Z.to_nat (limit - d + 1) < fuel)%nat ->
  exists b, trial_division fuel c limit d = Ok b /\
    (b = false <-> exists k, 0 <= k /\ d + 2 * k <= limit /\ c mod (d + 2 * k) = 0).
Proof.
  revert d. induction fuel as [|fuel IH]; intros d Hd Hf; [lia|]. cbn [trial_division].
  destruct (Z.leb_spec d limit).
  - destruct (Z.eqb_spec (c mod d) 0).
    + exists false. split; auto. split; auto. intros _. exists 0.
      rewrite Z.mul_0_r, Z.add_0_r. repeat split; auto; lia.
    + destruct (IH (d + 2)) as (b & Hb & Hiff); try lia.
      exists b. split; auto. rewrite Hiff. split; intros (k & Hk & Hl & Hz).
      * exists (k + 1). replace (d + 2 * (k + 1)) with (d + 2 + 2 * k) by lia. repeat split; auto; lia.
      * assert (k <> 0). { intros ->. replace (d + 2 * 0) with d in Hz by lia. auto. }
        exists (k - 1). replace (d + 2 + 2 * (k - 1)) with (d + 2 * k) by lia. repeat split; auto; lia.
  - exists true. split; auto. split; [discriminate|]. intros (k & Hk & Hl & _). lia.
Qed.

Lemma is_prime_total c : exists b, is_prime c = Ok b.
Proof.
  unfold is_prime. destruct (_ || _); eauto.
  destruct (trial_division_spec (S (Z.to_nat (f64_sqrt c))) c (f64_sqrt c) 3) as (b & Hb & _);
    [lia|lia|eauto].
Qed.

Lemma prime_not_div p d : prime p -> 1 < d < p -> p mod d <> 0.
Proof.
  intros Hp Hd Hz. apply Z.mod_divide in Hz; [|lia].
  destruct (prime_divisors p Hp d Hz) as [?|[?|[?|?]]]; lia.
Qed.

Lemma is_prime_of_prime p : prime p -> 33 <= p -> is_prime p = Ok true.
Proof.
  intros Hp H5. unfold is_prime.
  pose proof (prime_not_div p 3 Hp ltac:(lia)).
  pose proof (prime_not_div p 5 Hp ltac:(lia)).
  destruct (Z.eqb_spec (p mod 3) 0); [contradiction|].
  destruct (Z.eqb_spec (p mod 5) 0); [contradiction|]. cbn [orb]. cbv zeta.
  destruct (trial_division_spec (S (Z.to_nat (f64_sqrt p))) p (f64_sqrt p) 3) as (b & Hb & Hiff);
    [lia|lia|].
  rewrite Hb. destruct b; auto. exfalso.
  destruct (proj1 Hiff eq_refl) as (k & Hk & Hl & Hz).
  pose proof (f64_sqrt_lt p H5). apply (prime_not_div p (3 + 2 * k)); auto. lia.
Qed.

Lemma prime_divisor_exists n : 1 < n -> exists p, prime p /\ (p | n).
Proof.
  intros H. assert (Hn : 0 <= n) by lia. revert H. pattern n.
  apply Zlt_0_ind; auto. clear n Hn. intros n IH Hn H.
  destruct (prime_dec n) as [Hp|Hp].
  - exists n. split; auto. apply Z.divide_refl.
  - destruct (not_prime_divide n H Hp) as (m & Hm & Hd).
    destruct (IH m) as (p & Hpp & Hpd); try lia.
    exists p. split; auto. eapply Z.divide_trans; eauto.
Qed.

(** For odd candidates > 5 below 2^52 the test decides primality. *)
Lemma is_prime_correct c : 5 < c < 2 ^ 52 -> Z.odd c = true ->
  exists b, is_prime c = Ok b /\ (b = true <-> prime c).
Proof.
  intros Hc Hodd. unfold is_prime.
  destruct (Z.eqb_spec (c mod 3) 0) as [H3|H3].
  { exists false. split; auto. split; [discriminate|]. intros Hp. exfalso.
    apply (prime_not_div c 3 Hp); auto; lia. }
  destruct (Z.eqb_spec (c mod 5) 0) as [H5|H5].
  { exists false. split; auto. split; [discriminate|]. intros Hp. exfalso.
    apply (prime_not_div c 5 Hp); auto; lia. }
  cbn [orb]. cbv zeta. rewrite f64_sqrt_exact by lia.
  destruct (trial_division_spec (S (Z.to_nat (Z.sqrt c))) c (Z.sqrt c) 3) as (b & Hb & Hiff);
    [lia|lia|].
  exists b. split; auto.
  assert (Hsq : Z.sqrt c < c) by (apply Z.sqrt_lt_lin; lia).
  destruct b.
  - split; auto. intros _. destruct (prime_dec c) as [Hp|Hp]; auto. exfalso.
    destruct (not_prime_divide c ltac:(lia) Hp) as (m & Hm & (q & Hq)).
    (* the smaller of m and its cofactor is at most sqrt c *)
    assert (Hex : exists d, 1 < d /\ d <= Z.sqrt c /\ (d | c)).
    { destruct (Z.le_gt_cases m (Z.sqrt c)).
      - exists m. repeat split; try lia. exists q; auto.
      - exists q. assert (1 < q) by nia. repeat split; auto.
        + pose proof (Z.sqrt_spec c ltac:(lia)). unfold Z.succ in *. nia.
        + exists m. lia. }
    destruct Hex as (d & Hd1 & Hd2 & (q' & Hq')).
    assert (Hdo : Z.odd d = true).
    { rewrite Hq', Z.odd_mul in Hodd. apply andb_true_iff in Hodd. tauto. }
    apply Z.odd_spec in Hdo. destruct Hdo as (j & Hj).
    assert (true = false); [|discriminate]. apply Hiff.
    exists (j - 1). replace (3 + 2 * (j - 1)) with d by lia.
    split; [lia|]. split; [lia|]. rewrite Hq'. apply Z.mod_mul. lia.
  - split; [discriminate|]. intros Hp. exfalso.
    destruct (proj1 Hiff eq_refl) as (k & Hk & Hl & Hz).
    apply (prime_not_div c (3 + 2 * k)); auto. lia.
Qed.

Lemma divide_fact k n : (1 <= k <= n)%nat -> (Z.of_nat k | Z.of_nat (fact n)).
Proof.
  induction n as [|n IH]; intros H; [lia|].
  change (fact (S n)) with (S n * fact n)%nat. rewrite Nat2Z.inj_mul.
  destruct (Nat.eq_dec k (S n)) as [->|].
  - apply Z.divide_factor_l.
  - apply Z.divide_mul_r. apply IH. lia.
Qed.

Lemma euclid n : 1 < n -> exists p, prime p /\ n < p <= Z.of_nat (fact (Z.to_nat n)) + 1.
Proof.
  intros Hn.
  set (f := Z.of_nat (fact (Z.to_nat n))).
  assert (Hf : 1 <= f) by (unfold f; pose proof (lt_O_fact (Z.to_nat n)); lia).
  destruct (prime_divisor_exists (f + 1)) as (p & Hp & Hd); [lia|].
  exists p. split; auto.
  pose proof (prime_ge_2 p Hp).
  split.
  - apply Z.nle_gt. intros Hle.
    assert (Hdf : (p | f)).
    { unfold f. rewrite <- (Z2Nat.id p) by lia. apply divide_fact. lia. }
    assert (Hd1 : (p | 1)).
    { replace 1 with (f + 1 - f) by lia. now apply Z.divide_sub_r. }
    apply Z.divide_1_r in Hd1. lia.
  - apply Z.divide_pos_le; [lia|auto].
Qed.

Lemma next_prime_reaches fuel size p :
  is_prime p = Ok true -> size <= p -> (exists k, p = size + 2 * k) ->
  (Z.to_nat (p - size) < fuel)%nat ->
  exists q, next_prime fuel size = Ok q /\ size <= q.
Proof.
  revert size. induction fuel as [|fuel IH]; intros size Hp Hle Hk Hf; [lia|]. cbn.
  destruct (is_prime_total size) as (b & Hb). rewrite Hb. cbn. destruct b.
  - exists size. split; auto. lia.
  - destruct (Z.eq_dec size p) as [->|Hne]; [congruence|].
    destruct Hk as (k & Hk).
    destruct (IH (size + 2)) as (q & Hq & Hql); auto; try lia.
    + exists (k - 1). lia.
    + exists q. split; auto. lia.
Qed.

Lemma next_prime_total size : 33 <= size -> Z.odd size = true ->
  exists q, next_prime (prime_fuel size) size = Ok q /\ size <= q.
Proof.
  intros Hs Ho. destruct (euclid size) as (p & Hp & Hlt & Hle); [lia|].
  apply (next_prime_reaches _ _ p); try lia.
  - apply is_prime_of_prime; auto. lia.
  - assert (Hpo : Z.odd p = true).
    { destruct (Z.odd p) eqn:O; auto. exfalso.
      apply (prime_not_div p 2 Hp); [lia|]. now rewrite Zmod_odd, O. }
    apply Z.odd_spec in Ho, Hpo. destruct Ho as (a & Ha), Hpo as (b & Hb).
    exists (b - a). lia.
  - unfold prime_fuel. pose proof (lt_O_fact (Z.to_nat size)). lia.
Qed.

Lemma lor_1_odd x : Z.odd (Z.lor x 1) = true.
Proof. rewrite <- Z.bit0_odd, Z.lor_spec. cbn. apply orb_true_r. Qed.

Lemma lor_1_ge x : 0 <= x -> x <= Z.lor x 1 .
Proof. intros H. apply Z.ldiff_le; [apply Z.lor_nonneg; lia|].
  apply Z.bits_inj'. intros n Hn. rewrite Z.ldiff_spec, Z.lor_spec, Z.bits_0.
  destruct (Z.testbit x n); auto. Qed.

Lemma large_sizes_total fuel size inc max :
  33 <= size -> 1 <= inc -> (Z.to_nat (max - size + 1) < fuel)%nat ->
  exists l, large_sizes fuel size inc max = Ok l.
Proof.
  revert size. induction fuel as [|fuel IH]; intros size Hs Hi Hf; [lia|]. cbn [large_sizes].
  destruct (Z.leb_spec size max); eauto.
  pose proof (lor_1_ge (size + inc) ltac:(lia)).
  destruct (next_prime_total (Z.lor (size + inc) 1)) as (q & Hq & Hql);
    [lia|apply lor_1_odd|].
  rewrite Hq. cbn [bind]. destruct (IH q) as (l & Hl); try lia.
  rewrite Hl. cbn. eauto.
Qed.

Lemma candidate_sizes_total n mn mx :
  0 <= mn -> mn <= n -> 0 <= mx ->
  exists l, candidate_sizes n mn mx = Ok (n :: l).
Proof.
  intros H1 H2 H3. unfold candidate_sizes.
  destruct (mx <? 128); cbn [bind]; eauto.
  destruct (Z.ltb_spec mn (last PRIMES 0)); cbn [bind]; eauto.
  change (last PRIMES 0) with 7199369 in *.
  destruct (large_sizes_total (S (Z.to_nat mx)) mn (n / 3) mx) as (l & Hl); try lia.
  - apply Z.div_le_lower_bound; lia.
  - rewrite Hl. cbn. eauto.
Qed.

(** ** Collisions *)

(** Number of codes whose slot is already taken. *)
Definition residues (size : Z) (codes : list Z) : list Z := map (fun c => c mod size) codes.

Lemma nodup_cons_len x l :
  zlen (nodup Z.eq_dec (x :: l)) =
  1 + zlen (nodup Z.eq_dec (filter (fun y => negb (x =? y)) l)).
Proof.
  rewrite Z.add_comm, <- (zlen_cons x). apply zlen_perm. apply NoDup_Permutation.
  - apply NoDup_nodup.
  - constructor; [|apply NoDup_nodup]. rewrite nodup_In, filter_In, Z.eqb_refl. cbn. intuition.
  - intros y. rewrite nodup_In. cbn. rewrite nodup_In, filter_In.
    destruct (Z.eqb_spec x y); cbn; intuition.
Qed.

Definition fresh (used : list Z) (l : list Z) : list Z :=
  filter (fun y => negb (existsb (Z.eqb y) used)) l.

Lemma fresh_cons_used x used l :
  fresh (x :: used) l = filter (fun y => negb (x =? y)) (fresh used l).
Proof.
  unfold fresh. induction l as [|a l IHl]; [reflexivity|]. cbn [filter].
  change (existsb (Z.eqb a) (x :: used)) with ((a =? x) || existsb (Z.eqb a) used).
  destruct (existsb (Z.eqb a) used) eqn:Ex; cbn [negb].
  - rewrite orb_true_r. exact IHl.
  - rewrite orb_false_r. cbn [filter]. rewrite (Z.eqb_sym a x).
    destruct (x =? a); cbn [negb]; [exact IHl|]. now rewrite IHl.
Qed.

Lemma fresh_nodup_le used l : zlen (nodup Z.eq_dec (fresh used l)) <= zlen l.
Proof.
  unfold fresh. induction l as [|a l IH]; [cbn; lia|]. cbn [filter].
  rewrite zlen_cons. destruct (negb _); [|lia].
  cbn [nodup]. destruct (in_dec _ _ _); [lia|]. rewrite zlen_cons. lia.
Qed.

Lemma count_collisions_spec size max best codes : forall used num,
  0 < size <= max -> 0 <= num < best ->
  count_collisions size max best codes used num =
    Ok (Z.min best (num + (zlen codes - zlen (nodup Z.eq_dec (fresh used (residues size codes)))))).
Proof.
  induction codes as [|c codes IH]; intros used num Hs Hn; cbn [count_collisions].
  - change (residues size []) with (@nil Z). change (fresh used []) with (@nil Z).
    cbn [nodup]. f_equal. lia.
  - destruct (Z.eqb_spec size 0); [lia|].
    pose proof (Z.mod_pos_bound c size ltac:(lia)).
    destruct (Z.ltb_spec (c mod size) max); [|lia].
    cbn [residues map]. fold (residues size codes). rewrite zlen_cons.
    unfold fresh at 1. cbn [filter]. fold (fresh used (residues size codes)).
    destruct (existsb (Z.eqb (c mod size)) used) eqn:Ex; cbn [negb].
    + assert (zlen (nodup Z.eq_dec (fresh used (residues size codes))) <= zlen codes).
      { pose proof (fresh_nodup_le used (residues size codes)) as L.
        unfold residues in L at 2. now rewrite zlen_map in L. }
      destruct (Z.leb_spec best (num + 1)).
      * f_equal. lia.
      * rewrite IH by lia. f_equal. lia.
    + rewrite IH by lia. rewrite nodup_cons_len, fresh_cons_used. f_equal. lia.
Qed.

(** Collisions of a table size, as used in property statements. *)
Definition ncoll (size : Z) (codes : list Z) : Z :=
  zlen codes - zlen (nodup Z.eq_dec (residues size codes)).

Lemma fresh_nil l : fresh [] l = l.
Proof. unfold fresh. apply filter_all. reflexivity. Qed.

Lemma count_collisions_min size max best codes :
  0 < size <= max -> 0 < best ->
  count_collisions size max best codes [] 0 = Ok (Z.min best (ncoll size codes)).
Proof.
  intros. rewrite count_collisions_spec by lia. rewrite fresh_nil. reflexivity.
Qed.

Lemma ncoll_nonneg size codes : 0 <= ncoll size codes.
Proof.
  unfold ncoll. pose proof (fresh_nodup_le [] (residues size codes)) as L.
  rewrite fresh_nil in L. unfold residues in L at 2. rewrite zlen_map in L. lia.
Qed.

Lemma ncoll_lt size codes : codes <> [] -> ncoll size codes < zlen codes.
Proof.
  intros H. unfold ncoll. destruct codes as [|c codes]; [congruence|].
  cbn [residues map]. rewrite nodup_cons_len.
  match goal with |- context[zlen (nodup ?d ?l)] => pose proof (zlen_nonneg (nodup d l)) end. lia.
Qed.

(** ** The loop over sizes *)

Lemma try_sizes_inv codes mn mx acc0 : forall sizes acc bs bn,
  0 < mn ->
  0 <= acc <= acc0 ->
  mn <= bs <= mx -> bn = ncoll bs codes -> 0 < bn ->
  (bs = zlen codes \/ bn <= acc0) ->
  exists s c, try_sizes codes mn mx sizes acc bs bn = Ok (s, c) /\
    mn <= s <= mx /\ c = ncoll s codes /\ (s = zlen codes \/ c <= acc0).
Proof.
  induction sizes as [|size sizes IH]; intros acc bs bn Hmn Hacc Hbs Hbn Hpos Hor; cbn [try_sizes].
  - exists bs, bn. auto.
  - destruct (Z.ltb_spec size mn).
    { apply IH; auto. }
    destruct (Z.ltb_spec mx size).
    { exists bs, bn. auto. }
    rewrite count_collisions_min by lia. cbn [bind].
    set (f := ncoll size codes). pose proof (ncoll_nonneg size codes) as Hf. fold f in Hf.
    destruct (Z.eqb_spec bs 0); [lia|]. cbn [orb].
    assert (Hacc' : 0 <= (if 0 <? acc then acc / 100 * 20 else acc) <= acc0).
    { destruct (Z.ltb_spec 0 acc); [|lia]. split.
      - apply Z.mul_nonneg_nonneg; [|lia]. apply Z.div_pos; lia.
      - pose proof (Z.mul_div_le acc 100 ltac:(lia)). lia. }
    destruct (Z.ltb_spec (Z.min bn f) bn); cbn [andb].
    + destruct (Z.leb_spec (Z.min bn f) acc).
      * exists size, (Z.min bn f). split; auto. split; [lia|]. split; [unfold f in *; lia|].
        right. lia.
      * apply IH; auto.
    + apply IH; auto.
Qed.

Lemma initial_bounds n : 0 < n ->
  0 <= initial_acceptable n /\ 0 < n - initial_acceptable n /\ n <= max_table_size n.
Proof.
  intros H. unfold initial_acceptable, max_table_size.
  destruct (Z.ltb_spec n 128); [lia|].
  pose proof (Z.mul_div_le n 100 ltac:(lia)). pose proof (Z.div_pos n 100 ltac:(lia) ltac:(lia)).
  destruct (Z.ltb_spec n 1000); lia.
Qed.

Lemma analyze_hash_codes_spec codes :
  codes <> [] ->
  exists s c, analyze_hash_codes codes = Ok (s, c) /\
    zlen codes - initial_acceptable (zlen codes) <= s <= max_table_size (zlen codes) /\
    1 <= s /\
    c = ncoll s codes /\
    (s = zlen codes \/ c <= initial_acceptable (zlen codes)).
Proof.
  intros Hne. unfold analyze_hash_codes.
  set (n := zlen codes).
  assert (Hn : 0 < n).
  { unfold n. destruct codes; [congruence|]. rewrite zlen_cons. pose proof (zlen_nonneg codes). lia. }
  destruct (initial_bounds n Hn) as (Ha & Hmn & Hmx).
  cbv zeta. set (acc := initial_acceptable n) in *. set (mx := max_table_size n) in *.
  destruct (candidate_sizes_total n (n - acc) mx) as (l & Hl); try lia.
  rewrite Hl. cbn [bind try_sizes].
  destruct (Z.ltb_spec n (n - acc)); [lia|]. destruct (Z.ltb_spec mx n); [lia|].
  rewrite count_collisions_min by lia. cbn [bind].
  pose proof (ncoll_lt n codes Hne) as Hlt. fold n in Hlt.
  pose proof (ncoll_nonneg n codes) as Hge.
  set (f := ncoll n codes) in *.
  rewrite Z.min_r by lia.
  destruct (Z.ltb_spec f n); [|lia]. cbn [Z.eqb orb andb].
  destruct (Z.leb_spec f acc).
  - exists n, f. repeat split; auto; lia.
  - destruct (try_sizes_inv codes (n - acc) mx acc l
      (if 0 <? acc then acc / 100 * 20 else acc) n f) as (s & c & Hr & Hs & Hc & Hor); auto; try lia.
    + destruct (Z.ltb_spec 0 acc); [|lia]. split.
      * apply Z.mul_nonneg_nonneg; [|lia]. apply Z.div_pos; lia.
      * pose proof (Z.mul_div_le acc 100 ltac:(lia)). lia.
    + exists s, c. rewrite Hr. repeat split; auto; lia.
Qed.

Lemma analyze_hash_codes_nil : analyze_hash_codes [] = Ok (0, 0).
Proof. reflexivity. Qed.

(** Result used by all map constructors. *)
Lemma analyze_hash_codes_pos codes :
  exists s c, analyze_hash_codes codes = Ok (s, c) /\ (codes <> [] -> 1 <= s).
Proof.
  destruct codes as [|x l] eqn:E.
  - exists 0, 0. split; [reflexivity|congruence].
  - destruct (analyze_hash_codes_spec (x :: l)) as (s & c & H & _ & H1 & _); [discriminate|].
    eauto.
Qed.

(** ** Small inputs *)

Lemma try_sizes_perfect codes mn mx : forall sizes bs bn,
  0 < mn -> 0 < bs -> 0 < bn ->
  (forall s, In s sizes -> mn <= s <= mx) ->
  match find (fun s => ncoll s codes =? 0) sizes with
  | Some s => try_sizes codes mn mx sizes 0 bs bn = Ok (s, 0)
  | None => try_sizes codes mn mx sizes 0 bs bn = Ok (bs, bn)
  end.
Proof.
  induction sizes as [|size sizes IH]; intros bs bn Hmn Hbs Hbn Hin; cbn [find try_sizes]; auto.
  assert (Hs : mn <= size <= mx) by (apply Hin; now left).
  destruct (Z.ltb_spec size mn); [lia|]. destruct (Z.ltb_spec mx size); [lia|].
  rewrite count_collisions_min by lia. cbn [bind].
  pose proof (ncoll_nonneg size codes).
  destruct (Z.eqb_spec bs 0); [lia|]. cbn [orb].
  destruct (Z.eqb_spec (ncoll size codes) 0) as [E|E].
  - rewrite E. rewrite Z.min_r by lia.
    destruct (Z.ltb_spec 0 bn); [|lia]. reflexivity.
  - destruct (Z.leb_spec (Z.min bn (ncoll size codes)) 0); [lia|].
    rewrite !andb_false_r. cbn. apply IH; auto. intros; apply Hin; now right.
Qed.

Lemma zrange_incl_In a b x : In x (zrange_incl a b) <-> a <= x <= b.
Proof.
  unfold zrange_incl. rewrite in_map_iff. split.
  - intros (i & <- & Hi). apply in_seq in Hi. lia.
  - intros H. exists (Z.to_nat (x - a)). split; [lia|]. apply in_seq. lia.
Qed.

Lemma find_seq_map p a : forall n i,
  match find p (map (fun j => a + Z.of_nat j) (seq i n)) with
  | Some s => a + Z.of_nat i <= s < a + Z.of_nat (i + n) /\ p s = true /\ forall s', a + Z.of_nat i <= s' < s -> p s' = false
  | None => forall s, a + Z.of_nat i <= s < a + Z.of_nat (i + n) -> p s = false
  end.
Proof.
  induction n as [|n IH]; intros i; cbn [seq map find].
  - intros; lia.
  - destruct (p (a + Z.of_nat i)) eqn:P.
    + split; [lia|]. split; auto. intros; lia.
    + specialize (IH (S i)). destruct (find _ _).
      * destruct IH as (H1 & H2 & H3). split; [lia|]. split; auto. intros s' Hs'.
        destruct (Z.eq_dec s' (a + Z.of_nat i)) as [->|]; auto. apply H3. lia.
      * intros s Hs. destruct (Z.eq_dec s (a + Z.of_nat i)) as [->|]; auto. apply IH. lia.
Qed.

Lemma find_zrange p a b :
  match find p (zrange_incl a b) with
  | Some s => a <= s <= b /\ p s = true /\ forall s', a <= s' < s -> p s' = false
  | None => forall s, a <= s <= b -> p s = false
  end.
Proof.
  unfold zrange_incl. pose proof (find_seq_map p a (Z.to_nat (b - a + 1)) 0) as H.
  destruct (find _ _).
  - destruct H as (H1 & H2 & H3). split; [lia|]. split; auto. intros. apply H3. lia.
  - intros. apply H. lia.
Qed.

(** Fewer than 8 codes: the smallest perfect size in [n, 16n], or n. *)
Lemma analyze_small codes :
  codes <> [] -> zlen codes < 8 ->
  let n := zlen codes in
  exists s c, analyze_hash_codes codes = Ok (s, c) /\
    (((n <= s <= 16 * n) /\ ncoll s codes = 0 /\ c = 0 /\
      forall s', n <= s' < s -> ncoll s' codes <> 0)
     \/
     (s = n /\ c = ncoll n codes /\ forall s', n <= s' <= 16 * n -> ncoll s' codes <> 0)).
Proof.
  intros Hne Hlt n.
  assert (Hn : 0 < n).
  { unfold n. destruct codes; [congruence|]. rewrite zlen_cons. pose proof (zlen_nonneg codes). lia. }
  unfold analyze_hash_codes. fold n. cbv zeta.
  unfold initial_acceptable, max_table_size. destruct (Z.ltb_spec n 128); [|lia].
  rewrite Z.sub_0_r. unfold candidate_sizes. destruct (Z.ltb_spec (n * 16) 128); [|lia].
  cbn [bind try_sizes].
  destruct (Z.ltb_spec n n); [lia|]. destruct (Z.ltb_spec (n * 16) n); [lia|].
  rewrite count_collisions_min by lia. cbn [bind].
  pose proof (ncoll_lt n codes Hne) as Hl. fold n in Hl.
  pose proof (ncoll_nonneg n codes). rewrite Z.min_r by lia.
  destruct (Z.ltb_spec (ncoll n codes) n); [|lia]. cbn [Z.eqb orb andb].
  destruct (Z.leb_spec (ncoll n codes) 0).
  - exists n, (ncoll n codes). split; auto. left. repeat split; try lia.
  - change (0 <? 0) with false. cbv iota.
    pose proof (try_sizes_perfect codes n (n * 16) (zrange_incl n (n * 16)) n (ncoll n codes)
      ltac:(lia) ltac:(lia) ltac:(lia)) as T.
    pose proof (find_zrange (fun s => ncoll s codes =? 0) n (n * 16)) as F.
    destruct (find _ _) as [s|].
    + rewrite T. 2:{ intros s'. rewrite zrange_incl_In. lia. }
      destruct F as (F1 & F2 & F3). exists s, 0. split; auto. left.
      repeat split; try lia. intros s' Hs'. specialize (F3 s' Hs'). lia.
    + rewrite T. 2:{ intros s'. rewrite zrange_incl_In. lia. }
      exists n, (ncoll n codes). split; auto. right. repeat split; auto.
      intros s' Hs'. specialize (F s' ltac:(lia)). lia.
Qed.
