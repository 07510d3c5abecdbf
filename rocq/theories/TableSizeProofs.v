(** Which table sizes are tried, which is chosen, and that no machine word overflows. *)
From Coq Require Import List ZArith Bool Lia Znumtheory Sorting.Sorted Permutation.
From Verif Require Import Base BaseLemmas Spec SizeSpec HashCodeAnalyzer UsizeAnalyzer HashCodeAnalyzerProofs
  FrozenMapBuild PrimeProofs.
Import ListNotations.
Open Scope Z_scope.

(** ** The search for the next prime *)

Lemma big_prime_odd : Z.odd big_prime = true. Proof. reflexivity. Qed.
Lemma is_prime_big : is_prime big_prime = Ok true.
Proof. apply is_prime_of_prime; [apply big_prime_prime|]. vm_compute. discriminate. Qed.
Lemma big_prime_bounds : 2 ^ 62 < big_prime < 2 ^ 63.
Proof. split; reflexivity. Qed.

Lemma next_prime_below fuel size q :
  33 <= size <= big_prime -> Z.odd size = true -> next_prime fuel size = Ok q ->
  size <= q <= big_prime /\ prime q.
Proof.
  revert size. induction fuel as [|fuel IH]; intros size Hs Ho H; [discriminate|].
  cbn [next_prime] in H. destruct (is_prime size) as [b| | |] eqn:E; try discriminate. cbn [bind] in H. destruct b.
  - injection H as <-. split; [lia|].
    pose proof big_prime_bounds.
    destruct (is_prime_correct64 size ltac:(lia) Ho) as (b & Hb & Hiff). rewrite E in Hb. injection Hb as <-. now apply Hiff.
  - destruct (Z.eq_dec size big_prime) as [->|Hne]; [rewrite is_prime_big in E; discriminate|].
    assert (size + 2 <= big_prime).
    { pose proof big_prime_odd as Hbo. apply Z.odd_spec in Ho, Hbo. destruct Ho as (a & Ha), Hbo as (c & Hc). lia. }
    destruct (IH (size + 2)) as (H1 & H2); auto; [lia| |split; auto; lia].
    replace (size + 2) with (Z.succ (Z.succ size)) by lia. now rewrite Z.odd_succ_succ.
Qed.

Lemma lor_1_le x : 0 <= x -> Z.lor x 1 <= x + 1.
Proof.
  intros H. destruct (Z.odd x) eqn:O.
  - assert (Z.lor x 1 = x); [|lia]. apply Z.bits_inj'. intros n Hn. rewrite Z.lor_spec.
    destruct (Z.eq_dec n 0) as [->|].
    + rewrite Z.bit0_odd, O. reflexivity.
    + rewrite (Z.bits_above_log2 1 n), orb_false_r; [reflexivity|lia|cbn; lia].
  - rewrite <- (Z.lxor_lor x 1).
    + rewrite <- Z.add_nocarry_lxor; [lia|]. apply Z.bits_inj'. intros n Hn. rewrite Z.land_spec, Z.bits_0.
      destruct (Z.eq_dec n 0) as [->|]; [rewrite Z.bit0_odd, O; reflexivity|].
      rewrite (Z.bits_above_log2 1 n), andb_false_r; [reflexivity|lia|cbn; lia].
    + apply Z.bits_inj'. intros n Hn. rewrite Z.land_spec, Z.bits_0.
      destruct (Z.eq_dec n 0) as [->|]; [rewrite Z.bit0_odd, O; reflexivity|].
      rewrite (Z.bits_above_log2 1 n), andb_false_r; [reflexivity|lia|cbn; lia].
Qed.

(** Ascending with steps of at least [d]. *)
Definition steps (d : Z) (l : list Z) : Prop := StronglySorted (fun s t => d <= t - s) l.

Lemma large_sizes_shape fuel : forall size inc max l,
  33 <= size -> 1 <= inc -> max + inc + 1 <= big_prime ->
  large_sizes fuel size inc max = Ok l ->
  Forall (fun s => size <= s <= max) l /\ steps inc l /\ (l = [] \/ exists r, l = size :: r /\ Forall prime r).
Proof.
  induction fuel as [|fuel IH]; intros size inc max l Hs Hi Hmax H; [discriminate|].
  cbn [large_sizes] in H. destruct (Z.leb_spec size max).
  2:{ injection H as <-. split; [constructor|]. split; [constructor|now left]. }
  pose proof (lor_1_ge (size + inc) ltac:(lia)). pose proof (lor_1_le (size + inc) ltac:(lia)).
  cbv zeta in H.
  destruct (next_prime (prime_fuel (Z.lor (size + inc) 1)) (Z.lor (size + inc) 1)) as [q| | |] eqn:E; try discriminate.
  destruct (next_prime_below _ (Z.lor (size + inc) 1) q ltac:(split; lia) (lor_1_odd _) E) as (Hq & Hp).
  cbn [bind] in H. destruct (large_sizes fuel q inc max) as [rest| | |] eqn:R; try discriminate.
  cbn [bind] in H. injection H as <-.
  destruct (IH q inc max rest ltac:(lia) Hi Hmax R) as (G1 & G2 & G3).
  split; [|split].
  - constructor; [lia|]. eapply Forall_impl; [|exact G1]. cbn. intros; lia.
  - constructor; auto. eapply Forall_impl; [|exact G1]. cbn. intros; lia.
  - right. exists rest. split; auto. destruct G3 as [->|(r & -> & Hr)]; constructor; auto.
Qed.

Lemma steps_count d : forall l a b, 0 < d -> steps d l -> Forall (fun s => a <= s <= b) l ->
  l <> [] -> a + (zlen l - 1) * d <= b.
Proof.
  induction l as [|s l IH]; intros a b Hd Hs Hf Hne; [congruence|].
  inversion_clear Hs as [|? ? Hs' Hss]. inversion_clear Hf as [|? ? Hs1 Hf'].
  rewrite zlen_cons. destruct l as [|t l'].
  - change (zlen (@nil Z)) with 0. lia.
  - specialize (IH (s + d) b Hd Hs'). assert (s + d + (zlen (t :: l') - 1) * d <= b); [|nia].
    apply IH; [|discriminate]. apply Forall_forall. intros x Hx.
    rewrite Forall_forall in Hss, Hf'. specialize (Hss x Hx). specialize (Hf' x Hx). cbn beta in *. lia.
Qed.

(** ** The table of primes *)

Definition odd_check (p : Z) : bool :=
  Z.odd p && (5 <? p) && (p <? 2 ^ 64) && match is_prime p with Ok true => true | _ => false end.
Lemma PRIMES_prime : Forall prime PRIMES.
Proof.
  assert (H : forallb odd_check PRIMES = true) by (vm_compute; reflexivity).
  apply Forall_forall. intros p Hp. apply (proj1 (forallb_forall _ _) H) in Hp. unfold odd_check in Hp.
  rewrite !andb_true_iff in Hp. destruct Hp as (((H1 & H2) & H3) & H4).
  apply Z.ltb_lt in H2, H3. destruct (is_prime_correct64 p ltac:(lia) H1) as (b & Hb & Hiff).
  rewrite Hb in H4. destruct b; [|discriminate]. now apply Hiff.
Qed.

Fixpoint ascending_b (l : list Z) : bool :=
  match l with
  | x :: (y :: _) as l' => (x <? y) && ascending_b l'
  | _ => true
  end.
Lemma ascending_b_ok l : ascending_b l = true -> StronglySorted Z.lt l.
Proof.
  intros H. apply Sorted_StronglySorted; [intros x y z; lia|].
  induction l as [|x [|y l] IH]; [constructor|repeat constructor|].
  cbn in H. apply andb_true_iff in H. destruct H as (H1 & H2). constructor; [now apply IH|]. constructor. lia.
Qed.
Lemma PRIMES_ascending : StronglySorted Z.lt PRIMES.
Proof. apply ascending_b_ok. reflexivity. Qed.

Fixpoint dense_b (l : list Z) : bool :=
  match l with
  | x :: (y :: _) as l' => (4 * y <=? 5 * (x + 1)) && dense_b l'
  | _ => true
  end.
Lemma dense_b_ok : forall l a b, dense_b (a :: l) = true -> last (a :: l) 0 = b -> StronglySorted Z.lt (a :: l) ->
  forall x, a <= x <= b -> exists s, In s (a :: l) /\ x <= s /\ 4 * s <= 5 * x \/ (In s (a :: l) /\ x = s).
Proof.
  induction l as [|y l IH]; intros a b Hd Hl Hs x Hx.
  - cbn in Hl. exists a. right. split; [now left|lia].
  - cbn [dense_b] in Hd. apply andb_true_iff in Hd. destruct Hd as (Hd1 & Hd2). apply Z.leb_le in Hd1.
    destruct (Z.eq_dec x a) as [->|]; [exists a; right; split; [now left|reflexivity]|].
    destruct (Z.le_gt_cases x y).
    + exists y. left. split; [right; now left|]. lia.
    + inversion_clear Hs as [|? ? Hs' _]. destruct (IH y b Hd2) with (x := x) as (s & Hs); auto; [lia|].
      exists s. destruct Hs as [(H1 & H2)|(H1 & H2)]; [left|right]; (split; [now right|auto]).
Qed.
Lemma PRIMES_dense x : 131 <= x <= 7199369 -> exists s, In s PRIMES /\ x <= s /\ 4 * s <= 5 * x.
Proof.
  intros Hx. destruct (dense_b_ok (tl PRIMES) 131 7199369 eq_refl eq_refl PRIMES_ascending x Hx) as (s & [H|(H & E)]).
  - exists s. exact H.
  - exists s. split; [exact H|]. lia.
Qed.

(** ** The candidates *)

Definition in_range (mn mx s : Z) : bool := (mn <=? s) && (s <=? mx).

Lemma StronglySorted_filter {A} (R : A -> A -> Prop) p l : StronglySorted R l -> StronglySorted R (filter p l).
Proof.
  induction l as [|x l IH]; intros H; [constructor|]. inversion_clear H as [|? ? H1 H2]. cbn [filter].
  destruct (p x); auto. constructor; auto. apply Forall_forall. intros y Hy. apply filter_In in Hy.
  rewrite Forall_forall in H2. now apply H2.
Qed.
Lemma filter_len_le {A} (p : A -> bool) l : (length (filter p l) <= length l)%nat.
Proof. induction l as [|x l IH]; cbn; [lia|]. destruct (p x); cbn; lia. Qed.
Lemma zrange_ascending a b : StronglySorted Z.lt (zrange_incl a b).
Proof.
  unfold zrange_incl. generalize 0%nat. induction (Z.to_nat (b - a + 1)) as [|k IH]; intros i; [constructor|].
  cbn [seq map]. constructor; [apply IH|]. apply Forall_forall. intros x Hx. apply in_map_iff in Hx.
  destruct Hx as (j & <- & Hj). apply in_seq in Hj. lia.
Qed.
Lemma steps_ascending d l : 0 < d -> steps d l -> StronglySorted Z.lt l.
Proof.
  intros Hd H. induction H as [|x l Hs IH Hf]; constructor; auto. eapply Forall_impl; [|exact Hf]. cbn. lia.
Qed.
Lemma steps_gap d l : 0 < d -> steps d l -> forall s t, In s l -> In t l -> s < t -> d <= t - s.
Proof.
  intros Hd H. induction H as [|x l Hs IH Hf]; intros s t H1 H2 Hlt; [easy|].
  rewrite Forall_forall in Hf. destruct H1 as [<-|H1], H2 as [<-|H2]; auto; [lia|].
  specialize (Hf s H1). cbn in Hf. lia.
Qed.

Lemma tolerated_bounds n : 0 < n -> 0 <= tolerated n /\ 20 * tolerated n <= n /\ n <= size_limit n.
Proof.
  intros H. unfold tolerated, size_limit. destruct (Z.ltb_spec n 128); [lia|].
  pose proof (Z.mul_div_le n 100 ltac:(lia)). pose proof (Z.div_pos n 100 ltac:(lia) ltac:(lia)).
  destruct (Z.ltb_spec n 1000); lia.
Qed.

Lemma candidates_shape n l :
  0 < n < 2 ^ 60 -> candidate_sizes n (n - tolerated n) (size_limit n) = Ok (n :: l) ->
  StronglySorted Z.lt l /\ size_list n (filter (in_range (n - tolerated n) (size_limit n)) l).
Proof.
  intros Hn H. destruct (tolerated_bounds n ltac:(lia)) as (T1 & T2 & T3).
  assert (Hin : forall s, In s (filter (in_range (n - tolerated n) (size_limit n)) l) <->
     In s l /\ n - tolerated n <= s <= size_limit n).
  { intros s. rewrite filter_In. unfold in_range. rewrite andb_true_iff, !Z.leb_le. tauto. }
  unfold candidate_sizes in H.
  destruct (Z.ltb_spec (size_limit n) 128) as [H8|H8].
  - (* every size *)
    assert (Hn8 : n < 8).
    { unfold size_limit in H8. destruct (Z.ltb_spec n 128); [lia|]. destruct (Z.ltb_spec n 1000); lia. }
    assert (T0 : tolerated n = 0) by (unfold tolerated; destruct (Z.ltb_spec n 128); lia).
    assert (L0 : size_limit n = 16 * n) by (unfold size_limit; destruct (Z.ltb_spec n 128); lia).
    cbn [bind] in H. injection H as <-. rewrite T0, L0 in *. rewrite Z.sub_0_r in *.
    split; [apply zrange_ascending|]. constructor; rewrite ?T0, ?L0, ?Z.sub_0_r; try lia.
    + intros s Hs. apply Hin in Hs. lia.
    + apply StronglySorted_filter, zrange_ascending.
    + intros _ s Hs. apply Hin. split; auto. now apply zrange_incl_In.
    + eapply Nat.le_trans; [apply filter_len_le|]. unfold zrange_incl. rewrite map_length, seq_length. lia.
  - assert (Hn8 : 8 <= n).
    { unfold size_limit in H8. destruct (Z.ltb_spec n 128); lia. }
    change (last PRIMES 0) with 7199369 in H.
    destruct (Z.ltb_spec (n - tolerated n) 7199369) as [Hm|Hm]; cbn [bind] in H.
    + (* the table *)
      injection H as <-. split; [apply PRIMES_ascending|]. constructor; try lia.
      * intros s Hs. now apply Hin in Hs.
      * apply StronglySorted_filter, PRIMES_ascending.
      * intros _ s Hs. apply Hin in Hs. left. pose proof PRIMES_prime as P. rewrite Forall_forall in P. now apply P.
      * intros _ s Hs. apply Hin in Hs. assert (Hall : forallb (Z.leb 131) PRIMES = true) by reflexivity.
        rewrite forallb_forall in Hall. apply Z.leb_le, Hall, Hs.
      * intros _ _ x Hx H131 Hlim. destruct (PRIMES_dense x ltac:(lia)) as (s & Hs & Hxs & Hsx).
        exists s. split; auto. apply Hin. split; auto. lia.
      * eapply Nat.le_trans; [apply filter_len_le|]. cbn; lia.
      * intros _. eapply Nat.le_trans; [apply filter_len_le|]. cbn; lia.
    + (* successive primes *)
      assert (L3 : size_limit n = 3 * n).
      { unfold size_limit. destruct (Z.ltb_spec n 128); [lia|]. destruct (Z.ltb_spec n 1000); lia. }
      destruct (large_sizes _ _ _ _) as [r| | |] eqn:E in H; try discriminate. cbn [bind] in H. injection H as <-.
      pose proof (Z.mul_div_le n 3 ltac:(lia)). pose proof (Z.mul_succ_div_gt n 3 ltac:(lia)).
      pose proof big_prime_bounds.
      apply large_sizes_shape in E; [|lia|lia|rewrite L3; lia]. destruct E as (E1 & E2 & E3).
      assert (Hfl : filter (in_range (n - tolerated n) (size_limit n)) r = r).
      { apply filter_all. intros s Hs. rewrite Forall_forall in E1. specialize (E1 s Hs). unfold in_range. lia. }
      rewrite Hfl in *. split; [apply (steps_ascending (n / 3)); auto; lia|].
      assert (Hlen : (length r <= 7)%nat).
      { destruct r as [|s r']; [cbn; lia|].
        pose proof (steps_count (n / 3) (s :: r') (n - tolerated n) (size_limit n) ltac:(lia) E2 E1 ltac:(discriminate)) as C.
        rewrite L3 in C. unfold zlen in C. nia. }
      constructor; try lia.
      * intros s Hs. now apply Hin.
      * apply (steps_ascending (n / 3)); auto; lia.
      * intros _ s Hs. destruct E3 as [->|(r' & -> & Hp)]; [easy|]. destruct Hs as [<-|Hs]; [right; lia|left].
        rewrite Forall_forall in Hp. auto.
      * intros _ s Hs. rewrite Forall_forall in E1. specialize (E1 s Hs). cbn in E1. lia.
      * intros _. apply steps_gap; auto; lia.
Qed.

(** ** The choice *)

Lemma try_sizes_filter codes mn mx : forall sizes acc bs bn, 0 < mn -> 0 < bs -> 0 < bn -> StronglySorted Z.lt sizes ->
  try_sizes codes mn mx sizes acc bs bn = try_sizes codes mn mx (filter (in_range mn mx) sizes) acc bs bn.
Proof.
  induction sizes as [|s sizes IH]; intros acc bs bn Hmn Hbs Hbn Hs; [reflexivity|].
  inversion_clear Hs as [|? ? Hs' Hf]. cbn [filter try_sizes]. unfold in_range at 1.
  destruct (Z.ltb_spec s mn).
  { destruct (Z.leb_spec mn s); [lia|]. cbn [andb]. now apply IH. }
  destruct (Z.leb_spec mn s); [|lia]. destruct (Z.ltb_spec mx s).
  { destruct (Z.leb_spec s mx); [lia|]. cbn [andb].
    assert (E : filter (in_range mn mx) sizes = []); [|now rewrite E].
    apply filter_none. intros t Ht. rewrite Forall_forall in Hf. specialize (Hf t Ht). unfold in_range. lia. }
  destruct (Z.leb_spec s mx); [|lia]. cbn [andb try_sizes].
  destruct (Z.ltb_spec s mn); [lia|]. destruct (Z.ltb_spec mx s); [lia|].
  rewrite count_collisions_min by lia. cbn [bind]. cbv zeta.
  set (num := Z.min bn (ncoll s codes)). destruct (Z.eqb_spec bs 0); [lia|]. cbn [orb].
  destruct ((num <? bn) && (num <=? acc)) eqn:A; auto.
Qed.

(** The loop after the first size: [acc] is the tolerance at position [i]. *)
Lemma try_sizes_chosen codes mn mx n i : forall sizes j, 0 < mn -> 0 < n -> 0 < ncoll n codes ->
  Forall (fun s => mn <= s <= mx) sizes ->
  exists s c, try_sizes codes mn mx sizes (tolerance i j) n (ncoll n codes) = Ok (s, c) /\ c = ncoll s codes /\
  ((exists k, nth_error sizes k = Some s /\ ncoll s codes <= tolerance i (j + k) /\ ncoll s codes < ncoll n codes /\
  forall k' t, (k' < k)%nat -> nth_error sizes k' = Some t ->
        ~ (ncoll t codes <= tolerance i (j + k') /\ ncoll t codes < ncoll n codes)) \/
   (s = n /\ forall k' t, nth_error sizes k' = Some t ->
        ~ (ncoll t codes <= tolerance i (j + k') /\ ncoll t codes < ncoll n codes))).
Proof.
  induction sizes as [|s sizes IH]; intros j Hmn Hn Hpos Hf.
  - exists n, (ncoll n codes). cbn [try_sizes]. split; auto. split; auto. right. split; auto.
    intros k t H. destruct k; discriminate.
  - inversion_clear Hf as [|? ? Hs Hf']. cbn [try_sizes].
    destruct (Z.ltb_spec s mn); [lia|]. destruct (Z.ltb_spec mx s); [lia|].
    rewrite count_collisions_min by lia. cbn [bind]. cbv zeta.
    destruct (Z.eqb_spec n 0); [lia|]. cbn [orb].
    set (num := Z.min (ncoll n codes) (ncoll s codes)).
    destruct ((num <? ncoll n codes) && (num <=? tolerance i j)) eqn:A.
    + apply andb_true_iff in A. destruct A as (A1 & A2). apply Z.ltb_lt in A1. apply Z.leb_le in A2.
      assert (Hnum : num = ncoll s codes) by (unfold num in *; lia).
      exists s, num. split; auto. split; auto. left. exists O. rewrite Nat.add_0_r. split; auto.
      split; [lia|]. split; [lia|]. intros k' t Hk. lia.
    + assert (Hna : ~ (ncoll s codes <= tolerance i j /\ ncoll s codes < ncoll n codes)).
      { intros (B1 & B2). assert (num = ncoll s codes) by (unfold num; lia). apply andb_false_iff in A. lia. }
      assert (Hacc : (if 0 <? tolerance i j then tolerance i j / 100 * 20 else tolerance i j) = tolerance i (S j)).
      { cbn [tolerance]. destruct (Z.ltb_spec 0 (tolerance i j)); auto.
        assert (Ht : forall k, 0 <= tolerance i k).
        { intros k. induction k as [|k IHk]; cbn [tolerance].
          - unfold tolerated. destruct (Z.ltb_spec i 128); [lia|]. pose proof (Z.div_pos i 100 ltac:(lia) ltac:(lia)). lia.
          - pose proof (Z.div_pos _ 100 IHk ltac:(lia)). lia. }
        assert (E : tolerance i j = 0) by (specialize (Ht j); lia). now rewrite E. }
      rewrite Hacc. destruct (IH (S j) Hmn Hn Hpos Hf') as (s' & c & Hr & Hc & Hor).
      exists s', c. split; auto. split; auto. destruct Hor as [(k & K1 & K2 & K3 & K4)|(E & K4)].
      * left. exists (S k). split; auto. rewrite Nat.add_succ_r. split; auto. split; auto.
        intros [|k'] t Hk Ht; [injection Ht as <-; now rewrite Nat.add_0_r|].
        rewrite Nat.add_succ_r. apply (K4 k' t); auto. lia.
      * right. split; auto. intros [|k'] t Ht; [injection Ht as <-; now rewrite Nat.add_0_r|].
        rewrite Nat.add_succ_r. now apply (K4 k' t).
Qed.

Lemma table_size_choice :
  forall codes : list Z, codes <> [] -> zlen codes < 2 ^ 60 ->
  exists l s c, size_list (zlen codes) l /\ analyze_hash_codes codes = Ok (s, c) /\
  c = Z.of_nat (collisions s codes) /\ chosen codes (zlen codes :: l) s.
Proof.
  intros codes Hne Hmax. set (n := zlen codes) in *.
  assert (Hn : 0 < n).
  { unfold n. destruct codes; [congruence|]. rewrite zlen_cons. pose proof (zlen_nonneg codes). lia. }
  assert (Ht : initial_acceptable n = tolerated n).
  { unfold initial_acceptable, tolerated. destruct (_ <? _); lia. }
  assert (Hm : max_table_size n = size_limit n).
  { unfold max_table_size, size_limit. destruct (_ <? _); [lia|]. destruct (_ <? _); lia. }
  destruct (tolerated_bounds n Hn) as (T1 & T2 & T3).
  destruct (candidate_sizes_total n (n - tolerated n) (size_limit n)) as (l & Hl); try lia.
  destruct (candidates_shape n l ltac:(lia) Hl) as (Hasc & Hlist).
  unfold analyze_hash_codes. fold n. cbv zeta. rewrite Ht, Hm, Hl. cbn [bind try_sizes].
  destruct (Z.ltb_spec n (n - tolerated n)); [lia|]. destruct (Z.ltb_spec (size_limit n) n); [lia|].
  rewrite count_collisions_min by lia. cbn [bind].
  pose proof (ncoll_lt n codes Hne) as Hlt. fold n in Hlt. pose proof (ncoll_nonneg n codes) as Hge.
  rewrite Z.min_r by lia. destruct (Z.ltb_spec (ncoll n codes) n); [|lia]. cbn [Z.eqb orb andb].
  set (l' := filter (in_range (n - tolerated n) (size_limit n)) l) in *.
  assert (Hacc : forall k t, accepted codes k t <->
    (ncoll t codes <= tolerance n k /\ (k = O \/ ncoll t codes < ncoll n codes))).
  { intros k t. unfold accepted. change (Z.of_nat (length codes)) with n. rewrite !ncoll_collisions.
    split; intros (A & [B|B]); split; auto; right; lia. }
  destruct (Z.leb_spec (ncoll n codes) (tolerated n)).
  - exists l', n, (ncoll n codes). split; auto. split; auto. split; [apply ncoll_collisions|].
    left. exists O. split; auto. split; [apply Hacc; cbn [tolerance]; auto|]. intros j t Hj. lia.
  - assert (Hstep : (if 0 <? tolerated n then tolerated n / 100 * 20 else tolerated n) = tolerance n 1).
    { cbn [tolerance]. destruct (Z.ltb_spec 0 (tolerated n)); auto. assert (E : tolerated n = 0) by lia. now rewrite E. }
    rewrite Hstep. rewrite try_sizes_filter by (auto; lia). fold l'.
    destruct (try_sizes_chosen codes (n - tolerated n) (size_limit n) n n l' 1) as (s & c & Hr & Hc & Hor); try lia.
    { apply Forall_forall. intros s Hs. now apply (sl_range n l' Hlist). }
    rewrite Hr. exists l', s, c. split; auto. split; auto. split; [rewrite Hc; apply ncoll_collisions|].
    assert (Hzero : ~ accepted codes 0 n) by (rewrite Hacc; cbn [tolerance]; lia).
    destruct Hor as [(k & K1 & K2 & K3 & K4)|(-> & K4)].
    + left. exists (S k). split; auto. split; [apply Hacc; auto|].
      intros [|j] t Hj Hjt; [injection Hjt as <-; auto|]. rewrite Hacc. cbn [nth_error] in Hjt.
      intros (A & [B|B]); [discriminate|]. apply (K4 j t); auto; lia.
    + right. split; auto. intros [|j] t Hjt; [injection Hjt as <-; auto|]. rewrite Hacc. cbn [nth_error] in Hjt.
      intros (A & [B|B]); [discriminate|]. apply (K4 j t); auto.
Qed.

(** Eight codes: no other size than eight is ever tried, however many collide. *)
Lemma table_size_eight :
  forall codes : list Z, zlen codes = 8 -> analyze_hash_codes codes = Ok (8, Z.of_nat (collisions 8 codes)).
Proof.
  intros codes H8. destruct (table_size_choice codes) as (l & s & c & Hl & Ha & Hc & Hch).
  { intros ->. discriminate. }
  { rewrite H8. reflexivity. }
  rewrite H8 in *. assert (l = []) as ->.
  { destruct l as [|x l]; auto. exfalso. assert (Hx : In x (x :: l)) by now left.
    pose proof (sl_range 8 _ Hl x Hx) as R. pose proof (sl_least 8 _ Hl ltac:(lia) x Hx).
    change (size_limit 8) with 128 in R. lia. }
  assert (s = 8) as ->.
  { destruct Hch as [([|[|i]] & K & _)|(K & _)]; cbn in K; congruence. }
  congruence.
Qed.

(** ** Machine words *)

Lemma arith_usize pr z : 0 <= z < 2 ^ 64 -> arith pr usize z = Ok z.
Proof.
  intros H. apply arith_ok. change (imin usize) with 0. change (imax usize) with (2 ^ 64 - 1). lia.
Qed.

Lemma next_prime_w_eq pr fuel : forall size, 33 <= size <= big_prime -> Z.odd size = true ->
  next_prime_w pr fuel size = next_prime fuel size.
Proof.
  induction fuel as [|fuel IH]; intros size Hs Ho; [reflexivity|]. cbn [next_prime_w next_prime].
  destruct (is_prime size) as [b| | |] eqn:E; auto. cbn [bind]. destruct b; auto.
  destruct (Z.eq_dec size big_prime) as [->|Hne]; [rewrite is_prime_big in E; discriminate|].
  pose proof big_prime_bounds.
  assert (size + 2 <= big_prime).
  { pose proof big_prime_odd as Hbo. apply Z.odd_spec in Ho, Hbo. destruct Ho as (a & Ha), Hbo as (c & Hc). lia. }
  rewrite arith_usize by lia. cbn [bind]. apply IH; [lia|].
  replace (size + 2) with (Z.succ (Z.succ size)) by lia. now rewrite Z.odd_succ_succ.
Qed.

Lemma large_sizes_w_eq pr fuel : forall size inc max, 33 <= size -> 1 <= inc -> max + inc + 1 <= big_prime ->
  large_sizes_w pr fuel size inc max = large_sizes fuel size inc max.
Proof.
  induction fuel as [|fuel IH]; intros size inc max Hs Hi Hmax; [reflexivity|]. cbn [large_sizes_w large_sizes].
  destruct (Z.leb_spec size max); auto. pose proof big_prime_bounds.
  pose proof (lor_1_ge (size + inc) ltac:(lia)). pose proof (lor_1_le (size + inc) ltac:(lia)).
  rewrite arith_usize by lia. cbn [bind]. cbv zeta. rewrite next_prime_w_eq by (try lia; apply lor_1_odd).
  destruct (next_prime _ _) as [q| | |] eqn:E; auto. cbn [bind].
  destruct (next_prime_below _ (Z.lor (size + inc) 1) q ltac:(split; lia) (lor_1_odd _) E) as (Hq & _).
  now rewrite IH by lia.
Qed.

Lemma count_collisions_w_eq pr size max best codes : forall used num, 0 <= num -> num + zlen codes < 2 ^ 64 ->
  count_collisions_w pr size max best codes used num = count_collisions size max best codes used num.
Proof.
  induction codes as [|c codes IH]; intros used num Hn Hl; [reflexivity|]. rewrite zlen_cons in Hl.
  pose proof (zlen_nonneg codes). cbn [count_collisions_w count_collisions].
  destruct (size =? 0); auto. cbv zeta. destruct (_ <? max); auto. destruct (existsb _ _).
  - rewrite arith_usize by lia. cbn [bind]. destruct (best <=? num + 1); auto. apply IH; lia.
  - apply IH; lia.
Qed.

Lemma try_sizes_w_eq pr codes mn mx : zlen codes < 2 ^ 60 -> forall sizes acc bs bn, acc < 2 ^ 60 ->
  try_sizes_w pr codes mn mx sizes acc bs bn = try_sizes codes mn mx sizes acc bs bn.
Proof.
  intros Hl. induction sizes as [|s sizes IH]; intros acc bs bn Ha; [reflexivity|]. cbn [try_sizes_w try_sizes].
  destruct (s <? mn); auto. destruct (mx <? s); auto. pose proof (zlen_nonneg codes).
  rewrite count_collisions_w_eq by lia. destruct (count_collisions _ _ _ _ _ _) as [num| | |]; auto.
  cbn [bind]. cbv zeta. destruct (_ && (num <=? acc)); auto. destruct (Z.ltb_spec 0 acc).
  - pose proof (Z.mul_div_le acc 100 ltac:(lia)). pose proof (Z.div_pos acc 100 ltac:(lia) ltac:(lia)).
    rewrite arith_usize by lia. cbn [bind]. apply IH. lia.
  - cbn [bind]. now apply IH.
Qed.

Lemma analysis_no_overflow :
  forall (pr : profile) (codes : list Z), zlen codes < 2 ^ 60 ->
  analyze_hash_codes_w pr codes = analyze_hash_codes codes.
Proof.
  intros pr codes Hl. unfold analyze_hash_codes_w, analyze_hash_codes. cbv zeta.
  pose proof (zlen_nonneg codes) as Hn. set (n := zlen codes) in *.
  pose proof (Z.mul_div_le n 100 ltac:(lia)). pose proof (Z.div_pos n 100 ltac:(lia) ltac:(lia)).
  assert (E1 : (if n <? 128 then Ok 0 else arith pr usize (n / 100 * 5)) = Ok (initial_acceptable n)).
  { unfold initial_acceptable. destruct (n <? 128); auto. apply arith_usize. lia. }
  rewrite E1. cbn [bind].
  assert (B : 0 <= initial_acceptable n /\ 20 * initial_acceptable n <= n).
  { unfold initial_acceptable. destruct (n <? 128); lia. }
  rewrite arith_usize by lia. cbn [bind].
  assert (E2 : n * (if n <? 128 then 16 else if n <? 1000 then 10 else 3) = max_table_size n).
  { unfold max_table_size. destruct (n <? 128); auto. destruct (n <? 1000); auto. }
  rewrite E2. assert (M : n <= max_table_size n < 2 ^ 62 /\ (1000 <= n -> max_table_size n = 3 * n)).
  { unfold max_table_size. destruct (Z.ltb_spec n 128); [lia|]. destruct (Z.ltb_spec n 1000); lia. }
  destruct M as (M & M3).
  rewrite arith_usize by lia. cbn [bind].
  assert (E3 : candidate_sizes_w pr n (n - initial_acceptable n) (max_table_size n) =
               candidate_sizes n (n - initial_acceptable n) (max_table_size n)).
  { unfold candidate_sizes_w, candidate_sizes. clear E1 E2. destruct (max_table_size n <? 128); auto.
    change (last PRIMES 0) with 7199369. destruct (Z.ltb_spec (n - initial_acceptable n) 7199369); auto.
    pose proof (Z.mul_div_le n 3 ltac:(lia)). pose proof (Z.mul_succ_div_gt n 3 ltac:(lia)). pose proof big_prime_bounds.
    rewrite large_sizes_w_eq; auto; try lia. }
  rewrite E3. destruct (candidate_sizes _ _ _) as [l| | |]; auto. cbn [bind]. apply try_sizes_w_eq; auto.
  fold n. lia.
Qed.

(** The primality test on every odd machine word above five. *)
Lemma primality_test :
  forall candidate : Z, 5 < candidate < 2 ^ 64 -> Z.odd candidate = true ->
  exists b, is_prime candidate = Ok b /\ (b = true <-> prime candidate).
Proof. exact is_prime_correct64. Qed.
