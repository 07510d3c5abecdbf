(** The analysis of hash codes takes a linear number of steps. *)
From Coq Require Import List ZArith Bool Lia Arith Sorting.Sorted.
From Verif Require Import Spec SizeSpec Base BaseLemmas HashCodeAnalyzer HashCodeAnalyzerProofs TableSizeProofs FrozenMapBuild AnalysisCost.
Import ListNotations.
Open Scope Z_scope.

Lemma count_steps size max best codes : forall used num steps,
  match count_collisions size max best codes used num with
  | Ok c => exists k, 0 <= k <= zlen codes /\ count_collisions_steps size max best codes used num steps = Ok (c, steps + k)
  | Panic p => count_collisions_steps size max best codes used num steps = Panic p
  | UB u => count_collisions_steps size max best codes used num steps = UB u
  | OutOfFuel => count_collisions_steps size max best codes used num steps = OutOfFuel
  end.
Proof.
  induction codes as [|c codes IH]; intros used num steps; cbn [count_collisions count_collisions_steps].
  - exists 0. rewrite Z.add_0_r. split; auto. change (0 <= 0 <= 0). lia.
  - destruct (size =? 0); auto. cbv zeta. destruct (c mod size <? max); auto.
    rewrite zlen_cons. pose proof (zlen_nonneg codes).
    destruct (existsb _ _); [destruct (best <=? num + 1)|].
    + exists 1. split; auto. lia.
    + specialize (IH used (num + 1) (steps + 1)). destruct (count_collisions _ _ _ _ _ _); auto.
      destruct IH as (k & Hk & ->). exists (1 + k). split; [lia|]. do 2 f_equal. lia.
    + specialize (IH (c mod size :: used) num (steps + 1)). destruct (count_collisions _ _ _ _ _ _); auto.
      destruct IH as (k & Hk & ->). exists (1 + k). split; [lia|]. do 2 f_equal. lia.
Qed.

Lemma try_steps codes mn mx : forall sizes acc bs bn tries steps r,
  try_sizes codes mn mx sizes acc bs bn = Ok r ->
  exists t v, try_sizes_steps codes mn mx sizes acc bs bn tries steps = Ok (r, (tries + t, steps + v)) /\
    0 <= t <= zlen (filter (in_range mn mx) sizes) /\ 0 <= v <= t * zlen codes.
Proof.
  induction sizes as [|s sizes IH]; intros acc bs bn tries steps r H; cbn [try_sizes try_sizes_steps] in *.
  - injection H as <-. exists 0, 0. rewrite !Z.add_0_r. split; auto. change (zlen (filter (in_range mn mx) [])) with 0. lia.
  - pose proof (zlen_nonneg codes) as Hc. cbn [filter]. unfold in_range at 1.
    pose proof (zlen_nonneg (filter (in_range mn mx) sizes)) as Hf.
    destruct (Z.ltb_spec s mn).
    { destruct (IH _ _ _ tries steps _ H) as (t & v & E & Ht & Hv). exists t, v. split; auto. split; auto.
      destruct ((mn <=? s) && (s <=? mx)); rewrite ?zlen_cons; lia. }
    destruct (Z.ltb_spec mx s).
    { injection H as <-. exists 0, 0. rewrite !Z.add_0_r. split; auto. split; [|lia].
      destruct ((mn <=? s) && (s <=? mx)); rewrite ?zlen_cons; lia. }
    destruct (Z.leb_spec mn s); [|lia]. destruct (Z.leb_spec s mx); [|lia]. cbn [andb]. rewrite zlen_cons.
    pose proof (count_steps s mx bn codes [] 0 steps) as C.
    destruct (count_collisions s mx bn codes [] 0) as [num| | |]; cbn [bind] in H; try discriminate.
    destruct C as (k & Hk & ->). cbn [bind fst snd]. cbv zeta in *.
    destruct ((num <? bn) && (num <=? acc)).
    + injection H as <-. exists 1, k. split; [reflexivity|]. lia.
    + destruct (IH _ _ _ (tries + 1) (steps + k) _ H) as (t & v & E & Ht & Hv). rewrite E.
      exists (1 + t), (k + v). split; [do 3 f_equal; lia|]. split; [lia|]. nia.
Qed.

(** ** How many of the sizes in the table lie in the range tried *)

Lemma filter_head_bound a b l (Q : Z -> Z -> bool) k :
  StronglySorted Z.lt l ->
  (forall x s, In x l -> a <= x -> s <= b -> x <= s -> Q x s = true) ->
  forallb (fun x => Nat.leb (length (filter (fun s => (x <=? s) && Q x s) l)) k) l = true ->
  (length (filter (in_range a b) l) <= k)%nat.
Proof.
  intros Hs HQ Hk. destruct (filter (in_range a b) l) as [|x f] eqn:E; [cbn; lia|].
  assert (Hx : In x (filter (in_range a b) l)) by (rewrite E; now left).
  apply filter_In in Hx. destruct Hx as [Hx Hr]. unfold in_range in Hr. apply andb_true_iff in Hr.
  rewrite !Z.leb_le in Hr.
  rewrite forallb_forall in Hk. specialize (Hk x Hx). apply Nat.leb_le in Hk. rewrite <- E.
  assert (Hmin : forall s, In s l -> in_range a b s = true -> x <= s).
  { intros s Hin Hr'. pose proof (StronglySorted_filter _ (in_range a b) l Hs) as HS. rewrite E in HS.
    apply StronglySorted_inv in HS. destruct HS as [_ HS]. rewrite Forall_forall in HS.
    assert (Hin' : In s (x :: f)) by (rewrite <- E; apply filter_In; auto). destruct Hin' as [<-|Hin']; [lia|].
    specialize (HS s Hin'). cbn in HS. lia. }
  eapply Nat.le_trans; [|exact Hk]. clear Hk Hs.
  assert (Himp : forall s, In s l -> in_range a b s = true -> (x <=? s) && Q x s = true).
  { intros s Hin Hr'. pose proof (Hmin s Hin Hr'). unfold in_range in Hr'. rewrite andb_true_iff, !Z.leb_le in Hr'.
    apply andb_true_iff. rewrite Z.leb_le. split; auto. apply HQ; auto; lia. }
  clear E Hx Hmin HQ f. induction l as [|s l IH]; [cbn; lia|]. cbn [filter].
  assert (IH' : (length (filter (in_range a b) l) <= length (filter (fun s => (x <=? s)%Z && Q x s) l))%nat).
  { apply IH. intros; apply Himp; auto. now right. }
  destruct (in_range a b s) eqn:Ei.
  - rewrite (Himp s (or_introl eq_refl) Ei). cbn [length]. lia.
  - destruct (_ && _); cbn [length]; lia.
Qed.

Lemma PRIMES_counts n : 8 <= n -> 
  (n < 128 -> (length (filter (in_range (n - tolerated n) (size_limit n)) PRIMES) <= 15)%nat) /\
  (n < 1000 -> (length (filter (in_range (n - tolerated n) (size_limit n)) PRIMES) <= 15)%nat) /\
  (1000 <= n -> (length (filter (in_range (n - tolerated n) (size_limit n)) PRIMES) <= 7)%nat).
Proof.
  intros Hn. destruct (tolerated_bounds n ltac:(lia)) as (T1 & T2 & _).
  assert (A : n < 128 -> (length (filter (in_range (n - tolerated n) (size_limit n)) PRIMES) <= 15)%nat).
  { intros H. apply (filter_head_bound _ _ _ (fun _ s => s <=? 2032)); [apply PRIMES_ascending| |vm_compute; reflexivity].
    intros x s _ _ Hs _. apply Z.leb_le. unfold size_limit in Hs. destruct (Z.ltb_spec n 128); lia. }
  split; [exact A|]. split.
  - intros H. destruct (Z.lt_ge_cases n 128) as [|Hge]; [auto|].
    apply Nat.le_trans with 13%nat; [|lia].
    apply (filter_head_bound _ _ _ (fun x s => 95 * s <=? 1000 * x)); [apply PRIMES_ascending| |vm_compute; reflexivity].
    intros x s _ Hx Hs _. apply Z.leb_le. unfold size_limit in Hs. destruct (Z.ltb_spec n 128); [lia|].
    destruct (Z.ltb_spec n 1000); lia.
  - intros H. apply (filter_head_bound _ _ _ (fun x s => 95 * s <=? 300 * x)); [apply PRIMES_ascending| |vm_compute; reflexivity].
    intros x s _ Hx Hs _. apply Z.leb_le. unfold size_limit in Hs. destruct (Z.ltb_spec n 128); [lia|].
    destruct (Z.ltb_spec n 1000); lia.
Qed.

Lemma tried_count n l : 0 < n < 2 ^ 60 -> candidate_sizes n (n - tolerated n) (size_limit n) = Ok (n :: l) ->
  zlen (filter (in_range (n - tolerated n) (size_limit n)) l) <=
    if n <? 8 then 15 * n + 1 else if n <? 1000 then 15 else 7.
Proof.
  intros Hn H. destruct (tolerated_bounds n ltac:(lia)) as (T1 & T2 & T3).
  destruct (candidates_shape n l Hn H) as (_ & Hl).
  unfold candidate_sizes in H. destruct (Z.ltb_spec (size_limit n) 128) as [H8|H8].
    - cbn [bind] in H. injection H as <-. assert (Hn8 : n < 8).
      { unfold size_limit in H8. destruct (Z.ltb_spec n 128); [lia|]. destruct (Z.ltb_spec n 1000); lia. }
      destruct (Z.ltb_spec n 8); [|lia].
      pose proof (filter_len_le (in_range (n - tolerated n) (size_limit n)) (zrange_incl (n - tolerated n) (size_limit n))) as L.
      unfold zrange_incl in L at 2. rewrite map_length, seq_length in L. unfold zlen.
      assert (size_limit n = 16 * n) by (unfold size_limit; destruct (Z.ltb_spec n 128); lia).
      assert (tolerated n = 0) by (unfold tolerated; destruct (Z.ltb_spec n 128); lia). lia.
    - assert (Hn8 : 8 <= n) by (unfold size_limit in H8; destruct (Z.ltb_spec n 128); lia).
      destruct (Z.ltb_spec n 8); [lia|]. change (last PRIMES 0) with 7199369 in H.
      destruct (Z.ltb_spec (n - tolerated n) 7199369) as [Hm|Hm]; cbn [bind] in H.
      + injection H as <-. destruct (PRIMES_counts n Hn8) as (_ & P2 & P3). unfold zlen.
        destruct (Z.ltb_spec n 1000) as [Hk|Hk]; [specialize (P2 Hk)|specialize (P3 Hk)]; lia.
      + pose proof (sl_count_large n _ Hl Hm) as L. unfold zlen. destruct (Z.ltb_spec n 1000); lia.
Qed.

(** C65 *)
Lemma analysis_steps :
  forall codes : list Z, zlen codes < 2 ^ 60 ->
  let n := zlen codes in
  exists r tries steps, analyze_hash_codes_steps codes = Ok (r, (tries, steps)) /\
    analyze_hash_codes codes = Ok r /\
    1 <= tries <= (if n <? 8 then 15 * n + 2 else if n <? 1000 then 16 else 8) /\
    0 <= steps <= tries * n /\
    (0 < n -> Z.of_nat (collisions n codes) <= tolerated n -> tries = 1 /\ steps = n /\ fst r = n).
Proof.
  intros codes Hmax n. pose proof (zlen_nonneg codes) as H0. fold n in H0.
  destruct (Z.eq_dec n 0) as [E0|E0].
  { assert (codes = []) as -> by (destruct codes; auto; unfold n in E0; rewrite zlen_cons in E0; pose proof (zlen_nonneg codes); lia).
    exists (0, 0), 2, 0. vm_compute. repeat split; congruence. }
  assert (Hne : codes <> []) by (intros ->; now cbn in E0).
  assert (Ht : initial_acceptable n = tolerated n).
  { unfold initial_acceptable, tolerated. destruct (_ <? _); lia. }
  assert (Hm : max_table_size n = size_limit n).
  { unfold max_table_size, size_limit. destruct (_ <? _); [lia|]. destruct (_ <? _); lia. }
  destruct (tolerated_bounds n ltac:(lia)) as (T1 & T2 & T3).
  destruct (candidate_sizes_total n (n - tolerated n) (size_limit n)) as (l & Hl); try lia.
  pose proof (tried_count n l ltac:(lia) Hl) as Hcount.
  destruct (table_size_choice codes Hne Hmax) as (l' & s & c & _ & Ha & _).
  pose proof Ha as Ha0. unfold analyze_hash_codes_steps. unfold analyze_hash_codes in Ha. fold n in Ha |- *. cbv zeta in Ha |- *.
  rewrite Ht, Hm, Hl in Ha |- *. cbn [bind try_sizes try_sizes_steps] in Ha |- *.
  destruct (Z.ltb_spec n (n - tolerated n)); [lia|]. destruct (Z.ltb_spec (size_limit n) n); [lia|].
  pose proof (ncoll_lt n codes Hne) as Hlt. fold n in Hlt.
  pose proof (count_steps n (size_limit n) n codes [] 0 0) as C.
  rewrite count_collisions_min, Z.min_r in C by lia. rewrite count_collisions_min, Z.min_r in Ha by lia.
  destruct C as (k & Hk & C). rewrite C. cbn [bind fst snd] in Ha |- *. cbv zeta in Ha |- *.
  assert (Hkn : k = n).
  { assert (G : forall l used num steps c v, count_collisions_steps n (size_limit n) n l used num steps = Ok (c, v) ->
      c < n -> v = steps + zlen l).
    { clear. induction l as [|x l IH]; intros used num steps c v; cbn [count_collisions_steps].
      - intros [= <- <-] _. change (zlen []) with 0. lia.
      - rewrite zlen_cons. destruct (n =? 0); [discriminate|]. cbv zeta. destruct (_ <? _); [|discriminate].
        destruct (existsb _ _); [destruct (Z.leb_spec n (num + 1))|].
        + intros [= <- <-]. lia.
        + intros HH Hc. apply IH in HH; auto. lia.
        + intros HH Hc. apply IH in HH; auto. lia. }
    apply (G codes [] 0 0) in C; auto. }
  destruct (Z.ltb_spec (ncoll n codes) n); [|lia]. cbn [andb Z.eqb orb] in Ha |- *.
  destruct (Z.leb_spec (ncoll n codes) (tolerated n)) as [Hacc|Hacc].
  - injection Ha as <- <-. exists (n, ncoll n codes), 1, n. rewrite Hkn. split; [reflexivity|]. split; [exact Ha0|].
    split; [|split; [lia|auto]]. destruct (n <? 8), (n <? 1000); lia.
  - destruct (try_steps codes _ _ _ _ _ _ (0 + 1) (0 + k) _ Ha) as (t & v & Hs & Hb & Hv). fold n in Hv.
    exists (s, c), (0 + 1 + t), (0 + k + v). split; [exact Hs|]. split; [exact Ha0|].
    split; [|split; [lia|]].
    + destruct (n <? 8), (n <? 1000); lia.
    + intros _ H'. rewrite <- ncoll_collisions in H'. lia.
Qed.
