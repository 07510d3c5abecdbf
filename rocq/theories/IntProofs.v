(** Proofs about IntKeyAnalyzer.v and the integer range map of Maps.v. *)
From Coq Require Import List ZArith Bool Lia Permutation Sorted.
From Verif Require Import Spec Base BaseLemmas IntKeyAnalyzer HashTable HashTableProofs Maps.
Import ListNotations.
Open Scope Z_scope.

Lemma interval_length a n : length (interval a n) = n.
Proof. unfold interval. now rewrite map_length, seq_length. Qed.

Lemma interval_In a n x : In x (interval a n) <-> a <= x < a + Z.of_nat n.
Proof.
  unfold interval. rewrite in_map_iff. split.
  - intros (i & <- & Hi). apply in_seq in Hi. lia.
  - intros H. exists (Z.to_nat (x - a)). split; [lia|]. apply in_seq. lia.
Qed.

Lemma interval_cons a n : interval a (S n) = a :: interval (a + 1) n.
Proof.
  unfold interval. cbn [seq map]. f_equal; [lia|].
  rewrite <- seq_shift, map_map. apply map_ext. intros. lia.
Qed.

Lemma interval_sorted a n : StronglySorted Z.le (interval a n).
Proof.
  revert a. induction n; intros a; [constructor|]. rewrite interval_cons.
  constructor; auto. apply Forall_forall. intros x Hx. apply interval_In in Hx. lia.
Qed.

Lemma sorted_perm_eq (l l' : list Z) :
  StronglySorted Z.le l -> StronglySorted Z.le l' -> Permutation l l' -> l = l'.
Proof.
  revert l'. induction l as [|x l IH]; intros l' Hl Hl' HP.
  - now apply Permutation_nil in HP.
  - destruct l' as [|y l']; [now apply Permutation_sym, Permutation_nil in HP|].
    inversion Hl as [|? ? Hl1 Hl2]; subst. inversion Hl' as [|? ? Hl1' Hl2']; subst.
    assert (x = y).
    { rewrite Forall_forall in *.
      assert (In x (y :: l')) by (apply (Permutation_in _ HP); now left).
      assert (In y (x :: l)) by (apply (Permutation_in _ (Permutation_sym HP)); now left).
      assert (x <= y) by (destruct H0 as [->|]; [lia|auto]).
      assert (y <= x) by (destruct H as [->|]; [lia|auto]). lia. }
    subst y. f_equal. apply IH; auto. eapply Permutation_cons_inv; eauto.
Qed.

(** ** Minimum and maximum *)

Lemma consecutive_iff keys mn mx :
  keys <> [] -> NoDup keys -> is_min mn keys -> is_max mx keys ->
  (mx - mn = zlen keys - 1 <-> consecutive keys).
Proof.
  intros Hne Hnd (Hmn & Hmn') (Hmx & Hmx'). split.
  - intros H. exists mn. apply NoDup_Permutation_bis; auto.
    + rewrite interval_length. lia.
    + intros x Hx. apply interval_In. specialize (Hmn' x Hx). specialize (Hmx' x Hx).
      unfold zlen in H. lia.
  - intros (a & HP).
    assert (Hin : forall x, In x keys <-> a <= x < a + zlen keys).
    { intros x. unfold zlen. rewrite <- interval_In. split; apply Permutation_in; auto.
      now apply Permutation_sym. }
    assert (0 < zlen keys).
    { destruct keys; [congruence|]. rewrite zlen_cons. pose proof (zlen_nonneg keys). lia. }
    assert (In a keys) by (apply Hin; lia).
    assert (In (a + zlen keys - 1) keys) by (apply Hin; lia).
    apply Hin in Hmn as Hmn1. apply Hin in Hmx as Hmx1.
    specialize (Hmn' _ H0). specialize (Hmx' _ H1). lia.
Qed.

Lemma scan_int_keys_ok pr ty keys : forall mn mx c,
  0 <= c -> c + zlen keys <= imax ty -> imin ty <= 0 ->
  scan_int_keys pr ty keys mn mx c =
    Ok (fold_left Z.min keys mn, fold_left Z.max keys mx, c + zlen keys).
Proof.
  induction keys as [|k keys IH]; intros mn mx c Hc Hle Hmin; cbn [scan_int_keys fold_left].
  - change (zlen []) with 0. now rewrite Z.add_0_r.
  - rewrite zlen_cons in *. pose proof (zlen_nonneg keys).
    rewrite arith_ok by lia. cbn [bind]. rewrite IH by lia. do 2 f_equal. lia.
Qed.

Lemma fold_min_spec l : forall m,
  let r := fold_left Z.min l m in
  (r = m \/ In r l) /\ r <= m /\ (forall x, In x l -> r <= x).
Proof.
  induction l as [|a l IH]; intros m; cbn.
  - repeat split; auto; [lia|]. intros x [].
  - destruct (IH (Z.min m a)) as (H1 & H2 & H3). split; [|split].
    + destruct H1 as [H1|H1]; auto. rewrite H1. destruct (Z.min_spec m a) as [[? E]|[? E]]; rewrite E; auto.
    + lia.
    + intros x [<-|Hx]; auto. lia.
Qed.

Lemma fold_max_spec l : forall m,
  let r := fold_left Z.max l m in
  (r = m \/ In r l) /\ m <= r /\ (forall x, In x l -> x <= r).
Proof.
  induction l as [|a l IH]; intros m; cbn.
  - repeat split; auto; [lia|]. intros x [].
  - destruct (IH (Z.max m a)) as (H1 & H2 & H3). split; [|split].
    + destruct H1 as [H1|H1]; auto. rewrite H1. destruct (Z.max_spec m a) as [[? E]|[? E]]; rewrite E; auto.
    + lia.
    + intros x [<-|Hx]; auto. lia.
Qed.

Lemma fold_min_is_min l m : l <> [] -> (forall x, In x l -> x <= m) ->
  is_min (fold_left Z.min l m) l.
Proof.
  intros Hne Hm. destruct (fold_min_spec l m) as (H1 & H2 & H3). split; auto.
  destruct H1 as [H1|H1]; auto. destruct l as [|a l]; [congruence|].
  rewrite H1. specialize (H3 a ltac:(now left)). specialize (Hm a ltac:(now left)).
  replace m with a by lia. now left.
Qed.

Lemma fold_max_is_max l m : l <> [] -> (forall x, In x l -> m <= x) ->
  is_max (fold_left Z.max l m) l.
Proof.
  intros Hne Hm. destruct (fold_max_spec l m) as (H1 & H2 & H3). split; auto.
  destruct H1 as [H1|H1]; auto. destruct l as [|a l]; [congruence|].
  rewrite H1. specialize (H3 a ltac:(now left)). specialize (Hm a ltac:(now left)).
  replace m with a by lia. now left.
Qed.

Lemma is_min_unique m m' l : is_min m l -> is_min m' l -> m = m'.
Proof. intros (H1 & H2) (H3 & H4). specialize (H2 m' H3). specialize (H4 m H1). lia. Qed.

Lemma is_max_unique m m' l : is_max m l -> is_max m' l -> m = m'.
Proof. intros (H1 & H2) (H3 & H4). specialize (H2 m' H3). specialize (H4 m H1). lia. Qed.

Lemma imin_imax_0 ty : 1 <= bits ty -> imin ty <= 0 <= imax ty.
Proof.
  intros H. unfold imin, imax.
  pose proof (Z.pow_pos_nonneg 2 (bits ty - 1) ltac:(lia) ltac:(lia)).
  pose proof (Z.pow_pos_nonneg 2 (bits ty) ltac:(lia) ltac:(lia)).
  destruct (signed ty); lia.
Qed.

(** Exact outcome of the analyzer when nothing overflows. *)
Lemma analyze_int_keys_ok pr ty keys mn mx :
  1 <= bits ty -> keys <> [] -> Forall (fun k => imin ty <= k <= imax ty) keys ->
  is_min mn keys -> is_max mx keys ->
  mx - mn <= imax ty -> zlen keys <= imax ty ->
  analyze_int_keys pr ty keys =
    Ok (if mx - mn =? zlen keys - 1 then IntRange else IntNormal).
Proof.
  intros Hb Hne Hall Hmn Hmx Hsp Hcnt. pose proof (imin_imax_0 ty Hb).
  rewrite Forall_forall in Hall.
  unfold analyze_int_keys. rewrite scan_int_keys_ok by lia. cbn [bind].
  assert (E1 : fold_left Z.min keys (imax ty) = mn).
  { eapply is_min_unique; [apply fold_min_is_min|]; auto. intros; now apply Hall. }
  assert (E2 : fold_left Z.max keys (imin ty) = mx).
  { eapply is_max_unique; [apply fold_max_is_max|]; auto. intros; now apply Hall. }
  rewrite E1, E2, Z.add_0_l.
  assert (0 < zlen keys).
  { destruct keys; [congruence|]. rewrite zlen_cons. pose proof (zlen_nonneg keys). lia. }
  destruct (Z.eqb_spec (zlen keys) 0); [lia|].
  assert (mn <= mx) by (apply Hmx; apply Hmn).
  rewrite !arith_ok by lia. reflexivity.
Qed.

(** With overflow checks a spread that does not fit the type panics. *)
Lemma analyze_int_keys_spread_overflow ty keys mn mx :
  1 <= bits ty -> keys <> [] -> Forall (fun k => imin ty <= k <= imax ty) keys ->
  is_min mn keys -> is_max mx keys ->
  imax ty < mx - mn -> zlen keys <= imax ty ->
  analyze_int_keys Checked ty keys = Panic POverflow.
Proof.
  intros Hb Hne Hall Hmn Hmx Hsp Hcnt. pose proof (imin_imax_0 ty Hb).
  rewrite Forall_forall in Hall.
  unfold analyze_int_keys. rewrite scan_int_keys_ok by lia. cbn [bind].
  assert (E1 : fold_left Z.min keys (imax ty) = mn).
  { eapply is_min_unique; [apply fold_min_is_min|]; auto. intros; now apply Hall. }
  assert (E2 : fold_left Z.max keys (imin ty) = mx).
  { eapply is_max_unique; [apply fold_max_is_max|]; auto. intros; now apply Hall. }
  rewrite E1, E2, Z.add_0_l.
  assert (0 < zlen keys).
  { destruct keys; [congruence|]. rewrite zlen_cons. pose proof (zlen_nonneg keys). lia. }
  destruct (Z.eqb_spec (zlen keys) 0); [lia|].
  unfold arith at 1, in_type. destruct (_ && _) eqn:E; [lia|]. reflexivity.
Qed.

(** ** Sorted payloads *)

Section Payload.
Context {V : Type}.
Implicit Types payload : list (Z * V).

Lemma sorted_by_map payload :
  sorted_by fst payload -> StronglySorted Z.le (map fst payload).
Proof.
  unfold sorted_by. induction 1; cbn; constructor; auto.
  rewrite Forall_map. exact H0.
Qed.

Lemma sorted_hd_min payload e l : sorted_by fst payload -> payload = e :: l ->
  is_min (fst e) (map fst payload).
Proof.
  intros H ->. split; [now left|]. intros x [<-|Hx]; [lia|].
  inversion H as [|? ? _ HF]; subst. rewrite Forall_forall in HF.
  apply in_map_iff in Hx. destruct Hx as (e' & <- & He'). now apply HF.
Qed.

Lemma sorted_last_max payload e : sorted_by fst payload ->
  nth_error payload (length payload - 1) = Some e ->
  is_max (fst e) (map fst payload).
Proof.
  intros H Hn. split.
  - apply in_map. eapply nth_error_In; eauto.
  - revert e Hn. induction H as [|a l Hs IH HF]; intros e Hn x Hx; [destruct Hx|].
    destruct l as [|b l].
    + cbn in Hn. injection Hn as <-. destruct Hx as [<-|[]]. lia.
    + cbn [length] in Hn. replace (S (S (length l)) - 1)%nat with (S (length (b :: l) - 1)) in Hn
        by (cbn; lia). cbn [nth_error] in Hn.
      destruct Hx as [<-|Hx]; [|now apply (IH e)].
      rewrite Forall_forall in HF. apply HF. eapply nth_error_In; eauto.
Qed.

Lemma is_min_perm m l l' : Permutation l l' -> is_min m l -> is_min m l'.
Proof.
  intros HP (H1 & H2). split; [now apply (Permutation_in _ HP)|].
  intros x Hx. apply H2. now apply (Permutation_in _ (Permutation_sym HP)).
Qed.
Lemma is_max_perm m l l' : Permutation l l' -> is_max m l -> is_max m l'.
Proof.
  intros HP (H1 & H2). split; [now apply (Permutation_in _ HP)|].
  intros x Hx. apply H2. now apply (Permutation_in _ (Permutation_sym HP)).
Qed.

(** Outcome of the range map constructor, with the two places it can fail. *)
Lemma irm_from_vec_spec pr ty payload mn mx :
  payload <> [] -> is_min mn (map fst payload) -> is_max mx (map fst payload) ->
  irm_from_vec pr ty payload =
    (spread <- arith pr ty (mx - mn) ;;
     spread' <- unwrap (to_usize spread) ;;
     if spread' =? zlen payload - 1
     then Ok {| irm_min := mn; irm_max := mx; irm_entries := stable_sort fst payload |}
     else Panic PAssert).
Proof.
  intros Hne Hmn Hmx. unfold irm_from_vec. destruct payload as [|e0 p0] eqn:Hp; [congruence|].
  rewrite <- Hp in *. clear Hp e0 p0. cbv zeta.
  pose proof (stable_sort_perm fst payload) as HP.
  pose proof (stable_sort_sorted fst payload) as HS.
  set (s := stable_sort fst payload) in *.
  destruct s as [|e s'] eqn:Es.
  { apply Permutation_sym, Permutation_nil in HP. congruence. }
  rewrite <- Es in *.
  assert (H1 : index_checked s 0 = Ok e) by (rewrite Es; reflexivity).
  destruct (nth_error s (length s - 1)) as [f|] eqn:Hf.
  2:{ apply nth_error_None in Hf. rewrite Es in Hf. cbn in Hf. lia. }
  assert (H2 : index_checked s (zlen s - 1) = Ok f).
  { unfold index_checked, zlen. destruct (Z.leb_spec 0 (Z.of_nat (length s) - 1)).
    - replace (Z.to_nat (Z.of_nat (length s) - 1)) with (length s - 1)%nat by lia. now rewrite Hf.
    - rewrite Es in H. cbn [length] in H. lia. }
  rewrite H1, H2. cbn [bind].
  assert (HPk : Permutation (map fst payload) (map fst s)) by now apply Permutation_map.
  assert (fst e = mn).
  { eapply is_min_unique; [eapply sorted_hd_min; eauto|]. now apply (is_min_perm _ _ _ HPk). }
  assert (fst f = mx).
  { eapply is_max_unique; [eapply sorted_last_max; eauto|]. now apply (is_max_perm _ _ _ HPk). }
  subst mn mx. rewrite <- (zlen_perm _ _ HP). reflexivity.
Qed.

(** A range map is well formed when its keys are min, min+1, ..., max in order. *)
Definition irm_ok (ty : int_type) (m : integer_range_map V) : Prop :=
  irm_entries m <> [] /\
  map fst (irm_entries m) = interval (irm_min m) (length (irm_entries m)) /\
  irm_max m = irm_min m + zlen (irm_entries m) - 1 /\
  irm_max m - irm_min m <= imax ty /\ imin ty <= 0 /\
  irm_max m - irm_min m < 2 ^ 64.

Lemma find_pos_interval a n k :
  find_pos (Z.eqb k) (interval a n) =
  if (a <=? k) && (k <=? a + Z.of_nat n - 1) then Some (Z.to_nat (k - a)) else None.
Proof.
  revert a. induction n as [|n IH]; intros a.
  - cbn. destruct (_ && _) eqn:E; auto. lia.
  - rewrite interval_cons. cbn [find_pos]. destruct (Z.eqb_spec k a).
    + destruct (Z.leb_spec a k), (Z.leb_spec k (a + Z.of_nat (S n) - 1)); try lia.
      cbn [andb]. f_equal. lia.
    + rewrite IH.
      destruct (Z.leb_spec (a + 1) k), (Z.leb_spec k (a + 1 + Z.of_nat n - 1)),
        (Z.leb_spec a k), (Z.leb_spec k (a + Z.of_nat (S n) - 1)); try lia; cbn [andb option_map];
        auto. f_equal. lia.
Qed.

Lemma index_checked_ok {A} (l : list A) i x :
  nth_error l (Z.to_nat i) = Some x -> 0 <= i -> index_checked l i = Ok x.
Proof.
  intros H Hi. unfold index_checked. destruct (Z.leb_spec 0 i); [|lia]. now rewrite H.
Qed.

Lemma irm_lookup_ok pr ty m k :
  irm_ok ty m ->
  irm_get_at pr ty m k = Ok (find_pos (fun e => k =? fst e) (irm_entries m)) /\
  irm_get_mut pr ty m k = Ok (find_pos (fun e => k =? fst e) (irm_entries m)) /\
  irm_get_key_value pr ty m k = Ok (find (fun e => k =? fst e) (irm_entries m)).
Proof.
  intros (Hne & Hk & Hmx & Hsp & Hmin & H64).
  rewrite find_find_pos. rewrite <- (find_pos_map fst (Z.eqb k)), Hk, find_pos_interval.
  unfold irm_get_at, irm_get_mut, irm_get_key_value.
  rewrite Hmx. fold (zlen (irm_entries m)).
  destruct (_ && _) eqn:E; auto.
  rewrite arith_ok by lia. cbn [bind]. rewrite to_usize_ok by lia.
  destruct (nth_error (irm_entries m) (Z.to_nat (k - irm_min m))) as [e|] eqn:He.
  2:{ apply nth_error_None in He. unfold zlen in *. lia. }
  rewrite (index_checked_ok _ _ e) by (auto; lia). auto.
Qed.

Lemma irm_from_vec_ok pr ty payload mn mx :
  1 <= bits ty ->
  payload <> [] -> is_min mn (map fst payload) -> is_max mx (map fst payload) ->
  mx - mn <= imax ty -> mx - mn < 2 ^ 64 -> mx - mn = zlen payload - 1 ->
  exists m, irm_from_vec pr ty payload = Ok m /\ irm_entries m = stable_sort fst payload /\
    (NoDup (map fst payload) -> irm_ok ty m).
Proof.
  intros Hb Hne Hmn Hmx Hsp H64 Hlen. pose proof (imin_imax_0 ty Hb).
  rewrite (irm_from_vec_spec pr ty payload mn mx) by auto.
  assert (mn <= mx) by (apply Hmx; apply Hmn).
  rewrite arith_ok by lia. cbn [bind]. rewrite to_usize_ok by lia. cbn [unwrap bind].
  destruct (Z.eqb_spec (mx - mn) (zlen payload - 1)); [|lia].
  eexists. split; [reflexivity|]. split; [reflexivity|]. intros Hnd.
  pose proof (stable_sort_perm fst payload) as HP.
  pose proof (stable_sort_sorted fst payload) as HS.
  assert (Hz : zlen (stable_sort fst payload) = zlen payload) by (symmetry; now apply zlen_perm).
  unfold irm_ok. cbn [irm_entries irm_min irm_max].
  split.
  { intros E. rewrite E in HP. apply Permutation_sym, Permutation_nil in HP. congruence. }
  split; [|lia].
  apply sorted_perm_eq.
  - now apply sorted_by_map.
  - apply interval_sorted.
  - rewrite <- (Permutation_map fst HP).
    apply NoDup_Permutation_bis; auto.
    + rewrite interval_length, map_length. unfold zlen in *. lia.
    + intros x Hx. apply interval_In. destruct Hmn as (_ & Hmn), Hmx as (_ & Hmx).
      specialize (Hmn x Hx). specialize (Hmx x Hx). unfold zlen in *. lia.
Qed.

End Payload.

Lemma min_max_exist (l : list Z) : l <> [] -> exists mn mx, is_min mn l /\ is_max mx l.
Proof.
  intros H. destruct l as [|a l]; [congruence|].
  exists (fold_left Z.min l a), (fold_left Z.max l a).
  destruct (fold_min_spec l a) as (A1 & A2 & A3). destruct (fold_max_spec l a) as (B1 & B2 & B3).
  split; split.
  - destruct A1 as [->|]; [now left|now right].
  - intros x [<-|]; auto.
  - destruct B1 as [->|]; [now left|now right].
  - intros x [<-|]; auto.
Qed.
