(** Proofs about the construction of FrozenMap. *)
From Coq Require Import List ZArith Bool Lia Permutation.
From Verif Require Import MapSpec Spec Base BaseLemmas IntKeyAnalyzer SliceKeyAnalyzer HashTable HashTableProofs
  HashCodeAnalyzerProofs IntProofs SliceKeyAnalyzerProofs Maps MapsProofs FrozenMap FrozenMapProofs.
Import ListNotations.
Open Scope Z_scope.

(** ** Bridges between the analyzer and the vocabulary of Spec.v *)

Lemma nodup_length_le (l : list Z) : (length (nodup Z.eq_dec l) <= length l)%nat.
Proof. induction l; cbn; auto. destruct (in_dec _ _ _); cbn; lia. Qed.

Lemma repeats_repeated l : repeats l = Z.of_nat (repeated l).
Proof. unfold repeats, repeated, zlen. pose proof (nodup_length_le l). lia. Qed.

Lemma ncoll_collisions size codes : ncoll size codes = Z.of_nat (collisions size codes).
Proof.
  unfold ncoll, collisions. rewrite <- repeats_repeated. unfold repeats, residues.
  now rewrite zlen_map.
Qed.

Section Windows.
Context {T : Type}.
Variable h : list T -> Z.
Implicit Types keys : list (list T).

Lemma suff_distinctive w keys :
  window_repeats h w keys <= zlen keys / 20 <-> distinctive h w keys.
Proof.
  unfold window_repeats, distinctive. rewrite repeats_repeated. unfold zlen.
  set (r := repeated _).
  pose proof (Z.mul_div_le (Z.of_nat (length keys)) 20 ltac:(lia)).
  pose proof (Z.mul_succ_div_gt (Z.of_nat (length keys)) 20 ltac:(lia)). lia.
Qed.

Lemma left_suff_iff keys l i : 0 <= i -> 0 <= l ->
  left_suff h keys (zlen keys / 20) l i = true <->
  distinctive h (left_win (Z.to_nat i) (Z.to_nat l)) keys.
Proof.
  intros Hi Hl. unfold left_suff. rewrite Z.leb_le, suff_distinctive.
  unfold distinctive, left_win, left_window, sub.
  now replace (i + l - i) with l by lia.
Qed.

Lemma right_suff_iff keys i : 0 <= i -> (forall s, In s keys -> i < zlen s) ->
  right_suff h keys (zlen keys / 20) 1 i = true <->
  distinctive h (right_win (Z.to_nat i)) keys.
Proof.
  intros Hi Hk. unfold right_suff. rewrite Z.leb_le, suff_distinctive.
  unfold distinctive. replace (map (fun s => h (right_win (Z.to_nat i) s)) keys)
    with (map (fun s => h (right_window i 1 s)) keys); [reflexivity|].
  apply map_ext_in. intros s Hs. specialize (Hk s Hs). f_equal.
  unfold right_win, right_window, sub.
  replace (zlen s - i - 1 + 1 - (zlen s - i - 1)) with 1 by lia.
  change (Z.to_nat 1) with 1%nat. do 2 f_equal. unfold zlen in *. lia.
Qed.

Lemma some_left_window_none keys mn l :
  is_min mn (map zlen keys) -> 0 <= l ->
  none_upto (left_suff h keys (zlen keys / 20) l) (mn - l) ->
  ~ some_left_window h (Z.to_nat l) keys.
Proof.
  intros (Hmn & _) Hl Hnone (i & Hi & Hd).
  apply in_map_iff in Hmn. destruct Hmn as (s & <- & Hs). specialize (Hi s Hs).
  specialize (Hnone (Z.of_nat i) ltac:(unfold zlen; lia)).
  rewrite <- (Nat2Z.id i) in Hd. apply left_suff_iff in Hd; try lia. congruence.
Qed.

Lemma some_left_window_some keys mn l i :
  is_min mn (map zlen keys) -> 0 <= l ->
  is_first (left_suff h keys (zlen keys / 20) l) (mn - l) i ->
  some_left_window h (Z.to_nat l) keys.
Proof.
  intros (_ & Hmn) Hl (Hi & Hs & _). exists (Z.to_nat i). split.
  - intros s Hin. specialize (Hmn (zlen s) ltac:(now apply in_map)). unfold zlen in *. lia.
  - apply left_suff_iff in Hs; auto. lia.
Qed.

Lemma some_right_byte_none keys mn :
  is_min mn (map zlen keys) ->
  none_upto (right_suff h keys (zlen keys / 20) 1) (mn - 1) ->
  ~ some_right_byte h keys.
Proof.
  intros (Hmn & Hmin) Hnone (i & Hi & Hd).
  apply in_map_iff in Hmn. destruct Hmn as (s & <- & Hs). specialize (Hi s Hs) as Hi'.
  specialize (Hnone (Z.of_nat i) ltac:(unfold zlen; lia)).
  rewrite <- (Nat2Z.id i) in Hd. apply right_suff_iff in Hd; try lia. { congruence. }
  intros s' Hs'. specialize (Hi s' Hs'). unfold zlen. lia.
Qed.

Lemma some_right_byte_some keys mn i :
  is_min mn (map zlen keys) ->
  is_first (right_suff h keys (zlen keys / 20) 1) (mn - 1) i ->
  some_right_byte h keys.
Proof.
  intros (_ & Hmn) (Hi & Hs & _). exists (Z.to_nat i).
  assert (Hlt : forall s, In s keys -> i < zlen s).
  { intros s Hin. specialize (Hmn (zlen s) ltac:(now apply in_map)). lia. }
  split.
  - intros s Hin. specialize (Hlt s Hin). unfold zlen in *. lia.
  - apply right_suff_iff in Hs; auto. lia.
Qed.

Lemma few_equal_lengths_iff keys :
  few_equal_lengths keys <-> (zlen keys <= 255 /\ forall L, count_len L keys <= 3).
Proof.
  assert (Hf : forall L, 0 <= L -> filter (fun s => zlen s =? L) keys =
                         filter (fun s => Nat.eqb (length s) (Z.to_nat L)) keys).
  { intros L HL. apply filter_ext. intros s. unfold zlen.
    apply Bool.eq_iff_eq_true. rewrite Z.eqb_eq, Nat.eqb_eq. lia. }
  split; intros (H1 & H2).
  - split; [unfold zlen; lia|]. intros L. destruct (Z.le_gt_cases 0 L) as [HL|HL].
    + unfold count_len. rewrite Hf by auto. specialize (H2 (Z.to_nat L)). unfold zlen. lia.
    + unfold count_len. rewrite filter_none; [unfold zlen; cbn; lia|].
      intros s _. pose proof (zlen_nonneg s). lia.
  - split; [unfold zlen in *; lia|]. intros L. specialize (H2 (Z.of_nat L)).
    unfold count_len in H2. rewrite Hf in H2 by lia. rewrite Nat2Z.id in H2. unfold zlen in H2. lia.
Qed.
End Windows.

(** ** Construction *)

Lemma fits_u8 n : n <= imax u8 -> fits u8 n.
Proof. intros H. change (imax u8) with 255 in H. repeat split; cbn; lia. Qed.
Lemma fits_usize n : n < 2 ^ 31 -> fits usize n.
Proof. intros H. repeat split; cbn; lia. Qed.

Section Build.
Context {O V : Type}.
Variable eqbO : O -> O -> bool.
Variable E : env.
Hypothesis HE : env_ok E.
Notation key := (key O).
Notation hasher := (hasher O).
Notation keq := (key_eqb eqbO).
Implicit Types (payload : list (key * V)) (m : map_types O V) (k : key) (bh : hasher).

(** A successfully built map. *)
Definition built (kd : kind) payload bh (r : res (map_types O V)) m : Prop :=
  r = Ok m /\ Permutation payload (fm_iter m) /\ fm_inv kd bh m.

Lemma fm_new_common_built kd payload bh :
  zlen payload < 2 ^ 31 ->
  exists m, built kd payload bh (fm_new_common_map E payload bh) m /\ ~ is_range m.
Proof.
  intros Hn. unfold fm_new_common_map. destruct (Z.leb_spec (zlen payload) (imax u8)).
  - destruct (cm_from_vec_ok hash_one E u8 payload bh HE (fits_u8 _ H)) as (m & -> & HP & Ht & Hb).
    exists (MCommonSmall m). cbn. subst bh. repeat split; auto; apply Ht.
  - destruct (cm_from_vec_ok hash_one E usize payload bh HE (fits_usize _ Hn)) as (m & -> & HP & Ht & Hb).
    exists (MCommonLarge m). cbn. subst bh. repeat split; auto; apply Ht.
Qed.

Lemma Permutation_map' {A B} (f : A -> B) l l' p :
  map f p = l -> Permutation p l' -> Permutation l (map f l').
Proof. intros <- H. now apply Permutation_map. Qed.

(** Keys of a u32 payload. *)

Lemma fm_new_u32_built payload bh :
  payload <> [] -> zlen payload < 2 ^ 31 ->
  (forall e, In e payload -> has_kind KindU32 (fst e)) ->
  exists m, built KindU32 payload bh (fm_new_u32_map E payload) m /\
    (exists mn mx, is_min mn (map (fun e => u32_of (fst e)) payload) /\
                   is_max mx (map (fun e => u32_of (fst e)) payload) /\
                   (is_range m <-> mx - mn = zlen payload - 1)) /\
    (NoDup (map (fun e => u32_of (fst e)) payload) -> fm_exact m).
Proof.
  intros Hne Hn Hk. destruct (as_u32_payload payload Hk) as (p & Hp & Hm & Hr).
  assert (Hkeys : map (fun e => u32_of (fst e)) payload = map fst p).
  { rewrite <- Hm, map_map. apply map_ext. intros []. reflexivity. }
  rewrite Hkeys. assert (Hlen : zlen payload = zlen p) by (rewrite <- Hm; apply zlen_map).
  assert (Hpne : p <> []) by (intros ->; cbn in Hm; congruence).
  destruct (min_max_exist (map fst p)) as (mn & mx & Hmn & Hmx). { destruct p; [congruence|discriminate]. }
  unfold fm_new_u32_map. rewrite Hp. cbn [bind].
  assert (Hb : 0 <= mn /\ mx < 2 ^ 32).
  { destruct Hmn as (H1 & _), Hmx as (H2 & _). apply in_map_iff in H1, H2.
    destruct H1 as (e1 & <- & H1), H2 as (e2 & <- & H2). apply Hr in H1, H2. lia. }
  change (2 ^ 32) with 4294967296 in *. change (2 ^ 31) with 2147483648 in *.
  rewrite (analyze_int_keys_ok _ _ _ mn mx); auto.
  2: cbn; lia.
  2: destruct p; [congruence|discriminate].
  2:{ apply Forall_forall. intros x Hx. apply in_map_iff in Hx. destruct Hx as (e & <- & He).
      apply Hr in He. cbn. lia. }
  2: change (imax u32) with 4294967295; lia.
  2: rewrite zlen_map; change (imax u32) with 4294967295; lia.
  cbn [bind]. rewrite zlen_map.
  destruct (Z.eqb_spec (mx - mn) (zlen p - 1)) as [Esp|Esp].
  - destruct (irm_from_vec_ok (prof E) u32 p mn mx) as (m & Hm' & Hent & Hok); auto; try (cbn; lia).
    + rewrite Hm'. cbn [bind]. exists (MU32Range m).
      rewrite (irm_from_vec_spec _ _ p mn mx) in Hm' by auto.
      rewrite arith_ok in Hm' by (change (imax u32) with 4294967295; change (imin u32) with 0;
        destruct Hmx as (Hmx & Hmx'); destruct Hmn as (Hmn & _); specialize (Hmx' _ Hmn); lia).
      cbn [bind] in Hm'. rewrite to_usize_ok in Hm'
        by (change (2 ^ 64) with 18446744073709551616;
            destruct Hmx as (Hmx & Hmx'); destruct Hmn as (Hmn & _); specialize (Hmx' _ Hmn); lia).
      cbn [unwrap bind] in Hm'. rewrite Esp, Z.eqb_refl in Hm'. injection Hm' as <-.
      split; [|split].
      * split; [reflexivity|]. cbn [fm_iter irm_entries]. split.
        -- apply (Permutation_map' _ _ _ p); auto. apply stable_sort_perm.
        -- cbn [fm_inv]. split; auto. unfold irm_wf. cbn [irm_entries irm_min irm_max].
           rewrite <- (zlen_perm _ _ (stable_sort_perm fst p)).
           split; [|change (2 ^ 32) with 4294967296; lia].
           intros Hnil. pose proof (stable_sort_perm fst p) as HP. rewrite Hnil in HP.
           apply Permutation_sym, Permutation_nil in HP. congruence.
      * exists mn, mx. rewrite Hlen. cbn. intuition.
      * auto.
  - destruct (Z.leb_spec (zlen p) (imax u8)).
    + destruct (im_from_vec_ok E u8 p HE (fits_u8 _ H)) as (m & -> & HP & Ht).
      exists (MU32Small m). cbn [bind]. split; [|split].
      * split; [reflexivity|]. cbn [fm_iter]. split; [now apply (Permutation_map' _ _ _ p)|].
        cbn. auto.
      * exists mn, mx. rewrite Hlen. cbn. intuition.
      * intros _. exact I.
    + destruct (im_from_vec_ok E usize p HE (fits_usize (zlen p) ltac:(change (2 ^ 31) with 2147483648; lia)))
        as (m & -> & HP & Ht).
      exists (MU32Large m). cbn [bind]. split; [|split].
      * split; [reflexivity|]. cbn [fm_iter]. split; [now apply (Permutation_map' _ _ _ p)|].
        cbn. auto.
      * exists mn, mx. rewrite Hlen. cbn. intuition.
      * intros _. exact I.
Qed.

Lemma left_map_ok_str (p : list (list Z * V)) S_ty i l bh :
  fits S_ty (zlen p) -> 0 <= i -> 0 <= l -> (forall e, In e p -> i + l <= zlen (fst e)) ->
  exists sm, lsm_from_vec hash_write E S_ty p i (i + l) bh = Ok sm /\
    Permutation p (entries (slm_table sm)) /\ left_map_ok (@hash_write O) sm.
Proof.
  intros HF Hi Hl Hk.
  destruct (lsm_from_vec_ok (@hash_write O) E S_ty p i (i + l) bh HE HF) as (m & H1 & H2 & H3 & _);
    auto; try lia. eauto.
Qed.


Lemma fm_new_string_outcome payload bh :
  (4 <= length payload)%nat -> zlen payload < 2 ^ 31 ->
  (forall e, In e payload -> has_kind KindString (fst e)) ->
  let h := hash_one_slice bh in
  (exists m, built KindString payload bh (fm_new_string_map E payload bh) m /\ ~ is_range m /\
     ~ string_ub h (str_keys payload) /\ ~ string_panic h (str_keys payload)) \/
  (string_ub h (str_keys payload) /\ fm_new_string_map E payload bh = UB OutOfBounds) \/
  (string_panic h (str_keys payload) /\ fm_new_string_map E payload bh = Panic PIndexOutOfBounds).
Proof.
  intros Hge Hn Hk h. destruct (as_string_payload payload Hk) as (p & Hp & Hm & Hr).
  assert (Hkeys : str_keys payload = map fst p).
  { unfold str_keys. rewrite <- Hm, map_map. apply map_ext. intros []. reflexivity. }
  assert (Hlen : zlen payload = zlen p) by (rewrite <- Hm; apply zlen_map).
  assert (Hpne : p <> []) by (intros ->; cbn in Hm; subst payload; cbn in Hge; lia).
  rewrite Hkeys. set (keys := map fst p) in *.
  assert (Hkne : keys <> []) by (unfold keys; destruct p; [congruence|discriminate]).
  assert (Hklen : zlen keys = zlen p) by apply zlen_map.
  assert (Hk64 : forall s, In s keys -> zlen s < 2 ^ 64).
  { intros s Hs. unfold keys in Hs. apply in_map_iff in Hs. destruct Hs as (e & <- & He). auto. }
  unfold fm_new_string_map. rewrite Hp. cbn [bind]. fold keys.
  (* outcomes of the individual constructors *)
  assert (Hnormal : forall cond : bool,
     (cond = true -> zlen p <= imax u8) ->
     exists m, built KindString payload bh
       (if cond then (cm <- cm_from_vec hash_one E u8 payload bh ;; Ok (MCommonSmall cm))
        else (cm <- cm_from_vec hash_one E usize payload bh ;; Ok (MCommonLarge cm))) m /\ ~ is_range m).
  { intros [] Hc.
    - destruct (cm_from_vec_ok hash_one E u8 payload bh HE (fits_u8 (zlen payload) ltac:(rewrite Hlen; auto)))
        as (m & -> & HP & Ht & Hb).
      exists (MCommonSmall m). cbn. subst bh. repeat split; auto; apply Ht.
    - destruct (cm_from_vec_ok hash_one E usize payload bh HE (fits_usize _ Hn)) as (m & -> & HP & Ht & Hb).
      exists (MCommonLarge m). cbn. subst bh. repeat split; auto; apply Ht. }
  assert (Hleft : forall (cond : bool) i l,
     (cond = true -> zlen p <= imax u8) ->
     0 <= i -> 0 <= l -> (forall s, In s keys -> i + l <= zlen s) ->
     exists m, built KindString payload bh
       (if cond then (sm <- lsm_from_vec hash_write E u8 p i (i + l) bh ;; Ok (MLeftStringSliceSmall sm))
        else (sm <- lsm_from_vec hash_write E usize p i (i + l) bh ;; Ok (MLeftStringSliceLarge sm))) m
       /\ ~ is_range m).
  { intros cond i l Hc Hi Hl Hs.
    assert (Hs' : forall e, In e p -> i + l <= zlen (fst e)).
    { intros e He. apply Hs. unfold keys. now apply in_map. }
    destruct cond.
    - destruct (left_map_ok_str p u8 i l bh (fits_u8 _ (Hc eq_refl))) as (m & -> & HP & Ht); auto.
      exists (MLeftStringSliceSmall m). cbn [bind]. split; [|exact (fun x => x)].
      split; [reflexivity|]. cbn [fm_iter fm_inv]. split; auto. now apply (Permutation_map' _ _ _ p).
    - destruct (left_map_ok_str p usize i l bh (fits_usize (zlen p) ltac:(lia))) as (m & -> & HP & Ht); auto.
      exists (MLeftStringSliceLarge m). cbn [bind]. split; [|exact (fun x => x)].
      split; [reflexivity|]. cbn [fm_iter fm_inv]. split; auto. now apply (Permutation_map' _ _ _ p). }
  assert (Hif : forall (A : Type) (c : bool) (x y x' y' : A), x = x' -> y = y' ->
    (if c then x else y) = (if c then x' else y')) by (intros A [] *; congruence).
  set (cond := zlen p <=? imax u8).
  assert (Hcond : cond = true -> zlen p <= imax u8) by (unfold cond; lia).
  unfold analyze_slice_keys.
  destruct (analyze_lengths_spec keys) as [(-> & Hlen3)|(-> & Hlen3)].
  { (* by length *)
    cbn [bind]. left. assert (Hc : cond = true).
    { unfold cond. change (imax u8) with 255. lia. }
    rewrite Hc.
    destruct (lm_from_vec_ok zlen E u8 p HE (fits_u8 _ (Hcond Hc))) as (m & -> & HP & Ht).
    exists (MStringLengthSmall m). cbn [bind]. split; [|split].
    - split; [reflexivity|]. cbn [fm_iter fm_inv]. split; auto. now apply (Permutation_map' _ _ _ p).
    - exact (fun x => x).
    - apply few_equal_lengths_iff in Hlen3.
      split; intros (Ht' & _); destruct Ht' as (_ & Hno & _); contradiction. }
  assert (Hnofew : ~ few_equal_lengths keys).
  { rewrite few_equal_lengths_iff. intros (H1 & H2). destruct Hlen3 as [H3|(L & H3)]; [lia|].
    specialize (H2 L). lia. }
  destruct (min_max_exist (map zlen keys)) as (mn & mx & Hmn & Hmx).
  { destruct keys; [congruence|discriminate]. }
  assert (H52 : zlen keys < 2 ^ 52) by (change (2 ^ 52) with 4503599627370496; lia).
  rewrite (analyze_subslices_unfold _ _ mn mx) by auto.
  assert (Hmin : forall s, In s keys -> mn <= zlen s).
  { intros s Hs. apply Hmn. now apply in_map. }
  assert (Hmn0 : 0 <= mn).
  { destruct Hmn as (H1 & _). apply in_map_iff in H1. destruct H1 as (s & <- & _). apply zlen_nonneg. }
  assert (Hacc : 0 <= zlen keys / 20) by (apply Z.div_pos; [apply zlen_nonneg|lia]).
  fold h.
  assert (Hmnmx : mn <= mx) by (apply Hmx, Hmn).
  destruct (Z.eq_dec mn mx) as [Heq|Hneq].
  { (* equal lengths *)
    subst mx.
    assert (Hsame : ~ (exists s s', In s keys /\ In s' keys /\ length s <> length s')).
    { intros (s & s' & Hs & Hs' & Hd).
      assert (zlen s = mn /\ zlen s' = mn).
      { pose proof (Hmin s Hs). pose proof (Hmin s' Hs').
        destruct Hmx as (_ & Hmx). pose proof (Hmx (zlen s) ltac:(now apply in_map)).
        pose proof (Hmx (zlen s') ltac:(now apply in_map)). lia. }
      unfold zlen in *. lia. }
    assert (Hok : ~ string_ub h keys /\ ~ string_panic h keys).
    { split; intros (Ht' & _); destruct Ht' as (_ & _ & Hd & _); contradiction. }
    left.
    destruct (find_subslice_equal h keys (zlen keys / 20) mn (Z.to_nat (Z.min mn 16)) 1)
      as (r & Hr' & Hs); auto; try lia.
    rewrite Hr'. cbn [bind]. destruct r as [|j l|j l|]; try destruct Hs.
    - destruct (Hnormal cond Hcond) as (m & Hb & Hnr). exists m. auto.
    - destruct H0 as (Hl & Hj & _).
      destruct (Hleft cond j l Hcond) as (m & Hb & Hnr); try lia.
      { intros s Hs. specialize (Hmin s Hs). lia. }
      exists m. auto. }
  assert (Hdiff : exists s s', In s keys /\ In s' keys /\ length s <> length s').
  { destruct Hmn as (H1 & _), Hmx as (H2 & _). apply in_map_iff in H1, H2.
    destruct H1 as (s & H1 & Hs), H2 as (s' & H2 & Hs'). exists s, s'. repeat split; auto.
    unfold zlen in *. lia. }
  pose proof (find_subslice_mixed h keys (zlen keys / 20) mn mx Hkne Hacc ltac:(lia) Hmin) as Hmix.
  cbv zeta in Hmix.
  assert (Hge' : (4 <= length keys)%nat) by (unfold zlen in *; lia).
  destruct Hmix as [(i & -> & Hf)|(Hnl & [(i & -> & Hf)|(Hnr & [(Hle & ->)|(Hge2 & [(i & -> & Hf)|(Hnl2 & ->)])])])];
    cbn [bind].
  - left. assert (Hw : some_left_window h 1 keys).
    { change 1%nat with (Z.to_nat 1). now apply (some_left_window_some h keys mn 1 i). }
    destruct Hf as (Hi & _).
    destruct (Hleft cond i 1 Hcond) as (m & Hb & Hnr); try lia.
    { intros s Hs. specialize (Hmin s Hs). lia. }
    exists m. repeat split; try apply Hb; auto; intros (Ht' & _); destruct Ht' as (_ & _ & _ & _ & Hd); contradiction.
  - right. left. assert (Hw : ~ some_left_window h 1 keys).
    { change 1%nat with (Z.to_nat 1). apply (some_left_window_none h keys mn 1); auto; lia. }
    assert (Hrb : some_right_byte h keys) by (now apply (some_right_byte_some h keys mn i)).
    destruct Hf as (Hi & _). split.
    + split; auto. repeat split; auto.
      intros s Hs ->. specialize (Hmin [] Hs). change (zlen []) with 0 in Hmin. lia.
    + assert (Hub : forall S_ty, rsm_from_vec (@hash_write O) E S_ty p i (i + 1) bh = UB OutOfBounds).
      { intros S_ty. apply rsm_from_vec_forward_ub; [lia|auto|].
        destruct p as [|e p']; [congruence|]. exists e. split; [now left|].
        specialize (Hmin (fst e) ltac:(now left)). lia. }
      rewrite !Hub. cbn [bind]. now destruct cond.
  - left. assert (Hrb : ~ some_right_byte h keys) by now apply (some_right_byte_none h keys mn).
    destruct (Hnormal cond Hcond) as (m & Hb & Hr'). exists m. repeat split; try apply Hb; auto.
    + intros (_ & H). contradiction.
    + intros (_ & _ & H & _). destruct Hmn as (H1 & _). apply in_map_iff in H1.
      destruct H1 as (s & H1 & Hs). specialize (H s Hs). unfold zlen in *. lia.
  - left. assert (Hrb : ~ some_right_byte h keys) by now apply (some_right_byte_none h keys mn).
    assert (Hw : some_left_window h 2 keys).
    { change 2%nat with (Z.to_nat 2). now apply (some_left_window_some h keys mn 2 i). }
    destruct Hf as (Hi & _).
    destruct (Hleft cond i 2 Hcond) as (m & Hb & Hnr'); try lia.
    { intros s Hs. specialize (Hmin s Hs). lia. }
    exists m. repeat split; try apply Hb; auto.
    + intros (_ & H). contradiction.
    + intros (_ & _ & _ & H). contradiction.
  - right. right. split; [|reflexivity].
    assert (Hrb : ~ some_right_byte h keys) by now apply (some_right_byte_none h keys mn).
    assert (Hw : ~ some_left_window h 1 keys).
    { change 1%nat with (Z.to_nat 1). apply (some_left_window_none h keys mn 1); auto; lia. }
    assert (Hw2 : ~ some_left_window h 2 keys).
    { change 2%nat with (Z.to_nat 2). apply (some_left_window_none h keys mn 2); auto; lia. }
    split; [|split; [auto|split; auto]].
    + split; [auto|split; [auto|split; [auto|split; [|auto]]]].
      intros s Hs ->. specialize (Hmin [] Hs). change (zlen []) with 0 in Hmin. lia.
    + intros s Hs. specialize (Hmin s Hs). unfold zlen in *. lia.
Qed.

(** Summary over all key types. *)
Lemma fm_new_outcome kd payload bh :
  zlen payload < 2 ^ 31 ->
  (forall e, In e payload -> has_kind kd (fst e)) ->
  (exists m, built kd payload bh (fm_new E kd payload bh) m /\
     (is_range m -> kd = KindU32 /\
        exists mn mx, is_min mn (map (fun e => u32_of (fst e)) payload) /\
                      is_max mx (map (fun e => u32_of (fst e)) payload) /\
                      mx - mn = zlen payload - 1) /\
     (NoDup (map (fun e => u32_of (fst e)) payload) -> fm_exact m) /\
     (kd = KindString -> ~ string_ub (hash_one_slice bh) (str_keys payload) /\
                         ~ string_panic (hash_one_slice bh) (str_keys payload))) \/
  (kd = KindString /\ string_ub (hash_one_slice bh) (str_keys payload) /\
     fm_new E kd payload bh = UB OutOfBounds) \/
  (kd = KindString /\ string_panic (hash_one_slice bh) (str_keys payload) /\
     fm_new E kd payload bh = Panic PIndexOutOfBounds).
Proof.
  intros Hn Hk. unfold fm_new. destruct (Z.ltb_spec (zlen payload) 4).
  - left. exists (MScanning (sm_from_vec payload)).
    assert (Hsh : forall h, ~ string_trouble h (str_keys payload)).
    { intros h (Ht & _). unfold str_keys in Ht. rewrite map_length in Ht. unfold zlen in *. lia. }
    split; [repeat split; cbn; auto|]. split; [intros []|]. split; [intros _; exact I|].
    intros _. split; intros (Ht & _); exact (Hsh _ Ht).
  - assert (Hnr : forall m, ~ is_range m -> fm_exact m).
    { intros m Hm. destruct m; cbn in *; auto. now destruct (Hm I). }
    destruct kd.
    + destruct (fm_new_u32_built payload bh) as (m & Hb & (mn & mx & Hmn & Hmx & Hr) & Hex); auto.
      { intros ->. change (zlen []) with 0 in H. lia. }
      left. exists m. repeat split; try apply Hb; auto; try discriminate.
      exists mn, mx. repeat split; auto; try apply Hmn; try apply Hmx. now apply Hr.
    + destruct (fm_new_string_outcome payload bh) as [(m & Hb & Hr & Hu & Hp)|[(Hu & Hr)|(Hp & Hr)]]; auto.
      { unfold zlen in H. lia. }
      left. exists m. repeat split; try apply Hb; auto; try contradiction.
    + destruct (fm_new_common_built KindOther payload bh Hn) as (m & Hb & Hr).
      left. exists m. repeat split; try apply Hb; auto; try contradiction; discriminate.
Qed.

End Build.
