(** Which panics building a FrozenMap may end in when equality and hashing are arbitrary. *)
From Coq Require Import List ZArith Bool Arith Lia Permutation.
From Verif Require Import Spec MapSpec Base BaseLemmas HashCodeAnalyzer HashCodeAnalyzerProofs SliceKeyAnalyzer HashTable Maps
  MapsProofs FrozenMap FrozenMapFacts FrozenMapProofs FrozenMapBuild BuildSound Volatile VolatileProofs.
Import ListNotations.
Open Scope Z_scope.

Section Windows.
Context {W : Type}.
Variable h : list Z -> M W Z.
Variable P : panic -> Prop.
Hypothesis Hh : forall s, only_panics P (h s).
Implicit Types keys : list (list Z).

Lemma v_find_index_panics keys l lj acc mn :
  1 <= l -> (forall s, In s keys -> mn <= zlen s) -> (lj = false -> keys <> [] -> P PIndexOutOfBounds) ->
  forall remaining i, 0 <= i -> i + Z.of_nat remaining <= mn - l + 1 ->
  only_panics P (v_find_index h keys l lj acc remaining i).
Proof.
  intros Hl Hmn HP. induction remaining as [|n IH]; intros i Hi Hr; cbn [v_find_index]; [apply only_lift; discriminate|].
  apply only_bind; [|intros [] _ _ _; [apply only_lift; discriminate|apply IH; lia]].
  clear IH. generalize ([] : list Z). revert acc. induction keys as [|s ks IHk]; intros a set; cbn [v_uniqueness_loop];
    [apply only_lift; discriminate|].
  pose proof (Hmn s (or_introl eq_refl)) as Hs.
  apply only_bind.
  { unfold take_subslice, slice_checked. destruct lj.
    - rewrite (proj2 (range_ok_iff _ _ _)) by lia. apply only_lift. discriminate.
    - cbv zeta. destruct (Z.ltb_spec (zlen s - i - 1) 0); [lia|].
      destruct (range_ok _ _ _); [apply only_lift; discriminate|]. intros w. cbn. apply HP; [reflexivity|discriminate]. }
  intros x _ _ _. apply only_bind; [apply Hh|]. intros c _ _ _.
  assert (Hrest : forall a set, only_panics P (v_uniqueness_loop h lj i l ks set a)).
  { intros a' set'. apply IHk; [intros s' Hs'; apply Hmn; now right|]. intros Hj Hk. apply HP; [auto|discriminate]. }
  destruct (existsb _ _); [destruct (a =? 0); [apply only_lift; discriminate|]|]; apply Hrest.
Qed.

Lemma v_analyze_panics keys :
  (forall s, In s keys -> zlen s < 2 ^ 64) ->
  ((exists s1 s2, In s1 keys /\ In s2 keys /\ length s1 <> length s2) -> P PIndexOutOfBounds) ->
  only_panics P (v_analyze_slice_keys h keys).
Proof.
  intros H64 HP. unfold v_analyze_slice_keys. destruct (analyze_lengths keys); try (apply only_lift; discriminate).
  cbv zeta. set (mn := fold_left (fun m s => Z.min m (zlen s)) keys (imax usize)).
  set (mx := fold_left (fun m s => Z.max m (zlen s)) keys 0).
  assert (Hmn : forall s, In s keys -> mn <= zlen s) by apply fold_min_le.
  assert (Hdiff : mn <> mx -> keys <> [] -> P PIndexOutOfBounds).
  { intros Hne Hk. apply HP. destruct keys as [|s0 ks] eqn:Ek; [congruence|].
    destruct (existsb (fun s => negb (zlen s =? zlen s0)) keys) eqn:Ex.
    - apply existsb_exists in Ex. destruct Ex as (s & Hs & Hd). rewrite Ek in Hs. exists s0, s. split; [now left|]. split; [exact Hs|].
      destruct (Z.eqb_spec (zlen s) (zlen s0)); [discriminate|]. unfold zlen in *. lia.
    - exfalso. apply Hne. rewrite <- Ek in *.
      assert (Hall : forall s, In s keys -> zlen s = zlen s0).
      { intros s Hs. destruct (Z.eqb_spec (zlen s) (zlen s0)); auto.
        assert (existsb (fun s => negb (zlen s =? zlen s0)) keys = true); [|congruence].
        apply existsb_exists. exists s. split; auto. destruct (Z.eqb_spec (zlen s) (zlen s0)); [contradiction|reflexivity]. }
      assert (H0 : zlen s0 <= imax usize).
      { change (imax usize) with (2 ^ 64 - 1). specialize (H64 s0). rewrite Ek in H64. specialize (H64 (or_introl eq_refl)). lia. }
      assert (Hmin : forall (l : list (list Z)) m, zlen s0 <= m -> (forall s, In s l -> zlen s = zlen s0) -> (m = zlen s0 \/ l <> []) ->
                fold_left (fun m s => Z.min m (zlen s)) l m = zlen s0).
      { induction l as [|x l IH]; intros m Hm Hl Hor; cbn [fold_left]; [destruct Hor; [auto|congruence]|].
        pose proof (Hl x (or_introl eq_refl)) as Hx.
        apply IH; [lia|intros; apply Hl; now right|left; lia]. }
      assert (Hmax : forall (l : list (list Z)) m, m <= zlen s0 -> (forall s, In s l -> zlen s = zlen s0) -> (m = zlen s0 \/ l <> []) ->
                fold_left (fun m s => Z.max m (zlen s)) l m = zlen s0).
      { induction l as [|x l IH]; intros m Hm Hl Hor; cbn [fold_left]; [destruct Hor; [auto|congruence]|].
        pose proof (Hl x (or_introl eq_refl)) as Hx.
        apply IH; [lia|intros; apply Hl; now right|left; lia]. }
      assert (Hk' : keys <> []) by (rewrite Ek; discriminate). pose proof (zlen_nonneg s0).
      unfold mn, mx. rewrite <- Ek. rewrite Hmin, Hmax; auto. }
  generalize (f64_five_percent (zlen keys)). intros acc.
  assert (Hloop : forall n l, 1 <= l -> only_panics P (v_find_subslice h keys mn mx acc n l)); [|apply Hloop; lia].
  induction n as [|n IH]; intros l Hl; cbn [v_find_subslice]; [apply only_lift; discriminate|].
  assert (Hidx : forall lj, (lj = false -> keys <> [] -> P PIndexOutOfBounds) ->
     only_panics P (v_find_index h keys l lj acc (Z.to_nat (mn - l + 1)) 0)).
  { intros lj Hlj. destruct (Z.le_gt_cases 0 (mn - l + 1)).
    - apply (v_find_index_panics keys l lj acc mn); auto; lia.
    - replace (Z.to_nat (mn - l + 1)) with O by lia. apply only_lift. discriminate. }
  apply only_bind; [apply Hidx; discriminate|]. intros [i|] _ _ _; [apply only_lift; discriminate|].
  apply only_bind.
  - destruct (Z.eqb_spec mn mx) as [|Hne]; [apply only_lift; discriminate|]. apply Hidx. intros _ Hk. now apply Hdiff.
  - intros [i|] _ _ _; [apply only_lift; discriminate|]. apply IH. lia.
Qed.
End Windows.

Section Building.
Context {W O V : Type}.
Variable F : conduct W O.
Variable E : env.
Hypothesis HE : env_ok E.
Variable P : panic -> Prop.
Hypothesis HP : P PForeign.
Implicit Types (payload : list (key O * V)) (bh : hasher O).

Lemma codes_panics codes : only_panics (W := W) P (lift (analyze_hash_codes codes)).
Proof. destruct (analyze_hash_codes_pos codes) as (s & c & -> & _). apply only_lift. discriminate. Qed.

Lemma v_cm_panics S_ty payload bh : fits S_ty (zlen payload) -> only_panics P (v_cm_from_vec F E S_ty payload bh).
Proof.
  intros HF. unfold v_cm_from_vec. apply only_bind; [apply only_map; intros; now apply only_call|].
  intros codes w w' Hc. apply v_map_length in Hc. apply only_bind; [apply codes_panics|]. intros a w1 w1' Ha.
  apply lift_ok in Ha. destruct Ha as (Ha & _).
  apply only_bind; [|intros t _ _ _; apply only_lift; discriminate].
  apply only_ht_new; auto; [apply (codes_positive payload codes a); auto|]. intros e _. now apply only_call.
Qed.

Lemma v_slice_hash_panics bh s a b : 0 <= a <= b -> b <= zlen s -> only_panics P (v_slice_hash F bh s a b).
Proof.
  intros Hab Hb. unfold v_slice_hash, slice_unchecked. rewrite (proj2 (range_ok_iff _ _ _)) by auto.
  apply only_bind; [apply only_lift; discriminate|]. intros x _ _ _. now apply only_call.
Qed.

Lemma v_lsm_panics S_ty (p : list (list Z * V)) a b bh : fits S_ty (zlen p) -> 0 <= a <= b ->
  (forall e, In e p -> b <= zlen (fst e)) -> only_panics P (v_lsm_from_vec F E S_ty p a b bh).
Proof.
  intros HF Hab Hk. unfold v_lsm_from_vec.
  apply only_bind.
  { apply only_map. intros e He. cbv zeta. destruct (_ <=? _); [|apply only_lift; discriminate]. apply v_slice_hash_panics; auto. }
  intros codes w w' Hc. apply v_map_length in Hc. apply only_bind; [apply codes_panics|]. intros an w1 w1' Ha.
  apply lift_ok in Ha. destruct Ha as (Ha & _).
  apply only_bind; [|intros t _ _ _; apply only_lift; discriminate].
  apply only_ht_new; auto; [apply (codes_positive p codes an); auto|]. intros e He. apply v_slice_hash_panics; auto.
Qed.

(** A window counted from the right always leads to undefined behaviour, never to a panic. *)
Lemma v_right_hash_ub bh s a b w : 0 <= a < b -> b <= zlen s -> zlen s < 2 ^ 64 ->
  fst (v_right_hash F E bh s a b w) = UB OutOfBounds.
Proof.
  intros Hab Hb Hs. unfold v_right_hash.
  rewrite !arith_ok by (change (imin usize) with 0; change (imax usize) with (2 ^ 64 - 1); lia).
  unfold mbind, lift, v_slice_hash, slice_unchecked. destruct (range_ok _ _ s) eqn:Hr; [|reflexivity].
  apply range_ok_iff in Hr. lia.
Qed.

Lemma v_rsm_ub S_ty (p : list (list Z * V)) a b bh w : p <> [] -> 0 <= a < b ->
  (forall e, In e p -> b <= zlen (fst e) < 2 ^ 64) -> fst (v_rsm_from_vec F E S_ty p a b bh w) = UB OutOfBounds.
Proof.
  intros Hne Hab Hk. destruct p as [|e p]; [congruence|]. destruct (Hk e (or_introl eq_refl)) as (H1 & H2).
  unfold v_rsm_from_vec. cbn [v_map]. cbv zeta. rewrite (proj2 (Z.leb_le _ _)) by exact H1.
  pose proof (v_right_hash_ub bh (fst e) a b w Hab H1 H2) as Hu.
  unfold mbind at 1 2. destruct (v_right_hash F E bh (fst e) a b w) as [r w1]. cbn [fst] in Hu. subst r. reflexivity.
Qed.

(** C71 *)
Lemma v_new_panics kd payload bh :
  typed kd payload -> zlen payload < 2 ^ 31 ->
  (kd = KindString -> (exists s1 s2, In s1 (str_keys payload) /\ In s2 (str_keys payload) /\ length s1 <> length s2) ->
   P PIndexOutOfBounds) ->
  only_panics P (v_new F E kd payload bh).
Proof.
  intros Ht Hz HI. unfold v_new. destruct (Z.ltb_spec (zlen payload) 4) as [|H4]; [apply only_lift; discriminate|].
  assert (Hne : payload <> []) by (intros ->; change (zlen []) with 0 in *; lia).
  destruct kd.
  - destruct (fm_new_u32_built E HE payload bh Hne Hz Ht) as (m & (-> & _) & _). apply only_lift. discriminate.
  - destruct (as_string_payload payload Ht) as (p & Hp & Hm & Hr).
    assert (Hkeys : map fst p = str_keys payload).
    { unfold str_keys. rewrite <- Hm, map_map. apply map_ext. intros []. reflexivity. }
    assert (Hlen : zlen p = zlen payload) by (rewrite <- Hm; symmetry; apply zlen_map).
    assert (Hpne : p <> []) by (intros ->; cbn in Hm; congruence).
    unfold v_new_string_map. rewrite Hp. apply only_bind; [apply only_lift; discriminate|].
    intros p' w w' Hp'. apply lift_ok in Hp'. destruct Hp' as (Hp' & _). injection Hp' as <-.
    apply only_bind.
    { apply v_analyze_panics; [intros s; now apply only_call| |].
      - intros s Hs. apply in_map_iff in Hs. destruct Hs as (e & <- & He). now apply Hr.
      - rewrite Hkeys. now apply HI. }
    intros an w1 w1' Han. apply v_analyze_range in Han.
    assert (Hsub : forall i l, (forall s, In s (map fst p) -> i + l <= zlen s) -> forall e, In e p -> i + l <= zlen (fst e)).
    { intros i l H e He. apply H. now apply in_map. }
    destruct (Z.leb_spec (zlen p) (imax u8)) as [H8|H8].
    + assert (HF : fits u8 (zlen p)) by now apply fits_u8.
      destruct an as [|i l|i l|]; (apply only_bind; [|intros m _ _ _; apply only_lift; discriminate]).
      * apply v_cm_panics. now rewrite <- Hlen.
      * apply v_lsm_panics; auto; [lia|]. now apply Hsub.
      * intros w2. rewrite v_rsm_ub; auto; [lia|]. intros e He. split; [now apply Hsub|auto].
      * destruct (lm_from_vec_ok zlen E u8 p HE HF) as (m & -> & _). apply only_lift. discriminate.
    + assert (HF : fits usize (zlen p)) by (apply fits_usize; lia).
      destruct an as [|i l|i l|]; (apply only_bind; [|intros m _ _ _; apply only_lift; discriminate]).
      * apply v_cm_panics. now rewrite <- Hlen.
      * apply v_lsm_panics; auto; [lia|]. now apply Hsub.
      * intros w2. rewrite v_rsm_ub; auto; [lia|]. intros e He. split; [now apply Hsub|auto].
      * apply v_cm_panics. now rewrite <- Hlen.
  - unfold v_new_common_map. destruct (Z.leb_spec (zlen payload) (imax u8)) as [H8|H8];
      (apply only_bind; [|intros m _ _ _; apply only_lift; discriminate]); apply v_cm_panics; [now apply fits_u8|now apply fits_usize].
Qed.
End Building.

Lemma volatile_construction_panics :
  forall (W O V : Type) (F : conduct W O) (E : env) (kd : kind) (bh : hasher O)
         (payload : list (key O * V)) (w : W) (p : panic),
  env_ok E -> typed kd payload -> zlen payload < 2 ^ 31 ->
  fst (v_new F E kd payload bh w) = Panic p ->
  p = PForeign \/
  p = PIndexOutOfBounds /\ kd = KindString /\
    exists s1 s2, In s1 (str_keys payload) /\ In s2 (str_keys payload) /\ length s1 <> length s2.
Proof.
  intros W O V F E kd bh payload w p HE Ht Hz Hp.
  pose proof (v_new_panics F E HE
    (fun p => p = PForeign \/ p = PIndexOutOfBounds /\ kd = KindString /\
       exists s1 s2, In s1 (str_keys payload) /\ In s2 (str_keys payload) /\ length s1 <> length s2)
    (or_introl eq_refl) kd payload bh Ht Hz (fun H1 H2 => or_intror (conj eq_refl (conj H1 H2))) w) as H.
  rewrite Hp in H. exact H.
Qed.

(** If a window counted from the right is chosen, construction is undefined behaviour. *)
Lemma volatile_construction_right :
  forall (W O V : Type) (F : conduct W O) (E : env) (bh : hasher O)
         (payload : list (key O * V)) (w w1 : W) (i l : Z),
  typed KindString payload -> 4 <= zlen payload ->
  v_analyze_slice_keys (fun s => call (on_hash_slice F bh s)) (str_keys payload) w = (Ok (RightHandSubslice i l), w1) ->
  fst (v_new F E KindString payload bh w) = UB OutOfBounds.
Proof.
  intros W O V F E bh payload w w1 i l Ht H4 Han.
  destruct (as_string_payload payload Ht) as (p & Hp & Hm & Hr).
  assert (Hkeys : map fst p = str_keys payload).
  { unfold str_keys. rewrite <- Hm, map_map. apply map_ext. intros []. reflexivity. }
  assert (Hpne : p <> []).
  { intros ->. cbn in Hm. subst payload. change (zlen []) with 0 in H4. lia. }
  unfold v_new. destruct (Z.ltb_spec (zlen payload) 4); [lia|].
  unfold v_new_string_map. rewrite Hp. unfold mbind at 1. unfold lift at 1. unfold mbind at 1. rewrite Hkeys, Han.
  pose proof (v_analyze_range _ _ _ _ _ Han) as Hrange. cbn beta iota in Hrange. rewrite <- Hkeys in Hrange.
  assert (Hub : forall S_ty w, fst (v_rsm_from_vec F E S_ty p i (i + l) bh w) = UB OutOfBounds).
  { intros S_ty w0. apply v_rsm_ub; auto; [lia|]. intros e He. split; [|auto]. apply Hrange. now apply in_map. }
  assert (Hthen : forall A (x : M W A) B (f : A -> M W B) w, fst (x w) = UB OutOfBounds -> fst (mbind x f w) = UB OutOfBounds).
  { intros A x B f w0 Hx. unfold mbind. destruct (x w0) as [r w2]. cbn in Hx. subst r. reflexivity. }
  destruct (_ <=? _); apply Hthen, Hub.
Qed.
