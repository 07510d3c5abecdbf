(** FrozenSet behaves as a FrozenMap with unit values. *)
From Coq Require Import List ZArith Bool Lia Permutation.
From Verif Require Import Spec Base BaseLemmas IntKeyAnalyzer SliceKeyAnalyzer HashTable Maps FrozenMap SetOps Sets FrozenSet.
Import ListNotations.
Open Scope Z_scope.

Section Proofs.
Context {O : Type}.
Variable eqbO : O -> O -> bool.
Variable E : env.
Implicit Types (payload : list (key O)) (bh : hasher O).

Definition to_map (s : set_types O) : map_types O unit :=
  match s with
  | SScanning s => MScanning s
  | SCommonSmall s => MCommonSmall s
  | SCommonLarge s => MCommonLarge s
  | SU32Small s => MU32Small s
  | SU32Large s => MU32Large s
  | SU32Range s => MU32Range s
  | SLeftStringSliceSmall s => MLeftStringSliceSmall s
  | SLeftStringSliceLarge s => MLeftStringSliceLarge s
  | SRightStringSliceSmall s => MRightStringSliceSmall s
  | SRightStringSliceLarge s => MRightStringSliceLarge s
  | SStringLengthSmall s => MStringLengthSmall s
  end.

Lemma with_unit_len {T} (l : list T) : zlen (with_unit l) = zlen l.
Proof. unfold with_unit, zlen. now rewrite map_length. Qed.
Lemma with_unit_keys {T} (l : list T) : map fst (with_unit l) = l.
Proof. unfold with_unit. rewrite map_map. cbn. apply map_id. Qed.
Lemma unit_entries {T} (l : list (T * unit)) : l = with_unit (map fst l).
Proof. unfold with_unit. rewrite map_map. induction l as [|[a []] l IH]; cbn; congruence. Qed.

Lemma as_u32_unit (l : list (key O)) :
  payload_as_u32 (with_unit l) = (p <- items_as_u32 l ;; Ok (with_unit p)).
Proof.
  unfold payload_as_u32, items_as_u32, with_unit. induction l as [|a l IH]; cbn; auto.
  destruct (as_u32 a); cbn; auto. rewrite IH. now destruct (mapM as_u32 l).
Qed.
Lemma as_string_unit (l : list (key O)) :
  payload_as_string (with_unit l) = (p <- items_as_string l ;; Ok (with_unit p)).
Proof.
  unfold payload_as_string, items_as_string, with_unit. induction l as [|a l IH]; cbn; auto.
  destruct (as_string a); cbn; auto. rewrite IH. now destruct (mapM as_string l).
Qed.

Ltac fin := match goal with |- context [bind ?x _] =>
  lazymatch x with bind _ _ => fail | _ => destruct x; cbn [bind to_map]; auto end end.
Lemma fs_new_map kd payload bh :
  (s <- fs_new E kd payload bh ;; Ok (to_map s)) = fm_new E kd (with_unit payload) bh.
Proof.
  unfold fs_new, fm_new. rewrite with_unit_len. destruct (zlen payload <? 4); [reflexivity|].
  destruct kd.
  - unfold fs_new_u32_set, fm_new_u32_map. rewrite as_u32_unit.
    destruct (items_as_u32 payload) as [p| | |]; cbn [bind]; auto.
    rewrite with_unit_keys, with_unit_len.
    destruct (analyze_int_keys (prof E) u32 p) as [[]| | |]; cbn [bind]; auto.
    + unfold is_from_vec. destruct (zlen p <=? imax u8); fin.
    + unfold irs_from_vec. fin.
  - unfold fs_new_string_set, fm_new_string_map. rewrite as_string_unit.
    destruct (items_as_string payload) as [p| | |]; cbn [bind]; auto.
    rewrite with_unit_keys, with_unit_len.
    destruct (analyze_slice_keys (hash_one_slice bh) p) as [a| | |]; cbn [bind]; auto.
    unfold cs_from_vec, lss_from_vec, rss_from_vec, ls_from_vec.
    destruct (zlen p <=? imax u8); destruct a; fin.
  - unfold fs_new_common_set, fm_new_common_map, cs_from_vec. rewrite with_unit_len.
    destruct (zlen payload <=? imax u8); fin.
Qed.

Lemma fs_new_ok kd payload bh s : fs_new E kd payload bh = Ok s ->
  fm_new E kd (with_unit payload) bh = Ok (to_map s).
Proof. intros H. now rewrite <- fs_new_map, H. Qed.
Lemma fm_new_ok kd payload bh m : fm_new E kd (with_unit payload) bh = Ok m ->
  exists s, fs_new E kd payload bh = Ok s /\ m = to_map s.
Proof.
  rewrite <- fs_new_map. destruct (fs_new E kd payload bh) as [s| | |]; cbn [bind]; try discriminate.
  intros H. injection H as <-. eauto.
Qed.
Lemma fs_new_panic kd payload bh p :
  fm_new E kd (with_unit payload) bh = Panic p <-> fs_new E kd payload bh = Panic p.
Proof. rewrite <- fs_new_map. destruct (fs_new E kd payload bh); cbn [bind]; split; congruence. Qed.
Lemma fs_new_ub kd payload bh u :
  fm_new E kd (with_unit payload) bh = UB u <-> fs_new E kd payload bh = UB u.
Proof. rewrite <- fs_new_map. destruct (fs_new E kd payload bh); cbn [bind]; split; congruence. Qed.

Lemma fs_get_map s x : fs_get eqbO E s x = set_get_of (fm_get_key_value eqbO E (to_map s) x).
Proof.
  unfold set_get_of.
  destruct s; cbn [fs_get to_map fm_get_key_value]; auto; destruct x; cbn [as_u32 as_string bind]; auto;
    unfold is_get, irs_get, lss_get, rss_get, ls_get, set_get_of;
    match goal with |- context [bind ?y _] => lazymatch y with bind _ _ => fail | _ => destruct y as [[[]|]| | |] end end; reflexivity.
Qed.
Lemma fs_contains_get s x : fs_contains eqbO E s x = set_contains_of (fs_get eqbO E s x).
Proof.
  destruct s; cbn [fs_get fs_contains]; auto; destruct x; cbn [as_u32 as_string bind]; auto;
    unfold is_contains, irs_contains, lss_contains, rss_contains, ls_contains, set_contains_of;
    match goal with |- bind ?y _ = _ => destruct y as [[]| | |]; reflexivity end.
Qed.
Lemma fs_items_map s : fs_items s = map fst (fm_iter (to_map s)).
Proof. destruct s; cbn [fs_items to_map fm_iter]; auto;
  unfold is_items, irs_items, sls_items, ls_items; now rewrite !map_map. Qed.
Lemma fs_len_map s : fs_len s = fm_len (to_map s).
Proof. now destruct s. Qed.
End Proofs.
