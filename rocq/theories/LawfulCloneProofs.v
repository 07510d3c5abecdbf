(** Maps and sets that are built, cloned and used with lawful code. *)
From Coq Require Import List ZArith Bool Lia Permutation.
From Verif Require Import SpecialCloneProofs VolatileSafety SetCallProofs VolatileSetTheorems CloneProofs EffectProofs SpecialSetProofs.
From Verif Require Import Spec MapSpec Base BaseLemmas EqbLists HashTable HashTableProofs Maps Sets FrozenMap FrozenMapProofs FrozenMapFacts BuildSound MapTheorems
  FrozenSet FrozenSetProofs SetTheorems SetOps SetRunning SetRunningProofs RunSpec HistorySpec History ObjectSpec HistoryProofs MapObjects MapObjectProofs MapObjectEq
  Iterators IteratorProofs Volatile VolatileProofs VolatileSets VolatileSetSpec SpecialSetSpec EffectSpec VolatileMaps VolatileMapSpec SpecialCallSpec VolatileRange RangeSpec SpecialSets SpecialClone SpecialCloneSpec Cloning CloneSpec LawfulCloneSpec.
Import ListNotations.
Open Scope Z_scope.

Section Lawful.
Context {O V : Type}.
Variable eqbO : O -> O -> bool.
Variable E : env.
Variable kd : kind.
Hypothesis He : equivalence eqbO.
Notation keq := (key_eqb eqbO).
Implicit Types m : map_types O V.

(** Lookups find the first entry with the key. *)
Definition finds m : Prop :=
  fm_safe kd m /\ forall k, has_kind kd k -> fm_get_at eqbO E m k = Ok (find_pos (fun e => keq k (fst e)) (fm_iter m)).

(** ** Assignments through references *)

Lemma probe_write {K} i w (t : hash_table K V) range p : ht_probe (write_table i w t) range p = ht_probe t range p.
Proof.
  unfold ht_probe, slice_unchecked, range_ok. cbn [write_table entries].
  assert (Hl : zlen (write_entry i w (entries t)) = zlen (entries t)) by (unfold zlen; rewrite <- (map_length fst), write_entry_keys; now rewrite map_length).
  rewrite Hl. destruct (_ && _)%bool; [|reflexivity]. cbn [bind]. f_equal. f_equal.
  assert (Hp : forall l : list (K * V), find_pos (fun e => p (fst e)) l = find_pos p (map fst l)) by (intros l; now rewrite find_pos_map).
  rewrite !Hp. f_equal. unfold sub. now rewrite <- !firstn_map, <- !skipn_map, write_entry_keys.
Qed.

Local Ltac found t := destruct (ht_get_hash_info t _); cbn [bind]; auto; apply probe_write.
Lemma info_write {K} i w (t : hash_table K V) : ht_get_hash_info (write_table i w t) = ht_get_hash_info t.
Proof. reflexivity. Qed.

Lemma get_at_write i w m k : fm_get_at eqbO E (fm_write i w m) k = fm_get_at eqbO E m k.
Proof.
  assert (Hn : forall (K : Type) (es : list (K * V)) j, nth_error (map fst (write_entry i w es)) j = nth_error (map fst es) j) by (intros; now rewrite write_entry_keys).
  destruct m as [sm|cm|cm|im|im|rm|sl|sl|sr|sr|lm]; cbn [fm_get_at fm_write];
    try match goal with
    | |- context [as_u32 k] => destruct (as_u32 k) as [n| | |]; cbn [bind]; auto
    | |- context [as_string k] => destruct (as_string k) as [s| | |]; cbn [bind]; auto
    end.
  - unfold sm_get_at. cbn [sm_entries]. f_equal.
    assert (Hp : forall l : list (key O * V), find_pos (fun e => keq k (id_key (fst e))) l = find_pos (fun x => keq k (id_key x)) (map fst l)) by (intros l; now rewrite find_pos_map).
    rewrite !Hp. now rewrite write_entry_keys.
  - unfold cm_get_at, cm_get_hash_info. cbn [cm_table cm_bh]. rewrite info_write. found (cm_table cm).
  - unfold cm_get_at, cm_get_hash_info. cbn [cm_table cm_bh]. rewrite info_write. found (cm_table cm).
  - unfold im_get_at, im_get_hash_info. cbn [im_table]. rewrite info_write. found (im_table im).
  - unfold im_get_at, im_get_hash_info. cbn [im_table]. rewrite info_write. found (im_table im).
  - unfold irm_get_at. cbn [irm_min irm_max irm_entries]. destruct (_ && _)%bool; auto.
    destruct (arith _ _ _); cbn [bind]; auto. destruct (to_usize _) as [j|]; auto.
    unfold index_checked. destruct (0 <=? j); auto. specialize (Hn _ (irm_entries rm) (Z.to_nat j)). rewrite !nth_error_map in Hn.
    destruct (nth_error (write_entry i w (irm_entries rm)) (Z.to_nat j)), (nth_error (irm_entries rm) (Z.to_nat j)); cbn in Hn; try discriminate Hn; reflexivity.
  - unfold lsm_get_at, lsm_get_hash_info. cbn [slm_table slm_bh slm_start slm_end]. rewrite info_write.
    destruct (if _ <=? _ then _ else _); cbn [bind]; auto. found (slm_table sl).
  - unfold lsm_get_at, lsm_get_hash_info. cbn [slm_table slm_bh slm_start slm_end]. rewrite info_write.
    destruct (if _ <=? _ then _ else _); cbn [bind]; auto. found (slm_table sl).
  - unfold rsm_get_at, rsm_get_hash_info. cbn [slm_table slm_bh slm_start slm_end]. rewrite info_write.
    destruct (if _ <=? _ then _ else _); cbn [bind]; auto. found (slm_table sr).
  - unfold rsm_get_at, rsm_get_hash_info. cbn [slm_table slm_bh slm_start slm_end]. rewrite info_write.
    destruct (if _ <=? _ then _ else _); cbn [bind]; auto. found (slm_table sr).
  - unfold lm_get_at, lm_get_hash_info. cbn [lm_table]. rewrite info_write. found (lm_table lm).
Qed.

Lemma finds_write i w m : finds m -> finds (fm_write i w m).
Proof.
  intros (Hs & Hf). split; [now apply fm_write_safe|]. intros k Hk. rewrite get_at_write, (Hf k Hk), fm_iter_write.
  assert (Hp : forall l : list (key O * V), find_pos (fun e => keq k (fst e)) l = find_pos (keq k) (map fst l)) by (intros l; now rewrite find_pos_map).
  now rewrite !Hp, write_entry_keys.
Qed.

(** ** FrozenMap as an object *)

Definition fm_object : map_object (map_types O V) (key O) V (key O) :=
  {| mo_entries := fm_iter; mo_len := fm_len; mo_get_at := fm_get_at eqbO E; mo_get := fm_get eqbO E;
     mo_get_mut := fm_get_mut eqbO E; mo_get_key_value := fm_get_key_value eqbO E; mo_write := fm_write |}.

Lemma fm_searches : searches keq (fun k => k) fm_object (has_kind kd) finds.
Proof.
  split; [|split; [|split]].
  - intros m k (Hs & Hf) Hk. cbn [fm_object mo_get_at mo_get mo_get_mut mo_get_key_value mo_entries].
    destruct (fm_lookup_safe eqbO E kd m k Hs Hk) as (r & H1 & H2 & H3 & H4 & _). rewrite (Hf k Hk) in H1. injection H1 as <-.
    rewrite (Hf k Hk), H2, H3, H4, !find_find_pos. unfold at_pos, names. auto.
  - apply fm_len_iter.
  - intros. apply fm_iter_write.
  - intros m i w. apply finds_write.
Qed.

Lemma fm_step_object m o : step eqbO E m o = mo_step (prof E) keq fm_object m o.
Proof. destruct o; reflexivity. Qed.
Lemma fm_run_object history : forall m, run eqbO E m history = mo_run (prof E) keq fm_object m history.
Proof.
  induction history as [|o os IH]; intros m; [reflexivity|]. cbn [run mo_run]. rewrite fm_step_object.
  destruct (mo_step _ _ _ _ _) as [b m']. now rewrite IH.
Qed.

(** ** Everything a caller can have *)

Definition in_use m : Prop :=
  finds m /\ typed kd (fm_iter m) /\ distinct keq (map fst (fm_iter m)) /\ zlen (fm_iter m) < 2 ^ 64.

Lemma keys_in_use m m' : map fst (fm_iter m') = map fst (fm_iter m) -> finds m' -> in_use m -> in_use m'.
Proof.
  intros Hk Hf (_ & Ht & Hd & Hz). split; [exact Hf|]. split; [|split].
  - intros e H. apply (in_map fst) in H. rewrite Hk in H. apply in_map_iff in H. destruct H as (e' & <- & H). now apply Ht.
  - now rewrite Hk.
  - unfold zlen in *. rewrite <- (map_length fst), Hk. now rewrite map_length.
Qed.

Lemma step_in_use m o : in_use m -> in_use (snd (step eqbO E m o)).
Proof.
  intros H. assert (Hw : forall i w m, in_use m -> in_use (fm_write i w m)).
  { intros i w m0 H0. apply (keys_in_use m0); auto; [now rewrite fm_iter_write, write_entry_keys|]. apply finds_write. apply H0. }
  assert (Hws : forall ps ws m, in_use m -> in_use (write_all ps ws m)).
  { intros ps ws. unfold write_all. induction (combine ps ws) as [|[i w] l IH]; intros m0 H0; cbn [fold_left fst snd]; auto. }
  destruct o as [k|k|k|k| | | |k v|k v|kws]; cbn [step snd]; auto.
  - destruct (fm_get_mut eqbO E m k) as [[i|]| | |]; cbn [snd]; auto.
  - destruct (fm_index_mut eqbO E m k) as [i| | |]; cbn [snd]; auto.
  - destruct (fm_get_many_mut eqbO E m (map fst kws)) as [[ps|]| | |]; cbn [snd]; auto.
Qed.

Context {W : Type}.
Variable F : conduct W O.
Variable C : cloning W O V.
Variable cO : O -> O.
Variable cV : V -> V.
Variable cB : hasher O -> hasher O.
Hypothesis HF : regular F eqbO.
Hypothesis HE : env_ok E.
Hypothesis HC : faithful_clones C eqbO cO cV cB.

Lemma finds_copied m : finds m -> finds (copied_map cO cV cB m).
Proof.
  intros (Hs & Hf). split; [exact (same_frame_safe kd _ _ (copied_frame cO cV cB m) Hs)|].
  intros k Hk. rewrite (get_at_copied cO cV cB eqbO E He (fc_equal _ _ _ _ _ HC) (fc_alike _ _ _ _ _ HC)), (Hf k Hk), copied_iter, find_pos_map.
  f_equal. apply find_pos_ext. intros e. cbn [copied_entry fst]. symmetry. apply (eqb_copied cO eqbO He (fc_equal _ _ _ _ _ HC)).
Qed.

Lemma copied_in_use m : in_use m -> in_use (copied_map cO cV cB m).
Proof.
  intros (Hf & Ht & Hd & Hz). split; [now apply finds_copied|]. rewrite copied_iter. split; [|split].
  - intros e H. apply in_map_iff in H. destruct H as (e' & <- & H). specialize (Ht e' H). cbn [copied_entry fst]. now destruct (fst e').
  - rewrite map_map. cbn [copied_entry fst]. rewrite <- (map_map fst (copied_key cO)).
    clear - Hd He HC. induction (map fst (fm_iter m)) as [|k l IH]; cbn [map distinct] in *; auto. destruct Hd as (H1 & H2). split; auto.
    intros k' Hk'. apply in_map_iff in Hk'. destruct Hk' as (k0 & <- & Hk0).
    pose proof (key_eqb_equiv eqbO He) as Hkeq.
    rewrite (eqb_copied cO eqbO He (fc_equal _ _ _ _ _ HC)).
    destruct (keq (copied_key cO k) k0) eqn:Ek; auto. apply (eq_sym_ok _ Hkeq) in Ek.
    rewrite (eqb_copied cO eqbO He (fc_equal _ _ _ _ _ HC)) in Ek. apply (eq_sym_ok _ Hkeq) in Ek. rewrite (H1 k0 Hk0) in Ek. discriminate.
  - now rewrite zlen_map.
Qed.

Lemma clone_is_copy m w m' w' : fm_clone C m w = (Ok m', w') -> m' = copied_map cO cV cB m.
Proof.
  intros H. destruct (clone_gives C cO cV cB (fc_key _ _ _ _ _ HC) (fc_value _ _ _ _ _ HC) (fc_hasher _ _ _ _ _ HC) m w) as (w1 & H1).
  rewrite H in H1. now injection H1.
Qed.

Lemma lawful_in_use m : lawful_map F C eqbO E kd m -> in_use m.
Proof.
  intros H. induction H as [payload bh w m w' Hl Hc Hz Ht Hd Hm|m w m' w' H IH Hc|m o w b m' w' H IH Hk Hs].
  - destruct (regular_agrees W O V F eqbO E kd bh payload [] w w HF HE Hz Ht ltac:(intros ? ? [])) as (Hn & _).
    rewrite Hm in Hn. cbn [fst] in Hn. symmetry in Hn.
    destruct (built_sound eqbO E HE kd payload bh m Hc Ht Hn) as (HP & Hi & Hx & _).
    destruct (built_safe eqbO E HE kd payload bh m Ht Hn) as (_ & Hs & _).
    split; [split; auto|split; [|split]].
    + intros k Hk. apply (fm_lookup_exact eqbO E kd bh m k Hi (Hx Hd) (lawful_respects eqbO bh Hl) Hk).
    + intros e He'. apply Ht. now apply (Permutation_in _ (Permutation_sym HP)).
    + eapply distinct_perm; [apply (key_eqb_equiv eqbO He)|apply Permutation_map, HP|exact Hd].
    + now rewrite <- (zlen_perm _ _ HP).
  - rewrite (clone_is_copy m w m' w' Hc). now apply copied_in_use.
  - destruct IH as (Hf & Ht & Hd & Hz).
    destruct (v_step_same eqbO E F HF kd m o w (proj1 Hf) Hz Hk) as (w1 & H1). rewrite Hs in H1. injection H1 as _ -> _.
    apply step_in_use. split; auto.
Qed.

Lemma in_use_runs history : forall m w, in_use m ->
  (forall o k, In o history -> In k (op_keys o) -> has_kind kd k) ->
  v_run F E m history w = map Some (run eqbO E m history).
Proof.
  induction history as [|o os IH]; intros m w H Hk; [reflexivity|]. cbn [v_run run map].
  destruct (v_step_same eqbO E F HF kd m o w) as (w2 & ->).
  - apply H.
  - apply H.
  - intros k. apply Hk. cbn. auto.
  - pose proof (step_in_use m o H) as H2. destruct (step eqbO E m o) as [b m']. cbn [fst snd map] in *.
    f_equal. apply IH; auto. intros o' k Ho. apply Hk. cbn. auto.
Qed.
End Lawful.

Lemma object_run_abstract {K V} (eqb : K -> K -> bool) history : forall p : list (K * V),
  object_run eqb (fun k => k) p history = abstract_run eqb p history.
Proof.
  induction history as [|o os IH]; intros p; [reflexivity|]. cbn [object_run abstract_run].
  assert (Hs : object_step eqb (fun k => k) p o = abstract_step eqb p o) by (destruct o; reflexivity).
  rewrite Hs. destruct (abstract_step eqb p o). now rewrite IH.
Qed.

Lemma lawful_clone_history :
  forall (W O V : Type) (F : conduct W O) (C : cloning W O V) (eqbO : O -> O -> bool) (E : env) (kd : kind)
         (cO : O -> O) (cV : V -> V) (cB : hasher O -> hasher O) (m : map_types O V),
  regular F eqbO -> env_ok E -> equivalence eqbO -> faithful_clones C eqbO cO cV cB ->
  lawful_map F C eqbO E kd m ->
  (forall history w, (forall o k, In o history -> In k (op_keys o) -> has_kind kd k) ->
     Forall2 (fun seen expected => exists b, seen = Some b /\ same_obs b expected)
       (v_run F E m history w) (abstract_run (key_eqb eqbO) (fm_iter m) history)) /\
  forall w, exists m' w', fm_clone C m w = (Ok m', w') /\
    fm_iter m' = map (fun e => (copied_key cO (fst e), cV (snd e))) (fm_iter m).
Proof.
  intros W O V F C eqbO E kd cO cV cB m HF HE He HC H.
  pose proof (lawful_in_use eqbO E kd He F C cO cV cB HF HE HC m H) as Hm. split.
  - intros history w Hk. rewrite (in_use_runs eqbO E kd F HF history m w Hm Hk), fm_run_object, <- object_run_abstract.
    destruct Hm as (Hf & Ht & Hd & Hz).
    assert (Hsim : Forall2 same_obs (mo_run (prof E) (key_eqb eqbO) (fm_object eqbO E) m history)
      (object_run (key_eqb eqbO) (fun k => k) (fm_iter m) history)).
    { apply (mo_run_simulates (prof E) (key_eqb eqbO) (fun k => k) _ _ _ (key_eqb_equiv eqbO He) (fm_searches eqbO E kd)); auto.
      split; [apply Permutation_refl|]. split; auto. }
    clear - Hsim. induction Hsim as [|x y l1 l2 Hxy _ IH]; cbn [map]; constructor; eauto.
  - intros w. destruct (clone_gives C cO cV cB (fc_key _ _ _ _ _ HC) (fc_value _ _ _ _ _ HC) (fc_hasher _ _ _ _ _ HC) m w) as (w1 & H1).
    eexists _, w1. split; [exact H1|]. apply copied_iter.
Qed.

Lemma lawful_clone_equality :
  forall (W O V : Type) (F : conduct W O) (C : cloning W O V) (eqbO : O -> O -> bool)
         (veq : V -> V -> W -> option bool * W) (veqb : V -> V -> bool) (E : env) (kd : kind)
         (cO : O -> O) (cV : V -> V) (cB : hasher O -> hasher O) (m1 m2 : map_types O V) (w : W),
  regular F eqbO -> (forall a b, always (veq a b) (veqb a b)) -> env_ok E -> equivalence eqbO ->
  faithful_clones C eqbO cO cV cB -> lawful_map F C eqbO E kd m1 -> lawful_map F C eqbO E kd m2 ->
  exists b, fst (v_eq F E veq m1 m2 w) = Ok b /\ (b = true <-> same_map (key_eqb eqbO) veqb (fm_iter m1) (fm_iter m2)).
Proof.
  intros W O V F C eqbO veq veqb E kd cO cV cB m1 m2 w HF Hv HE He HC H1 H2.
  destruct (lawful_in_use eqbO E kd He F C cO cV cB HF HE HC m1 H1) as (F1 & T1 & D1 & Z1).
  destruct (lawful_in_use eqbO E kd He F C cO cV cB HF HE HC m2 H2) as (F2 & T2 & D2 & Z2).
  assert (Hs : fst (v_eq F E veq m1 m2 w) = mo_eq veqb (fm_object eqbO E) m1 m2).
  { assert (Hg : forall k, has_kind kd k -> same (v_get F E m2 k) (fm_get eqbO E m2 k)).
    { intros k Hk. destruct (fm_lookup_safe eqbO E kd m2 k (proj1 F2) Hk) as (r & Hr & _ & -> & _ & Hi).
      eapply same_eq; [apply (same_bind _ _ _ (deref (fm_iter m2)) (same_find eqbO E F HF m2 k)); intros; apply same_lift|].
      rewrite Hr. cbn [bind]. destruct r as [i|]; cbn [deref at_pos]; [|reflexivity].
      destruct (Hi i eq_refl) as (e & -> & _). reflexivity. }
    unfold v_eq, mo_eq, map_eq. cbn [mo_entries mo_get fm_object]. rewrite !fm_len_iter. destruct (negb _); [reflexivity|].
    revert w. change (same (v_all (fun e => mbind (v_get F E m2 (fst e)) (fun r => match r with
         | Some v => call (veq (snd e) v) | None => lift (Ok false) end)) (fm_iter m1))
         (all_res (fun e => r <- fm_get eqbO E m2 (fst e) ;;
           Ok (match r with Some v => veqb (snd e) v | None => false end)) (fm_iter m1))).
    revert T1. generalize (fm_iter m1). intros l T1. induction l as [|e l IH]; cbn [v_all all_res]; [apply same_lift|].
    apply same_bind; [|intros []; [apply IH; intros e' He'; apply T1; now right|apply same_lift]].
    apply same_bind; [apply Hg, T1; now left|]. intros [v|]; [apply same_call, Hv|apply same_lift]. }
  rewrite Hs. apply (mo_eq_ok (key_eqb eqbO) veqb (key_eqb_equiv eqbO He) _ _ _ (fm_iter m1) (fm_iter m2) m1 m2 (fm_searches eqbO E kd)); auto.
  intros k Hk. apply in_map_iff in Hk. destruct Hk as (e & <- & Hk). now apply T1.
Qed.

Lemma lawful_clone_equals_original :
  forall (W O V : Type) (F : conduct W O) (C : cloning W O V) (eqbO : O -> O -> bool)
         (veq : V -> V -> W -> option bool * W) (veqb : V -> V -> bool) (E : env) (kd : kind)
         (cO : O -> O) (cV : V -> V) (cB : hasher O -> hasher O) (m m' : map_types O V) (w w' w1 : W),
  regular F eqbO -> (forall a b, always (veq a b) (veqb a b)) -> (forall v, veqb v (cV v) = true /\ veqb (cV v) v = true) ->
  env_ok E -> equivalence eqbO -> faithful_clones C eqbO cO cV cB ->
  lawful_map F C eqbO E kd m -> fm_clone C m w = (Ok m', w') ->
  fst (v_eq F E veq m m' w1) = Ok true /\ fst (v_eq F E veq m' m w1) = Ok true.
Proof.
  intros W O V F C eqbO veq veqb E kd cO cV cB m m' w w' w1 HF Hv Hve HE He HC H Hc.
  pose proof (LawfulMapClone _ _ _ _ _ _ _ _ _ H Hc) as H'.
  pose proof (copied_iter cO cV cB m) as Hi. rewrite <- (clone_is_copy eqbO C cO cV cB HC m w m' w' Hc) in Hi.
  pose proof (key_eqb_equiv eqbO He) as Hkeq.
  assert (Hkc : forall k, key_eqb eqbO k (copied_key cO k) = true).
  { intros k. rewrite (eqb_copied cO eqbO He (fc_equal _ _ _ _ _ HC)). apply (eq_refl_ok _ Hkeq). }
  destruct (twins_alike (key_eqb eqbO) veqb (copied_key cO) cV (fm_iter m) Hkeq Hkc Hve) as (S1 & S2).
  change (map (twin (copied_key cO) cV) (fm_iter m)) with (map (copied_entry cV (copied_key cO)) (fm_iter m)) in S1, S2.
  rewrite <- Hi in S1, S2.
  destruct (lawful_clone_equality W O V F C eqbO veq veqb E kd cO cV cB m m' w1 HF Hv HE He HC H H') as (b & -> & Hb).
  destruct (lawful_clone_equality W O V F C eqbO veq veqb E kd cO cV cB m' m w1 HF Hv HE He HC H' H) as (b' & -> & Hb').
  apply Hb in S1. apply Hb' in S2. now subst.
Qed.

(** ** Sets *)

Lemma for_set_faithful {W O V} (C : cloning W O V) eqbO cO cV cB : faithful_clones C eqbO cO cV cB ->
  faithful_clones (for_set C) eqbO cO (fun u => u) cB.
Proof. intros [H1 H2 H3 H4 H5]. split; auto. intros [] w. exists w. reflexivity. Qed.

Lemma lawful_set_in_use {W O V} (F : conduct W O) (C : cloning W O V) eqbO E kd cO cV cB s :
  regular F eqbO -> env_ok E -> equivalence eqbO -> faithful_clones C eqbO cO cV cB ->
  lawful_frozen_set F C eqbO E kd s ->
  finds eqbO E kd (to_map s) /\ (forall x, In x (fs_items s) -> has_kind kd x) /\ zlen (fs_items s) < 2 ^ 64.
Proof.
  intros HF HE He HC H. induction H as [items bh w s w' Hl Hc Hz Ht Hd Hs|s w s' w' H (Hf & Ht & Hz) Hc].
  - destruct (v_fs_built F E kd items bh w s w' HE Ht Hs) as (HP & _ & Hsafe).
    apply v_fs_new_ok in Hs. pose proof (typed_with_unit kd items Ht) as Ht'.
    rewrite <- (with_unit_len items) in Hc.
    destruct (regular_agrees W O unit F eqbO E kd bh (with_unit items) [] w w HF HE) as (Hn & _); auto.
    { now rewrite with_unit_len. }
    { intros ? ? []. }
    rewrite Hs in Hn. cbn [fst] in Hn. symmetry in Hn.
    destruct (built_sound eqbO E HE kd (with_unit items) bh (to_map s) Hc Ht' Hn) as (_ & Hi & Hx & Hr).
    assert (Hex : fm_exact (to_map s)).
    { destruct kd.
      - apply Hx. rewrite with_unit_keys. auto.
      - destruct (to_map s); try exact I. destruct (Hr I). discriminate.
      - destruct (to_map s); try exact I. destruct (Hr I). discriminate. }
    split; [split; auto|split].
    + intros k Hk. apply (fm_lookup_exact eqbO E kd bh (to_map s) k Hi Hex (lawful_respects eqbO bh Hl) Hk).
    + intros x Hx'. apply Ht. now apply (Permutation_in _ (Permutation_sym HP)).
    + now rewrite <- (zlen_perm _ _ HP).
  - apply fs_clone_ok in Hc. cbn [bind] in Hc. pose proof (for_set_faithful C eqbO cO cV cB HC) as HC'.
    pose proof (clone_is_copy eqbO (for_set C) cO _ cB HC' _ _ _ _ Hc) as ->. split.
    { now apply (finds_copied eqbO E kd He (for_set C) cO _ cB HC'). }
    assert (Hi : fs_items s' = map (copied_key cO) (fs_items s)).
    { rewrite !fs_items_map. apply (clone_is_copy eqbO (for_set C) cO _ cB HC') in Hc. rewrite Hc, copied_iter, !map_map. reflexivity. }
    rewrite Hi. split.
    + intros x Hx. apply in_map_iff in Hx. destruct Hx as (k & <- & Hk). specialize (Ht k Hk). now destruct k.
    + now rewrite zlen_map.
Qed.

Lemma lawful_clone_set :
  forall (W O V : Type) (F : conduct W O) (C : cloning W O V) (eqbO : O -> O -> bool) (E : env) (kd : kind)
         (cO : O -> O) (cV : V -> V) (cB : hasher O -> hasher O) (s : set_types O),
  regular F eqbO -> env_ok E -> equivalence eqbO -> faithful_clones C eqbO cO cV cB ->
  lawful_frozen_set F C eqbO E kd s ->
  serves (key_eqb eqbO) (has_kind kd) (v_fs_running F E s) (fs_items s) /\
  (forall x w, has_kind kd x -> exists r, fst (v_fs_get F E s x w) = Ok r /\
     (forall y, r = Some y -> In y (fs_items s) /\ key_eqb eqbO x y = true) /\
     (r = None -> ~ member (key_eqb eqbO) (fs_items s) x)) /\
  forall w, exists s' w', fs_clone C s w = (Ok s', w') /\ fs_items s' = map (copied_key cO) (fs_items s).
Proof.
  intros W O V F C eqbO E kd cO cV cB s HF HE He HC H.
  destruct (lawful_set_in_use F C eqbO E kd cO cV cB s HF HE He HC H) as ((Hs & Hf) & Ht & Hz).
  assert (Hl : zlen (fm_iter (to_map s)) = zlen (fs_items s)) by (rewrite fs_items_map; now rewrite zlen_map).
  assert (Hget : forall x w, has_kind kd x -> fst (v_fs_get F E s x w) = Ok (find (key_eqb eqbO x) (fs_items s))).
  { intros x w Hx. unfold v_fs_get, mbind. rewrite v_fs_find_map.
    pose proof (same_find eqbO E F HF (to_map s) x w) as Hw. rewrite (Hf x Hx) in Hw.
    destruct (v_find F E (to_map s) x w) as [r w2]. cbn [fst] in Hw. subst r. cbn [lift fst].
    rewrite find_find_pos, fs_items_map, find_pos_map. reflexivity. }
  split; [split|split].
  - exact Ht.
  - cbn [v_fs_running vs_len]. now rewrite fs_len_map, fm_len_iter.
  - now apply library_iterators.
  - intros x w Hx. cbn [v_fs_running vs_contains]. rewrite v_fs_contains_get. specialize (Hget x w Hx).
    destruct (v_fs_get F E s x w) as [r w2]. cbn [fst] in Hget. subst r. eexists. split; [reflexivity|].
    unfold member. destruct (find (key_eqb eqbO x) (fs_items s)) as [y|] eqn:Ef; cbn.
    + apply find_some in Ef. split; auto. intros _. exists y. exact Ef.
    + split; [discriminate|]. intros (y & Hy & Hxy). pose proof (find_none _ _ Ef y Hy) as Hn. congruence.
  - intros x w Hx. eexists. split; [apply Hget; auto|]. split.
    + intros y Hy. now apply find_some in Hy.
    + intros Hn (y & Hy & Hxy). pose proof (find_none _ _ Hn y Hy) as Hn'. congruence.
  - intros w. pose proof (for_set_faithful C eqbO cO cV cB HC) as HC'.
    destruct (clone_gives (for_set C) cO (fun u => u) cB (fc_key _ _ _ _ _ HC') (fc_value _ _ _ _ _ HC') (fc_hasher _ _ _ _ _ HC') (to_map s) w) as (w1 & H1).
    destruct (fs_clone C s w) as [r w'] eqn:Hc. apply fs_clone_ok in Hc. rewrite H1 in Hc.
    destruct r as [s'| | |]; cbn [bind] in Hc; try discriminate. injection Hc as Hm <-.
    exists s', w1. split; [reflexivity|]. rewrite !fs_items_map, <- Hm, copied_iter, !map_map. reflexivity.
Qed.

Lemma covering_equal {W T St1 St2} (eqb : T -> T -> bool) D (v1 : vol_set W T St1) (v2 : vol_set W T St2) i1 i2 fuel w :
  equivalence eqb -> serves eqb D v1 i1 -> serves eqb D v2 i2 -> (length i1 < fuel)%nat -> (length i2 < fuel)%nat ->
  zlen i1 = zlen i2 -> (forall x, In x i1 -> existsb (eqb x) i2 = true) -> fst (v_set_eq fuel v1 v2 w) = Ok true.
Proof.
  intros He V1 V2 F1 F2 Hz H. destruct (serving_operations eqb D v1 v2 i1 i2 fuel He V1 V2 F1 F2) as (_ & _ & _ & _ & Hw).
  destruct (Hw w) as (_ & _ & _ & ->). unfold set_eq. cbn [plain s_len s_items s_contains].
  rewrite Hz, Z.eqb_refl. cbn [negb]. rewrite all_plain. f_equal. now apply forallb_forall.
Qed.

Lemma lawful_clone_set_equal :
  forall (W O V : Type) (F : conduct W O) (C : cloning W O V) (eqbO : O -> O -> bool) (E : env) (kd : kind)
         (cO : O -> O) (cV : V -> V) (cB : hasher O -> hasher O) (s s' : set_types O) (w w' w1 : W) (fuel : nat),
  regular F eqbO -> env_ok E -> equivalence eqbO -> faithful_clones C eqbO cO cV cB ->
  lawful_frozen_set F C eqbO E kd s -> fs_clone C s w = (Ok s', w') -> (length (fs_items s) < fuel)%nat ->
  fst (v_set_eq fuel (v_fs_running F E s) (v_fs_running F E s') w1) = Ok true /\
  fst (v_set_eq fuel (v_fs_running F E s') (v_fs_running F E s) w1) = Ok true.
Proof.
  intros W O V F C eqbO E kd cO cV cB s s' w w' w1 fuel HF HE He HC H Hc Hl.
  destruct (lawful_clone_set W O V F C eqbO E kd cO cV cB s HF HE He HC H) as (Hs & _ & Hx).
  pose proof (LawfulFrozenSetClone F C eqbO E kd s w s' w' H Hc) as H'.
  destruct (lawful_clone_set W O V F C eqbO E kd cO cV cB s' HF HE He HC H') as (Hs' & _ & _).
  destruct (Hx w) as (s2 & w2 & Hc2 & Hi). rewrite Hc in Hc2. injection Hc2 as <- <-.
  pose proof (key_eqb_equiv eqbO He) as Hk.
  assert (Hz : zlen (fs_items s) = zlen (fs_items s')) by (rewrite Hi; now rewrite zlen_map).
  assert (Hl' : (length (fs_items s') < fuel)%nat) by (rewrite Hi; now rewrite map_length).
  assert (Hc' : forall x, key_eqb eqbO x (copied_key cO x) = true).
  { intros x. rewrite (eqb_copied cO eqbO He (fc_equal _ _ _ _ _ HC)). apply (eq_refl_ok _ Hk). }
  split; eapply covering_equal; eauto.
  - intros x Hx'. apply existsb_exists. exists (copied_key cO x). split; auto. rewrite Hi. now apply in_map.
  - intros x Hx'. rewrite Hi in Hx'. apply in_map_iff in Hx'. destruct Hx' as (y & <- & Hy). apply existsb_exists.
    exists y. split; auto. now apply (eq_sym_ok _ Hk).
Qed.

(** ** Specialized sets *)

Lemma faithful_special_set_equal :
  forall (W T V BH : Type) (F : foreign W T T BH) (a : oracle T T BH) (D : copying W T V BH) (E : env)
         (cK : T -> T) (cV : V -> V) (cB : BH -> BH) (s s' : special T unit BH) (w w' w1 : W) (fuel : nat),
  regular_foreign F a -> env_ok E -> equivalence (a_eq a) -> copies_as D cK cV cB -> true_copies a cK cB ->
  (forall x, a_borrow a x = x) -> lawful_set_owned F a D E s -> st_clone D s w = (Ok s', w') ->
  (length (st_items s) < fuel)%nat ->
  fst (v_set_eq fuel (st_running E F s) (st_running E F s') w1) = Ok true /\
  fst (v_set_eq fuel (st_running E F s') (st_running E F s) w1) = Ok true.
Proof.
  intros W T V BH F a D E cK cV cB s s' w w' w1 fuel HF HE He HC HT Hb H Hc Hl.
  pose proof (faithful_special_set_serves W T V BH F a D E cK cV cB s HF HE He HC HT Hb H) as Hs.
  assert (H' : lawful_set_owned F a D E s') by (econstructor 2; eauto).
  pose proof (faithful_special_set_serves W T V BH F a D E cK cV cB s' HF HE He HC HT Hb H') as Hs'.
  destruct (faithful_special_set_clone W T T V BH F a D E cK cV cB s HF HE He HC HT H) as (_ & Hx).
  destruct (Hx w) as (s2 & w2 & Hc2 & Hi). rewrite Hc in Hc2. injection Hc2 as <- <-.
  assert (Hz : zlen (st_items s) = zlen (st_items s')) by (rewrite Hi; now rewrite zlen_map).
  assert (Hl' : (length (st_items s') < fuel)%nat) by (rewrite Hi; now rewrite map_length).
  pose proof (fun k => tc_key _ _ _ HT k) as Hk.
  split; eapply covering_equal; eauto; intros x Hx'.
  - apply existsb_exists. exists (cK x). split; [rewrite Hi; now apply in_map|]. specialize (Hk x). now rewrite !Hb in Hk.
  - rewrite Hi in Hx'. apply in_map_iff in Hx'. destruct Hx' as (y & <- & Hy). apply existsb_exists.
    exists y. split; auto. apply (eq_sym_ok _ He). specialize (Hk y). now rewrite !Hb in Hk.
Qed.

Lemma faithful_range_set_equal :
  forall (W T V BH : Type) (G : integers W T T) (lo hi : Z) (value : T -> Z) (D : copying W T V BH)
         (cK : T -> T) (cV : V -> V) (cB : BH -> BH) (srt : sorter) (p : profile) (s s' : range_map T unit) (w w' w1 : W) (fuel : nat),
  lawful_integers G lo hi value value -> sorter_ok srt -> copies_as D cK cV cB -> (forall k, value (cK k) = value k) ->
  lawful_range_set_owned G hi value D srt s -> rs_clone D s w = (Ok s', w') -> (length (rs_items s) < fuel)%nat ->
  fst (v_set_eq fuel (rs_running p G s) (rs_running p G s') w1) = Ok true /\
  fst (v_set_eq fuel (rs_running p G s') (rs_running p G s) w1) = Ok true.
Proof.
  intros W T V BH G lo hi value D cK cV cB srt p s s' w w' w1 fuel HG HS HC Hv H Hc Hl.
  assert (H' : lawful_range_set_owned G hi value D srt s') by (econstructor 2; eauto).
  destruct (faithful_range_set_clone W T V BH G lo hi value D cK cV cB srt p s HG HS HC Hv H) as (Hs & Hx).
  destruct (faithful_range_set_clone W T V BH G lo hi value D cK cV cB srt p s' HG HS HC Hv H') as (Hs' & _).
  destruct (Hx w) as (s2 & w2 & Hc2 & Hi). rewrite Hc in Hc2. injection Hc2 as <- <-.
  assert (Hz : zlen (rs_items s) = zlen (rs_items s')) by (rewrite Hi; now rewrite zlen_map).
  assert (Hl' : (length (rs_items s') < fuel)%nat) by (rewrite Hi; now rewrite map_length).
  assert (He : equivalence (fun a b : T => value a =? value b)).
  { split; intros *; rewrite ?Z.eqb_eq; congruence. }
  split; eapply covering_equal; eauto; intros x Hx'.
  - apply existsb_exists. exists (cK x). split; [rewrite Hi; now apply in_map|]. rewrite Hv. apply Z.eqb_refl.
  - rewrite Hi in Hx'. apply in_map_iff in Hx'. destruct Hx' as (y & <- & Hy). apply existsb_exists.
    exists y. split; auto. rewrite Hv. apply Z.eqb_refl.
Qed.
