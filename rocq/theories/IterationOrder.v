(** The order in which a map is iterated. *)
From Coq Require Import List ZArith Bool Arith Lia Permutation Sorted.
From Verif Require Import Spec MapSpec CostSpec Base BaseLemmas EqbLists IntKeyAnalyzer SliceKeyAnalyzer
  HashCodeAnalyzer HashTable HashTableProofs HashCodeAnalyzerProofs IntProofs SliceKeyAnalyzerProofs Maps MapsProofs
  FrozenMap FrozenMapProofs FrozenMapBuild FrozenMapFacts CapacityProofs BuildSound LookupCost LookupCostProofs ComponentTheorems.
Import ListNotations.
Open Scope Z_scope.

Notation descending f := (StronglySorted (fun x y => f y <= f x)).

Lemma sorted_map_inv {A B} (g : A -> B) (R : B -> B -> Prop) l :
  StronglySorted (fun x y => R (g x) (g y)) l -> StronglySorted R (map g l).
Proof.
  induction 1 as [|a l Hs IH Hf]; cbn [map]; constructor; auto. rewrite Forall_forall in *.
  intros b Hb. apply in_map_iff in Hb. destruct Hb as (x & <- & Hx). auto.
Qed.
Lemma sorted_impl {A} (R R' : A -> A -> Prop) l :
  (forall x y, In x l -> In y l -> R x y -> R' x y) -> StronglySorted R l -> StronglySorted R' l.
Proof.
  induction l as [|a l IH]; intros H Hs; constructor; inversion Hs; subst.
  - apply IH; auto. intros x y Hx Hy. apply H; now right.
  - rewrite Forall_forall in *. intros x Hx. apply H; [now left|now right|auto].
Qed.

(** The entries of a table are ordered by descending slot. *)
Lemma ht_new_order {K V} E S_ty (payload : list (K * V)) n (hash : K -> res Z) (h : K -> Z) t :
  env_ok E -> 1 <= n -> (forall e, In e payload -> hash (fst e) = Ok (h (fst e))) ->
  ht_new E S_ty payload n hash = Ok t -> descending (fun e => h (fst e) mod n) (entries t).
Proof.
  intros HE Hn Hh H. unfold ht_new in H. destruct payload as [|e p] eqn:Ep; [injection H as <-; constructor|].
  rewrite <- Ep in *. clear Ep e p.
  apply bind_ok in H. destruct H as (cap & _ & H). destruct (_ <? _); [discriminate|].
  rewrite (prepare_ok hash h) in H by (auto; lia). cbn [bind] in H. cbv zeta in H.
  set (items := map (fun e => (h (fst e) mod n, e)) payload) in *.
  apply bind_ok in H. destruct H as ([ss es] & Hf & H). destruct (_ =? 0); [discriminate|].
  injection H as <-. cbn [entries]. apply fill_perm in Hf. cbn [app] in Hf. subst es.
  destruct (HE _ fst items) as (HP & Hs). unfold sorted_by in Hs.
  apply StronglySorted_rev in Hs. apply sorted_map_inv.
  eapply sorted_impl; [|exact Hs]. intros x y Hx Hy Hxy. cbv beta in Hxy.
  assert (Hi : forall z, In z (rev (usort E _ fst items)) -> h (fst (snd z)) mod n = fst z).
  { intros z Hz. apply in_rev in Hz. apply (Permutation_in _ (Permutation_sym HP)) in Hz.
    apply in_map_iff in Hz. destruct Hz as (e & <- & _). reflexivity. }
  rewrite (Hi x Hx), (Hi y Hy). exact Hxy.
Qed.

Section Maps.
Context {V : Type}.
Variable E : env.
Hypothesis HE : env_ok E.
Variable S_ty : int_type.

Lemma build_order {K} (payload : list (K * V)) codes hash h a t :
  payload <> [] -> codes <> [] -> (forall e, In e payload -> hash (fst e) = Ok (h (fst e))) ->
  analyze_hash_codes codes = Ok a -> ht_new E S_ty payload (fst a) hash = Ok t ->
  descending (fun e => h (fst e) mod fst a) (entries t).
Proof.
  intros Hne Hc Hh Ha Ht. destruct (analyze_hash_codes_pos codes) as (s & c & Ha' & Hs). rewrite Ha in Ha'.
  injection Ha' as ->. cbn [fst] in *. eapply ht_new_order; eauto.
Qed.

Lemma cm_order {K BH} (hk : BH -> K -> Z) (payload : list (K * V)) bh m :
  payload <> [] -> cm_from_vec hk E S_ty payload bh = Ok m ->
  exists s col, analyze_hash_codes (map (fun e => hk bh (fst e)) payload) = Ok (s, col) /\
    descending (fun e => hk bh (fst e) mod s) (entries (cm_table m)).
Proof.
  intros Hne H. unfold cm_from_vec in H. apply bind_ok in H. destruct H as ([s col] & Ha & H).
  apply bind_ok in H. destruct H as (t & Ht & H). injection H as <-. exists s, col. split; auto.
  exact (build_order payload _ _ (hk bh) (s, col) t Hne (map_nonempty _ _ Hne) (fun e _ => eq_refl) Ha Ht).
Qed.
Lemma lm_order {K} (lk : K -> Z) (payload : list (K * V)) m :
  payload <> [] -> lm_from_vec lk E S_ty payload = Ok m ->
  exists s col, analyze_hash_codes (map (fun e => lk (fst e)) payload) = Ok (s, col) /\
    descending (fun e => lk (fst e) mod s) (entries (lm_table m)).
Proof.
  intros Hne H. unfold lm_from_vec in H. apply bind_ok in H. destruct H as ([s col] & Ha & H).
  apply bind_ok in H. destruct H as (t & Ht & H). injection H as <-. exists s, col. split; auto.
  exact (build_order payload _ _ lk (s, col) t Hne (map_nonempty _ _ Hne) (fun e _ => eq_refl) Ha Ht).
Qed.
Lemma im_order (payload : list (Z * V)) m :
  payload <> [] -> im_from_vec E S_ty payload = Ok m ->
  exists s col, analyze_hash_codes (map (fun e => int_code (fst e)) payload) = Ok (s, col) /\
    descending (fun e => int_code (fst e) mod s) (entries (im_table m)).
Proof.
  intros Hne H. unfold im_from_vec in H. apply bind_ok in H. destruct H as ([s col] & Ha & H).
  apply bind_ok in H. destruct H as (t & Ht & H). injection H as <-. exists s, col. split; auto.
  exact (build_order payload _ _ int_code (s, col) t Hne (map_nonempty _ _ Hne) (fun e _ => eq_refl) Ha Ht).
Qed.
Lemma lsm_order {BH} (hw : BH -> list Z -> Z) (payload : list (list Z * V)) a b bh m :
  payload <> [] -> lsm_from_vec hw E S_ty payload a b bh = Ok m ->
  0 <= a <= b /\
  exists s col, analyze_hash_codes (map (fun e => window_code hw bh a b (fst e)) payload) = Ok (s, col) /\
    descending (fun e => window_code hw bh a b (fst e) mod s) (entries (slm_table m)).
Proof.
  intros Hne H. unfold lsm_from_vec in H. apply bind_ok in H. destruct H as (codes & Hcodes & H).
  apply bind_ok in H. destruct H as ([s col] & Ha & H).
  apply bind_ok in H. destruct H as (t & Ht & H). injection H as <-.
  assert (Hk : forall e, In e payload -> 0 <= a <= b /\ b <= zlen (fst e)).
  { intros e He. destruct (ht_new_hash_ok _ _ _ _ _ _ Ht e He) as (c & Hh). unfold slice_hash, slice_unchecked in Hh.
    destruct (range_ok a b (fst e)) eqn:Er; [|discriminate]. now apply range_ok_iff in Er. }
  assert (Hab : 0 <= a <= b) by (destruct payload as [|e p]; [congruence|]; apply (Hk e); now left).
  assert (Hw : forall e, In e payload -> slice_hash hw bh (fst e) a b = Ok (window_code hw bh a b (fst e))).
  { intros e He. destruct (Hk e He) as (_ & Hb). unfold window_code.
    rewrite (proj2 (Z.leb_le b _)) by exact Hb. now apply slice_hash_ok. }
  split; auto.
  rewrite (mapM_ok _ (fun e => window_code hw bh a b (fst e))) in Hcodes.
  2:{ intros e He. cbv beta zeta. rewrite <- (Hw e He). destruct (Hk e He) as (_ & Hb).
      now rewrite (proj2 (Z.leb_le b _)) by exact Hb. }
  injection Hcodes as <-. exists s, col. split; auto.
  exact (build_order payload _ _ (window_code hw bh a b) (s, col) t Hne (map_nonempty _ _ Hne) Hw Ha Ht).
Qed.
End Maps.

Lemma irm_from_vec_sorted {V} pr ty (payload : list (Z * V)) m :
  irm_from_vec pr ty payload = Ok m -> sorted_by fst (irm_entries m).
Proof.
  unfold irm_from_vec. destruct payload as [|e p] eqn:Ep; [intros H; injection H as <-; constructor|].
  rewrite <- Ep. clear Ep. intros H.
  repeat (apply bind_ok in H; destruct H as (? & _ & H)). destruct (_ =? _); [|discriminate].
  injection H as <-. apply stable_sort_sorted.
Qed.

Lemma iteration_order_cases :
  forall (O V : Type) (E : env) (kd : kind) (bh : hasher O) (payload : list (key O * V)) (m : map_types O V),
  env_ok E -> typed kd payload -> fm_new E kd payload bh = Ok m ->
  (zlen payload < 4 /\ fm_iter m = payload) \/
  (4 <= zlen payload /\ kd = KindU32 /\ (exists rm, m = MU32Range rm) /\
   StronglySorted Z.le (map (fun e => u32_of (fst e)) (fm_iter m)) /\
   (NoDup (map (fun e => u32_of (fst e)) payload) ->
    StronglySorted Z.lt (map (fun e => u32_of (fst e)) (fm_iter m)))) \/
  (4 <= zlen payload /\
   (kd = KindU32 -> analyze_int_keys (prof E) u32 (map (fun e => u32_of (fst e)) payload) = Ok IntNormal) /\
   exists code_of s col,
     code_choice kd bh code_of /\
     analyze_hash_codes (map (fun e => code_of (fst e)) payload) = Ok (s, col) /\
     StronglySorted (fun e e' => code_of (fst e') mod s <= code_of (fst e) mod s) (fm_iter m)).
Proof.
  intros O V E kd bh payload m HE Ht Hm. pose proof (fm_new_perm E HE kd payload bh m Hm) as HP.
  unfold fm_new in Hm. destruct (Z.ltb_spec (zlen payload) 4) as [H4|H4].
  { injection Hm as <-. left. split; auto. }
  right. assert (Hne : payload <> []) by (intros ->; change (zlen []) with 0 in *; lia).
  assert (Hcm : kd <> KindU32 -> forall S_ty (cm : common_map (key O) V (hasher O)),
     cm_from_vec hash_one E S_ty payload bh = Ok cm -> exists code_of s col,
     code_choice kd bh code_of /\
     analyze_hash_codes (map (fun e => code_of (fst e)) payload) = Ok (s, col) /\
     descending (fun e => code_of (fst e) mod s) (entries (cm_table cm))).
  { intros Hkd S_ty cm H. destruct (cm_order E HE S_ty hash_one payload bh cm Hne H) as (s & col & H1 & H2).
    exists (hash_one bh), s, col. split; auto. destruct kd; cbn [code_choice]; auto. congruence. }
  destruct kd.
  - destruct (as_u32_payload payload Ht) as (p & Hp & Hmp & Hr).
    assert (Hpne : p <> []) by (intros ->; cbn in Hmp; congruence).
    unfold fm_new_u32_map in Hm. rewrite Hp in Hm. cbn [bind] in Hm.
    apply bind_ok in Hm. destruct Hm as (an & Han & Hm). destruct an.
    + right. split; auto. split.
      { intros _. rewrite <- Han. f_equal. rewrite <- Hmp, map_map. reflexivity. }
      assert (Hcodes : map (fun e => int_code (fst e)) p = map (fun e => u32_of (fst e)) payload).
      { rewrite <- Hmp, map_map. apply map_ext_in. intros e He. cbn [from_u32_entry fst u32_of]. apply int_code_u32; auto. }
      assert (Him : forall S_ty im, im_from_vec E S_ty p = Ok im -> exists code_of s col,
        code_choice KindU32 bh code_of /\ analyze_hash_codes (map (fun e => code_of (fst e)) payload) = Ok (s, col) /\
        descending (fun e => code_of (fst e) mod s) (map (@from_u32_entry O V) (entries (im_table im)))).
      { intros S_ty im H. destruct (im_order E HE S_ty p im Hpne H) as (s & col & H1 & H2).
        exists u32_of, s, col. split; [intros n; reflexivity|]. rewrite <- Hcodes. split; auto.
        apply sorted_map_inv. eapply sorted_impl; [|exact H2]. cbn [from_u32_entry fst u32_of].
        assert (HPi : Permutation p (entries (im_table im))).
        { unfold im_from_vec in H. apply bind_ok in H. destruct H as (a & _ & H).
          apply bind_ok in H. destruct H as (t & Htt & H). injection H as <-. eapply ht_new_perm; eauto. }
        intros x y Hx Hy. apply (Permutation_in _ (Permutation_sym HPi)) in Hx, Hy.
        now rewrite !int_code_u32 by auto. }
      destruct (_ <=? _); apply bind_ok in Hm; destruct Hm as (im & Hm & H); injection H as <-; cbn [fm_iter]; eauto.
    + left. split; auto. split; auto. apply bind_ok in Hm. destruct Hm as (rm & Hm & H). injection H as <-.
      split; [eauto|]. apply irm_from_vec_sorted in Hm. cbn [fm_iter] in *. rewrite map_map.
      cbn [from_u32_entry fst u32_of].
      assert (Hle : StronglySorted Z.le (map fst (irm_entries rm))) by (apply sorted_map_inv; exact Hm).
      split; [exact Hle|]. intros Hnd.
      assert (Hnd' : NoDup (map fst (irm_entries rm))).
      { apply (Permutation_NoDup (l := map (fun e => u32_of (fst e)) payload)); auto.
        apply (Permutation_map (fun e => u32_of (fst e))) in HP. rewrite map_map in HP.
        cbn [from_u32_entry fst u32_of] in HP. exact HP. }
      clear - Hle Hnd'. change (map (fun x : Z * V => fst x) (irm_entries rm)) with (map fst (irm_entries rm)).
      induction Hle as [|a l Hs IH Hf]; constructor; inversion Hnd'; subst; auto.
      rewrite Forall_forall in *. intros b Hb. specialize (Hf b Hb).
      assert (a <> b) by (intros ->; contradiction). lia.
  - right. split; auto. split; [discriminate|]. destruct (as_string_payload payload Ht) as (p & Hp & Hmp & Hr).
    assert (Hpne : p <> []) by (intros ->; cbn in Hmp; congruence).
    unfold fm_new_string_map in Hm. rewrite Hp in Hm. cbn [bind] in Hm.
    apply bind_ok in Hm. destruct Hm as (an & Han & Hm). apply analyze_slice_keys_range in Han.
    assert (Hslice : forall S_ty i l (sm : slice_map V (hasher O)), 0 <= i /\ 0 <= l ->
      lsm_from_vec hash_write E S_ty p i (i + l) bh = Ok sm -> exists code_of s col,
      code_choice KindString bh code_of /\ analyze_hash_codes (map (fun e => code_of (fst e)) payload) = Ok (s, col) /\
      descending (fun e => code_of (fst e) mod s) (map (@from_string_entry O V) (entries (slm_table sm)))).
    { intros S_ty i l sm Hil H.
      destruct (lsm_order E HE S_ty hash_write p i (i + l) bh sm Hpne H) as (Hab & s & col & H1 & H2).
      exists (fun k => window_code hash_write bh i (i + l) (str_of k)), s, col. split.
      - right. right. exists (Z.to_nat i), (Z.to_nat l).
        intros s0. cbn [str_of]. unfold window_code, left_code, left_win, sub, zlen.
        replace (Z.to_nat (i + l - i)) with (Z.to_nat l) by lia.
        destruct (Z.leb_spec (i + l) (Z.of_nat (length s0))), (Nat.leb_spec (Z.to_nat i + Z.to_nat l) (length s0)); auto; lia.
      - split; [rewrite <- Hmp, map_map; exact H1|]. apply sorted_map_inv. exact H2. }
    assert (Hlm : forall (lm : length_map (list Z) V), lm_from_vec zlen E u8 p = Ok lm -> exists code_of s col,
      code_choice KindString bh code_of /\ analyze_hash_codes (map (fun e => code_of (fst e)) payload) = Ok (s, col) /\
      descending (fun e => code_of (fst e) mod s) (map (@from_string_entry O V) (entries (lm_table lm)))).
    { intros lm H. destruct (lm_order E HE u8 zlen p lm Hpne H) as (s & col & H1 & H2).
      exists (fun k => zlen (@str_of O k)), s, col. split; [right; left; intros s0; reflexivity|].
      split; [rewrite <- Hmp, map_map; exact H1|]. apply sorted_map_inv. exact H2. }
    destruct (_ <=? _); destruct an as [|i l|i l|]; apply bind_ok in Hm; destruct Hm as (x & Hm & H);
      injection H as <-; cbn [fm_iter].
    + now apply (Hcm ltac:(discriminate) u8).
    + apply (Hslice u8 i l x); auto; lia.
    + exfalso. eapply (rsm_from_vec_forward_fails hash_write E u8 p i (i + l) bh x); eauto; lia.
    + now apply Hlm.
    + now apply (Hcm ltac:(discriminate) usize).
    + apply (Hslice usize i l x); auto; lia.
    + exfalso. eapply (rsm_from_vec_forward_fails hash_write E usize p i (i + l) bh x); eauto; lia.
    + now apply (Hcm ltac:(discriminate) usize).
  - right. split; auto. split; [discriminate|]. unfold fm_new_common_map in Hm.
    destruct (_ <=? _); apply bind_ok in Hm; destruct Hm as (x & Hm & H); injection H as <-; cbn [fm_iter].
    + now apply (Hcm ltac:(discriminate) u8).
    + now apply (Hcm ltac:(discriminate) usize).
Qed.

(** C52 *)
Lemma iteration_order :
  forall (O V : Type) (E : env) (kd : kind) (bh : hasher O) (payload : list (key O * V)) (m : map_types O V),
  env_ok E -> countable (prof E) (zlen payload) -> typed kd payload -> fm_new E kd payload bh = Ok m ->
  (zlen payload < 4 -> fm_iter m = payload) /\
  (4 <= zlen payload -> kd = KindU32 -> full_span payload -> zlen payload < 2 ^ 32 ->
   NoDup (map (fun e => u32_of (fst e)) payload) ->
   StronglySorted Z.lt (map (fun e => u32_of (fst e)) (fm_iter m))) /\
  (4 <= zlen payload -> ~ (kd = KindU32 /\ full_span payload) -> exists code_of s col,
     code_choice kd bh code_of /\
     analyze_hash_codes (map (fun e => code_of (fst e)) payload) = Ok (s, col) /\
     StronglySorted (fun e e' => code_of (fst e') mod s <= code_of (fst e) mod s) (fm_iter m)).
Proof.
  intros O V E kd bh payload m HE Hc Ht Hm.
  destruct (iteration_order_cases O V E kd bh payload m HE Ht Hm) as [(H1 & H2)|[(H1 & H2 & (rm & H3) & _ & H4)|(H1 & H2 & H3)]].
  - split; auto. split; intros; lia.
  - split; [lia|]. split; [auto|]. intros _ Hn. destruct Hn.
    apply (built_sound (fun _ _ => true) E HE kd payload bh m Hc Ht Hm). subst m. exact I.
  - split; [lia|]. split; [|auto]. intros _ Hk (mn & mx & F1 & F2 & F3 & F4) Hlen Hnd. exfalso.
    specialize (H2 Hk). subst kd. set (keys := map (fun e => u32_of (fst e)) payload) in *.
    assert (Hz : zlen keys = zlen payload) by (unfold keys, zlen; now rewrite map_length).
    assert (Hin : forall n, In n keys <-> In (KU32 n) (map fst payload)).
    { intros n. unfold keys. rewrite !in_map_iff. split; intros (e & He & Hi); exists e; split; auto;
        specialize (Ht e Hi); destruct (fst e) as [n'|s'|o'] eqn:Ef; cbn in Ht, He; try contradiction; cbn; congruence. }
    assert (Hr : forall n, In n keys -> 0 <= n < 2 ^ 32).
    { intros n Hn. apply Hin in Hn. apply in_map_iff in Hn. destruct Hn as (e & He & Hi). specialize (Ht e Hi).
      rewrite He in Ht. exact Ht. }
    assert (Hne : keys <> []) by (intros Hk; rewrite Hk in Hz; change (zlen (@nil Z)) with 0 in Hz; lia).
    assert (Hmin : is_min mn keys) by (split; [now apply Hin|intros x Hx; apply Hin in Hx; now apply F3]).
    assert (Hmax : is_max mx keys) by (split; [now apply Hin|intros x Hx; apply Hin in Hx; now apply F3]).
    destruct (int_range_detection (prof E) u32 keys) as (Hyes & _); auto.
    + now compute.
    + intros k Hk. specialize (Hr k Hk). change (imin u32) with 0. change (imax u32) with (2 ^ 32 - 1). lia.
    + intros x y Hx Hy. pose proof (Hr x Hx). pose proof (Hr y Hy). change (imax u32) with (2 ^ 32 - 1). lia.
    + change (imax u32) with (2 ^ 32 - 1). lia.
    + rewrite Hyes in H2; [discriminate|]. split; auto.
      apply (consecutive_iff keys mn mx Hne Hnd Hmin Hmax). lia.
Qed.
