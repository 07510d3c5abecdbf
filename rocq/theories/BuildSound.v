(** Whenever construction of a FrozenMap returns, the result is well formed.  Unlike
    FrozenMapBuild.v this needs no bound on the number of entries when overflow checks
    are on, and only 2^32 when they are off. *)
From Coq Require Import List ZArith Bool Arith Lia Permutation.
From Verif Require Import Spec MapSpec Base BaseLemmas EqbLists IntKeyAnalyzer SliceKeyAnalyzer HashCodeAnalyzer HashTable
  HashTableProofs HashCodeAnalyzerProofs IntProofs SliceKeyAnalyzerProofs Maps MapsProofs FrozenMap
  FrozenMapProofs FrozenMapBuild FrozenMapFacts CapacityProofs.
Import ListNotations.
Open Scope Z_scope.

(** ** Range of the proposed windows *)

Section Windows.
Context {T : Type}.
Variable h : list T -> Z.
Implicit Types keys : list (list T).

Lemma find_index_range keys l lj acc : forall remaining i j,
  find_index h keys l lj acc remaining i = Ok (Some j) -> i <= j < i + Z.of_nat remaining.
Proof.
  induction remaining as [|n IH]; intros i j H; cbn [find_index] in H; [discriminate|].
  apply bind_ok in H. destruct H as ([] & _ & H).
  - injection H as <-. lia.
  - apply IH in H. lia.
Qed.

Lemma find_subslice_range keys mn mx acc : forall remaining l r,
  find_subslice h keys mn mx acc remaining l = Ok r ->
  match r with
  | LeftHandSubslice i l' | RightHandSubslice i l' =>
      0 <= i /\ l <= l' < l + Z.of_nat remaining /\ i + l' <= mn
  | SliceNormal => True
  | SliceLength => False
  end.
Proof.
  induction remaining as [|n IH]; intros l r H; cbn [find_subslice] in H.
  - injection H as <-. exact I.
  - apply bind_ok in H. destruct H as (o & H1 & H). destruct o as [i|].
    + injection H as <-. destruct (l =? mx); [exact I|].
      apply find_index_range in H1. lia.
    + apply bind_ok in H. destruct H as (o & H2 & H). destruct o as [i|].
      * injection H as <-. destruct (mn =? mx); [discriminate|]. apply find_index_range in H2. lia.
      * apply IH in H. destruct r; auto; lia.
Qed.

Lemma fold_min_le keys : forall m,
  fold_left (fun m s => Z.min m (zlen s)) keys m <= m /\
  forall s, In s keys -> fold_left (fun m s => Z.min m (zlen s)) keys m <= zlen s.
Proof.
  induction keys as [|s keys IH]; intros m; cbn [fold_left].
  - split; [lia|]. intros s [].
  - destruct (IH (Z.min m (zlen s))) as (H1 & H2). split; [lia|].
    intros s' [<-|Hs]; [lia|auto].
Qed.

Lemma analyze_slice_keys_range keys r :
  analyze_slice_keys h keys = Ok r ->
  match r with
  | LeftHandSubslice i l | RightHandSubslice i l =>
      0 <= i /\ 1 <= l <= 16 /\ i + l < 2 ^ 64 /\ forall s, In s keys -> i + l <= zlen s
  | SliceNormal => True
  | SliceLength => zlen keys <= 255
  end.
Proof.
  unfold analyze_slice_keys. destruct (analyze_lengths keys) as [|i l|i l|] eqn:El.
  - unfold analyze_subslices. intros H. apply find_subslice_range in H.
    destruct (fold_min_le keys (imax usize)) as (H1 & H2).
    change (imax usize) with (2 ^ 64 - 1) in *.
    set (mn := fold_left _ keys _) in *.
    destruct r; auto; try contradiction.
    + split; [lia|]. split; [lia|]. split; [lia|]. intros s Hs. specialize (H2 s Hs). lia.
    + split; [lia|]. split; [lia|]. split; [lia|]. intros s Hs. specialize (H2 s Hs). lia.
  - exfalso. destruct (analyze_lengths_spec keys) as [(E1 & _)|(E1 & _)]; rewrite E1 in El; discriminate.
  - exfalso. destruct (analyze_lengths_spec keys) as [(E1 & _)|(E1 & _)]; rewrite E1 in El; discriminate.
  - intros H. injection H as <-.
    destruct (analyze_lengths_spec keys) as [(E1 & H1)|(E1 & _)]; [apply H1|rewrite E1 in El; discriminate].
Qed.
End Windows.

(** ** Specialized maps *)

Lemma prepare_hash_ok {K V} (hash : K -> res Z) n (payload : list (K * V)) : forall items,
  prepare hash n payload = Ok items -> forall e, In e payload -> exists c, hash (fst e) = Ok c.
Proof.
  induction payload as [|e p IH]; cbn [prepare]; intros items H x Hx; [destruct Hx|].
  apply bind_ok in H. destruct H as (c & Hc & H). destruct (n =? 0); [discriminate|].
  apply bind_ok in H. destruct H as (rest & Hr & _). destruct Hx as [<-|Hx]; eauto.
Qed.

Lemma ht_new_hash_ok {K V} E S_ty (payload : list (K * V)) n hash t :
  ht_new E S_ty payload n hash = Ok t -> forall e, In e payload -> exists c, hash (fst e) = Ok c.
Proof.
  intros H e He. unfold ht_new in H. destruct payload as [|e0 p]; [destruct He|].
  apply bind_ok in H. destruct H as (cap & _ & H). destruct (_ <? _); [discriminate|].
  apply bind_ok in H. destruct H as (items & Hi & _). eapply prepare_hash_ok; eauto.
Qed.

Section Sound.
Context {K V BH : Type}.
Variable E : env.
Hypothesis HE : env_ok E.
Variable S_ty : int_type.
Hypothesis HS : imin S_ty = 0.

(** Analysis followed by construction. *)
Lemma build_sound (payload : list (K * V)) codes hash h a t :
  countable (prof E) (zlen payload) ->
  (payload <> [] -> codes <> []) ->
  (forall e, In e payload -> hash (fst e) = Ok (h (fst e))) ->
  analyze_hash_codes codes = Ok a -> ht_new E S_ty payload (fst a) hash = Ok t ->
  Permutation payload (entries t) /\ table_ok h t.
Proof.
  intros Hc Hcodes Hh Ha Ht. split; [eapply ht_new_perm; eauto|].
  destruct (analyze_hash_codes_pos codes) as (s & c & Ha' & Hs). rewrite Ha in Ha'. injection Ha' as ->.
  cbn [fst] in Ht.
  destruct payload as [|e p] eqn:Hp.
  - (* the slot count is irrelevant *)
    assert (Ht1 : ht_new E S_ty [] 1 hash = Ok t) by exact Ht.
    apply (ht_new_sound E S_ty [] 1 hash h t HE HS ltac:(lia) Hc) in Ht1; [apply Ht1|].
    intros e [].
  - rewrite <- Hp in *. apply (ht_new_sound E S_ty payload s hash h t) in Ht; auto; [apply Ht|].
    apply Hs, Hcodes. subst; discriminate.
Qed.

Lemma build_safe (payload : list (K * V)) codes hash a t :
  (payload <> [] -> codes <> []) ->
  analyze_hash_codes codes = Ok a -> ht_new E S_ty payload (fst a) hash = Ok t -> table_safe t.
Proof.
  intros Hcodes Ha Ht.
  destruct (analyze_hash_codes_pos codes) as (s & c & Ha' & Hs). rewrite Ha in Ha'. injection Ha' as ->.
  cbn [fst] in Ht. eapply ht_new_safe; eauto.
Qed.

Lemma map_nonempty {A B} (f : A -> B) l : l <> [] -> map f l <> [].
Proof. destruct l; [congruence|discriminate]. Qed.

Lemma cm_sound (hash_key : BH -> K -> Z) (payload : list (K * V)) bh m :
  countable (prof E) (zlen payload) -> cm_from_vec hash_key E S_ty payload bh = Ok m ->
  Permutation payload (entries (cm_table m)) /\ table_ok (hash_key bh) (cm_table m) /\ cm_bh m = bh.
Proof.
  intros Hc H. unfold cm_from_vec in H. apply bind_ok in H. destruct H as (a & Ha & H).
  apply bind_ok in H. destruct H as (t & Ht & H). injection H as <-. cbn [cm_table cm_bh].
  destruct (build_sound payload _ _ (hash_key bh) a t Hc (map_nonempty _ _) (fun e _ => eq_refl) Ha Ht). auto.
Qed.

Lemma cm_safe (hash_key : BH -> K -> Z) (payload : list (K * V)) bh m :
  cm_from_vec hash_key E S_ty payload bh = Ok m -> table_safe (cm_table m).
Proof.
  intros H. unfold cm_from_vec in H. apply bind_ok in H. destruct H as (a & Ha & H).
  apply bind_ok in H. destruct H as (t & Ht & H). injection H as <-. cbn [cm_table].
  exact (build_safe payload _ _ a t (map_nonempty _ _) Ha Ht).
Qed.

Lemma lm_safe (len : K -> Z) (payload : list (K * V)) m :
  lm_from_vec len E S_ty payload = Ok m -> table_safe (lm_table m).
Proof.
  intros H. unfold lm_from_vec in H. apply bind_ok in H. destruct H as (a & Ha & H).
  apply bind_ok in H. destruct H as (t & Ht & H). injection H as <-. cbn [lm_table].
  exact (build_safe payload _ _ a t (map_nonempty _ _) Ha Ht).
Qed.

Lemma lm_sound (len : K -> Z) (payload : list (K * V)) m :
  countable (prof E) (zlen payload) -> lm_from_vec len E S_ty payload = Ok m ->
  Permutation payload (entries (lm_table m)) /\ table_ok len (lm_table m).
Proof.
  intros Hc H. unfold lm_from_vec in H. apply bind_ok in H. destruct H as (a & Ha & H).
  apply bind_ok in H. destruct H as (t & Ht & H). injection H as <-. cbn [lm_table].
  exact (build_sound payload _ _ len a t Hc (map_nonempty _ _) (fun e _ => eq_refl) Ha Ht).
Qed.
End Sound.

Section Sound2.
Context {V BH : Type}.
Variable E : env.
Hypothesis HE : env_ok E.
Variable S_ty : int_type.
Hypothesis HS : imin S_ty = 0.

Lemma im_sound (payload : list (Z * V)) m :
  countable (prof E) (zlen payload) -> im_from_vec E S_ty payload = Ok m ->
  Permutation payload (entries (im_table m)) /\ table_ok int_code (im_table m).
Proof.
  intros Hc H. unfold im_from_vec in H. apply bind_ok in H. destruct H as (a & Ha & H).
  apply bind_ok in H. destruct H as (t & Ht & H). injection H as <-. cbn [im_table].
  exact (build_sound E HE S_ty HS payload _ _ int_code a t Hc (map_nonempty _ _) (fun e _ => eq_refl) Ha Ht).
Qed.

Lemma im_safe (payload : list (Z * V)) m :
  im_from_vec E S_ty payload = Ok m -> table_safe (im_table m).
Proof.
  intros H. unfold im_from_vec in H. apply bind_ok in H. destruct H as (a & Ha & H).
  apply bind_ok in H. destruct H as (t & Ht & H). injection H as <-. cbn [im_table].
  exact (build_safe E HE S_ty HS payload _ _ a t (map_nonempty _ _) Ha Ht).
Qed.

Lemma lsm_safe (hw : BH -> list Z -> Z) (payload : list (list Z * V)) a b bh m :
  0 <= a <= b -> lsm_from_vec hw E S_ty payload a b bh = Ok m ->
  table_safe (slm_table m) /\ 0 <= slm_start m <= slm_end m.
Proof.
  intros Hab H. unfold lsm_from_vec in H. apply bind_ok in H. destruct H as (codes & Hcodes & H).
  apply bind_ok in H. destruct H as (an & Ha & H).
  apply bind_ok in H. destruct H as (t & Ht & H). injection H as <-.
  cbn [slm_table slm_bh slm_start slm_end]. split; auto.
  apply (build_safe E HE S_ty HS payload codes _ an t) in Ht; auto.
  intros Hne ->. apply mapM_ok_inv in Hcodes. inversion Hcodes. congruence.
Qed.

Lemma lsm_sound (hw : BH -> list Z -> Z) (payload : list (list Z * V)) a b bh m :
  countable (prof E) (zlen payload) -> payload <> [] ->
  lsm_from_vec hw E S_ty payload a b bh = Ok m ->
  Permutation payload (entries (slm_table m)) /\ left_map_ok hw m /\
  slm_bh m = bh /\ slm_start m = a /\ slm_end m = b.
Proof.
  intros Hc Hne H. unfold lsm_from_vec in H. apply bind_ok in H. destruct H as (codes & Hcodes & H).
  apply bind_ok in H. destruct H as (an & Ha & H).
  apply bind_ok in H. destruct H as (t & Ht & H). injection H as <-.
  cbn [slm_table slm_bh slm_start slm_end].
  assert (Hk : forall e, In e payload -> 0 <= a <= b /\ b <= zlen (fst e)).
  { intros e He. destruct (ht_new_hash_ok _ _ _ _ _ _ Ht e He) as (c & Hh). unfold slice_hash, slice_unchecked in Hh.
    destruct (range_ok a b (fst e)) eqn:Er; [|discriminate]. now apply range_ok_iff in Er. }
  destruct (build_sound E HE S_ty HS payload codes (fun k => slice_hash hw bh k a b) (left_code hw bh a b) an t Hc) as (HP & Hok); auto.
  { intros _ ->. apply mapM_ok_inv in Hcodes. inversion Hcodes. congruence. }
  { intros e He. destruct (Hk e He). now apply slice_hash_ok. }
  split; auto. split; auto. unfold left_map_ok. cbn [slm_table slm_bh slm_start slm_end].
  split; auto. split.
  - destruct payload as [|e p]; [congruence|]. apply (Hk e). now left.
  - intros e He. apply (Permutation_in _ (Permutation_sym HP)) in He. now apply Hk.
Qed.

Lemma irm_sound (payload : list (Z * V)) pr m :
  payload <> [] -> (forall e, In e payload -> 0 <= fst e < 2 ^ 32) ->
  irm_from_vec pr u32 payload = Ok m ->
  Permutation payload (irm_entries m) /\ irm_wf m /\
  (exists mn mx, is_min mn (map fst payload) /\ is_max mx (map fst payload) /\
     mx - mn = zlen payload - 1) /\
  (NoDup (map fst payload) -> irm_ok u32 m).
Proof.
  intros Hne Hr H. pose proof (irm_from_vec_perm _ _ _ _ H) as HP. split; auto.
  destruct (min_max_exist (map fst payload)) as (mn & mx & Hmn & Hmx).
  { destruct payload; [congruence|discriminate]. }
  assert (Hb : 0 <= mn /\ mx < 2 ^ 32).
  { destruct Hmn as (H1 & _), Hmx as (H2 & _). apply in_map_iff in H1, H2.
    destruct H1 as (e1 & <- & H1), H2 as (e2 & <- & H2). apply Hr in H1, H2. lia. }
  assert (Hle : mn <= mx) by (apply Hmx, Hmn).
  assert (Hsp : mx - mn = zlen payload - 1).
  { rewrite (irm_from_vec_spec pr u32 payload mn mx) in H by auto.
    rewrite arith_ok in H by (change (imin u32) with 0; change (imax u32) with (2 ^ 32 - 1); lia).
    cbn [bind] in H. rewrite to_usize_ok in H by lia. cbn [unwrap bind] in H.
    destruct (Z.eqb_spec (mx - mn) (zlen payload - 1)); [auto|discriminate]. }
  destruct (irm_from_vec_ok pr u32 payload mn mx) as (m' & Hm' & He & Hok); auto; try (cbn; lia).
  rewrite H in Hm'. injection Hm' as <-.
  split; [|split; eauto].
  rewrite (irm_from_vec_spec pr u32 payload mn mx) in H by auto.
  rewrite arith_ok in H by (change (imin u32) with 0; change (imax u32) with (2 ^ 32 - 1); lia).
  cbn [bind] in H. rewrite to_usize_ok in H by lia. cbn [unwrap bind] in H. rewrite Hsp, Z.eqb_refl in H.
  injection H as <-. unfold irm_wf. cbn [irm_entries irm_min irm_max] in *.
  rewrite <- (zlen_perm _ _ HP). split; [|lia].
  intros H0. rewrite H0 in HP. apply Permutation_sym, Permutation_nil in HP. congruence.
Qed.
End Sound2.

(** ** The facade *)

Section Facade.
Context {O V : Type}.
Variable eqbO : O -> O -> bool.
Variable E : env.
Hypothesis HE : env_ok E.
Notation key := (key O).
Notation hasher := (hasher O).
Notation keq := (key_eqb eqbO).
Implicit Types (payload : list (key * V)) (m : map_types O V) (k : key) (bh : hasher).

Lemma payload_as_u32_perm payload p : payload_as_u32 payload = Ok p -> map from_u32_entry p = payload.
Proof.
  revert p. unfold payload_as_u32. induction payload as [|[k v] pl IH]; cbn [mapM]; intros p H.
  - injection H as <-. reflexivity.
  - apply bind_ok in H. destruct H as (x & Hx & H). apply bind_ok in H. destruct H as (ps & Hps & H).
    injection H as <-. cbn [map]. rewrite (IH ps Hps). f_equal.
    destruct k; cbn in Hx; try discriminate. injection Hx as <-. reflexivity.
Qed.
Lemma payload_as_string_perm payload p : payload_as_string payload = Ok p -> map from_string_entry p = payload.
Proof.
  revert p. unfold payload_as_string. induction payload as [|[k v] pl IH]; cbn [mapM]; intros p H.
  - injection H as <-. reflexivity.
  - apply bind_ok in H. destruct H as (x & Hx & H). apply bind_ok in H. destruct H as (ps & Hps & H).
    injection H as <-. cbn [map]. rewrite (IH ps Hps). f_equal.
    destruct k; cbn in Hx; try discriminate. injection Hx as <-. reflexivity.
Qed.

(** Nothing is lost or invented: no assumption beyond success. *)
Lemma fm_new_perm kd payload bh m : fm_new E kd payload bh = Ok m -> Permutation payload (fm_iter m).
Proof.
  assert (Hcm : forall S_ty (cm : common_map key V hasher),
    cm_from_vec hash_one E S_ty payload bh = Ok cm -> Permutation payload (entries (cm_table cm))).
  { intros S_ty cm H. unfold cm_from_vec in H. apply bind_ok in H. destruct H as (a & _ & H).
    apply bind_ok in H. destruct H as (t & Ht & H). injection H as <-. eapply ht_new_perm; eauto. }
  assert (Him : forall S_ty p (im : integer_map V), map from_u32_entry p = payload ->
    im_from_vec E S_ty p = Ok im -> Permutation payload (map from_u32_entry (entries (im_table im)))).
  { intros S_ty p im <- H. unfold im_from_vec in H. apply bind_ok in H. destruct H as (a & _ & H).
    apply bind_ok in H. destruct H as (t & Ht & H). injection H as <-. apply Permutation_map.
    eapply ht_new_perm; eauto. }
  assert (Hlsm : forall S_ty p a b (sm : slice_map V hasher), map from_string_entry p = payload ->
    lsm_from_vec hash_write E S_ty p a b bh = Ok sm ->
    Permutation payload (map from_string_entry (entries (slm_table sm)))).
  { intros S_ty p a b sm <- H. unfold lsm_from_vec in H. apply bind_ok in H. destruct H as (c & _ & H).
    apply bind_ok in H. destruct H as (an & _ & H).
    apply bind_ok in H. destruct H as (t & Ht & H). injection H as <-. apply Permutation_map.
    eapply ht_new_perm; eauto. }
  assert (Hrsm : forall S_ty p a b (sm : slice_map V hasher), map from_string_entry p = payload ->
    rsm_from_vec hash_write E S_ty p a b bh = Ok sm ->
    Permutation payload (map from_string_entry (entries (slm_table sm)))).
  { intros S_ty p a b sm <- H. unfold rsm_from_vec in H. apply bind_ok in H. destruct H as (c & _ & H).
    apply bind_ok in H. destruct H as (an & _ & H).
    apply bind_ok in H. destruct H as (t & Ht & H). injection H as <-. apply Permutation_map.
    eapply ht_new_perm; eauto. }
  assert (Hlm : forall S_ty p (lm : length_map (list Z) V), map from_string_entry p = payload ->
    lm_from_vec zlen E S_ty p = Ok lm -> Permutation payload (map from_string_entry (entries (lm_table lm)))).
  { intros S_ty p lm <- H. unfold lm_from_vec in H. apply bind_ok in H. destruct H as (a & _ & H).
    apply bind_ok in H. destruct H as (t & Ht & H). injection H as <-. apply Permutation_map.
    eapply ht_new_perm; eauto. }
  unfold fm_new. destruct (_ <? 4). { intros H. injection H as <-. apply Permutation_refl. }
  destruct kd.
  - unfold fm_new_u32_map. intros H. apply bind_ok in H. destruct H as (p & Hp & H).
    apply payload_as_u32_perm in Hp. apply bind_ok in H. destruct H as (an & _ & H). destruct an.
    + destruct (_ <=? _); apply bind_ok in H; destruct H as (im & Hm & H); injection H as <-;
        cbn [fm_iter]; eauto.
    + apply bind_ok in H. destruct H as (rm & Hm & H). injection H as <-. cbn [fm_iter].
      rewrite <- Hp. apply Permutation_map. eapply irm_from_vec_perm; eauto.
  - unfold fm_new_string_map. intros H. apply bind_ok in H. destruct H as (p & Hp & H).
    apply payload_as_string_perm in Hp. apply bind_ok in H. destruct H as (an & _ & H).
    destruct (_ <=? _); destruct an; apply bind_ok in H; destruct H as (x & Hm & H); injection H as <-;
      cbn [fm_iter]; eauto.
  - unfold fm_new_common_map. intros H.
    destruct (_ <=? _); apply bind_ok in H; destruct H as (x & Hm & H); injection H as <-;
      cbn [fm_iter]; eauto.
Qed.

(** No bound on the number of entries. *)
Lemma built_safe kd payload bh m :
  typed kd payload ->
  fm_new E kd payload bh = Ok m ->
  Permutation payload (fm_iter m) /\ fm_safe kd m /\
  (distinct keq (map fst payload) -> fm_exact m) /\
  (is_range m -> kd = KindU32 /\ full_span payload).
Proof.
  intros Ht H. split; [eapply fm_new_perm; eauto|].
  unfold fm_new in H. destruct (Z.ltb_spec (zlen payload) 4).
  { injection H as <-. cbn. split; auto. split; auto. intros []. }
  assert (Hne : payload <> []) by (intros ->; change (zlen []) with 0 in *; lia).
  destruct kd.
  - destruct (as_u32_payload payload Ht) as (p & Hp & Hm & Hr).
    assert (Hlen : zlen payload = zlen p) by (rewrite <- Hm; apply zlen_map).
    assert (Hpne : p <> []) by (intros ->; cbn in Hm; congruence).
    unfold fm_new_u32_map in H. rewrite Hp in H. cbn [bind] in H.
    apply bind_ok in H. destruct H as (an & _ & H). destruct an.
    + destruct (_ <=? _); apply bind_ok in H; destruct H as (im & Hm' & H); injection H as <-;
        cbn [fm_safe fm_exact is_range].
      * pose proof (im_safe E HE u8 eq_refl p im Hm'). tauto.
      * pose proof (im_safe E HE usize eq_refl p im Hm'). tauto.
    + apply bind_ok in H. destruct H as (rm & Hm' & H). injection H as <-. cbn [fm_safe fm_exact is_range].
      destruct (irm_sound p (prof E) rm Hpne Hr Hm') as (_ & Hwf & (mn & mx & Hmn & Hmx & Hs) & Hok).
      assert (Hkeys : map (fun e => u32_of (fst e)) payload = map fst p).
      { rewrite <- Hm, map_map. apply map_ext. intros []. reflexivity. }
      split; auto. split.
      * intros Hd. apply Hok. rewrite <- Hkeys. eapply distinct_u32; eauto.
      * intros _. split; auto. exists mn, mx. rewrite <- Hkeys in Hmn, Hmx.
        destruct (is_min_max_keys payload mn mx Ht Hmn Hmx) as (H1 & H2 & H3).
        rewrite Hlen. auto.
  - destruct (as_string_payload payload Ht) as (p & Hp & Hm & Hr).
    assert (Hlen : zlen payload = zlen p) by (rewrite <- Hm; apply zlen_map).
    assert (Hpne : p <> []) by (intros ->; cbn in Hm; congruence).
    unfold fm_new_string_map in H. rewrite Hp in H. cbn [bind] in H.
    apply bind_ok in H. destruct H as (an & Han & H). apply analyze_slice_keys_range in Han.
    destruct (_ <=? _); destruct an as [|i l|i l|]; apply bind_ok in H; destruct H as (x & Hm' & H);
      injection H as <-; cbn [fm_safe fm_exact is_range].
    + pose proof (cm_safe E HE u8 eq_refl hash_one payload bh x Hm'). tauto.
    + pose proof (lsm_safe E HE u8 eq_refl hash_write p i (i + l) bh x ltac:(lia) Hm'). tauto.
    + exfalso. eapply (rsm_from_vec_forward_fails hash_write E u8 p i (i + l) bh x); eauto; lia.
    + pose proof (lm_safe E HE u8 eq_refl zlen p x Hm'). tauto.
    + pose proof (cm_safe E HE usize eq_refl hash_one payload bh x Hm'). tauto.
    + pose proof (lsm_safe E HE usize eq_refl hash_write p i (i + l) bh x ltac:(lia) Hm'). tauto.
    + exfalso. eapply (rsm_from_vec_forward_fails hash_write E usize p i (i + l) bh x); eauto; lia.
    + pose proof (cm_safe E HE usize eq_refl hash_one payload bh x Hm'). tauto.
  - unfold fm_new_common_map in H.
    destruct (_ <=? _); apply bind_ok in H; destruct H as (x & Hm' & H); injection H as <-;
      cbn [fm_safe fm_exact is_range].
    + pose proof (cm_safe E HE u8 eq_refl hash_one payload bh x Hm'). tauto.
    + pose proof (cm_safe E HE usize eq_refl hash_one payload bh x Hm'). tauto.
Qed.


Lemma built_sound kd payload bh m :
  countable (prof E) (zlen payload) -> typed kd payload ->
  fm_new E kd payload bh = Ok m ->
  Permutation payload (fm_iter m) /\ fm_inv kd bh m /\
  (distinct keq (map fst payload) -> fm_exact m) /\
  (is_range m -> kd = KindU32 /\ full_span payload).
Proof.
  intros Hc Ht H. destruct (built_safe kd payload bh m Ht H) as (H1 & _ & H3 & H4).
  split; auto. split; [|split; auto]. clear H1 H3 H4.
  unfold fm_new in H. destruct (Z.ltb_spec (zlen payload) 4).
  { injection H as <-. exact I. }
  assert (Hne : payload <> []) by (intros ->; change (zlen []) with 0 in *; lia).
  destruct kd.
  - destruct (as_u32_payload payload Ht) as (p & Hp & Hm & Hr).
    assert (Hlen : zlen payload = zlen p) by (rewrite <- Hm; apply zlen_map).
    assert (Hpne : p <> []) by (intros ->; cbn in Hm; congruence).
    unfold fm_new_u32_map in H. rewrite Hp in H. cbn [bind] in H.
    apply bind_ok in H. destruct H as (an & _ & H). rewrite Hlen in Hc. destruct an.
    + destruct (_ <=? _); apply bind_ok in H; destruct H as (im & Hm' & H); injection H as <-;
        cbn [fm_inv].
      * destruct (im_sound E HE u8 eq_refl p im Hc Hm'). tauto.
      * destruct (im_sound E HE usize eq_refl p im Hc Hm'). tauto.
    + apply bind_ok in H. destruct H as (rm & Hm' & H). injection H as <-. cbn [fm_inv].
      destruct (irm_sound p (prof E) rm Hpne Hr Hm') as (_ & Hwf & _). auto.
  - destruct (as_string_payload payload Ht) as (p & Hp & Hm & Hr).
    assert (Hlen : zlen payload = zlen p) by (rewrite <- Hm; apply zlen_map).
    assert (Hpne : p <> []) by (intros ->; cbn in Hm; congruence).
    unfold fm_new_string_map in H. rewrite Hp in H. cbn [bind] in H.
    apply bind_ok in H. destruct H as (an & Han & H). apply analyze_slice_keys_range in Han.
    destruct (_ <=? _); destruct an as [|i l|i l|]; apply bind_ok in H; destruct H as (x & Hm' & H);
      injection H as <-; cbn [fm_inv].
    + destruct (cm_sound E HE u8 eq_refl hash_one payload bh x Hc Hm') as (_ & H2 & H3). rewrite H3. tauto.
    + rewrite Hlen in Hc. destruct (lsm_sound E HE u8 eq_refl hash_write p i (i + l) bh x Hc Hpne Hm') as (_ & H2 & _). tauto.
    + exfalso. eapply (rsm_from_vec_forward_fails hash_write E u8 p i (i + l) bh x); eauto; lia.
    + rewrite Hlen in Hc. destruct (lm_sound E HE u8 eq_refl zlen p x Hc Hm'). tauto.
    + destruct (cm_sound E HE usize eq_refl hash_one payload bh x Hc Hm') as (_ & H2 & H3). rewrite H3. tauto.
    + rewrite Hlen in Hc. destruct (lsm_sound E HE usize eq_refl hash_write p i (i + l) bh x Hc Hpne Hm') as (_ & H2 & _). tauto.
    + exfalso. eapply (rsm_from_vec_forward_fails hash_write E usize p i (i + l) bh x); eauto; lia.
    + destruct (cm_sound E HE usize eq_refl hash_one payload bh x Hc Hm') as (_ & H2 & H3). rewrite H3. tauto.
  - unfold fm_new_common_map in H.
    destruct (_ <=? _); apply bind_ok in H; destruct H as (x & Hm' & H); injection H as <-;
      cbn [fm_inv].
    + destruct (cm_sound E HE u8 eq_refl hash_one payload bh x Hc Hm') as (_ & H2 & H3). rewrite H3. tauto.
    + destruct (cm_sound E HE usize eq_refl hash_one payload bh x Hc Hm') as (_ & H2 & H3). rewrite H3. tauto.
Qed.

End Facade.
