(** Proofs about the FrozenMap facade. *)
From Coq Require Import List ZArith Bool Lia Permutation.
From Verif Require Import Base BaseLemmas IntKeyAnalyzer SliceKeyAnalyzer HashTable HashTableProofs
  HashCodeAnalyzerProofs IntProofs SliceKeyAnalyzerProofs Maps MapsProofs FrozenMap.
Import ListNotations.
Open Scope Z_scope.

(** ** Probing without any assumption on hashes or equality *)

Definition at_pos {A} (l : list A) (r : option nat) : option A :=
  match r with Some i => nth_error l i | None => None end.

Lemma probe_weak {K V} (t : hash_table K V) code (matches : K -> bool) :
  table_safe t ->
  exists r,
    (range <- ht_get_hash_info t code ;; ht_probe t range matches) = Ok r /\
    (range <- ht_get_hash_info t code ;; ht_probe_entry t range matches) =
      Ok (at_pos (entries t) r) /\
    (forall i, r = Some i -> exists e, nth_error (entries t) i = Some e /\ matches (fst e) = true).
Proof.
  intros Hok. destruct (Hok code) as (a & b & Hi & Hr).
  rewrite Hi. cbn [bind]. unfold ht_probe, ht_probe_entry, slice_unchecked. cbn [fst snd].
  rewrite Hr. cbn [bind]. apply range_ok_iff in Hr. destruct Hr as (Ha & Hb).
  destruct (sub_split a b (entries t) Ha Hb) as (pre & post & He & Hpre & Hlen).
  set (seg := sub a b (entries t)) in *.
  eexists. split; [reflexivity|]. rewrite find_find_pos.
  destruct (find_pos (fun e => matches (fst e)) seg) as [i|] eqn:F; cbn [option_map at_pos].
  - apply find_pos_some in F. destruct F as (x & Hx & Hm & _).
    assert (Hpos : nth_error (entries t) (Z.to_nat a + i) = Some x).
    { rewrite He. rewrite nth_error_app2 by (unfold zlen in *; lia).
      replace (Z.to_nat a + i - length pre)%nat with i by (unfold zlen in *; lia).
      rewrite nth_error_app1; auto. apply nth_error_Some. congruence. }
    split; [now rewrite Hx, Hpos|]. intros j Hj. injection Hj as <-. eauto.
  - split; auto. intros i Hi'. discriminate.
Qed.

Lemma deref_at_pos {K V} (es : list (K * V)) r :
  (forall i, r = Some i -> exists e, nth_error es i = Some e) ->
  deref es r = Ok (option_map snd (at_pos es r)).
Proof.
  intros H. destruct r as [i|]; [|reflexivity]. cbn. destruct (H i eq_refl) as (e & ->). reflexivity.
Qed.

Lemma at_pos_map {A B} (f : A -> B) l r : at_pos (map f l) r = option_map f (at_pos l r).
Proof. destruct r; cbn; auto. apply nth_error_map. Qed.

(** ** Payload conversions *)

Section Proofs.
Context {O V : Type}.
Variable eqbO : O -> O -> bool.
Variable E : env.
Notation key := (key O).
Notation hasher := (hasher O).
Notation keq := (key_eqb eqbO).
Implicit Types (payload : list (key * V)) (m : map_types O V) (k : key) (bh : hasher).

Lemma as_u32_payload payload :
  (forall e, In e payload -> has_kind KindU32 (fst e)) ->
  exists p, payload_as_u32 payload = Ok p /\ map from_u32_entry p = payload /\
    (forall e, In e p -> 0 <= fst e < 2 ^ 32).
Proof.
  induction payload as [|[k v] payload IH]; intros H.
  - exists []. split; [reflexivity|]. split; [reflexivity|]. intros e [].
  - destruct IH as (p & Hp & Hm & Hr). { intros; apply H; now right. }
    pose proof (H (k, v) ltac:(now left)) as Hk. cbn [fst] in Hk.
    destruct k as [n|s|o]; [|destruct Hk|destruct Hk]. cbn [has_kind] in Hk.
    exists ((n, v) :: p). unfold payload_as_u32 in *. cbn [mapM fst snd as_u32 bind]. rewrite Hp.
    cbn [bind]. split; [reflexivity|]. split.
    + cbn. now rewrite Hm.
    + intros e [<-|He]; auto.
Qed.

Lemma as_string_payload payload :
  (forall e, In e payload -> has_kind KindString (fst e)) ->
  exists p, payload_as_string payload = Ok p /\ map from_string_entry p = payload /\
    (forall e, In e p -> zlen (fst e) < 2 ^ 64).
Proof.
  induction payload as [|[k v] payload IH]; intros H.
  - exists []. split; [reflexivity|]. split; [reflexivity|]. intros e [].
  - destruct IH as (p & Hp & Hm & Hr). { intros; apply H; now right. }
    pose proof (H (k, v) ltac:(now left)) as Hk. cbn [fst] in Hk.
    destruct k as [n|s|o]; [destruct Hk| |destruct Hk]. cbn [has_kind] in Hk.
    exists ((s, v) :: p). unfold payload_as_string in *. cbn [mapM fst snd as_string bind]. rewrite Hp.
    cbn [bind]. split; [reflexivity|]. split.
    + cbn. now rewrite Hm.
    + intros e [<-|He]; auto.
Qed.

(** ** Invariant of built maps *)

(** Range maps whose span matches the number of entries (keys may repeat). *)
Definition irm_wf (rm : integer_range_map V) : Prop :=
  irm_entries rm <> [] /\
  irm_max rm = irm_min rm + zlen (irm_entries rm) - 1 /\
  irm_max rm - irm_min rm < 2 ^ 32.

Definition fm_inv (kd : kind) (bh : hasher) m : Prop :=
  match m with
  | MScanning _ => True
  | MCommonSmall m | MCommonLarge m => table_ok (hash_one (cm_bh m)) (cm_table m) /\ cm_bh m = bh
  | MU32Small m | MU32Large m => kd = KindU32 /\ table_ok int_code (im_table m)
  | MU32Range m => kd = KindU32 /\ irm_wf m
  | MLeftStringSliceSmall m | MLeftStringSliceLarge m =>
      kd = KindString /\ left_map_ok hash_write m
  | MRightStringSliceSmall m | MRightStringSliceLarge m =>
      kd = KindString /\ right_map_ok hash_write m
  | MStringLengthSmall m => kd = KindString /\ table_ok zlen (lm_table m)
  end.

(** What memory safety needs: it holds for built maps of any size. *)
Definition fm_safe (kd : kind) m : Prop :=
  match m with
  | MScanning _ => True
  | MCommonSmall m | MCommonLarge m => table_safe (cm_table m)
  | MU32Small m | MU32Large m => kd = KindU32 /\ table_safe (im_table m)
  | MU32Range m => kd = KindU32 /\ irm_wf m
  | MLeftStringSliceSmall m | MLeftStringSliceLarge m =>
      kd = KindString /\ table_safe (slm_table m) /\ 0 <= slm_start m <= slm_end m
  | MRightStringSliceSmall m | MRightStringSliceLarge m =>
      kd = KindString /\ table_safe (slm_table m) /\ 0 <= slm_end m <= slm_start m
  | MStringLengthSmall m => kd = KindString /\ table_safe (lm_table m)
  end.

Lemma fm_inv_safe kd bh m : fm_inv kd bh m -> fm_safe kd m.
Proof.
  destruct m; cbn [fm_inv fm_safe]; auto.
  1-4: intros (H1 & H2); try split; eauto using table_ok_safe.
  1-4: intros (H1 & H2 & H3 & _); split; [|split]; eauto using table_ok_safe.
  intros (H1 & H2). eauto using table_ok_safe.
Qed.

Definition fm_exact m : Prop :=
  match m with MU32Range m => irm_ok u32 m | _ => True end.
Definition is_range m : Prop :=
  match m with MU32Range _ => True | _ => False end.

(** Equal keys hash alike. *)
Definition respects bh : Prop := forall a b, keq a b = true -> hash_one bh a = hash_one bh b.

Lemma fm_len_iter m : fm_len m = zlen (fm_iter m).
Proof. destruct m; cbn [fm_len fm_iter]; unfold ht_len; now rewrite ?zlen_map. Qed.

Lemma has_kind_u32 k : has_kind KindU32 k -> exists n, k = KU32 n /\ 0 <= n < 2 ^ 32.
Proof. destruct k; cbn; intros H; try destruct H; eauto. Qed.
Lemma has_kind_string k : has_kind KindString k -> exists s, k = KStr s /\ zlen s < 2 ^ 64.
Proof. destruct k; cbn [has_kind]; intros H; [destruct H| |destruct H]; eauto. Qed.

(** Lookups in a well-formed map: safe and mutually consistent whatever the hash
    function and the equality are. *)
Lemma fm_lookup_safe kd m k :
  fm_safe kd m -> has_kind kd k ->
  exists r,
    fm_get_at eqbO E m k = Ok r /\
    fm_get_mut eqbO E m k = Ok r /\
    fm_get eqbO E m k = Ok (option_map snd (at_pos (fm_iter m) r)) /\
    fm_get_key_value eqbO E m k = Ok (at_pos (fm_iter m) r) /\
    (forall i, r = Some i -> exists e, nth_error (fm_iter m) i = Some e /\
       (~ is_range m -> keq k (fst e) = true)).
Proof.
  intros Hinv Hk.
  assert (Hcommon : forall cm : common_map key V hasher, table_safe (cm_table cm) ->
    exists r,
      cm_get_at keq id_key hash_one cm k = Ok r /\
      cm_get_mut keq id_key hash_one cm k = Ok r /\
      cm_get keq id_key hash_one cm k = Ok (option_map snd (at_pos (entries (cm_table cm)) r)) /\
      cm_get_key_value keq id_key hash_one cm k = Ok (at_pos (entries (cm_table cm)) r) /\
      (forall i, r = Some i -> exists e, nth_error (entries (cm_table cm)) i = Some e /\
         keq k (fst e) = true)).
  { intros cm Ht. destruct (probe_weak _ (hash_one (cm_bh cm) k) (fun x => keq k (id_key x)) Ht)
      as (r & H1 & H2 & H3).
    exists r. unfold cm_get, cm_get_at, cm_get_mut, cm_get_key_value, cm_get_hash_info.
    rewrite H1, H2. cbn [bind]. repeat split; auto.
    apply deref_at_pos. intros i Hi. destruct (H3 i Hi) as (e & He & _). eauto. }
  assert (Hint : forall (im : integer_map V) n, k = KU32 n -> table_safe (im_table im) ->
    exists r,
      im_get_at im n = Ok r /\ im_get_mut im n = Ok r /\
      im_get im n = Ok (option_map snd (at_pos (entries (im_table im)) r)) /\
      im_get_key_value im n = Ok (at_pos (entries (im_table im)) r) /\
      (forall i, r = Some i -> exists e, nth_error (entries (im_table im)) i = Some e /\
         (n =? fst e) = true)).
  { intros im n -> Ht. destruct (probe_weak _ (int_code n) (fun x => n =? x) Ht) as (r & H1 & H2 & H3).
    exists r. unfold im_get, im_get_at, im_get_mut, im_get_key_value, im_get_hash_info.
    rewrite H1, H2. cbn [bind]. repeat split; auto.
    apply deref_at_pos. intros i Hi. destruct (H3 i Hi) as (e & He & _). eauto. }
  assert (Hslice : forall (sm : slice_map V hasher) s info,
    k = KStr s ->
    table_safe (slm_table sm) ->
    (exists code, info = ht_get_hash_info (slm_table sm) code) ->
    exists r,
      (range <- info ;; ht_probe (slm_table sm) range (fun x => bytes_eqb s x)) = Ok r /\
      (range <- info ;; ht_probe_entry (slm_table sm) range (fun x => bytes_eqb s x)) =
        Ok (at_pos (entries (slm_table sm)) r) /\
      deref (entries (slm_table sm)) r = Ok (option_map snd (at_pos (entries (slm_table sm)) r)) /\
      (forall i, r = Some i -> exists e, nth_error (entries (slm_table sm)) i = Some e /\
         bytes_eqb s (fst e) = true)).
  { intros sm s info -> Ht (code & ->).
    destruct (probe_weak _ code (fun x => bytes_eqb s x) Ht) as (r & H1 & H2 & H3).
    exists r. rewrite H1, H2. cbn [bind]. repeat split; auto.
    apply deref_at_pos. intros i Hi. destruct (H3 i Hi) as (e & He & _). eauto. }
  assert (Hleft : forall sm : slice_map V hasher, kd = KindString -> table_safe (slm_table sm) /\ 0 <= slm_start sm <= slm_end sm ->
    exists r s, k = KStr s /\
      lsm_get_at hash_write sm s = Ok r /\ lsm_get_mut hash_write sm s = Ok r /\
      lsm_get hash_write sm s = Ok (option_map snd (at_pos (entries (slm_table sm)) r)) /\
      lsm_get_key_value hash_write sm s = Ok (at_pos (entries (slm_table sm)) r) /\
      (forall i, r = Some i -> exists e, nth_error (entries (slm_table sm)) i = Some e /\
         bytes_eqb s (fst e) = true)).
  { intros sm -> (Ht & Hab). destruct (has_kind_string k Hk) as (s & -> & Hs).
    destruct (Hslice sm s (lsm_get_hash_info hash_write sm s)) as (r & H1 & H2 & H3 & H4); auto.
    { unfold lsm_get_hash_info. destruct (Z.leb_spec (slm_end sm) (zlen s)).
      - rewrite slice_hash_ok by lia. cbn [bind]. eauto.
      - cbn [bind]. eauto. }
    exists r, s. unfold lsm_get, lsm_get_at, lsm_get_mut, lsm_get_key_value.
    rewrite H1, H2. cbn [bind]. repeat split; auto. }
  assert (Hright : forall sm : slice_map V hasher, kd = KindString -> table_safe (slm_table sm) /\ 0 <= slm_end sm <= slm_start sm ->
    exists r s, k = KStr s /\
      rsm_get_at hash_write E sm s = Ok r /\ rsm_get_mut hash_write E sm s = Ok r /\
      rsm_get hash_write E sm s = Ok (option_map snd (at_pos (entries (slm_table sm)) r)) /\
      rsm_get_key_value hash_write E sm s = Ok (at_pos (entries (slm_table sm)) r) /\
      (forall i, r = Some i -> exists e, nth_error (entries (slm_table sm)) i = Some e /\
         bytes_eqb s (fst e) = true)).
  { intros sm -> (Ht & Hab). destruct (has_kind_string k Hk) as (s & -> & Hs).
    destruct (Hslice sm s (rsm_get_hash_info hash_write E sm s)) as (r & H1 & H2 & H3 & H4); auto.
    { unfold rsm_get_hash_info. destruct (Z.leb_spec (slm_start sm) (zlen s)).
      - rewrite right_hash_ok by lia. cbn [bind]. eauto.
      - cbn [bind]. eauto. }
    exists r, s. unfold rsm_get, rsm_get_at, rsm_get_mut, rsm_get_key_value.
    rewrite H1, H2. cbn [bind]. repeat split; auto. }
  assert (Hmapz : forall (es : list (Z * V)) n r, k = KU32 n ->
     (forall i, r = Some i -> exists e, nth_error es i = Some e /\ (n =? fst e) = true) ->
     forall i, r = Some i -> exists e, nth_error (map (@from_u32_entry O V) es) i = Some e /\
       (True -> keq k (fst e) = true)).
  { intros es n r -> H i Hi. destruct (H i Hi) as (e & He & Hq). rewrite nth_error_map, He. cbn. eauto. }
  assert (Hmaps : forall (es : list (bytes * V)) s r, k = KStr s ->
     (forall i, r = Some i -> exists e, nth_error es i = Some e /\ bytes_eqb s (fst e) = true) ->
     forall i, r = Some i -> exists e, nth_error (map (@from_string_entry O V) es) i = Some e /\
       (True -> keq k (fst e) = true)).
  { intros es s r -> H i Hi. destruct (H i Hi) as (e & He & Hq). rewrite nth_error_map, He. cbn. eauto. }
  assert (Hsnd_u : forall o : option (Z * V), option_map snd (option_map (@from_u32_entry O V) o) = option_map snd o).
  { intros [[]|]; reflexivity. }
  assert (Hsnd_s : forall o : option (bytes * V), option_map snd (option_map (@from_string_entry O V) o) = option_map snd o).
  { intros [[]|]; reflexivity. }
  destruct m as [sm|cm|cm|im|im|rm|lm|lm|rm|rm|lem];
    cbn [fm_safe fm_get_at fm_get_mut fm_get fm_get_key_value fm_iter is_range] in *.
  - (* scanning *)
    exists (find_pos (fun e => keq k (id_key (fst e))) (sm_entries sm)).
    unfold sm_get, sm_get_at, sm_get_mut, sm_get_key_value. cbn [bind].
    rewrite deref_find_pos, find_find_pos. repeat split; auto.
    intros i Hi. apply find_pos_some in Hi. destruct Hi as (e & He & Hp & _). eauto.
  - destruct (Hcommon cm Hinv) as (r & H1 & H2 & H3 & H4 & H5).
    exists r. repeat split; auto. intros i Hi. destruct (H5 i Hi) as (e & ? & ?). eauto.
  - destruct (Hcommon cm Hinv) as (r & H1 & H2 & H3 & H4 & H5).
    exists r. repeat split; auto. intros i Hi. destruct (H5 i Hi) as (e & ? & ?). eauto.
  - destruct Hinv as (-> & Ht). destruct (has_kind_u32 k Hk) as (n & -> & Hn).
    destruct (Hint im n eq_refl Ht) as (r & H1 & H2 & H3 & H4 & H5).
    exists r. cbn [as_u32 bind]. rewrite H1, H2, H3, H4, at_pos_map, Hsnd_u. repeat split; auto.
    intros i Hi. destruct (Hmapz _ n r eq_refl H5 i Hi) as (e & ? & ?). eauto.
  - destruct Hinv as (-> & Ht). destruct (has_kind_u32 k Hk) as (n & -> & Hn).
    destruct (Hint im n eq_refl Ht) as (r & H1 & H2 & H3 & H4 & H5).
    exists r. cbn [as_u32 bind]. rewrite H1, H2, H3, H4, at_pos_map, Hsnd_u. repeat split; auto.
    intros i Hi. destruct (Hmapz _ n r eq_refl H5 i Hi) as (e & ? & ?). eauto.
  - destruct Hinv as (-> & Hwf). destruct (has_kind_u32 k Hk) as (n & -> & Hn).
    destruct Hwf as (Hne & Hmx & Hsp).
    cbn [as_u32 bind]. unfold irm_get, irm_get_at, irm_get_mut, irm_get_key_value.
    destruct ((irm_min rm <=? n) && (n <=? irm_max rm)) eqn:Eb.
    + assert (irm_min rm <= n <= irm_max rm) by lia.
      rewrite arith_ok by (change (imin u32) with 0; change (imax u32) with (2 ^ 32 - 1); lia).
      cbn [bind]. rewrite to_usize_ok by lia.
      destruct (nth_error (irm_entries rm) (Z.to_nat (n - irm_min rm))) as [e|] eqn:He.
      2:{ apply nth_error_None in He. unfold zlen in *. lia. }
      rewrite (index_checked_ok _ _ e) by (auto; lia). cbn [bind deref].
      exists (Some (Z.to_nat (n - irm_min rm))). cbn [at_pos]. rewrite nth_error_map, He. cbn.
      repeat split; auto. intros i Hi. injection Hi as <-. rewrite nth_error_map, He. cbn.
      eexists. split; eauto.
    + exists None. cbn. repeat split; auto. intros; discriminate.
  - destruct Hinv as (Hkd & Ht). destruct (Hleft lm Hkd Ht) as (r & s & -> & H1 & H2 & H3 & H4 & H5).
    exists r. cbn [as_string bind]. rewrite H1, H2, H3, H4, at_pos_map, Hsnd_s. repeat split; auto.
    intros i Hi. destruct (Hmaps _ s r eq_refl H5 i Hi) as (e & ? & ?). eauto.
  - destruct Hinv as (Hkd & Ht). destruct (Hleft lm Hkd Ht) as (r & s & -> & H1 & H2 & H3 & H4 & H5).
    exists r. cbn [as_string bind]. rewrite H1, H2, H3, H4, at_pos_map, Hsnd_s. repeat split; auto.
    intros i Hi. destruct (Hmaps _ s r eq_refl H5 i Hi) as (e & ? & ?). eauto.
  - destruct Hinv as (Hkd & Ht). destruct (Hright rm Hkd Ht) as (r & s & -> & H1 & H2 & H3 & H4 & H5).
    exists r. cbn [as_string bind]. rewrite H1, H2, H3, H4, at_pos_map, Hsnd_s. repeat split; auto.
    intros i Hi. destruct (Hmaps _ s r eq_refl H5 i Hi) as (e & ? & ?). eauto.
  - destruct Hinv as (Hkd & Ht). destruct (Hright rm Hkd Ht) as (r & s & -> & H1 & H2 & H3 & H4 & H5).
    exists r. cbn [as_string bind]. rewrite H1, H2, H3, H4, at_pos_map, Hsnd_s. repeat split; auto.
    intros i Hi. destruct (Hmaps _ s r eq_refl H5 i Hi) as (e & ? & ?). eauto.
  - destruct Hinv as (-> & Ht). destruct (has_kind_string k Hk) as (s & -> & Hs).
    destruct (probe_weak _ (zlen s) (fun x => bytes_eqb s (id_bytes x)) Ht) as (r & H1 & H2 & H3).
    exists r. cbn [as_string bind]. unfold lm_get, lm_get_at, lm_get_mut, lm_get_key_value, lm_get_hash_info.
    rewrite H1, H2. cbn [bind]. rewrite at_pos_map, Hsnd_s. repeat split; auto.
    + apply deref_at_pos. intros i Hi. destruct (H3 i Hi) as (e & He & _). eauto.
    + intros i Hi. destruct (Hmaps _ s r eq_refl H3 i Hi) as (e & ? & ?). eauto.
Qed.

Lemma fm_lookup_agree kd bh m k :
  fm_inv kd bh m -> has_kind kd k ->
  exists r,
    fm_get_at eqbO E m k = Ok r /\
    fm_get_mut eqbO E m k = Ok r /\
    fm_get eqbO E m k = Ok (option_map snd (at_pos (fm_iter m) r)) /\
    fm_get_key_value eqbO E m k = Ok (at_pos (fm_iter m) r) /\
    (forall i, r = Some i -> exists e, nth_error (fm_iter m) i = Some e /\
       (~ is_range m -> keq k (fst e) = true)).
Proof. intros H. apply fm_lookup_safe. eapply fm_inv_safe; eauto. Qed.

(** With a lawful hash function a lookup finds the first equal key in iteration order. *)
Lemma fm_get_at_exact kd bh m k :
  fm_inv kd bh m -> fm_exact m -> respects bh -> has_kind kd k ->
  fm_get_at eqbO E m k = Ok (find_pos (fun e => keq k (fst e)) (fm_iter m)).
Proof.
  intros Hinv Hex Hr Hk.
  destruct m as [sm|cm|cm|im|im|rm|lm|lm|rm|rm|lem];
    cbn [fm_inv fm_get_at fm_iter fm_exact] in *.
  - reflexivity.
  - destruct Hinv as (Ht & Hb). destruct (cm_lookup_ok keq id_key hash_one hash_one cm k) as (H1 & _); auto.
    intros e _ Hq. unfold id_key in Hq. apply Hr in Hq. rewrite Hb. now symmetry.
  - destruct Hinv as (Ht & Hb). destruct (cm_lookup_ok keq id_key hash_one hash_one cm k) as (H1 & _); auto.
    intros e _ Hq. unfold id_key in Hq. apply Hr in Hq. rewrite Hb. now symmetry.
  - destruct Hinv as (-> & Ht). destruct (has_kind_u32 k Hk) as (n & -> & Hn).
    cbn [as_u32 bind]. rewrite find_pos_map. apply im_lookup_ok; auto.
  - destruct Hinv as (-> & Ht). destruct (has_kind_u32 k Hk) as (n & -> & Hn).
    cbn [as_u32 bind]. rewrite find_pos_map. apply im_lookup_ok; auto.
  - destruct Hinv as (-> & Ht). destruct (has_kind_u32 k Hk) as (n & -> & Hn).
    cbn [as_u32 bind]. rewrite find_pos_map. apply irm_lookup_ok; auto.
  - destruct Hinv as (-> & Ht). destruct (has_kind_string k Hk) as (s & -> & Hs).
    cbn [as_string bind]. rewrite find_pos_map. apply lsm_lookup_ok; auto.
  - destruct Hinv as (-> & Ht). destruct (has_kind_string k Hk) as (s & -> & Hs).
    cbn [as_string bind]. rewrite find_pos_map. apply lsm_lookup_ok; auto.
  - destruct Hinv as (-> & Ht). destruct (has_kind_string k Hk) as (s & -> & Hs).
    cbn [as_string bind]. rewrite find_pos_map. apply rsm_lookup_ok; auto.
  - destruct Hinv as (-> & Ht). destruct (has_kind_string k Hk) as (s & -> & Hs).
    cbn [as_string bind]. rewrite find_pos_map. apply rsm_lookup_ok; auto.
  - destruct Hinv as (-> & Ht). destruct (has_kind_string k Hk) as (s & -> & Hs).
    cbn [as_string bind]. rewrite find_pos_map.
    destruct (lm_lookup_ok bytes_eqb id_bytes zlen zlen lem s Ht) as (H1 & _); auto.
    intros x Hx. apply bytes_eqb_eq in Hx. now subst.
Qed.

Lemma fm_lookup_exact kd bh m k :
  fm_inv kd bh m -> fm_exact m -> respects bh -> has_kind kd k ->
  let p e := keq k (fst e) in
  fm_get_at eqbO E m k = Ok (find_pos p (fm_iter m)) /\
  fm_get_mut eqbO E m k = Ok (find_pos p (fm_iter m)) /\
  fm_get eqbO E m k = Ok (option_map snd (find p (fm_iter m))) /\
  fm_get_key_value eqbO E m k = Ok (find p (fm_iter m)).
Proof.
  intros Hinv Hex Hr Hk p. pose proof (fm_get_at_exact kd bh m k Hinv Hex Hr Hk) as H0.
  destruct (fm_lookup_agree kd bh m k Hinv Hk) as (r & H1 & H2 & H3 & H4 & _).
  rewrite H0 in H1. injection H1 as <-. rewrite find_find_pos.
  unfold at_pos in *. auto.
Qed.

End Proofs.
