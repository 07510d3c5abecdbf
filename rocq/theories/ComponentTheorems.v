(** Statements about the specialized maps, the hash table and the analyzers, proved. *)
From Coq Require Import List ZArith Bool Arith Lia Permutation Znumtheory.
From Verif Require Import Spec MapSpec Base BaseLemmas EqbLists IntKeyAnalyzer SliceKeyAnalyzer HashCodeAnalyzer
  HashTable HashTableProofs HashCodeAnalyzerProofs IntProofs SliceKeyAnalyzerProofs Maps MapsProofs FrozenMap
  FrozenMapProofs FrozenMapBuild FrozenMapFacts CapacityProofs BuildSound Iterators IterSpec IteratorProofs.
Import ListNotations.
Open Scope Z_scope.

(** ** Generic: a lookup that finds the first match in a permutation of the payload *)

Lemma find_exact {K V} (eqb : K -> K -> bool) (D : K -> Prop) (payload es : list (K * V)) get :
  equivalence eqb -> distinct eqb (map fst payload) -> Permutation payload es ->
  (forall k, D k -> get k = Ok (option_map snd (find (fun e => eqb k (fst e)) es))) ->
  exact_get eqb D payload get.
Proof.
  intros He Hd HP Hg k Hk. rewrite (Hg k Hk). split; [eauto|].
  assert (Hd' : distinct eqb (map fst es)).
  { eapply distinct_perm; [exact He| |exact Hd]. now apply Permutation_map. }
  destruct (find _ es) as [[k' v']|] eqn:F; cbn [option_map snd].
  - apply find_some in F. cbn [fst] in F. destruct F as (F1 & F2).
    assert (Hs : supplied eqb payload k v').
    { exists k'. split; auto. now apply (Permutation_in _ (Permutation_sym HP)). }
    split.
    + intros v. split.
      * intros [= <-]. exact Hs.
      * intros Hv. do 2 f_equal. eapply (supplied_unique eqb He es k); auto.
        -- exists k'. auto.
        -- eapply supplied_perm; eauto.
    + split; [discriminate|]. intros Hn. exfalso. exact (supplied_not eqb payload k v' Hs Hn).
  - assert (Hn : not_supplied eqb payload k).
    { intros k' v Hi. apply (Permutation_in _ HP) in Hi. exact (find_none _ _ F _ Hi). }
    split; [|tauto]. intros v. split; [discriminate|].
    intros Hs. exfalso. exact (supplied_not eqb payload k v Hs Hn).
Qed.

Lemma bytes_equiv : equivalence bytes_eqb.
Proof.
  assert (H : forall a b, bytes_eqb a b = true <-> a = b).
  { induction a as [|x a IH]; intros [|y b]; cbn; split; intros H; try discriminate; auto.
    - apply andb_prop in H. destruct H as (H1 & H2). apply Z.eqb_eq in H1. apply IH in H2. congruence.
    - injection H as -> ->. rewrite Z.eqb_refl. now apply IH. }
  split; intros *; rewrite ?H; congruence.
Qed.
Lemma Z_equiv : equivalence Z.eqb.
Proof. split; intros *; rewrite ?Z.eqb_eq; congruence. Qed.

Lemma map_eq_distinct_Z (l : list Z) : NoDup l <-> distinct Z.eqb l.
Proof.
  split.
  - induction 1 as [|x l Hx Hl IH]; cbn; auto. split; auto. intros y Hy. apply Z.eqb_neq. intros ->. auto.
  - intros H. now apply (distinct_NoDup Z.eqb Z_equiv).
Qed.

(** ** C07: RightSliceMap *)

Lemma right_slice_forward_unusable :
  forall (V BH : Type) (hw : BH -> list Z -> Z) (E : env) (S_ty : int_type)
         (payload : list (list Z * V)) (a b : Z) (bh : BH),
  payload <> [] -> 0 <= a < b -> b < 2 ^ 64 ->
  (forall e, In e payload -> zlen (fst e) < 2 ^ 64) ->
  (forall m, rsm_from_vec hw E S_ty payload a b bh <> Ok m) /\
  ((exists e, In e payload /\ b <= zlen (fst e)) ->
   rsm_from_vec hw E S_ty payload a b bh = UB OutOfBounds).
Proof.
  intros V BH hw E S_ty payload a b bh Hne Hab Hb Hlen. split.
  - intros m. now apply rsm_from_vec_forward_fails.
  - intros Hex. now apply rsm_from_vec_forward_ub.
Qed.

Lemma right_slice_reversed_exact :
  forall (V BH : Type) (hw : BH -> list Z -> Z) (E : env) (S_ty : int_type)
         (payload : list (list Z * V)) (a b : Z) (bh : BH),
  env_ok E -> fits S_ty (zlen payload) -> 0 <= b <= a ->
  (forall e, In e payload -> a <= zlen (fst e) < 2 ^ 64) ->
  distinct bytes_eqb (map fst payload) ->
  exists m, rsm_from_vec hw E S_ty payload a b bh = Ok m /\
    Permutation payload (entries (slm_table m)) /\
    exact_get bytes_eqb (fun q => zlen q < 2 ^ 64) payload (rsm_get hw E m).
Proof.
  intros V BH hw E S_ty payload a b bh HE HF Hab Hk Hd.
  destruct (rsm_from_vec_ok hw E S_ty payload a b bh HE HF Hab Hk) as (m & Hm & HP & Hok & _).
  exists m. split; auto. split; auto.
  apply (find_exact bytes_eqb _ payload _ _ bytes_equiv Hd HP).
  intros q Hq. destruct (rsm_lookup_ok hw E m q Hok Hq) as (H & _).
  unfold rsm_get. rewrite H. cbn [bind]. apply deref_find_pos.
Qed.

(** ** C08: LeftSliceMap *)

Lemma left_slice_exact :
  forall (V BH : Type) (hw : BH -> list Z -> Z) (E : env) (S_ty : int_type)
         (payload : list (list Z * V)) (a b : Z) (bh : BH),
  env_ok E -> fits S_ty (zlen payload) -> 0 <= a <= b ->
  (forall e, In e payload -> b <= zlen (fst e)) ->
  distinct bytes_eqb (map fst payload) ->
  exists m, lsm_from_vec hw E S_ty payload a b bh = Ok m /\
    Permutation payload (entries (slm_table m)) /\
    exact_get bytes_eqb (fun _ => True) payload (lsm_get hw m).
Proof.
  intros V BH hw E S_ty payload a b bh HE HF Hab Hk Hd.
  destruct (lsm_from_vec_ok hw E S_ty payload a b bh HE HF Hab Hk) as (m & Hm & HP & Hok & _).
  exists m. split; auto. split; auto.
  apply (find_exact bytes_eqb _ payload _ _ bytes_equiv Hd HP).
  intros q _. destruct (lsm_lookup_ok hw m q Hok) as (H & _).
  unfold lsm_get. rewrite H. cbn [bind]. apply deref_find_pos.
Qed.

Lemma left_slice_short_key_ub :
  forall (V BH : Type) (hw : BH -> list Z -> Z) (E : env) (S_ty : int_type)
         (payload : list (list Z * V)) (a b : Z) (bh : BH),
  fits S_ty (zlen payload) -> 0 <= a ->
  (exists e, In e payload /\ zlen (fst e) < b) ->
  lsm_from_vec hw E S_ty payload a b bh = UB OutOfBounds.
Proof.
  intros V BH hw E S_ty payload a b bh HF Ha He. apply lsm_from_vec_ub; auto.
  destruct He as (e & Hi & _). now destruct payload.
Qed.

(** ** C41: the other specialized maps *)

Lemma scanning_map_exact :
  forall (K V Q : Type) (eqb : Q -> Q -> bool) (borrow : K -> Q) (payload : list (K * V)),
  equivalence eqb -> distinct eqb (map (fun e => borrow (fst e)) payload) ->
  exact_get eqb (fun _ => True) (map (fun e => (borrow (fst e), snd e)) payload)
    (sm_get eqb borrow (sm_from_vec payload)).
Proof.
  intros K V Q eqb borrow payload He Hd.
  eapply find_exact; auto.
  - rewrite map_map. exact Hd.
  - intros q _. unfold sm_get, sm_get_at, sm_from_vec. cbn [bind sm_entries]. rewrite deref_find_pos.
    rewrite find_map. now destruct (find _ payload).
Qed.

Lemma common_map_exact :
  forall (K V Q BH : Type) (eqb : Q -> Q -> bool) (borrow : K -> Q)
         (hash_key : BH -> K -> Z) (hash_query : BH -> Q -> Z)
         (E : env) (S_ty : int_type) (payload : list (K * V)) (bh : BH),
  env_ok E -> fits S_ty (zlen payload) -> equivalence eqb ->
  (forall k, hash_key bh k = hash_query bh (borrow k)) ->
  (forall a b, eqb a b = true -> hash_query bh a = hash_query bh b) ->
  distinct eqb (map (fun e => borrow (fst e)) payload) ->
  exists m, cm_from_vec hash_key E S_ty payload bh = Ok m /\
    Permutation payload (entries (cm_table m)) /\
    exact_get eqb (fun _ => True) (map (fun e => (borrow (fst e), snd e)) payload)
      (cm_get eqb borrow hash_query m).
Proof.
  intros K V Q BH eqb borrow hk hq E S_ty payload bh HE HF He Hkq Hq Hd.
  destruct (cm_from_vec_ok hk E S_ty payload bh HE HF) as (m & Hm & HP & Hok & Hbh).
  exists m. split; auto. split; auto.
  eapply (find_exact eqb _ _ (map (fun e => (borrow (fst e), snd e)) (entries (cm_table m)))); auto.
  - rewrite map_map. exact Hd.
  - now apply Permutation_map.
  - intros q _. rewrite <- Hbh in Hok.
    destruct (cm_lookup_ok eqb borrow hk hq m q Hok) as (H & _).
    { intros e _ H. rewrite Hbh, Hkq. symmetry. now apply Hq. }
    unfold cm_get. rewrite H. cbn [bind]. rewrite deref_find_pos, find_map. now destruct (find _ _).
Qed.

Lemma integer_map_exact :
  forall (V : Type) (E : env) (S_ty : int_type) (payload : list (Z * V)),
  env_ok E -> fits S_ty (zlen payload) -> NoDup (map fst payload) ->
  exists m, im_from_vec E S_ty payload = Ok m /\
    Permutation payload (entries (im_table m)) /\
    exact_get Z.eqb (fun _ => True) payload (im_get m).
Proof.
  intros V E S_ty payload HE HF Hd.
  destruct (im_from_vec_ok E S_ty payload HE HF) as (m & Hm & HP & Hok).
  exists m. split; auto. split; auto. apply map_eq_distinct_Z in Hd.
  apply (find_exact Z.eqb _ payload _ _ Z_equiv Hd HP).
  intros q _. destruct (im_lookup_ok m q Hok) as (H & _).
  unfold im_get. rewrite H. cbn [bind]. apply deref_find_pos.
Qed.

Lemma length_map_exact :
  forall (K V Q : Type) (eqb : Q -> Q -> bool) (borrow : K -> Q) (len_key : K -> Z) (len_query : Q -> Z)
         (E : env) (S_ty : int_type) (payload : list (K * V)),
  env_ok E -> fits S_ty (zlen payload) -> equivalence eqb ->
  (forall k, len_key k = len_query (borrow k)) ->
  (forall a b, eqb a b = true -> len_query a = len_query b) ->
  distinct eqb (map (fun e => borrow (fst e)) payload) ->
  exists m, lm_from_vec len_key E S_ty payload = Ok m /\
    Permutation payload (entries (lm_table m)) /\
    exact_get eqb (fun _ => True) (map (fun e => (borrow (fst e), snd e)) payload)
      (lm_get eqb borrow len_query m).
Proof.
  intros K V Q eqb borrow lk lq E S_ty payload HE HF He Hkq Hq Hd.
  destruct (lm_from_vec_ok lk E S_ty payload HE HF) as (m & Hm & HP & Hok).
  exists m. split; auto. split; auto.
  eapply (find_exact eqb _ _ (map (fun e => (borrow (fst e), snd e)) (entries (lm_table m)))); auto.
  - rewrite map_map. exact Hd.
  - now apply Permutation_map.
  - intros q _. destruct (lm_lookup_ok eqb borrow lk lq m q Hok) as (H & _).
    { intros k H. rewrite Hkq. symmetry. now apply Hq. }
    unfold lm_get. rewrite H. cbn [bind]. rewrite deref_find_pos, find_map. now destruct (find _ _).
Qed.

(** ** C15: arbitrary hash codes *)

Lemma hash_table_memory_safe :
  forall (K V : Type) (E : env) (S_ty : int_type) (payload : list (K * V))
         (analysis_codes : list Z) (build_code : K -> Z) (a : Z * Z) (t : hash_table K V),
  env_ok E -> imin S_ty = 0 ->
  length analysis_codes = length payload ->
  analyze_hash_codes analysis_codes = Ok a ->
  ht_new E S_ty payload (fst a) (fun k => Ok (build_code k)) = Ok t ->
  forall (lookup_code : Z) (matches : K -> bool),
  exists r, (range <- ht_get_hash_info t lookup_code ;; ht_probe t range matches) = Ok r /\
    (forall i, r = Some i -> exists e, nth_error (entries t) i = Some e /\ matches (fst e) = true).
Proof.
  intros K V E S_ty payload codes bc a t HE HS Hl Ha Ht lc matches.
  assert (Hok : table_safe t).
  { apply (build_safe E HE S_ty HS payload codes (fun k => Ok (bc k)) a t); auto.
    intros Hne ->. destruct payload; [congruence|discriminate]. }
  destruct (probe_weak t lc matches Hok) as (r & H1 & _ & H3). eauto.
Qed.

Lemma common_map_memory_safe :
  forall (K V Q BH : Type) (eqb : Q -> Q -> bool) (borrow : K -> Q)
         (hash_key : BH -> K -> Z) (hash_query : BH -> Q -> Z)
         (E : env) (S_ty : int_type) (payload : list (K * V)) (bh : BH) (m : common_map K V BH),
  env_ok E -> imin S_ty = 0 ->
  cm_from_vec hash_key E S_ty payload bh = Ok m ->
  forall q, exists r, cm_get_mut eqb borrow hash_query m q = Ok r /\
    ((r = None /\ cm_get eqb borrow hash_query m q = Ok None /\
      cm_get_key_value eqb borrow hash_query m q = Ok None) \/
     exists i e, r = Some i /\ nth_error (entries (cm_table m)) i = Some e /\
      cm_get eqb borrow hash_query m q = Ok (Some (snd e)) /\
      cm_get_key_value eqb borrow hash_query m q = Ok (Some e) /\ In e payload /\
      eqb q (borrow (fst e)) = true).
Proof.
  intros K V Q BH eqb borrow hk hq E S_ty payload bh m HE HS Hm q.
  pose proof (cm_safe E HE S_ty HS hk payload bh m Hm) as Hok.
  assert (HP : Permutation payload (entries (cm_table m))).
  { unfold cm_from_vec in Hm. apply bind_ok in Hm. destruct Hm as (a & _ & Hm).
    apply bind_ok in Hm. destruct Hm as (t & Ht & Hm). injection Hm as <-. eapply ht_new_perm; eauto. }
  destruct (probe_weak _ (hq (cm_bh m) q) (fun k => eqb q (borrow k)) Hok) as (r & H1 & H2 & H3).
  exists r. unfold cm_get_mut, cm_get, cm_get_at, cm_get_key_value, cm_get_hash_info. rewrite H1, H2.
  split; auto. cbn [bind]. destruct r as [i|]; [right|left; auto].
  destruct (H3 i eq_refl) as (e & He & Hmatch). exists i, e. cbn [deref at_pos]. rewrite He.
  split; auto. split; auto. split; auto. split; auto. split; auto.
  apply (Permutation_in _ (Permutation_sym HP)). now apply (nth_error_In _ i).
Qed.

(** ** C16: which entries a lookup compares *)

Lemma lookup_range_exact :
  forall (K V : Type) (E : env) (S_ty : int_type) (payload : list (K * V)) (n : Z)
         (code_of : K -> Z) (t : hash_table K V),
  env_ok E -> imin S_ty = 0 -> 1 <= n -> countable (prof E) (zlen payload) -> payload <> [] ->
  ht_new E S_ty payload n (fun k => Ok (code_of k)) = Ok t ->
  Permutation payload (entries t) /\
  forall code, exists a b, ht_get_hash_info t code = Ok (a, b) /\
    0 <= a <= b /\ b <= zlen (entries t) /\
    forall i e, nth_error (entries t) i = Some e ->
      (a <= Z.of_nat i < b <-> code_of (fst e) mod n = code mod n).
Proof.
  intros K V E S_ty payload n co t HE HS Hn Hc Hne Ht.
  destruct (ht_new_sound E S_ty payload n (fun k => Ok (co k)) co t HE HS Hn Hc) as (Hok & Hslots); auto.
  split. { eapply ht_new_perm; eauto. }
  intros code. pose proof Hok as (_ & Hinfo). destruct (Hinfo code) as (a & b & Hab & _).
  exists a, b. split; auto. rewrite <- (Hslots Hne). now apply (table_positions co).
Qed.

(** ** C17-C20, C25: choosing the table size *)

Lemma table_size_sound :
  forall codes : list Z, codes <> [] ->
  exists s c, analyze_hash_codes codes = Ok (s, c) /\
    1 <= s /\ zlen codes - tolerated (zlen codes) <= s <= size_limit (zlen codes) /\
    c = Z.of_nat (collisions s codes) /\
    (s = zlen codes \/ c <= tolerated (zlen codes)).
Proof.
  intros codes Hne. destruct (analyze_hash_codes_spec codes Hne) as (s & c & Ha & Hr & Hs & Hc & Hd).
  assert (Ht : initial_acceptable (zlen codes) = tolerated (zlen codes)).
  { unfold initial_acceptable, tolerated. destruct (_ <? _); lia. }
  assert (Hm : max_table_size (zlen codes) = size_limit (zlen codes)).
  { unfold max_table_size, size_limit. destruct (_ <? _); [lia|]. destruct (_ <? _); lia. }
  rewrite Ht in *. rewrite Hm in *. exists s, c. rewrite <- ncoll_collisions. auto.
Qed.

Lemma table_size_empty : analyze_hash_codes [] = Ok (0, 0).
Proof. exact analyze_hash_codes_nil. Qed.

Lemma table_size_small :
  forall codes : list Z, codes <> [] -> zlen codes < 8 ->
  let n := zlen codes in
  exists s c, analyze_hash_codes codes = Ok (s, c) /\
    ((n <= s <= 16 * n /\ collisions s codes = 0%nat /\ c = 0 /\
      forall s', n <= s' < s -> collisions s' codes <> 0%nat) \/
     (s = n /\ c = Z.of_nat (collisions n codes) /\
      forall s', n <= s' <= 16 * n -> collisions s' codes <> 0%nat)).
Proof.
  intros codes Hne H8 n. destruct (analyze_small codes Hne H8) as (s & c & Ha & H). fold n in H.
  assert (Hz : forall s, ncoll s codes = 0 <-> collisions s codes = 0%nat).
  { intros s0. rewrite ncoll_collisions. lia. }
  exists s, c. split; auto. destruct H as [(H1 & H2 & H3 & H4)|(H1 & H2 & H3)]; [left|right].
  - split; auto. split; [now apply Hz|]. split; auto. intros s' Hs'. rewrite <- Hz. auto.
  - split; auto. split; [now rewrite <- ncoll_collisions|]. intros s' Hs'. rewrite <- Hz. auto.
Qed.

Lemma table_size_total : forall codes : list Z, exists r, analyze_hash_codes codes = Ok r.
Proof. intros codes. destruct (analyze_hash_codes_pos codes) as (s & c & H & _). eauto. Qed.

Lemma candidate_list_total :
  forall n tol limit : Z, 0 <= tol <= n -> 0 <= limit ->
  exists l, candidate_sizes n (n - tol) limit = Ok (n :: l).
Proof. intros. apply candidate_sizes_total; lia. Qed.

Lemma five_percent : forall n : Z, 0 <= n < 2 ^ 52 -> f64_five_percent n = n / 20.
Proof. exact f64_five_percent_spec. Qed.

(** ** C21: integer keys *)

Lemma int_range_detection :
  forall (pr : profile) (ty : int_type) (keys : list Z),
  1 <= bits ty -> NoDup keys -> (forall k, In k keys -> imin ty <= k <= imax ty) ->
  (forall x y, In x keys -> In y keys -> x - y <= imax ty) -> zlen keys <= imax ty ->
  (keys <> [] /\ consecutive keys -> analyze_int_keys pr ty keys = Ok IntRange) /\
  (keys = [] \/ ~ consecutive keys -> analyze_int_keys pr ty keys = Ok IntNormal).
Proof.
  intros pr ty keys Hb Hd Hin Hsp Hlen. destruct keys as [|k0 l] eqn:Hk.
  { split; [tauto|]. intros _. reflexivity. }
  rewrite <- Hk in *. assert (Hne : keys <> []) by (subst; discriminate). clear Hk.
  destruct (min_max_exist keys Hne) as (mn & mx & Hmn & Hmx).
  rewrite (analyze_int_keys_ok pr ty keys mn mx); auto; [|now apply Forall_forall|apply Hsp; [apply Hmx|apply Hmn]].
  pose proof (consecutive_iff keys mn mx Hne Hd Hmn Hmx) as Hc. split.
  - intros (_ & Hcons). apply Hc in Hcons. rewrite Hcons, Z.eqb_refl. reflexivity.
  - intros [Hn|Hn]; [congruence|]. destruct (Z.eqb_spec (mx - mn) (zlen keys - 1)); auto. tauto.
Qed.

Lemma int_range_overflow :
  forall (ty : int_type) (keys : list Z) (x y : Z),
  1 <= bits ty -> (forall k, In k keys -> imin ty <= k <= imax ty) ->
  In x keys -> In y keys -> imax ty < y - x -> zlen keys <= imax ty ->
  analyze_int_keys Checked ty keys = Panic POverflow.
Proof.
  intros ty keys x y Hb Hin Hx Hy Hsp Hlen.
  assert (Hne : keys <> []) by (intros ->; destruct Hx).
  destruct (min_max_exist keys Hne) as (mn & mx & Hmn & Hmx).
  apply (analyze_int_keys_spread_overflow ty keys mn mx); auto; [now apply Forall_forall|].
  pose proof (proj2 Hmn x Hx). pose proof (proj2 Hmx y Hy). lia.
Qed.

(** ** C22: IntegerRangeMap *)

Lemma range_map_contract :
  forall (V : Type) (pr : profile) (ty : int_type) (payload : list (Z * V)),
  1 <= bits ty -> payload <> [] -> NoDup (map fst payload) ->
  (forall x y, In x (map fst payload) -> In y (map fst payload) -> x - y <= imax ty /\ x - y < 2 ^ 64) ->
  (consecutive (map fst payload) ->
     exists m, irm_from_vec pr ty payload = Ok m /\ Permutation payload (irm_entries m) /\
       exact_get Z.eqb (fun _ => True) payload (irm_get pr ty m)) /\
  (~ consecutive (map fst payload) -> irm_from_vec pr ty payload = Panic PAssert).
Proof.
  intros V pr ty payload Hb Hne Hd Hsp.
  assert (Hne' : map fst payload <> []) by (destruct payload; [congruence|discriminate]).
  destruct (min_max_exist _ Hne') as (mn & mx & Hmn & Hmx).
  destruct (Hsp mx mn (proj1 Hmx) (proj1 Hmn)) as (Hs1 & Hs2).
  pose proof (consecutive_iff _ mn mx Hne' Hd Hmn Hmx) as Hc. rewrite zlen_map in Hc.
  split; intros Hcons.
  - apply Hc in Hcons.
    destruct (irm_from_vec_ok pr ty payload mn mx Hb Hne Hmn Hmx Hs1 Hs2 Hcons) as (m & Hm & He & Hok).
    exists m. split; auto. rewrite He. split; [apply stable_sort_perm|].
    apply (find_exact Z.eqb _ payload (irm_entries m) _ Z_equiv).
    + now apply map_eq_distinct_Z.
    + rewrite He. apply stable_sort_perm.
    + intros k _. destruct (irm_lookup_ok pr ty m k (Hok Hd)) as (H & _). unfold irm_get. rewrite H.
      cbn [bind]. apply deref_find_pos.
  - rewrite (irm_from_vec_spec pr ty payload mn mx Hne Hmn Hmx).
    assert (H0 : 0 <= mx - mn) by (pose proof (proj2 Hmn mx (proj1 Hmx)); lia).
    rewrite arith_ok.
    2:{ split; auto. unfold imin. destruct (signed ty); [|lia].
        assert (0 <= 2 ^ (bits ty - 1)) by (apply Z.pow_nonneg; lia). lia. }
    cbn [bind]. rewrite to_usize_ok by lia. cbn [unwrap bind].
    destruct (Z.eqb_spec (mx - mn) (zlen payload - 1)); auto. tauto.
Qed.

Lemma empty_range_map_panics :
  forall (V : Type) (pr : profile) (ty : int_type), 1 <= bits ty ->
  exists m : integer_range_map V, irm_from_vec pr ty [] = Ok m /\
    irm_get pr ty m 0 = Panic PIndexOutOfBounds /\
    forall k, k <> 0 -> irm_get pr ty m k = Ok None.
Proof.
  intros V pr ty Hb. eexists. split; [reflexivity|]. split.
  - unfold irm_get, irm_get_at. cbn [irm_min irm_max Z.leb andb].
    change ((0 <=? 0) && (0 <=? 0)) with true. cbv iota. rewrite arith_ok.
    + cbn [bind]. rewrite to_usize_ok by lia. reflexivity.
    + unfold imin, imax. destruct (signed ty).
      * assert (0 < 2 ^ (bits ty - 1)) by (apply Z.pow_pos_nonneg; lia). lia.
      * assert (0 < 2 ^ bits ty) by (apply Z.pow_pos_nonneg; lia). lia.
  - intros k Hk. unfold irm_get, irm_get_at. cbn [irm_min irm_max].
    destruct (Z.leb_spec 0 k), (Z.leb_spec k 0); try reflexivity. lia.
Qed.

(** ** C23, C24: slices *)

Lemma length_representation :
  forall (T : Type) (h : list T -> Z) (keys : list (list T)),
  analyze_slice_keys h keys = Ok SliceLength <-> few_equal_lengths keys.
Proof.
  intros T h keys. rewrite few_equal_lengths_iff. unfold analyze_slice_keys.
  destruct (analyze_lengths_spec keys) as [(-> & H1 & H2)|(-> & H)].
  - tauto.
  - split.
    + intros Ha. exfalso. revert Ha. unfold analyze_subslices.
      generalize (Z.to_nat (Z.min (fold_left (fun m s => Z.min m (zlen s)) keys (imax usize)) 16)), 1.
      generalize (fold_left (fun m s => Z.min m (zlen s)) keys (imax usize)),
        (fold_left (fun m s => Z.max m (@zlen T s)) keys 0), (f64_five_percent (zlen keys)).
      intros mn mx acc n. induction n as [|n IH]; intros l; cbn [find_subslice]; [discriminate|].
      intros Ha. apply bind_ok in Ha. destruct Ha as ([j|] & _ & Ha).
      { destruct (_ =? _); discriminate. }
      apply bind_ok in Ha. destruct Ha as ([j|] & _ & Ha); [discriminate|]. now apply IH in Ha.
    + intros (H1 & H2). destruct H as [H|(L & H)]; [lia|]. specialize (H2 L). lia.
Qed.

Lemma subslice_choice :
  forall (T : Type) (h : list T -> Z) (keys : list (list T)),
  keys <> [] -> zlen keys < 2 ^ 52 -> (forall s, In s keys -> zlen s < 2 ^ 64) ->
  let uniform L := forall s, In s keys -> length s = L in
  forall r, analyze_slice_keys h keys = Ok r ->
  match r with
  | LeftHandSubslice i l =>
      0 <= i /\ 1 <= l <= 16 /\ (forall s, In s keys -> i + l <= zlen s) /\
      distinctive h (left_win (Z.to_nat i) (Z.to_nat l)) keys /\
      (forall i' l', (1 <= l' < Z.to_nat l \/ l' = Z.to_nat l /\ i' < Z.to_nat i)%nat ->
         (forall s, In s keys -> i' + l' <= length s)%nat -> ~ distinctive h (left_win i' l') keys) /\
      ((exists L, uniform L /\ (Z.to_nat l < L)%nat) \/
       (forall L, ~ uniform L) /\ (l = 1 \/ l = 2 /\ ~ some_right_byte h keys))
  | RightHandSubslice i l =>
      l = 1 /\ 0 <= i /\ (forall s, In s keys -> i + 1 <= zlen s) /\
      distinctive h (right_win (Z.to_nat i)) keys /\
      (forall i', (i' < Z.to_nat i)%nat -> ~ distinctive h (right_win i') keys) /\
      ~ some_left_window h 1 keys /\ (forall L, ~ uniform L)
  | SliceNormal =>
      (exists L, uniform L /\ forall l, (1 <= l <= 16)%nat -> (l < L)%nat -> ~ some_left_window h l keys) \/
      (forall L, ~ uniform L) /\ (exists s, In s keys /\ (length s <= 1)%nat) /\
      ~ some_left_window h 1 keys /\ ~ some_right_byte h keys
  | SliceLength => few_equal_lengths keys
  end.
Proof.
  intros T h keys Hne Hn Hlen uniform r Hr. pose proof Hr as Hr0. unfold analyze_slice_keys in Hr.
  destruct (analyze_lengths_spec keys) as [(Hal & _)|(Hal & _)]; rewrite Hal in Hr;
    [injection Hr as <-; now apply length_representation in Hr0|]. clear Hr0.
  assert (Hne' : map zlen keys <> []) by (destruct keys; [congruence|discriminate]).
  destruct (min_max_exist _ Hne') as (mn & mx & Hmn & Hmx).
  rewrite (analyze_subslices_unfold h keys mn mx Hne Hn Hlen Hmn Hmx) in Hr.
  assert (Hmin : forall s, In s keys -> mn <= zlen s).
  { intros s Hs. apply (proj2 Hmn). now apply in_map. }
  assert (Hmn0 : 0 <= mn).
  { destruct Hmn as (Hi & _). apply in_map_iff in Hi. destruct Hi as (s & <- & _). apply zlen_nonneg. }
  assert (Hatt : exists s, In s keys /\ zlen s = mn).
  { destruct Hmn as (Hi & _). apply in_map_iff in Hi. destruct Hi as (s & <- & ?). eauto. }
  assert (Hle : mn <= mx) by (apply (proj2 Hmn), (proj1 Hmx)).
  set (acc := zlen keys / 20) in *.
  assert (Hacc : 0 <= acc) by (apply Z.div_pos; [apply zlen_nonneg|lia]).
  assert (Hfit : forall i' l', (forall s, In s keys -> i' + l' <= length s)%nat -> Z.of_nat i' + Z.of_nat l' <= mn).
  { intros i' l' H. destruct Hatt as (s & Hs & <-). specialize (H s Hs). unfold zlen. lia. }
  assert (Hleft : forall i' l', left_suff h keys acc (Z.of_nat l') (Z.of_nat i') = false ->
     ~ distinctive h (left_win i' l') keys).
  { intros i' l' H Hd. rewrite <- (Nat2Z.id i'), <- (Nat2Z.id l') in Hd. apply left_suff_iff in Hd; try lia.
    fold acc in Hd. congruence. }
  destruct (Z.eq_dec mn mx) as [<-|Hmix].
  - assert (Hu : uniform (Z.to_nat mn)).
    { intros s Hs. pose proof (Hmin s Hs). pose proof (proj2 Hmx (zlen s) ltac:(now apply in_map)). unfold zlen in *. lia. }
    destruct (find_subslice_equal h keys acc mn (Z.to_nat (Z.min mn 16)) 1) as (r' & Hr' & H); auto; try lia.
    rewrite Hr in Hr'. injection Hr' as <-. destruct r as [|i l|i l|]; auto; try (now destruct H).
    { left. exists (Z.to_nat mn). split; auto. intros l Hl1 Hl2 (i & Hf & Hd). apply Hfit in Hf. revert Hd.
      apply Hleft, H; lia. }
    destruct H as (H1 & H2 & H3 & H4 & H5 & H6). split; [lia|]. split; [lia|]. split.
    { intros s Hs. specialize (Hmin s Hs). lia. }
    split. { apply left_suff_iff in H4; auto; lia. }
    split.
    { intros i' l' Hil Hf. apply Hfit in Hf. apply Hleft. destruct Hil as [Hil|(-> & Hi)].
      + apply H6; lia.
      + rewrite Z2Nat.id by lia. apply H5. lia. }
    left. exists (Z.to_nat mn). split; auto. lia.
  - assert (Hu : forall L, ~ uniform L).
    { intros L HL. apply Hmix. destruct Hmn as (Hi & _), Hmx as (Hj & _). apply in_map_iff in Hi, Hj.
      destruct Hi as (s & <- & Hs), Hj as (s' & <- & Hs'). unfold zlen. now rewrite (HL s Hs), (HL s' Hs'). }
    pose proof (find_subslice_mixed h keys acc mn mx Hne Hacc ltac:(lia) Hmin) as H. cbv zeta in H.
    rewrite Hr in H.
    destruct H as [(i & [= ->] & Hi & Hs & Hf)|(Hn1 & [(i & [= ->] & Hi & Hs & Hf)|(Hn2 & [(H1 & [= ->])|(H2 & [(i & [= ->] & Hi & Hs & Hf)|(_ & H)])])])];
      try discriminate.
    + split; [lia|]. split; [lia|]. split. { intros s Hs'. specialize (Hmin s Hs'). lia. }
      split. { apply left_suff_iff in Hs; auto; lia. }
      split. { intros i' l' [Hil|(-> & Hlt)] Hfit'; [lia|]. apply Hleft. apply Hf. lia. }
      right. auto.
    + split; [lia|]. split; [lia|].
      assert (Hilt : forall s, In s keys -> i < zlen s) by (intros s Hs'; specialize (Hmin s Hs'); lia).
      split. { intros s Hs'. specialize (Hilt s Hs'). lia. }
      split. { apply right_suff_iff in Hs; auto; lia. }
      split.
      * intros i' Hi' Hd. rewrite <- (Nat2Z.id i') in Hd. apply right_suff_iff in Hd; try lia.
        -- fold acc in Hd. rewrite Hf in Hd by lia. discriminate.
        -- intros s Hs'. specialize (Hilt s Hs'). lia.
      * split; auto. exact (some_left_window_none h keys mn 1 Hmn ltac:(lia) Hn1).
    + right. split; auto. split.
      { destruct Hatt as (s & Hs & E). exists s. split; auto. unfold zlen in E. lia. }
      split; [exact (some_left_window_none h keys mn 1 Hmn ltac:(lia) Hn1)|now apply (some_right_byte_none h keys mn)].
    + split; [lia|]. split; [lia|]. split. { intros s Hs'. specialize (Hmin s Hs'). lia. }
      split. { apply left_suff_iff in Hs; auto; lia. }
      split.
      { intros i' l' [Hil|(-> & Hlt)] Hfit'; apply Hfit in Hfit'; apply Hleft.
        * assert (l' = 1%nat) as -> by lia. apply Hn1. lia.
        * apply Hf. lia. }
      right. split; auto. right. split; auto. now apply (some_right_byte_none h keys mn).
Qed.

(** ** C26: map iterators *)

Lemma map_iterators_exact :
  forall (K V : Type) (pr : profile) (entries : list (K * V)) (n : nat),
  zlen entries < 2 ^ 64 ->
  let left := zlen entries - Z.min (Z.of_nat n) (zlen entries) in
  (exists it, calls (it_next pr) n (it_new entries) = Ok (results n entries, it) /\
     yields (it_next pr) it (skipn n entries) /\
     it_len pr it = Ok left /\ it_size_hint pr it = Ok (left, Some left) /\ it_count pr it = Ok left) /\
  (exists it, calls (keys_next pr) n (keys_new entries) = Ok (results n (map fst entries), it) /\
     yields (keys_next pr) it (skipn n (map fst entries)) /\
     it_len pr it = Ok left /\ it_size_hint pr it = Ok (left, Some left) /\ it_count pr it = Ok left /\
     forall (B : Type) (f : B -> K -> B) init,
       keys_fold pr f init it = Ok (fold_left f (skipn n (map fst entries)) init)) /\
  (exists it, calls (values_next pr) n (values_new entries) = Ok (results n (map snd entries), it) /\
     yields (values_next pr) it (skipn n (map snd entries)) /\
     it_len pr it = Ok left /\ it_size_hint pr it = Ok (left, Some left) /\ it_count pr it = Ok left /\
     forall (B : Type) (f : B -> V -> B) init,
       values_fold pr f init it = Ok (fold_left f (skipn n (map snd entries)) init)).
Proof.
  intros K V pr entries n Hlen left.
  destruct (map_iter_exact pr entries Hlen n) as (it & Hc & Hy & Hr). rewrite map_id in *.
  destruct (keys_iter_exact pr entries Hlen n) as (itk & Hck & Hyk & Hlk & Hsk & Hnk).
  destruct (values_iter_exact pr entries Hlen n) as (itv & Hcv & Hyv & Hlv & Hsv & Hnv).
  assert (Hmap : forall (B : Type) (g : K * V -> B) n s os s',
     calls (it_next pr) n s = Ok (os, s') ->
     calls (fun it => r <- it_next pr it ;; Ok (option_map g (fst r), snd r)) n s = Ok (map (option_map g) os, s')).
  { intros B g n0. induction n0 as [|n0 IH]; intros s os s' H; cbn [calls] in *.
    - injection H as <- <-. reflexivity.
    - apply bind_ok in H. destruct H as ((o & s1) & H1 & H). rewrite H1. cbn [bind fst snd] in *.
      apply bind_ok in H. destruct H as ((os' & s2) & H2 & H). injection H as <- <-. cbn [fst snd] in *.
      rewrite (IH _ _ _ H2). reflexivity. }
  pose proof (Hmap K fst n _ _ _ Hc) as Hk. pose proof (Hmap V snd n _ _ _ Hc) as Hv.
  change (calls (keys_next pr) n (it_new entries) = Ok (map (option_map fst) (results n entries), it)) in Hk.
  change (calls (values_next pr) n (it_new entries) = Ok (map (option_map snd) (results n entries), it)) in Hv.
  rewrite Hck in Hk. injection Hk as _ ->. rewrite Hcv in Hv. injection Hv as _ ->.
  split; [exists it; tauto|]. split; exists it.
  - split; auto. split; auto. split; auto. split; auto. split; auto. intros B f init.
    rewrite skipn_map.
    exact (proj1 (keys_values_fold pr entries f (fun b _ => b) init n _ it Hlen Hc)).
  - split; auto. split; auto. split; auto. split; auto. split; auto. intros B f init.
    rewrite skipn_map.
    exact (proj2 (keys_values_fold pr entries (fun b _ => b) f init n _ it Hlen Hc)).
Qed.

(** ** C27: set iterators *)

Lemma set_iterators_exact :
  forall (T : Type) (pr : profile) (entries : list (T * unit)) (n : nat),
  zlen entries < 2 ^ 64 ->
  let k := Z.min (Z.of_nat n) (zlen entries) in
  exists it, calls (keys_next pr) n (it_new entries) = Ok (results n (map fst entries), it) /\
    yields (keys_next pr) it (skipn n (map fst entries)) /\
    it_len pr it = Ok (zlen entries - k) /\
    it_size_hint pr it = Ok (zlen entries - k, Some (zlen entries - k)) /\
    (2 * k <= zlen entries -> set_it_count pr it = Ok (zlen entries - 2 * k)) /\
    (zlen entries < 2 * k -> set_it_count pr it =
       match pr with Checked => Panic POverflow | Wrapping => Ok (zlen entries - 2 * k + 2 ^ 64) end).
Proof.
  intros T pr entries n Hlen k.
  destruct (keys_iter_exact pr entries Hlen n) as (it & Hc & Hy & Hl & Hs & _).
  exists it. split; auto. split; auto. split; auto. split; auto.
  pose proof (set_count_after pr entries n _ it Hlen Hc) as H. cbv zeta in H. fold k in H.
  rewrite H. pose proof (zlen_nonneg entries). split; intros Hk.
  - rewrite arith_ok; auto. change (imin usize) with 0. change (imax usize) with (2 ^ 64 - 1). lia.
  - unfold arith, in_type. change (imin usize) with 0. change (imax usize) with (2 ^ 64 - 1).
    destruct (Z.leb_spec 0 (zlen entries - 2 * k)); [lia|]. cbn [andb]. destruct pr; auto.
    f_equal. unfold wrap. change (signed usize) with false. change (bits usize) with 64. cbn [andb].
    symmetry. apply (Z.mod_unique_pos _ _ (-1)); lia.
Qed.

Lemma into_iter_is_exact :
  forall (T : Type) (entries : list (T * unit)) (n : nat),
  calls into_iter_next n (into_iter_new entries) = Ok (results n (map fst entries), skipn n entries) /\
  yields into_iter_next (skipn n entries) (skipn n (map fst entries)) /\
  into_iter_len (skipn n entries) = Z.of_nat (length entries - n) /\
  into_iter_size_hint (skipn n entries) = (Z.of_nat (length entries - n), Some (Z.of_nat (length entries - n))) /\
  into_iter_count (skipn n entries) = Z.of_nat (length entries - n).
Proof.
  intros T entries n. destruct (into_iter_exact entries n) as (H1 & H2). split; auto. split; auto.
  unfold into_iter_len, into_iter_size_hint, into_iter_count, zlen. rewrite skipn_length. auto.
Qed.

(** ** C40: capacity *)

Lemma capacity_sufficient :
  forall (K V BH : Type) (hash_key : BH -> K -> Z) (E : env) (S_ty : int_type)
         (payload : list (K * V)) (bh : BH) (ints : list (Z * V)) (len : K -> Z),
  env_ok E -> fits S_ty (zlen payload) -> fits S_ty (zlen ints) ->
  (exists m, cm_from_vec hash_key E S_ty payload bh = Ok m) /\
  (exists m, lm_from_vec len E S_ty payload = Ok m) /\
  (exists m, im_from_vec E S_ty ints = Ok m).
Proof.
  intros K V BH hk E S_ty payload bh ints len HE HF HF'.
  destruct (cm_from_vec_ok hk E S_ty payload bh HE HF) as (m1 & H1 & _).
  destruct (lm_from_vec_ok len E S_ty payload HE HF) as (m2 & H2 & _).
  destruct (im_from_vec_ok E S_ty ints HE HF') as (m3 & H3 & _).
  split; [eauto|]. split; eauto.
Qed.

Lemma capacity_exceeded :
  forall (K V BH : Type) (hash_key : BH -> K -> Z) (E : env) (S_ty : int_type)
         (payload : list (K * V)) (bh : BH) (ints : list (Z * V)) (len : K -> Z),
  0 <= imax S_ty < 2 ^ 64 -> imax S_ty < zlen payload -> imax S_ty < zlen ints ->
  cm_from_vec hash_key E S_ty payload bh = Panic PCapacity /\
  lm_from_vec len E S_ty payload = Panic PCapacity /\
  im_from_vec E S_ty ints = Panic PCapacity.
Proof.
  intros. split; [now apply cm_from_vec_capacity_panic|].
  split; [now apply lm_from_vec_capacity_panic|now apply im_from_vec_capacity_panic].
Qed.

Lemma wide_index_panics :
  forall (K V BH : Type) (hash_key : BH -> K -> Z) (E : env)
         (payload : list (K * V)) (bh : BH) (ints : list (Z * V)) (len : K -> Z),
  payload <> [] -> ints <> [] ->
  cm_from_vec hash_key E u128 payload bh = Panic PUnwrapNone /\
  lm_from_vec len E u128 payload = Panic PUnwrapNone /\
  im_from_vec E u128 ints = Panic PUnwrapNone.
Proof.
  intros. assert (2 ^ 64 <= imax u128) by (vm_compute; discriminate).
  split; [now apply cm_from_vec_wide_panic|].
  split; [now apply lm_from_vec_wide_panic|now apply im_from_vec_wide_panic].
Qed.

Lemma checked_size_limit :
  forall (K V BH : Type) (hash_key : BH -> K -> Z) (hw : BH -> list Z -> Z) (E : env) (S_ty : int_type)
         (payload : list (K * V)) (bh : BH) (ints : list (Z * V)) (strs : list (list Z * V)) (len : K -> Z) (a b : Z),
  env_ok E -> prof E = Checked ->
  2 ^ 31 <= zlen payload -> 2 ^ 31 <= zlen ints -> 2 ^ 31 <= zlen strs ->
  (forall m, cm_from_vec hash_key E S_ty payload bh <> Ok m) /\
  (forall m, lm_from_vec len E S_ty payload <> Ok m) /\
  (forall m, im_from_vec E S_ty ints <> Ok m) /\
  (forall m, lsm_from_vec hw E S_ty strs a b bh <> Ok m) /\
  (forall m, rsm_from_vec hw E S_ty strs a b bh <> Ok m).
Proof.
  intros K V BH hk hw E S_ty payload bh ints strs len a b HE Hp H1 H2 H3.
  split; [|split; [|split; [|split]]]; intros m Hm; exfalso.
  - apply from_vec_checked_limit_cm in Hm; auto. lia.
  - apply from_vec_checked_limit_lm in Hm; auto. lia.
  - apply from_vec_checked_limit_im in Hm; auto. lia.
  - apply from_vec_checked_limit_lsm in Hm; auto. lia.
  - apply from_vec_checked_limit_rsm in Hm; auto. lia.
Qed.

Lemma left_slice_capacity_exceeded :
  forall (V BH : Type) (hw : BH -> list Z -> Z) (E : env) (S_ty : int_type)
         (payload : list (list Z * V)) (a b : Z) (bh : BH),
  0 <= imax S_ty < 2 ^ 64 -> imax S_ty < zlen payload -> 0 <= a <= b ->
  lsm_from_vec hw E S_ty payload a b bh = Panic PCapacity.
Proof.
  intros V BH hw E S_ty payload a b bh HS Hn Hab. unfold lsm_from_vec.
  rewrite (mapM_ok _ (fun e => if b <=? zlen (fst e) then hw bh (sub a b (fst e)) else 0)).
  - cbn [bind]. destruct (analyze_hash_codes_pos (map (fun e => if b <=? zlen (fst e) then hw bh (sub a b (fst e)) else 0) payload))
      as (s & c & -> & _). cbn [bind]. now rewrite ht_new_capacity_panic.
  - intros [k v] _. cbn [fst]. destruct (Z.leb_spec b (zlen k)); auto.
    apply slice_hash_ok; lia.
Qed.
