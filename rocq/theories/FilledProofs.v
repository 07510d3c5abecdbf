(** Range sets, and comparisons of range maps, whose keys may repeat; comparisons of slice maps with repeated keys. *)
From Coq Require Import List ZArith Bool Arith Lia Permutation Sorted.
From Verif Require Import Spec MapSpec Base BaseLemmas EqbLists HashTable HashTableProofs Maps MapsProofs IntProofs
  FrozenMap FrozenMapFacts BuildSound Iterators IterSpec IteratorProofs HistorySpec ObjectSpec HistoryProofs MapObjects
  ComponentTheorems MapTheorems MapObjectProofs MapObjectEq Sets FrozenSetProofs PlaceSpec PlaceProofs RepeatedSpecialEq.
Import ListNotations.
Open Scope Z_scope.

Lemma repeated_left_slice_eq_self :
  forall (V BH : Type) (veq : V -> V -> bool) (hash_write : BH -> list Z -> Z) (E : env) (S_ty : int_type)
         (p : list (list Z * V)) (a b : Z) (bh : BH) (m : slice_map V BH),
  env_ok E -> fits S_ty (zlen p) -> 0 <= a <= b -> (forall k, In k (map fst p) -> b <= zlen k) -> equivalence veq ->
  lsm_from_vec hash_write E S_ty p a b bh = Ok m ->
  exists r, mo_eq veq (lsm_object hash_write) m m = Ok r /\
    (r = true <-> forall k v v', In (k, v) p -> In (k, v') p -> veq v v' = true).
Proof.
  intros V BH veq hw E S_ty p a b bh m HE F R L Hv H.
  destruct (lsm_from_vec_ok hw E S_ty p a b bh HE F R) as (m' & Hm & HP & Hok & _).
  { intros e He. apply L. now apply in_map. }
  rewrite Hm in H. injection H as ->.
  destruct (mo_eq_self bytes_eqb veq bytes_equiv _ _ _ (lsm_searches hw) p m Hv HP Hok (fun _ _ => I)) as (r & Hr & Hiff).
  exists r. split; auto. rewrite Hiff. split.
  - intros G k v v' A B. apply (G k v k v' A B). apply bytes_equiv.
  - intros G k v k' v' A B C. apply bytes_eqb_eq in C. subst k'. eauto.
Qed.

Lemma repeated_right_slice_eq_self :
  forall (V BH : Type) (veq : V -> V -> bool) (hash_write : BH -> list Z -> Z) (E : env) (S_ty : int_type)
         (p : list (list Z * V)) (a b : Z) (bh : BH) (m : slice_map V BH),
  env_ok E -> fits S_ty (zlen p) -> 0 <= b <= a -> (forall k, In k (map fst p) -> a <= zlen k < 2 ^ 64) -> equivalence veq ->
  rsm_from_vec hash_write E S_ty p a b bh = Ok m ->
  exists r, mo_eq veq (rsm_object hash_write E) m m = Ok r /\
    (r = true <-> forall k v v', In (k, v) p -> In (k, v') p -> veq v v' = true).
Proof.
  intros V BH veq hw E S_ty p a b bh m HE F R L Hv H.
  destruct (rsm_from_vec_ok hw E S_ty p a b bh HE F R) as (m' & Hm & HP & Hok & _).
  { intros e He. apply L. now apply in_map. }
  rewrite Hm in H. injection H as ->.
  destruct (mo_eq_self bytes_eqb veq bytes_equiv _ _ _ (rsm_searches hw E) p m Hv HP Hok) as (r & Hr & Hiff).
  { intros k Hk. now apply L. }
  exists r. split; auto. rewrite Hiff. split.
  - intros G k v v' A B. apply (G k v k v' A B). apply bytes_equiv.
  - intros G k v k' v' A B C. apply bytes_eqb_eq in C. subst k'. eauto.
Qed.

(** What [irm_from_vec] builds. *)
Lemma filled_built {V} pr ty (p : list (Z * V)) mn :
  1 <= bits ty -> p <> [] -> zlen p < 2 ^ 64 ->
  (forall x y, In x (map fst p) -> In y (map fst p) -> x - y <= imax ty /\ x - y < 2 ^ 64) ->
  spans_from mn (map fst p) ->
  let m := {| irm_min := mn; irm_max := mn + zlen p - 1; irm_entries := stable_sort fst p |} in
  irm_from_vec pr ty p = Ok m /\ range_inv ty mn (length p) m.
Proof.
  intros Hb Hne H64 Hsp Hs. pose proof (imin_imax_0 ty Hb) as H0.
  apply spans_min_max in Hs. destruct Hs as (Hmn & Hmx). rewrite zlen_map in Hmx.
  pose proof (Hsp _ _ (proj1 Hmx) (proj1 Hmn)) as (S1 & S2).
  assert (0 < zlen p) by (unfold zlen; destruct p; [congruence|cbn [length]; lia]).
  rewrite (irm_from_vec_spec pr ty p mn _ Hne Hmn Hmx), arith_ok by lia. cbn [bind]. rewrite to_usize_ok by lia. cbn [unwrap bind].
  destruct (Z.eqb_spec (mn + zlen p - 1 - mn) (zlen p - 1)) as [_|N]; [|lia]. split; [reflexivity|].
  pose proof (Permutation_length (stable_sort_perm fst p)) as HL.
  unfold range_inv, zlen in *. cbn [irm_min irm_max irm_entries]. rewrite <- HL. repeat split; lia.
Qed.

Lemma filled_range_set :
  forall (pr : profile) (ty : int_type) (items : list Z) (mn : Z),
  1 <= bits ty -> items <> [] -> zlen items < 2 ^ 64 ->
  (forall x y, In x items -> In y items -> x - y <= imax ty /\ x - y < 2 ^ 64) ->
  spans_from mn items ->
  exists s, irs_from_vec pr ty items = Ok s /\
    Permutation items (irs_items s) /\ StronglySorted Z.le (irs_items s) /\ irs_len s = zlen items /\
    forall x,
    irs_contains pr ty s x = Ok ((mn <=? x) && (x <? mn + zlen items)) /\
    irs_get pr ty s x = Ok (match offset_from mn (length items) x with Some i => nth_error (irs_items s) i | None => None end).
Proof.
  intros pr ty items mn Hb Hne H64 Hsp Hs.
  assert (Hl : length (with_unit items) = length items) by (unfold with_unit; apply map_length).
  destruct (filled_built pr ty (with_unit items) mn Hb) as (Hm & Hi); rewrite ?with_unit_keys, ?with_unit_len; auto.
  { destruct items; [congruence|discriminate]. }
  set (m := {| irm_min := mn; irm_max := _; irm_entries := _ |}) in *.
  exists m. split; [exact Hm|].
  pose proof (stable_sort_perm fst (with_unit items)) as HP.
  assert (HP' : Permutation items (irs_items m)).
  { rewrite <- (with_unit_keys items). unfold irs_items. now apply Permutation_map. }
  split; auto. split.
  { unfold irs_items. cbn [m irm_entries]. pose proof (stable_sort_sorted fst (with_unit items)) as S. clear - S.
    induction S as [|e es _ IH H]; cbn [map]; constructor; auto. apply Forall_map. exact H. }
  split. { unfold irs_len. cbn [m irm_entries]. now rewrite <- (zlen_perm _ _ HP), with_unit_len. }
  intros x. destruct (irm_lookup_place pr ty mn _ m x Hi) as (_ & _ & Hkv & Hlt & _). rewrite Hl in *.
  assert (Hg : irs_get pr ty m x = Ok (match offset_from mn (length items) x with Some i => nth_error (irs_items m) i | None => None end)).
  { unfold irs_get, set_get_of. rewrite Hkv. cbn [bind]. destruct (offset_from mn (length items) x) as [i|]; [|reflexivity].
    unfold irs_items. now rewrite nth_error_map. }
  split; auto. unfold irs_contains. rewrite Hg. unfold set_contains_of. cbn [bind]. f_equal.
  unfold offset_from, zlen in *. destruct ((mn <=? x) && _) eqn:B; [|reflexivity].
  specialize (Hlt _ eq_refl). unfold irs_items. rewrite nth_error_map.
  destruct (nth_error (irm_entries m) _) eqn:N; [reflexivity|]. apply nth_error_None in N. lia.
Qed.

Lemma filled_range_map_eq :
  forall (V : Type) (veq : V -> V -> bool) (pr : profile) (ty : int_type) (p1 p2 : list (Z * V))
         (m1 m2 : integer_range_map V) (mn : Z),
  1 <= bits ty -> p2 <> [] -> zlen p2 < 2 ^ 64 ->
  (forall x y, In x (map fst p2) -> In y (map fst p2) -> x - y <= imax ty /\ x - y < 2 ^ 64) ->
  spans_from mn (map fst p2) ->
  irm_from_vec pr ty p1 = Ok m1 -> irm_from_vec pr ty p2 = Ok m2 ->
  exists es, sorted_entries (fun k => k) p2 es /\
  exists b, mo_eq veq (irm_object pr ty) m1 m2 = Ok b /\
    (b = true <-> length p1 = length p2 /\
       forall k v, In (k, v) p1 ->
       exists i e, offset_from mn (length p2) k = Some i /\ nth_error es i = Some e /\ veq v (snd e) = true).
Proof.
  intros V veq pr ty p1 p2 m1 m2 mn Hb Hne H64 Hsp Hs H1 H2.
  pose proof (irm_from_vec_perm _ _ _ _ H1) as HP1.
  destruct (filled_built pr ty p2 mn Hb Hne H64 Hsp Hs) as (Hm & Hi). rewrite Hm in H2. injection H2 as <-.
  set (m2 := {| irm_min := mn; irm_max := _; irm_entries := _ |}) in *.
  exists (stable_sort fst p2). split; [apply stable_sorted_entries|].
  pose proof (stable_sort_perm fst p2) as HP2.
  unfold mo_eq, map_eq. cbn [irm_object mo_entries mo_get].
  set (g := fun e : Z * V => match option_map snd (match offset_from mn (length p2) (fst e) with
                                                   | Some i => nth_error (irm_entries m2) i | None => None end) with
                             | Some v => veq (snd e) v | None => false end).
  rewrite (all_res_ok _ g).
  2:{ intros e _. destruct (irm_lookup_place pr ty mn _ m2 (fst e) Hi) as (_ & _ & _ & _ & ->). reflexivity. }
  rewrite <- (zlen_perm _ _ HP1). replace (zlen (irm_entries m2)) with (zlen p2) by exact (zlen_perm _ _ HP2).
  unfold zlen. destruct (Z.eqb_spec (Z.of_nat (length p1)) (Z.of_nat (length p2))) as [L|L]; cbn [negb]; eexists; (split; [reflexivity|]).
  2: split; [discriminate|lia].
  rewrite forallb_forall. split.
  - intros H. split; [lia|]. intros k v Hkv. specialize (H (k, v) (Permutation_in _ HP1 Hkv)). unfold g in H. cbn [fst snd] in H.
    destruct (offset_from mn (length p2) k) as [i|]; [|discriminate]. exists i.
    change (irm_entries m2) with (stable_sort fst p2) in H. destruct (nth_error _ i) as [e|]; [|discriminate]. cbn in H. eauto.
  - intros (_ & H) [k v] Hkv. destruct (H k v (Permutation_in _ (Permutation_sym HP1) Hkv)) as (i & e & F & N & Hv).
    unfold g. cbn [fst snd]. rewrite F. change (irm_entries m2) with (stable_sort fst p2). rewrite N. exact Hv.
Qed.

(** Which payloads an IntegerRangeMap can be built from, whatever the distance of their keys. *)
Lemma range_map_domain :
  forall (V : Type) (pr : profile) (ty : int_type) (payload : list (Z * V)),
  1 <= bits ty -> payload <> [] -> zlen payload < 2 ^ 64 ->
  (forall k, In k (map fst payload) -> imin ty <= k <= imax ty) ->
  (zlen payload - 1 <= imax ty -> forall mn, spans_from mn (map fst payload) ->
     exists m es, irm_from_vec pr ty payload = Ok m /\ sorted_entries (fun k => k) payload es /\
       forall history : list (op Z V),
       mo_run pr Z.eqb (irm_object pr ty) m history = place_run Z.eqb (offset_from mn (length payload)) es history) /\
  (zlen payload - 1 > imax ty \/ (forall mn, ~ spans_from mn (map fst payload)) ->
     exists why, irm_from_vec pr ty payload = Panic why).
Proof.
  intros V pr ty payload Hb Hne H64 Hr. pose proof (imin_imax_0 ty Hb) as H0.
  split.
  - intros Hfit mn Hs. assert (Hsp : forall x y, In x (map fst payload) -> In y (map fst payload) -> x - y <= imax ty /\ x - y < 2 ^ 64).
    { intros x y Hx Hy. destruct Hs as (_ & G1 & _ & G2). specialize (G1 y Hy). specialize (G2 x Hx).
      rewrite map_length in G2. unfold zlen in *. lia. }
    exact (proj1 (range_map_by_place V pr ty payload Hb Hne H64 Hsp) mn Hs).
  - intros Hbad. destruct (min_max_exist (map fst payload)) as (mn & mx & Hmn & Hmx).
    { destruct payload; [congruence|discriminate]. }
    assert (Hle : mn <= mx) by (apply Hmx, Hmn).
    pose proof (Hr mn (proj1 Hmn)) as Rn. pose proof (Hr mx (proj1 Hmx)) as Rx.
    rewrite (irm_from_vec_spec pr ty payload mn mx Hne Hmn Hmx).
    unfold arith, in_type. destruct (Z.leb_spec (imin ty) (mx - mn)); [|lia].
    destruct (Z.leb_spec (mx - mn) (imax ty)); cbn [andb bind].
    + destruct (to_usize (mx - mn)) as [s|] eqn:Et; cbn [unwrap bind]; [|eauto].
      apply to_usize_some in Et. destruct Et as (-> & _).
      destruct (Z.eqb_spec (mx - mn) (zlen payload - 1)) as [E|E]; [|eauto]. exfalso. destruct Hbad as [Hbad|Hbad]; [lia|].
      apply (Hbad mn). apply spans_min_max. rewrite zlen_map. split; auto. now replace (mn + zlen payload - 1) with mx by lia.
    + destruct pr; cbn [bind]; [eauto|].
      assert (Hneg : wrap ty (mx - mn) < 0).
      { unfold wrap, imin, imax in *. destruct (signed ty); [|lia].
        assert (Hpow : 2 ^ bits ty = 2 * 2 ^ (bits ty - 1)).
        { rewrite <- Z.pow_succ_r by lia. f_equal. lia. }
        rewrite (Z.mod_small (mx - mn) (2 ^ bits ty)) by lia.
        destruct (Z.leb_spec (2 ^ (bits ty - 1)) (mx - mn)); cbn [andb]; lia. }
      destruct (to_usize (wrap ty (mx - mn))) as [s|] eqn:Et; cbn [unwrap bind]; [|eauto].
      apply to_usize_some in Et. lia.
Qed.
