(** Equality of specialized maps. *)
From Coq Require Import List ZArith Bool Arith Lia Permutation.
From Verif Require Import Spec MapSpec Base BaseLemmas EqbLists HashTable HashTableProofs Maps MapsProofs IntProofs
  FrozenMap FrozenMapFacts BuildSound Iterators IterSpec IteratorProofs HistorySpec ObjectSpec HistoryProofs MapObjects
  ComponentTheorems MapTheorems MapObjectProofs.
Import ListNotations.
Open Scope Z_scope.

Section Generic.
Context {K V : Type}.
Variable eqb : K -> K -> bool.
Variable veq : V -> V -> bool.
Hypothesis Hk : equivalence eqb.

Lemma map_eq_ok (p1 p2 es1 es2 : list (K * V)) get :
  Permutation p1 es1 -> Permutation p2 es2 ->
  distinct eqb (map fst p1) -> distinct eqb (map fst p2) ->
  (forall k, In k (map fst p1) -> get k = Ok (option_map snd (find (fun e => eqb k (fst e)) es2))) ->
  exists b, map_eq veq es1 es2 get = Ok b /\ (b = true <-> same_map eqb veq p1 p2).
Proof.
  intros HP1 HP2 Hd1 Hd2 Hget.
  assert (Hget' : forall k, In k (map fst p1) -> get k = Ok (option_map snd (find (fun e => eqb k (fst e)) p2))).
  { intros k Hi. rewrite Hget by auto. do 2 f_equal. symmetry.
    exact (entry_of_perm eqb (fun k => k) Hk p2 es2 k Hd2 HP2). }
  clear Hget. unfold map_eq.
  set (g := fun e : K * V => match option_map snd (find (fun e' => eqb (fst e) (fst e')) p2) with
                             | Some v => veq (snd e) v | None => false end).
  rewrite (all_res_ok _ g).
  2:{ intros e Hi. rewrite Hget'; auto. apply in_map. now apply (Permutation_in _ (Permutation_sym HP1)). }
  assert (Hz1 : zlen es1 = zlen p1) by (symmetry; now apply zlen_perm).
  assert (Hz2 : zlen es2 = zlen p2) by (symmetry; now apply zlen_perm).
  rewrite Hz1, Hz2.
  assert (Hall : forallb g es1 = true <->
            forall k v1, supplied eqb p1 k v1 -> exists v2, supplied eqb p2 k v2 /\ veq v1 v2 = true).
  { rewrite forallb_forall. split.
    - intros H k v1 (k' & Hi & Hkk'). specialize (H (k', v1)). unfold g in H. cbn [fst snd] in H.
      specialize (H (Permutation_in _ HP1 Hi)). destruct (find _ p2) as [[k2 v2]|] eqn:F; [|discriminate].
      cbn [option_map snd] in H. exists v2. split; auto. apply find_some in F. cbn [fst] in F.
      exists k2. split; [tauto|]. eapply (eq_trans_ok _ Hk); [exact Hkk'|tauto].
    - intros H [k v1] Hi. unfold g. cbn [fst snd].
      destruct (H k v1) as (v2 & (k2 & H1 & H2) & H3).
      { exists k. split; [now apply (Permutation_in _ (Permutation_sym HP1))|apply Hk]. }
      destruct (find _ p2) as [[k3 v3]|] eqn:F; cbn [option_map snd].
      + apply find_some in F. cbn [fst] in F.
        rewrite (supplied_unique _ Hk p2 k v3 v2); auto; [exists k3|exists k2]; tauto.
      + pose proof (find_none _ _ F _ H1) as F'. cbn [fst] in F'. congruence. }
  assert (Hcov : (forall k v1, supplied eqb p1 k v1 -> exists v2, supplied eqb p2 k v2 /\ veq v1 v2 = true) ->
     covers eqb (map fst p2) (map fst p1)).
  { intros H k Hi. apply in_map_iff in Hi. destruct Hi as ([k' v] & <- & Hi). cbn [fst].
    destruct (H k' v) as (v2 & (k2 & H1 & H2) & _); [exists k'; split; auto; apply Hk|].
    exists k2. split; auto. now apply (in_map fst) in H1. }
  destruct (Z.eqb_spec (zlen p1) (zlen p2)) as [Hz|Hz]; cbn [negb].
  - exists (forallb g es1). split; auto. rewrite Hall. split; [|intros []; auto].
    intros H. split; auto. intros k v2 (k2 & Hi2 & Hk2).
    destruct (pigeonhole _ Hk (map fst p1) (map fst p2) Hd1 (Hcov H)) as (_ & Hback).
    destruct (Hback ltac:(rewrite !map_length; unfold zlen in Hz; lia) k2) as (k1 & Hi1 & Hk12).
    { now apply (in_map fst) in Hi2. }
    apply in_map_iff in Hi1. destruct Hi1 as ([k1' v1] & <- & Hi1). cbn [fst] in *.
    assert (Hs1 : supplied eqb p1 k v1).
    { exists k1'. split; auto. eapply (eq_trans_ok _ Hk); eauto. }
    destruct (H k v1 Hs1) as (v2' & Hs2 & Hv). exists v1. split; auto.
    rewrite (supplied_unique _ Hk p2 k v2 v2'); auto. exists k2. auto.
  - exists false. split; auto. split; [discriminate|]. intros (Ha & Hb). exfalso. apply Hz.
    destruct (pigeonhole _ Hk (map fst p1) (map fst p2) Hd1 (Hcov Ha)) as (Hle1 & _).
    destruct (pigeonhole _ Hk (map fst p2) (map fst p1) Hd2) as (Hle2 & _).
    { intros k Hi. apply in_map_iff in Hi. destruct Hi as ([k' v] & <- & Hi). cbn [fst].
      destruct (Hb k' v) as (v1 & (k1 & H1 & H2) & _); [exists k'; split; auto; apply Hk|].
      exists k1. split; auto. now apply (in_map fst) in H1. }
    rewrite !map_length in *. unfold zlen. lia.
Qed.

Lemma mo_eq_ok {M} (mo : map_object M K V K) (D : K -> Prop) (inv : M -> Prop) p1 p2 m1 m2 :
  searches eqb (fun k => k) mo D inv ->
  Permutation p1 (mo_entries mo m1) -> Permutation p2 (mo_entries mo m2) -> inv m2 ->
  (forall k, In k (map fst p1) -> D k) ->
  distinct eqb (map fst p1) -> distinct eqb (map fst p2) ->
  exists b, mo_eq veq mo m1 m2 = Ok b /\ (b = true <-> same_map eqb veq p1 p2).
Proof.
  intros (Hs & _) HP1 HP2 Hi HD Hd1 Hd2. apply map_eq_ok; auto.
  intros k Hin. now destruct (Hs m2 k Hi (HD k Hin)) as (_ & G & _).
Qed.
End Generic.

Lemma scanning_map_eq :
  forall (K V : Type) (eqb : K -> K -> bool) (veq : V -> V -> bool) (p1 p2 : list (K * V)),
  equivalence eqb -> distinct eqb (map fst p1) -> distinct eqb (map fst p2) ->
  exists b, mo_eq veq (sm_object eqb (fun k => k)) (sm_from_vec p1) (sm_from_vec p2) = Ok b /\
    (b = true <-> same_map eqb veq p1 p2).
Proof.
  intros K V eqb veq p1 p2 He Hd1 Hd2.
  apply (mo_eq_ok eqb veq He _ _ _ p1 p2 _ _ (sm_searches eqb (fun k => k))); auto; apply Permutation_refl.
Qed.

Lemma common_map_eq :
  forall (K V BH : Type) (eqb : K -> K -> bool) (veq : V -> V -> bool) (hash : BH -> K -> Z)
         (E : env) (S_ty : int_type) (p1 p2 : list (K * V)) (bh1 bh2 : BH) (m1 m2 : common_map K V BH),
  env_ok E -> fits S_ty (zlen p1) -> fits S_ty (zlen p2) -> equivalence eqb ->
  (forall a b, eqb a b = true -> hash bh2 a = hash bh2 b) ->
  distinct eqb (map fst p1) -> distinct eqb (map fst p2) ->
  cm_from_vec hash E S_ty p1 bh1 = Ok m1 -> cm_from_vec hash E S_ty p2 bh2 = Ok m2 ->
  exists b, mo_eq veq (cm_object eqb (fun k => k) hash) m1 m2 = Ok b /\
    (b = true <-> same_map eqb veq p1 p2).
Proof.
  intros K V BH eqb veq hash E S_ty p1 p2 bh1 bh2 m1 m2 HE F1 F2 He Hh Hd1 Hd2 H1 H2.
  destruct (cm_from_vec_ok hash E S_ty p1 bh1 HE F1) as (m1' & Hm1 & HP1 & _).
  destruct (cm_from_vec_ok hash E S_ty p2 bh2 HE F2) as (m2' & Hm2 & HP2 & Hok & Hb).
  rewrite Hm1 in H1. injection H1 as ->. rewrite Hm2 in H2. injection H2 as ->.
  apply (mo_eq_ok eqb veq He _ _ _ p1 p2 _ _ (cm_searches eqb (fun k => k) hash hash bh2 He (fun _ => eq_refl) Hh)); auto.
Qed.

Lemma integer_map_eq :
  forall (V : Type) (veq : V -> V -> bool) (E : env) (S_ty : int_type) (p1 p2 : list (Z * V))
         (m1 m2 : integer_map V),
  env_ok E -> fits S_ty (zlen p1) -> fits S_ty (zlen p2) ->
  NoDup (map fst p1) -> NoDup (map fst p2) ->
  im_from_vec E S_ty p1 = Ok m1 -> im_from_vec E S_ty p2 = Ok m2 ->
  exists b, mo_eq veq im_object m1 m2 = Ok b /\ (b = true <-> same_map Z.eqb veq p1 p2).
Proof.
  intros V veq E S_ty p1 p2 m1 m2 HE F1 F2 Hd1 Hd2 H1 H2.
  destruct (im_from_vec_ok E S_ty p1 HE F1) as (m1' & Hm1 & HP1 & _).
  destruct (im_from_vec_ok E S_ty p2 HE F2) as (m2' & Hm2 & HP2 & Hok).
  rewrite Hm1 in H1. injection H1 as ->. rewrite Hm2 in H2. injection H2 as ->.
  apply (mo_eq_ok Z.eqb veq Z_equiv _ _ _ p1 p2 _ _ im_searches); auto; now apply map_eq_distinct_Z.
Qed.

(** A range map that was built is well formed. *)
Lemma irm_built_ok {V} pr ty (p : list (Z * V)) m :
  1 <= bits ty -> p <> [] -> zlen p < 2 ^ 64 -> NoDup (map fst p) ->
  (forall k, In k (map fst p) -> imin ty <= k <= imax ty) ->
  irm_from_vec pr ty p = Ok m -> irm_ok ty m.
Proof.
  intros Hb Hne Hz Hd Hr H.
  destruct (min_max_exist (map fst p)) as (mn & mx & Hmn & Hmx).
  { destruct p; [congruence|discriminate]. }
  assert (Hle : mn <= mx) by (apply Hmx, Hmn).
  pose proof (Hr mn (proj1 Hmn)) as Rn. pose proof (Hr mx (proj1 Hmx)) as Rx.
  pose proof (imin_imax_0 ty Hb) as H0. pose proof (zlen_nonneg p) as Hp.
  assert (Hsp : mx - mn <= imax ty /\ mx - mn = zlen p - 1).
  { rewrite (irm_from_vec_spec pr ty p mn mx) in H by auto.
    apply bind_ok in H. destruct H as (s & Hs & H). apply bind_ok in H. destruct H as (s' & Hs' & H).
    destruct (Z.eqb_spec s' (zlen p - 1)) as [->|]; [|discriminate].
    destruct (to_usize s) as [s''|] eqn:Et; [|discriminate]. cbn in Hs'. injection Hs' as Hs'.
    apply to_usize_some in Et. destruct Et as (Et & Hrange). clear H.
    unfold arith, in_type in Hs. destruct (Z.leb_spec (imin ty) (mx - mn)); [|lia].
    destruct (Z.leb_spec (mx - mn) (imax ty)); cbn [andb] in Hs.
    - injection Hs as Hs. lia.
    - exfalso. destruct pr; [discriminate|]. injection Hs as Hs.
      unfold wrap, imin, imax in *. destruct (signed ty); [|lia].
      assert (Hpow : 2 ^ bits ty = 2 * 2 ^ (bits ty - 1)).
      { rewrite <- Z.pow_succ_r by lia. f_equal. lia. }
      rewrite (Z.mod_small (mx - mn) (2 ^ bits ty)) in Hs by lia.
      destruct (Z.leb_spec (2 ^ (bits ty - 1)) (mx - mn)); cbn [andb] in Hs; lia. }
  destruct (irm_from_vec_ok pr ty p mn mx) as (m' & Hm' & _ & Hok); auto; try lia.
  rewrite H in Hm'. injection Hm' as <-. auto.
Qed.

(** Range maps, including empty ones, whatever their spread. *)
Lemma range_map_eq :
  forall (V : Type) (veq : V -> V -> bool) (pr : profile) (ty : int_type) (p1 p2 : list (Z * V))
         (m1 m2 : integer_range_map V),
  1 <= bits ty -> zlen p1 < 2 ^ 64 -> zlen p2 < 2 ^ 64 -> NoDup (map fst p1) -> NoDup (map fst p2) ->
  (forall k, In k (map fst p1) -> imin ty <= k <= imax ty) ->
  (forall k, In k (map fst p2) -> imin ty <= k <= imax ty) ->
  irm_from_vec pr ty p1 = Ok m1 -> irm_from_vec pr ty p2 = Ok m2 ->
  exists b, mo_eq veq (irm_object pr ty) m1 m2 = Ok b /\ (b = true <-> same_map Z.eqb veq p1 p2).
Proof.
  intros V veq pr ty p1 p2 m1 m2 Hb Z1 Z2 Hd1 Hd2 R1 R2 H1 H2.
  pose proof (irm_from_vec_perm _ _ _ _ H1) as HP1. pose proof (irm_from_vec_perm _ _ _ _ H2) as HP2.
  apply map_eq_distinct_Z in Hd1 as Hd1'. apply map_eq_distinct_Z in Hd2 as Hd2'.
  destruct p2 as [|e2 p2'] eqn:Ep2.
  - destruct p1 as [|e1 p1'].
    + apply map_eq_ok; auto using Z_equiv. intros k [].
    + apply Permutation_nil in HP2. exists false. split.
      * unfold mo_eq, map_eq. cbn [irm_object mo_entries]. rewrite HP2, <- (zlen_perm _ _ HP1), zlen_cons, zlen_nil.
        pose proof (zlen_nonneg p1'). destruct (Z.eqb_spec (zlen p1' + 1) 0); [lia|reflexivity].
      * split; [discriminate|]. intros (Ha & _). destruct e1 as [k v].
        destruct (Ha k v) as (v2 & (k2 & [] & _) & _). exists k. split; [now left|apply Z.eqb_refl].
  - rewrite <- Ep2 in *. assert (Hne : p2 <> []) by (subst; discriminate). clear Ep2.
    apply (mo_eq_ok Z.eqb veq Z_equiv _ _ _ p1 p2 _ _ (irm_searches pr ty)); auto.
    now apply (irm_built_ok pr ty p2).
Qed.

Lemma length_map_eq :
  forall (K V : Type) (eqb : K -> K -> bool) (veq : V -> V -> bool) (len : K -> Z)
         (E : env) (S_ty : int_type) (p1 p2 : list (K * V)) (m1 m2 : length_map K V),
  env_ok E -> fits S_ty (zlen p1) -> fits S_ty (zlen p2) -> equivalence eqb ->
  (forall a b, eqb a b = true -> len a = len b) ->
  distinct eqb (map fst p1) -> distinct eqb (map fst p2) ->
  lm_from_vec len E S_ty p1 = Ok m1 -> lm_from_vec len E S_ty p2 = Ok m2 ->
  exists b, mo_eq veq (lm_object eqb (fun k => k) len) m1 m2 = Ok b /\
    (b = true <-> same_map eqb veq p1 p2).
Proof.
  intros K V eqb veq len E S_ty p1 p2 m1 m2 HE F1 F2 He Hh Hd1 Hd2 H1 H2.
  destruct (lm_from_vec_ok len E S_ty p1 HE F1) as (m1' & Hm1 & HP1 & _).
  destruct (lm_from_vec_ok len E S_ty p2 HE F2) as (m2' & Hm2 & HP2 & Hok).
  rewrite Hm1 in H1. injection H1 as ->. rewrite Hm2 in H2. injection H2 as ->.
  apply (mo_eq_ok eqb veq He _ _ _ p1 p2 _ _ (lm_searches eqb (fun k => k) len len (fun _ => eq_refl) Hh)); auto.
Qed.

(** Left slice maps over different ranges. *)
Lemma left_slice_map_eq :
  forall (V BH : Type) (veq : V -> V -> bool) (hash_write : BH -> list Z -> Z) (E : env) (S_ty : int_type)
         (p1 p2 : list (list Z * V)) (a1 b1 a2 b2 : Z) (bh1 bh2 : BH) (m1 m2 : slice_map V BH),
  env_ok E -> fits S_ty (zlen p1) -> fits S_ty (zlen p2) -> 0 <= a1 <= b1 -> 0 <= a2 <= b2 ->
  (forall k, In k (map fst p1) -> b1 <= zlen k) -> (forall k, In k (map fst p2) -> b2 <= zlen k) ->
  NoDup (map fst p1) -> NoDup (map fst p2) ->
  lsm_from_vec hash_write E S_ty p1 a1 b1 bh1 = Ok m1 ->
  lsm_from_vec hash_write E S_ty p2 a2 b2 bh2 = Ok m2 ->
  exists b, mo_eq veq (lsm_object hash_write) m1 m2 = Ok b /\ (b = true <-> same_map bytes_eqb veq p1 p2).
Proof.
  intros V BH veq hw E S_ty p1 p2 a1 b1 a2 b2 bh1 bh2 m1 m2 HE F1 F2 R1 R2 L1 L2 Hd1 Hd2 H1 H2.
  destruct (lsm_from_vec_ok hw E S_ty p1 a1 b1 bh1 HE F1 R1) as (m1' & Hm1 & HP1 & _).
  { intros e He. apply L1. now apply in_map. }
  destruct (lsm_from_vec_ok hw E S_ty p2 a2 b2 bh2 HE F2 R2) as (m2' & Hm2 & HP2 & Hok & _).
  { intros e He. apply L2. now apply in_map. }
  rewrite Hm1 in H1. injection H1 as ->. rewrite Hm2 in H2. injection H2 as ->.
  apply (mo_eq_ok bytes_eqb veq bytes_equiv _ _ _ p1 p2 _ _ (lsm_searches hw)); auto; now apply NoDup_bytes.
Qed.

Lemma right_slice_map_eq :
  forall (V BH : Type) (veq : V -> V -> bool) (hash_write : BH -> list Z -> Z) (E : env) (S_ty : int_type)
         (p1 p2 : list (list Z * V)) (a1 b1 a2 b2 : Z) (bh1 bh2 : BH) (m1 m2 : slice_map V BH),
  env_ok E -> fits S_ty (zlen p1) -> fits S_ty (zlen p2) -> 0 <= b1 <= a1 -> 0 <= b2 <= a2 ->
  (forall k, In k (map fst p1) -> a1 <= zlen k < 2 ^ 64) ->
  (forall k, In k (map fst p2) -> a2 <= zlen k < 2 ^ 64) ->
  NoDup (map fst p1) -> NoDup (map fst p2) ->
  rsm_from_vec hash_write E S_ty p1 a1 b1 bh1 = Ok m1 ->
  rsm_from_vec hash_write E S_ty p2 a2 b2 bh2 = Ok m2 ->
  exists b, mo_eq veq (rsm_object hash_write E) m1 m2 = Ok b /\ (b = true <-> same_map bytes_eqb veq p1 p2).
Proof.
  intros V BH veq hw E S_ty p1 p2 a1 b1 a2 b2 bh1 bh2 m1 m2 HE F1 F2 R1 R2 L1 L2 Hd1 Hd2 H1 H2.
  destruct (rsm_from_vec_ok hw E S_ty p1 a1 b1 bh1 HE F1 R1) as (m1' & Hm1 & HP1 & _).
  { intros e He. apply L1. now apply in_map. }
  destruct (rsm_from_vec_ok hw E S_ty p2 a2 b2 bh2 HE F2 R2) as (m2' & Hm2 & HP2 & Hok & _).
  { intros e He. apply L2. now apply in_map. }
  rewrite Hm1 in H1. injection H1 as ->. rewrite Hm2 in H2. injection H2 as ->.
  apply (mo_eq_ok bytes_eqb veq bytes_equiv _ _ _ p1 p2 _ _ (rsm_searches hw E)); auto; try now apply NoDup_bytes.
  intros k Hk. now apply L1.
Qed.
