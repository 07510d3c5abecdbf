(** Comparing specialized maps in which keys repeat. *)
From Coq Require Import List ZArith Bool Arith Lia Permutation.
From Verif Require Import Spec MapSpec Base BaseLemmas EqbLists HashTable HashTableProofs Maps MapsProofs IntProofs
  FrozenMap FrozenMapFacts BuildSound Iterators IterSpec IteratorProofs HistorySpec ObjectSpec HistoryProofs MapObjects
  ComponentTheorems MapTheorems MapObjectProofs MapObjectEq.
Import ListNotations.
Open Scope Z_scope.

Section Generic.
Context {M K V : Type}.
Variable eqb : K -> K -> bool.
Variable veq : V -> V -> bool.
Hypothesis Hk : equivalence eqb.
Variable mo : map_object M K V K.
Variable D : K -> Prop.
Variable inv : M -> Prop.
Hypothesis Hs : searches eqb (fun k => k) mo D inv.

Lemma mo_eq_found p1 p2 m1 m2 :
  Permutation p1 (mo_entries mo m1) -> Permutation p2 (mo_entries mo m2) -> inv m2 -> (forall k, In k (map fst p1) -> D k) ->
  exists b, mo_eq veq mo m1 m2 = Ok b /\
    (b = true <-> length p1 = length p2 /\
       forall k v, In (k, v) p1 ->
       exists k' v', find (fun e => eqb k (fst e)) (mo_entries mo m2) = Some (k', v') /\ veq v v' = true).
Proof.
  intros HP1 HP2 Hi HD. destruct Hs as (Hl & _). unfold mo_eq, map_eq.
  rewrite <- (zlen_perm _ _ HP1), <- (zlen_perm _ _ HP2).
  set (g := fun e : K * V => match option_map snd (find (fun e' => eqb (fst e) (fst e')) (mo_entries mo m2)) with
                             | Some v => veq (snd e) v | None => false end).
  rewrite (all_res_ok _ g).
  2:{ intros e Hie. apply (Permutation_in _ (Permutation_sym HP1)), (in_map fst) in Hie.
      destruct (Hl m2 (fst e) Hi (HD _ Hie)) as (_ & -> & _). reflexivity. }
  unfold zlen. destruct (Z.eqb_spec (Z.of_nat (length p1)) (Z.of_nat (length p2))) as [L|L]; cbn [negb]; eexists; (split; [reflexivity|]).
  2: split; [discriminate|lia].
  rewrite forallb_forall. split.
  - intros H. split; [lia|]. intros k v Hkv. specialize (H (k, v) (Permutation_in _ HP1 Hkv)). unfold g in H. cbn [fst snd] in H.
    destruct (find _ (mo_entries mo m2)) as [[k' v']|]; [|discriminate]. cbn in H. eauto.
  - intros (_ & H) [k v] Hkv. destruct (H k v (Permutation_in _ (Permutation_sym HP1) Hkv)) as (k' & v' & F & Hv).
    unfold g. cbn [fst snd]. rewrite F. exact Hv.
Qed.

Lemma mo_eq_self p m : equivalence veq ->
  Permutation p (mo_entries mo m) -> inv m -> (forall k, In k (map fst p) -> D k) ->
  exists b, mo_eq veq mo m m = Ok b /\
    (b = true <-> forall k v k' v', In (k, v) p -> In (k', v') p -> eqb k k' = true -> veq v v' = true).
Proof.
  intros Hv HP Hi HD. destruct (mo_eq_found p p m m HP HP Hi HD) as (b & Hb & Hiff). exists b. split; auto. rewrite Hiff. split.
  - intros (_ & H) k v k' v' Hkv Hkv' Hkk.
    destruct (H k v Hkv) as (k1 & v1 & F1 & V1). destruct (H k' v' Hkv') as (k2 & v2 & F2 & V2).
    assert (S : forall e : K * V, eqb k (fst e) = eqb k' (fst e)).
    { intros e. apply eq_true_iff_eq. split; intros X; eapply (eq_trans_ok _ Hk); try exact X; auto. now apply (eq_sym_ok _ Hk). }
    assert (F : forall es, find (fun e : K * V => eqb k (fst e)) es = find (fun e => eqb k' (fst e)) es).
    { induction es as [|e es IH]; [reflexivity|]. cbn [find]. now rewrite S, IH. }
    rewrite F, F2 in F1. injection F1 as <- <-. eapply (eq_trans_ok _ Hv); [exact V1|]. now apply (eq_sym_ok _ Hv).
  - intros H. split; auto. intros k v Hkv. destruct (find (fun e => eqb k (fst e)) (mo_entries mo m)) as [[k' v']|] eqn:F.
    + exists k', v'. split; auto. apply find_some in F. destruct F as (F1 & F2). apply (H k v k' v' Hkv); auto.
      now apply (Permutation_in _ (Permutation_sym HP)).
    + exfalso. pose proof (find_none _ _ F (k, v) (Permutation_in _ HP Hkv)) as N. cbn [fst] in N.
      rewrite (eq_refl_ok _ Hk) in N. discriminate.
Qed.
End Generic.

Lemma repeated_scanning_eq :
  forall (K V : Type) (eqb : K -> K -> bool) (veq : V -> V -> bool) (p1 p2 : list (K * V)),
  equivalence eqb ->
  exists b, mo_eq veq (sm_object eqb (fun k => k)) (sm_from_vec p1) (sm_from_vec p2) = Ok b /\
    (b = true <-> length p1 = length p2 /\
       forall k v, In (k, v) p1 -> exists k' v', find (fun e => eqb k (fst e)) p2 = Some (k', v') /\ veq v v' = true).
Proof.
  intros K V eqb veq p1 p2 He.
  apply (mo_eq_found eqb veq _ _ _ (sm_searches eqb (fun k => k)) p1 p2 (sm_from_vec p1) (sm_from_vec p2)); auto; apply Permutation_refl.
Qed.

Lemma repeated_common_eq_self :
  forall (K V BH : Type) (eqb : K -> K -> bool) (veq : V -> V -> bool) (hash : BH -> K -> Z)
         (E : env) (S_ty : int_type) (p : list (K * V)) (bh : BH) (m : common_map K V BH),
  env_ok E -> fits S_ty (zlen p) -> equivalence eqb -> equivalence veq ->
  (forall a b, eqb a b = true -> hash bh a = hash bh b) ->
  cm_from_vec hash E S_ty p bh = Ok m ->
  exists b, mo_eq veq (cm_object eqb (fun k => k) hash) m m = Ok b /\
    (b = true <-> forall k v k' v', In (k, v) p -> In (k', v') p -> eqb k k' = true -> veq v v' = true).
Proof.
  intros K V BH eqb veq hash E S_ty p bh m HE F He Hv Hh H.
  destruct (cm_from_vec_ok hash E S_ty p bh HE F) as (m' & Hm & HP & Hok & Hb). rewrite Hm in H. injection H as ->.
  apply (mo_eq_self eqb veq He _ _ _ (cm_searches eqb (fun k => k) hash hash bh He (fun _ => eq_refl) Hh)); auto.
Qed.

Lemma repeated_integer_eq_self :
  forall (V : Type) (veq : V -> V -> bool) (E : env) (S_ty : int_type) (p : list (Z * V)) (m : integer_map V),
  env_ok E -> fits S_ty (zlen p) -> equivalence veq ->
  im_from_vec E S_ty p = Ok m ->
  exists b, mo_eq veq im_object m m = Ok b /\
    (b = true <-> forall k v v', In (k, v) p -> In (k, v') p -> veq v v' = true).
Proof.
  intros V veq E S_ty p m HE F Hv H.
  destruct (im_from_vec_ok E S_ty p HE F) as (m' & Hm & HP & Hok). rewrite Hm in H. injection H as ->.
  destruct (mo_eq_self Z.eqb veq Z_equiv _ _ _ im_searches p m Hv HP Hok (fun _ _ => I)) as (b & Hb & Hiff).
  exists b. split; auto. rewrite Hiff. split.
  - intros G k v v' A B. apply (G k v k v' A B). apply Z.eqb_refl.
  - intros G k v k' v' A B C. apply Z.eqb_eq in C. subst k'. eauto.
Qed.

Lemma repeated_length_eq_self :
  forall (K V : Type) (eqb : K -> K -> bool) (veq : V -> V -> bool) (len : K -> Z)
         (E : env) (S_ty : int_type) (p : list (K * V)) (m : length_map K V),
  env_ok E -> fits S_ty (zlen p) -> equivalence eqb -> equivalence veq ->
  (forall a b, eqb a b = true -> len a = len b) ->
  lm_from_vec len E S_ty p = Ok m ->
  exists b, mo_eq veq (lm_object eqb (fun k => k) len) m m = Ok b /\
    (b = true <-> forall k v k' v', In (k, v) p -> In (k', v') p -> eqb k k' = true -> veq v v' = true).
Proof.
  intros K V eqb veq len E S_ty p m HE F He Hv Hh H.
  destruct (lm_from_vec_ok len E S_ty p HE F) as (m' & Hm & HP & Hok). rewrite Hm in H. injection H as ->.
  apply (mo_eq_self eqb veq He _ _ _ (lm_searches eqb (fun k => k) len len (fun _ => eq_refl) Hh)); auto.
Qed.
