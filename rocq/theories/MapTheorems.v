(** Statements about FrozenMap, proved.  Properties.v restates them. *)
From Coq Require Import List ZArith Bool Arith Lia Permutation.
From Verif Require Import Spec MapSpec Base BaseLemmas EqbLists IntKeyAnalyzer SliceKeyAnalyzer HashCodeAnalyzer
  HashTable HashTableProofs HashCodeAnalyzerProofs IntProofs SliceKeyAnalyzerProofs Maps MapsProofs FrozenMap
  FrozenMapProofs FrozenMapBuild FrozenMapFacts CapacityProofs BuildSound Iterators IterSpec IteratorProofs.
Import ListNotations.
Open Scope Z_scope.

(** ** Lookup *)

(** C01: lookups in a built map with distinct keys are exact. *)
Lemma map_get_exact :
  forall (O V : Type) (eqbO : O -> O -> bool) (E : env) (kd : kind) (bh : hasher O)
         (payload : list (key O * V)) (m : map_types O V),
  env_ok E -> equivalence eqbO -> lawful_hash eqbO bh ->
  countable (prof E) (zlen payload) -> typed kd payload ->
  distinct (key_eqb eqbO) (map fst payload) ->
  fm_new E kd payload bh = Ok m ->
  forall k, has_kind kd k ->
  (exists r, fm_get eqbO E m k = Ok r) /\
  (forall v, fm_get eqbO E m k = Ok (Some v) <-> supplied (key_eqb eqbO) payload k v) /\
  (fm_get eqbO E m k = Ok None <-> not_supplied (key_eqb eqbO) payload k).
Proof.
  intros O V eqbO E kd bh payload m HE He Hl Hc Ht Hd Hm k Hk.
  destruct (built_sound eqbO E HE kd payload bh m Hc Ht Hm) as (HP & Hi & Hx & _).
  split; [|now apply (get_exact eqbO E kd payload bh m k); auto].
  destruct (fm_lookup_agree eqbO E kd bh m k Hi Hk) as (r & _ & _ & -> & _). eauto.
Qed.

(** C02: the four ways to look up a key agree; duplicates allowed, no law on Eq or Hash. *)
Lemma map_lookups_agree :
  forall (O V : Type) (eqbO : O -> O -> bool) (E : env) (kd : kind) (bh : hasher O)
         (payload : list (key O * V)) (m : map_types O V),
  env_ok E -> typed kd payload ->
  fm_new E kd payload bh = Ok m ->
  forall k, has_kind kd k ->
  (fm_get eqbO E m k = Ok None /\ fm_get_key_value eqbO E m k = Ok None /\
   fm_contains_key eqbO E m k = Ok false /\ fm_get_mut eqbO E m k = Ok None) \/
  (exists i k' v, nth_error (fm_iter m) i = Some (k', v) /\
     fm_get eqbO E m k = Ok (Some v) /\ fm_get_key_value eqbO E m k = Ok (Some (k', v)) /\
     fm_contains_key eqbO E m k = Ok true /\ fm_get_mut eqbO E m k = Ok (Some i) /\
     (kd <> KindU32 \/ distinct (key_eqb eqbO) (map fst payload) \/ ~ full_span payload ->
      key_eqb eqbO k k' = true)).
Proof.
  intros O V eqbO E kd bh payload m HE Ht Hm k Hk.
  destruct (built_safe eqbO E HE kd payload bh m Ht Hm) as (HP & Hi & Hx & Hr).
  destruct (fm_lookup_safe eqbO E kd m k Hi Hk) as (r & Hat & Hmut & Hget & Hkv & Hpos).
  unfold fm_contains_key, contains_key. rewrite Hget, Hkv, Hmut. cbn [bind].
  destruct r as [i|]; cbn [at_pos option_map]; [|left; auto].
  right. destruct (Hpos i eq_refl) as ([k' v] & He & Hk'). rewrite He. cbn [option_map snd fst] in *.
  exists i, k', v. split; auto. split; auto. split; auto. split; auto. split; auto.
  intros Hcond. assert (Hdec : is_range m \/ ~ is_range m) by (destruct m; cbn; auto).
  destruct Hdec as [Hrange|Hrange]; auto. destruct (Hr Hrange) as (-> & Hspan).
  destruct Hcond as [Hcond|[Hd|Hcond]]; try (exfalso; auto; fail).
  specialize (Hx Hd). destruct m; cbn [is_range] in Hrange; try (now destruct Hrange).
  cbn [fm_exact] in Hx. destruct (has_kind_u32 k Hk) as (n & -> & Hn).
  cbn [fm_get_key_value as_u32 bind] in Hkv.
  destruct (irm_lookup_ok (prof E) u32 m n Hx) as (_ & _ & Hirm). rewrite Hirm in Hkv. cbn [bind at_pos] in Hkv.
  rewrite He in Hkv. destruct (find _ _) as [[n' v']|] eqn:F; [|discriminate].
  apply find_some in F. cbn in F, Hkv. destruct F as (_ & F). injection Hkv as <- <-. exact F.
Qed.

(** ** Content *)

(** C03 *)
Lemma map_content :
  forall (O V : Type) (E : env) (kd : kind) (bh : hasher O)
         (payload : list (key O * V)) (m : map_types O V),
  env_ok E -> zlen payload < 2 ^ 64 -> fm_new E kd payload bh = Ok m ->
  exists es, Permutation payload es /\
    yields (it_next (prof E)) (fm_iter_new m) es /\
    yields (keys_next (prof E)) (fm_keys_new m) (map fst es) /\
    yields (values_next (prof E)) (fm_values_new m) (map snd es) /\
    fm_len m = zlen payload /\ (fm_is_empty m = true <-> payload = []).
Proof.
  intros O V E kd bh payload m HE Hlen Hm. pose proof (fm_new_perm E HE kd payload bh m Hm) as HP.
  pose proof (Permutation_length HP) as Hpl.
  assert (Hz : zlen (fm_iter m) = zlen payload) by (unfold zlen; lia).
  exists (fm_iter m). split; auto.
  assert (Hlen' : zlen (fm_iter m) < 2 ^ 64) by lia.
  destruct (map_iter_exact (prof E) _ Hlen' 0%nat) as (it & Hc & Hy & _). cbn [calls skipn] in Hc, Hy.
  rewrite map_id in Hy. injection Hc as <-.
  destruct (keys_iter_exact (prof E) _ Hlen' 0%nat) as (it2 & Hc2 & Hy2 & _). cbn [calls skipn] in Hc2, Hy2.
  injection Hc2 as <-.
  destruct (values_iter_exact (prof E) _ Hlen' 0%nat) as (it3 & Hc3 & Hy3 & _). cbn [calls skipn] in Hc3, Hy3.
  injection Hc3 as <-.
  split; auto. split; auto. split; auto. unfold fm_is_empty. rewrite fm_len_iter, Hz. split; auto.
  rewrite Z.eqb_eq. unfold zlen. destruct payload; cbn; split; intros; try discriminate; auto; lia.
Qed.

(** ** Construction *)

(** C04: no law on Eq or Hash needed. *)
Lemma map_new_other_total :
  forall (O V : Type) (E : env) (bh : hasher O) (payload : list (key O * V)),
  env_ok E -> zlen payload < 2 ^ 31 ->
  exists m, fm_new E KindOther payload bh = Ok m.
Proof.
  intros O V E bh payload HE Hn. unfold fm_new. destruct (zlen payload <? 4); [eauto|].
  destruct (fm_new_common_built E HE KindOther payload bh Hn) as (m & (H & _) & _). eauto.
Qed.

(** C05 *)
Lemma map_new_u32_total :
  forall (O V : Type) (E : env) (bh : hasher O) (payload : list (key O * V)),
  env_ok E -> zlen payload < 2 ^ 31 -> typed KindU32 payload ->
  exists m, fm_new E KindU32 payload bh = Ok m /\
    ((4 <= length payload)%nat -> NoDup (map (fun e => u32_of (fst e)) payload) ->
      (consecutive (map (fun e => u32_of (fst e)) payload) -> exists rm, m = MU32Range rm) /\
      (~ consecutive (map (fun e => u32_of (fst e)) payload) ->
        exists im, m = MU32Small im \/ m = MU32Large im)).
Proof.
  intros O V E bh payload HE Hn Ht. unfold fm_new. destruct (Z.ltb_spec (zlen payload) 4) as [H4|H4].
  { eexists. split; [reflexivity|]. intros H. unfold zlen in H4. lia. }
  assert (Hne : payload <> []) by (intros ->; change (zlen []) with 0 in H4; lia).
  destruct (fm_new_u32_built E HE payload bh Hne Hn Ht) as (m & (Hm & _) & (mn & mx & Hmn & Hmx & Hr) & _).
  exists m. split; auto. intros _ Hd.
  pose proof (consecutive_iff _ mn mx (map_nonempty _ _ Hne) Hd Hmn Hmx) as Hc.
  rewrite zlen_map in Hc.
  assert (Hkind : (exists rm, m = MU32Range rm) \/ (exists im, m = MU32Small im \/ m = MU32Large im)).
  { unfold fm_new_u32_map in Hm. apply bind_ok in Hm. destruct Hm as (p & _ & Hm).
    apply bind_ok in Hm. destruct Hm as ([] & _ & Hm).
    - destruct (_ <=? _); apply bind_ok in Hm; destruct Hm as (im & _ & Hm); injection Hm as <-; eauto.
    - apply bind_ok in Hm. destruct Hm as (rm & _ & Hm). injection Hm as <-; eauto. }
  split; intros Hcons.
  - destruct Hkind as [Hk|(im & [Hk|Hk])]; auto; subst m; cbn in Hr; tauto.
  - destruct Hkind as [(rm & Hk)|Hk]; auto. subst m. cbn in Hr. tauto.
Qed.

(** C06 *)
Lemma map_new_string_outcome :
  forall (O V : Type) (E : env) (bh : hasher O) (payload : list (key O * V)),
  env_ok E -> zlen payload < 2 ^ 31 -> typed KindString payload ->
  let h := hash_one_slice bh in
  (string_ub h (str_keys payload) /\ fm_new E KindString payload bh = UB OutOfBounds) \/
  (string_panic h (str_keys payload) /\ fm_new E KindString payload bh = Panic PIndexOutOfBounds) \/
  (~ string_ub h (str_keys payload) /\ ~ string_panic h (str_keys payload) /\
   exists m, fm_new E KindString payload bh = Ok m).
Proof.
  intros O V E bh payload HE Hn Ht h.
  destruct (fm_new_outcome E HE KindString payload bh Hn Ht)
    as [(m & (Hm & _) & _ & _ & Hs)|[(_ & H1 & H2)|(_ & H1 & H2)]]; auto.
  right. right. destruct (Hs eq_refl). eauto.
Qed.

(** ** Duplicate keys (C09) *)

Lemma map_get_duplicates :
  forall (O V : Type) (eqbO : O -> O -> bool) (E : env) (kd : kind) (bh : hasher O)
         (payload : list (key O * V)) (m : map_types O V),
  env_ok E -> equivalence eqbO -> lawful_hash eqbO bh ->
  countable (prof E) (zlen payload) -> typed kd payload ->
  (kd = KindU32 -> ~ full_span payload) ->
  fm_new E kd payload bh = Ok m ->
  forall k, has_kind kd k ->
  (exists r, fm_get eqbO E m k = Ok r) /\
  (forall v, fm_get eqbO E m k = Ok (Some v) -> supplied (key_eqb eqbO) payload k v) /\
  (fm_get eqbO E m k = Ok None <-> not_supplied (key_eqb eqbO) payload k).
Proof.
  intros O V eqbO E kd bh payload m HE He Hl Hc Ht Hsp Hm k Hk.
  destruct (built_sound eqbO E HE kd payload bh m Hc Ht Hm) as (HP & Hi & Hx & Hr).
  assert (Hex : fm_exact m).
  { destruct m; try exact I. destruct (Hr I) as (Hkd & Hfs). exfalso. now apply (Hsp Hkd). }
  destruct (get_some_supplied eqbO E kd payload bh m k He Hl HP Hi Hex Hk) as (H1 & H2 & H3). auto.
Qed.

(** ** Writing (C10) *)

Lemma map_write :
  forall (O V : Type) (eqbO : O -> O -> bool) (E : env) (kd : kind) (bh : hasher O)
         (payload : list (key O * V)) (m : map_types O V),
  env_ok E -> equivalence eqbO -> typed kd payload ->
  fm_new E kd payload bh = Ok m ->
  forall k i w, has_kind kd k -> fm_get_mut eqbO E m k = Ok (Some i) ->
  fm_get eqbO E (fm_write i w m) k = Ok (Some w) /\
  (forall k', has_kind kd k' -> key_eqb eqbO k k' = false ->
     fm_get eqbO E (fm_write i w m) k' = fm_get eqbO E m k') /\
  map fst (fm_iter (fm_write i w m)) = map fst (fm_iter m) /\
  fm_len (fm_write i w m) = fm_len m /\
  (forall j, j <> i -> nth_error (fm_iter (fm_write i w m)) j = nth_error (fm_iter m) j).
Proof.
  intros O V eqbO E kd bh payload m HE He Ht Hm k i w Hk Hg.
  destruct (built_safe eqbO E HE kd payload bh m Ht Hm) as (HP & Hi & Hx & Hr).
  exact (write_effect eqbO E kd m k i w He Hi Hk Hg).
Qed.

(** ** get_many_mut (C11) *)

Lemma map_get_many_mut :
  forall (O V : Type) (eqbO : O -> O -> bool) (E : env) (kd : kind) (bh : hasher O)
         (payload : list (key O * V)) (m : map_types O V),
  env_ok E -> equivalence eqbO -> typed kd payload ->
  fm_new E kd payload bh = Ok m ->
  forall keys, (forall k, In k keys -> has_kind kd k) ->
  (fm_get_many_mut eqbO E m keys = Ok None /\
   (~ distinct (key_eqb eqbO) keys \/ exists k, In k keys /\ fm_get eqbO E m k = Ok None)) \/
  (exists ps, fm_get_many_mut eqbO E m keys = Ok (Some ps) /\
   distinct (key_eqb eqbO) keys /\ NoDup ps /\
   Forall2 (fun k p => fm_get_mut eqbO E m k = Ok (Some p) /\
              exists e, nth_error (fm_iter m) p = Some e /\ fm_get eqbO E m k = Ok (Some (snd e)))
     keys ps).
Proof.
  intros O V eqbO E kd bh payload m HE He Ht Hm keys Hk.
  destruct (built_safe eqbO E HE kd payload bh m Ht Hm) as (HP & Hi & Hx & Hr).
  destruct (get_many_mut_spec eqbO E kd m keys He Hi Hk) as ([ps|] & Hg & H); [right|left; auto].
  destruct H as (H1 & H2 & H3). exists ps. split; auto. split; auto. split; auto.
  clear - H3. induction H3 as [|k p keys ps (e & ? & ? & ?)]; constructor; auto. split; eauto.
Qed.

(** ** Indexing (C13) *)

Lemma map_index :
  forall (O V : Type) (eqbO : O -> O -> bool) (E : env) (kd : kind) (bh : hasher O)
         (payload : list (key O * V)) (m : map_types O V),
  env_ok E -> typed kd payload ->
  fm_new E kd payload bh = Ok m ->
  forall k, has_kind kd k ->
  (forall v, fm_index eqbO E m k = Ok v <-> fm_get eqbO E m k = Ok (Some v)) /\
  (forall i, fm_index_mut eqbO E m k = Ok i <-> fm_get_mut eqbO E m k = Ok (Some i)) /\
  (fm_index eqbO E m k = Panic PUnwrapNone <-> fm_get eqbO E m k = Ok None) /\
  (fm_index_mut eqbO E m k = Panic PUnwrapNone <-> fm_get eqbO E m k = Ok None) /\
  ((exists v, fm_index eqbO E m k = Ok v) \/ fm_index eqbO E m k = Panic PUnwrapNone).
Proof.
  intros O V eqbO E kd bh payload m HE Ht Hm k Hk.
  destruct (built_safe eqbO E HE kd payload bh m Ht Hm) as (HP & Hi & Hx & Hr).
  destruct (fm_lookup_safe eqbO E kd m k Hi Hk) as (r & _ & Hmut & Hget & _ & Hpos).
  unfold fm_index, fm_index_mut, index_of. rewrite Hget, Hmut. cbn [bind].
  destruct r as [i|]; cbn [at_pos option_map].
  - destruct (Hpos i eq_refl) as (e & He & _). rewrite He. cbn [option_map unwrap].
    repeat split; intros; try congruence. eauto.
  - cbn [unwrap]. repeat split; intros; try congruence. auto.
Qed.

(** ** Equality (C14) *)

Lemma all_res_ok {A} (f : A -> res bool) g l :
  (forall a, In a l -> f a = Ok (g a)) -> all_res f l = Ok (forallb g l).
Proof.
  induction l as [|a l IH]; intros H; cbn [all_res forallb]; auto.
  rewrite H by (left; auto). cbn [bind]. destruct (g a); auto. apply IH. intros. apply H. now right.
Qed.

Lemma map_eq_extensional :
  forall (O V : Type) (eqbO : O -> O -> bool) (veq : V -> V -> bool) (E : env) (kd : kind)
         (bh1 bh2 : hasher O) (p1 p2 : list (key O * V)) (m1 m2 : map_types O V),
  env_ok E -> equivalence eqbO -> lawful_hash eqbO bh1 -> lawful_hash eqbO bh2 ->
  countable (prof E) (zlen p1) -> countable (prof E) (zlen p2) -> typed kd p1 -> typed kd p2 ->
  distinct (key_eqb eqbO) (map fst p1) -> distinct (key_eqb eqbO) (map fst p2) ->
  fm_new E kd p1 bh1 = Ok m1 -> fm_new E kd p2 bh2 = Ok m2 ->
  exists b, fm_eq eqbO E veq m1 m2 = Ok b /\ (b = true <-> same_map (key_eqb eqbO) veq p1 p2).
Proof.
  intros O V eqbO veq E kd bh1 bh2 p1 p2 m1 m2 HE He Hl1 Hl2 Hc1 Hc2 Ht1 Ht2 Hd1 Hd2 Hm1 Hm2.
  pose proof (key_eqb_equiv eqbO He) as Hk.
  pose proof (fm_new_perm E HE kd p1 bh1 m1 Hm1) as HP1.
  pose proof (fm_new_perm E HE kd p2 bh2 m2 Hm2) as HP2.
  assert (Hget : forall k, has_kind kd k -> fm_get eqbO E m2 k = Ok (option_map snd (find (fun e => key_eqb eqbO k (fst e)) p2))).
  { intros k Hkk. destruct (map_get_exact O V eqbO E kd bh2 p2 m2 HE He Hl2 Hc2 Ht2 Hd2 Hm2 k Hkk) as (_ & Hs & Hn).
    destruct (find _ p2) as [[k' v]|] eqn:F; cbn [option_map snd].
    - apply Hs. apply find_some in F. exists k'. exact F.
    - apply Hn. intros k' v Hi. exact (find_none _ _ F _ Hi). }
  unfold fm_eq. rewrite !fm_len_iter.
  set (g := fun e : key O * V => match option_map snd (find (fun e' => key_eqb eqbO (fst e) (fst e')) p2) with
                                 | Some v => veq (snd e) v | None => false end).
  rewrite (all_res_ok _ g).
  2:{ intros [k v] Hi. rewrite Hget; auto. apply (Ht1 (k, v)).
      now apply (Permutation_in _ (Permutation_sym HP1)). }
  assert (Hz1 : zlen (fm_iter m1) = zlen p1) by (symmetry; now apply zlen_perm).
  assert (Hz2 : zlen (fm_iter m2) = zlen p2) by (symmetry; now apply zlen_perm).
  rewrite Hz1, Hz2.
  assert (Hall : forallb g (fm_iter m1) = true <->
            forall k v1, supplied (key_eqb eqbO) p1 k v1 -> exists v2, supplied (key_eqb eqbO) p2 k v2 /\ veq v1 v2 = true).
  { rewrite forallb_forall. split.
    - intros H k v1 (k' & Hi & Hkk'). specialize (H (k', v1)). unfold g in H. cbn [fst snd] in H.
      specialize (H (Permutation_in _ HP1 Hi)). destruct (find _ p2) as [[k2 v2]|] eqn:F; [|discriminate].
      cbn [option_map snd] in H. exists v2. split; auto. apply find_some in F. cbn [fst] in F.
      exists k2. split; [tauto|]. eapply (eq_trans_ok _ Hk); [exact Hkk'|tauto].
    - intros H [k v1] Hi. unfold g. cbn [fst snd].
      destruct (H k v1) as (v2 & (k2 & H1 & H2) & H3).
      { exists k. split; [now apply (Permutation_in _ (Permutation_sym HP1))|apply Hk]. }
      destruct (find _ p2) as [[k3 v3]|] eqn:F; cbn [option_map snd].
      + apply find_some in F. cbn [fst] in F.
        rewrite (supplied_unique _ Hk p2 k v3 v2); auto; [exists k3|exists k2]; tauto.
      + pose proof (find_none _ _ F _ H1) as F'. cbn [fst] in F'. congruence. }
  assert (Hcov : (forall k v1, supplied (key_eqb eqbO) p1 k v1 -> exists v2, supplied (key_eqb eqbO) p2 k v2 /\ veq v1 v2 = true) ->
     covers (key_eqb eqbO) (map fst p2) (map fst p1)).
  { intros H k Hi. apply in_map_iff in Hi. destruct Hi as ([k' v] & <- & Hi). cbn [fst].
    destruct (H k' v) as (v2 & (k2 & H1 & H2) & _); [exists k'; split; auto; apply Hk|].
    exists k2. split; auto. now apply (in_map fst) in H1. }
  destruct (Z.eqb_spec (zlen p1) (zlen p2)) as [Hz|Hz]; cbn [negb].
  - exists (forallb g (fm_iter m1)). split; auto. rewrite Hall. split; [|intros []; auto].
    intros H. split; auto. intros k v2 (k2 & Hi2 & Hk2).
    destruct (pigeonhole _ Hk (map fst p1) (map fst p2) Hd1 (Hcov H)) as (_ & Hback).
    destruct (Hback ltac:(rewrite !map_length; unfold zlen in Hz; lia) k2) as (k1 & Hi1 & Hk12).
    { now apply (in_map fst) in Hi2. }
    apply in_map_iff in Hi1. destruct Hi1 as ([k1' v1] & <- & Hi1). cbn [fst] in *.
    assert (Hs1 : supplied (key_eqb eqbO) p1 k v1).
    { exists k1'. split; auto. eapply (eq_trans_ok _ Hk); eauto. }
    destruct (H k v1 Hs1) as (v2' & Hs2 & Hv). exists v1. split; auto.
    rewrite (supplied_unique _ Hk p2 k v2 v2'); auto. exists k2. auto.
  - exists false. split; auto. split; [discriminate|]. intros (Ha & Hb). exfalso. apply Hz.
    destruct (pigeonhole _ Hk (map fst p1) (map fst p2) Hd1 (Hcov Ha)) as (Hle1 & _).
    destruct (pigeonhole _ Hk (map fst p2) (map fst p1) Hd2) as (Hle2 & _).
    { intros k Hi. apply in_map_iff in Hi. destruct Hi as ([k' v] & <- & Hi). cbn [fst].
      destruct (Hb k' v) as (v1 & (k1 & H1 & H2) & _); [exists k'; split; auto; apply Hk|].
      exists k1. split; auto. now apply (in_map fst) in H1. }
    rewrite !map_length in *. unfold zlen. lia.
Qed.

(** Consequently [==] is an equivalence when the values' [==] is one. *)
Lemma map_eq_equivalence :
  forall (O V : Type) (eqbO : O -> O -> bool) (veq : V -> V -> bool) (E : env) (kd : kind)
         (bh1 bh2 bh3 : hasher O) (p1 p2 p3 : list (key O * V)) (m1 m2 m3 : map_types O V),
  env_ok E -> equivalence eqbO -> equivalence veq ->
  lawful_hash eqbO bh1 -> lawful_hash eqbO bh2 -> lawful_hash eqbO bh3 ->
  countable (prof E) (zlen p1) -> countable (prof E) (zlen p2) -> countable (prof E) (zlen p3) ->
  typed kd p1 -> typed kd p2 -> typed kd p3 ->
  distinct (key_eqb eqbO) (map fst p1) -> distinct (key_eqb eqbO) (map fst p2) ->
  distinct (key_eqb eqbO) (map fst p3) ->
  fm_new E kd p1 bh1 = Ok m1 -> fm_new E kd p2 bh2 = Ok m2 -> fm_new E kd p3 bh3 = Ok m3 ->
  fm_eq eqbO E veq m1 m1 = Ok true /\
  fm_eq eqbO E veq m1 m2 = fm_eq eqbO E veq m2 m1 /\
  (fm_eq eqbO E veq m1 m2 = Ok true -> fm_eq eqbO E veq m2 m3 = Ok true ->
   fm_eq eqbO E veq m1 m3 = Ok true) /\
  (Permutation p1 p2 -> fm_eq eqbO E veq m1 m2 = Ok true).
Proof.
  intros O V eqbO veq E kd bh1 bh2 bh3 p1 p2 p3 m1 m2 m3 HE He Hv Hl1 Hl2 Hl3 Hc1 Hc2 Hc3 Ht1 Ht2 Ht3 Hd1 Hd2 Hd3 Hm1 Hm2 Hm3.
  pose proof (key_eqb_equiv eqbO He) as Hk.
  pose proof (map_eq_extensional O V eqbO veq E kd bh1 bh1 p1 p1 m1 m1 HE He Hl1 Hl1 Hc1 Hc1 Ht1 Ht1 Hd1 Hd1 Hm1 Hm1) as (b11 & H11 & E11).
  pose proof (map_eq_extensional O V eqbO veq E kd bh1 bh2 p1 p2 m1 m2 HE He Hl1 Hl2 Hc1 Hc2 Ht1 Ht2 Hd1 Hd2 Hm1 Hm2) as (b12 & H12 & E12).
  pose proof (map_eq_extensional O V eqbO veq E kd bh2 bh1 p2 p1 m2 m1 HE He Hl2 Hl1 Hc2 Hc1 Ht2 Ht1 Hd2 Hd1 Hm2 Hm1) as (b21 & H21 & E21).
  pose proof (map_eq_extensional O V eqbO veq E kd bh2 bh3 p2 p3 m2 m3 HE He Hl2 Hl3 Hc2 Hc3 Ht2 Ht3 Hd2 Hd3 Hm2 Hm3) as (b23 & H23 & E23).
  pose proof (map_eq_extensional O V eqbO veq E kd bh1 bh3 p1 p3 m1 m3 HE He Hl1 Hl3 Hc1 Hc3 Ht1 Ht3 Hd1 Hd3 Hm1 Hm3) as (b13 & H13 & E13).
  assert (Hsym : forall p q, same_map (key_eqb eqbO) veq p q -> same_map (key_eqb eqbO) veq q p).
  { intros p q (Ha & Hb). split.
    - intros k v Hs. destruct (Hb k v Hs) as (v' & ? & ?). exists v'. split; auto. now apply Hv.
    - intros k v Hs. destruct (Ha k v Hs) as (v' & ? & ?). exists v'. split; auto. now apply Hv. }
  split; [|split; [|split]].
  - rewrite H11. f_equal. apply E11. split; intros k v Hs; exists v; split; auto; apply Hv.
  - rewrite H12, H21. f_equal. apply eq_true_iff_eq. rewrite E12, E21. split; apply Hsym.
  - rewrite H12, H23, H13. intros T1 T2. injection T1 as T1. injection T2 as T2. f_equal.
    apply E13. apply E12 in T1. apply E23 in T2. destruct T1 as (A1 & B1), T2 as (A2 & B2). split.
    + intros k v Hs. destruct (A1 k v Hs) as (v' & Hs' & Hv1). destruct (A2 k v' Hs') as (v'' & Hs'' & Hv2).
      exists v''. split; auto. eapply (eq_trans_ok _ Hv); eauto.
    + intros k v Hs. destruct (B2 k v Hs) as (v' & Hs' & Hv1). destruct (B1 k v' Hs') as (v'' & Hs'' & Hv2).
      exists v''. split; auto. eapply (eq_trans_ok _ Hv); eauto.
  - intros HP. rewrite H12. f_equal. apply E12. split; intros k v Hs; exists v; (split; [|apply Hv]).
    + eapply supplied_perm; eauto.
    + eapply supplied_perm; [apply Permutation_sym; exact HP|]; auto.
Qed.

(** ** Default (C37) *)

Lemma map_default_empty :
  forall (O V : Type) (eqbO : O -> O -> bool) (E : env),
  let m := fm_default (O:=O) (V:=V) in
  fm_len m = 0 /\ fm_is_empty m = true /\ yields (it_next (prof E)) (fm_iter_new m) [] /\
  forall k, fm_get eqbO E m k = Ok None /\ fm_get_key_value eqbO E m k = Ok None /\
            fm_contains_key eqbO E m k = Ok false /\ fm_get_mut eqbO E m k = Ok None.
Proof.
  intros. split; [reflexivity|]. split; [reflexivity|]. split.
  - eapply yields_end. reflexivity.
  - intros k. repeat split; reflexivity.
Qed.
