(** Comparing collections in which keys repeat. *)
From Coq Require Import List ZArith Bool Arith Lia Permutation.
From Verif Require Import Spec MapSpec SetSpec Base BaseLemmas EqbLists Maps FrozenMap FrozenMapProofs BuildSound FrozenMapFacts SetOps SetOpsProofs
  Sets FrozenSet FrozenSetProofs HistorySpec ObjectSpec History MapTheorems SetTheorems RepeatedSpec RepeatedProofs PlaceSpec PlaceProofs.
Import ListNotations.
Open Scope Z_scope.

Lemma members_included {T} (eqb : T -> T -> bool) (i1 i2 : list T) : equivalence eqb ->
  (forallb (fun x => existsb (eqb x) i2) i1 = true <-> forall x, member eqb i1 x -> member eqb i2 x).
Proof.
  intros He. rewrite forallb_forall. split.
  - intros H x (y & Hy & Hxy). specialize (H y Hy). apply existsb_exists in H. destruct H as (z & Hz & Hyz).
    exists z. split; auto. eapply (eq_trans_ok _ He); eauto.
  - intros H x Hx. destruct (H x) as (z & Hz & Hxz); [exists x; split; auto; apply He|].
    apply existsb_exists. eauto.
Qed.

Lemma all_contained {T} (eqb : T -> T -> bool) D (s1 s2 : set_impl T) : lawful_set eqb D s1 -> lawful_set eqb D s2 ->
  all_res (s_contains s2) (s_items s1) = Ok (forallb (fun x => existsb (eqb x) (s_items s2)) (s_items s1)).
Proof.
  intros L1 L2. apply all_res_ok. intros x Hx.
  destruct (SetSpec.ls_contains _ _ _ L2 x (SetSpec.ls_typed _ _ _ L1 x Hx)) as (b & -> & Hb). f_equal. apply eq_true_iff_eq.
  rewrite Hb, existsb_exists. reflexivity.
Qed.

(** ** C98 *)

Lemma repeated_set_comparisons :
  forall (T : Type) (eqb : T -> T -> bool) (D : T -> Prop) (s1 s2 : set_impl T),
  equivalence eqb -> lawful_set eqb D s1 -> lawful_set eqb D s2 ->
  let n1 := length (s_items s1) in
  let n2 := length (s_items s2) in
  let included l l' := forall x, member eqb l x -> member eqb l' x in
  (exists b, is_subset s1 s2 = Ok b /\ (b = true <-> (n1 <= n2)%nat /\ included (s_items s1) (s_items s2))) /\
  (exists b, is_superset s1 s2 = Ok b /\ (b = true <-> (n2 <= n1)%nat /\ included (s_items s2) (s_items s1))) /\
  (exists b, set_eq s1 s2 = Ok b /\ (b = true <-> n1 = n2 /\ included (s_items s1) (s_items s2))).
Proof.
  intros T eqb D s1 s2 He L1 L2 n1 n2 included.
  pose proof (SetSpec.ls_len _ _ _ L1) as Z1. pose proof (SetSpec.ls_len _ _ _ L2) as Z2. unfold zlen in Z1, Z2. fold n1 in Z1. fold n2 in Z2.
  pose proof (members_included eqb (s_items s1) (s_items s2) He) as M12.
  pose proof (members_included eqb (s_items s2) (s_items s1) He) as M21.
  unfold is_subset, is_superset, set_eq. rewrite (all_contained eqb D s1 s2 L1 L2), (all_contained eqb D s2 s1 L2 L1), Z1, Z2.
  split; [|split].
  - destruct (Z.leb_spec (Z.of_nat n1) (Z.of_nat n2)); eexists; (split; [reflexivity|]).
    + rewrite M12. split; [split; [lia|auto]|tauto].
    + split; [discriminate|lia].
  - destruct (Z.leb_spec (Z.of_nat n2) (Z.of_nat n1)); eexists; (split; [reflexivity|]).
    + rewrite M21. split; [split; [lia|auto]|tauto].
    + split; [discriminate|lia].
  - destruct (Z.eqb_spec (Z.of_nat n1) (Z.of_nat n2)); cbn [negb]; eexists; (split; [reflexivity|]).
    + rewrite M12. split; [split; [lia|auto]|tauto].
    + split; [discriminate|lia].
Qed.

Lemma repeated_set_eq_laws :
  forall (T : Type) (eqb : T -> T -> bool) (D : T -> Prop) (s1 s2 s3 : set_impl T),
  equivalence eqb -> lawful_set eqb D s1 -> lawful_set eqb D s2 -> lawful_set eqb D s3 ->
  set_eq s1 s1 = Ok true /\
  (set_eq s1 s2 = Ok true -> set_eq s2 s3 = Ok true -> set_eq s1 s3 = Ok true) /\
  (set_eq s1 s2 = Ok true -> distinct eqb (s_items s1) ->
     set_eq s2 s1 = Ok true /\ forall x, member eqb (s_items s1) x <-> member eqb (s_items s2) x).
Proof.
  intros T eqb D s1 s2 s3 He L1 L2 L3.
  destruct (repeated_set_comparisons T eqb D s1 s1 He L1 L1) as (_ & _ & b11 & -> & E11).
  destruct (repeated_set_comparisons T eqb D s1 s2 He L1 L2) as (_ & _ & b12 & -> & E12).
  destruct (repeated_set_comparisons T eqb D s2 s1 He L2 L1) as (_ & _ & b21 & -> & E21).
  destruct (repeated_set_comparisons T eqb D s2 s3 He L2 L3) as (_ & _ & b23 & -> & E23).
  destruct (repeated_set_comparisons T eqb D s1 s3 He L1 L3) as (_ & _ & b13 & -> & E13).
  split; [f_equal; apply E11; auto|]. split.
  - intros [= H1] [= H2]. f_equal. apply E13. apply E12 in H1. apply E23 in H2. destruct H1, H2. split; [congruence|auto].
  - intros [= H1] Hd. apply E12 in H1. destruct H1 as (Hn & Hin).
    assert (Hback : forall x, member eqb (s_items s2) x -> member eqb (s_items s1) x).
    { destruct (pigeonhole eqb He (s_items s1) (s_items s2) Hd) as (_ & Hc).
      { intros x Hx. apply Hin. exists x. split; auto. apply He. }
      intros x (y & Hy & Hxy). destruct (Hc ltac:(lia) y Hy) as (z & Hz & Hyz). exists z. split; auto.
      eapply (eq_trans_ok _ He); eauto. }
    split; [f_equal; apply E21; auto|]. split; auto.
Qed.

Lemma repeated_frozen_set :
  forall (O : Type) (eqbO : O -> O -> bool) (E : env) (kd : kind) (bh : hasher O)
         (items : list (key O)) (s : set_types O),
  env_ok E -> equivalence eqbO -> lawful_hash eqbO bh -> countable (prof E) (zlen items) ->
  (forall x, In x items -> has_kind kd x) ->
  (kd = KindU32 -> ~ full_span (map (fun x => (x, tt)) items)) ->
  fs_new E kd items bh = Ok s ->
  lawful_set (key_eqb eqbO) (has_kind kd) (fs_as_set eqbO E s) /\ Permutation items (s_items (fs_as_set eqbO E s)) /\
  forall x, has_kind kd x -> fs_get eqbO E s x = Ok (find (fun y => key_eqb eqbO x y) (s_items (fs_as_set eqbO E s))).
Proof.
  intros O eqbO E kd bh items s HE He Hl Hc Ht Hsp Hs.
  assert (G : Permutation items (fs_items s) /\
    forall x, has_kind kd x -> fs_get eqbO E s x = Ok (find (fun y => key_eqb eqbO x y) (fs_items s))).
  { apply fs_new_ok in Hs. rewrite <- (with_unit_len items) in Hc. apply typed_with_unit in Ht.
    destruct (built_sound eqbO E HE kd _ bh _ Hc Ht Hs) as (HP & Hi & _ & Hr).
    assert (Hex : fm_exact (to_map s)).
    { destruct s; try exact I. destruct (Hr I) as (Hkd & Hfs). exfalso. now apply (Hsp Hkd). }
    split. { rewrite fs_items_map, <- (with_unit_keys items). now apply Permutation_map. }
    intros x Hk. rewrite fs_get_map. pose proof (lawful_respects eqbO bh Hl) as Hresp.
    destruct (fm_lookup_exact eqbO E kd bh _ x Hi Hex Hresp Hk) as (_ & _ & _ & ->).
    unfold set_get_of. cbn [bind]. rewrite fs_items_map, find_map. reflexivity. }
  destruct G as (HP & Hg). split; [|split; auto].
  constructor; cbn [fs_as_set s_items s_len s_contains].
  - intros x Hx. apply Ht. now apply (Permutation_in _ (Permutation_sym HP)).
  - now rewrite fs_len_map, fm_len_iter, fs_items_map, zlen_map.
  - intros x Hk. rewrite fs_contains_get, (Hg x Hk). unfold set_contains_of. cbn [bind].
    eexists. split; [reflexivity|]. destruct (find _ (fs_items s)) as [y|] eqn:F.
    + apply find_some in F. split; auto. intros _. exists y. exact F.
    + split; [discriminate|]. intros (y & Hy & Hxy). rewrite (find_none _ _ F y Hy) in Hxy. discriminate.
Qed.

Lemma repeated_map_eq :
  forall (O V : Type) (eqbO : O -> O -> bool) (veq : V -> V -> bool) (E : env) (kd : kind) (bh1 bh2 : hasher O)
         (p1 p2 : list (key O * V)) (m1 m2 : map_types O V),
  env_ok E -> equivalence eqbO -> lawful_hash eqbO bh1 -> lawful_hash eqbO bh2 ->
  countable (prof E) (zlen p1) -> countable (prof E) (zlen p2) -> zlen p2 < 2 ^ 64 ->
  typed kd p1 -> typed kd p2 -> (kd = KindU32 -> ~ full_span p2) ->
  fm_new E kd p1 bh1 = Ok m1 -> fm_new E kd p2 bh2 = Ok m2 ->
  exists es, laid_out (key_eqb eqbO) (fun k => k) (has_kind kd) p2 es (run eqbO E m2) /\
    exists b, fm_eq eqbO E veq m1 m2 = Ok b /\
      (b = true <-> length p1 = length p2 /\
         forall k v, In (k, v) p1 ->
         exists k' v', find (fun e => key_eqb eqbO k (fst e)) es = Some (k', v') /\ veq v v' = true).
Proof.
  intros O V eqbO veq E kd bh1 bh2 p1 p2 m1 m2 HE He Hl1 Hl2 Hc1 Hc2 Hz Ht1 Ht2 Hsp Hm1 Hm2.
  destruct (built_sound eqbO E HE kd p2 bh2 m2 Hc2 Ht2 Hm2) as (HP2 & Hi & Hx & Hr).
  assert (Hex : fm_exact m2).
  { destruct m2; try exact I. destruct (Hr I) as (Hkd & Hfs). exfalso. now apply (Hsp Hkd). }
  pose proof (fm_new_perm E HE kd p1 bh1 m1 Hm1) as HP1.
  exists (fm_iter m2). split.
  { split; auto. intros history Hq. rewrite fm_run_object.
    apply (first_run_ok (prof E) (key_eqb eqbO) (fun k => k) _ _ _ (fm_searches eqbO E kd bh2 Hl2) history m2); auto.
    cbn. rewrite <- (zlen_perm _ _ HP2). exact Hz. }
  unfold fm_eq. rewrite !fm_len_iter, <- (zlen_perm _ _ HP1), <- (zlen_perm _ _ HP2).
  set (g := fun e : key O * V => match option_map snd (find (fun e' => key_eqb eqbO (fst e) (fst e')) (fm_iter m2)) with
                                 | Some v => veq (snd e) v | None => false end).
  rewrite (all_res_ok _ g).
  2:{ intros e Hie. pose proof (Ht1 e (Permutation_in _ (Permutation_sym HP1) Hie)) as Hk.
      destruct (fm_lookup_exact eqbO E kd bh2 m2 (fst e) Hi Hex (lawful_respects eqbO bh2 Hl2) Hk) as (_ & _ & -> & _). reflexivity. }
  unfold zlen. destruct (Z.eqb_spec (Z.of_nat (length p1)) (Z.of_nat (length p2))) as [L|L]; cbn [negb]; eexists; (split; [reflexivity|]).
  2: split; [discriminate|lia].
  rewrite forallb_forall. split.
  - intros H. split; [lia|]. intros k v Hkv. specialize (H (k, v) (Permutation_in _ HP1 Hkv)). unfold g in H. cbn [fst snd] in H.
    destruct (find _ (fm_iter m2)) as [[k' v']|]; [|discriminate]. cbn in H. eauto.
  - intros (_ & H) [k v] Hkv. destruct (H k v (Permutation_in _ (Permutation_sym HP1) Hkv)) as (k' & v' & F & Hv).
    unfold g. cbn [fst snd]. rewrite F. exact Hv.
Qed.

Lemma repeated_map_eq_self :
  forall (O V : Type) (eqbO : O -> O -> bool) (veq : V -> V -> bool) (E : env) (kd : kind) (bh : hasher O)
         (p : list (key O * V)) (m : map_types O V),
  env_ok E -> equivalence eqbO -> equivalence veq -> lawful_hash eqbO bh ->
  countable (prof E) (zlen p) -> zlen p < 2 ^ 64 ->
  typed kd p -> (kd = KindU32 -> ~ full_span p) ->
  fm_new E kd p bh = Ok m ->
  exists b, fm_eq eqbO E veq m m = Ok b /\
    (b = true <-> forall k v k' v', In (k, v) p -> In (k', v') p -> key_eqb eqbO k k' = true -> veq v v' = true).
Proof.
  intros O V eqbO veq E kd bh p m HE He Hv Hl Hc Hz Ht Hsp Hm.
  destruct (repeated_map_eq O V eqbO veq E kd bh bh p p m m HE He Hl Hl Hc Hc Hz Ht Ht Hsp Hm Hm) as (es & (HP & _) & b & Hb & Hiff).
  pose proof (key_eqb_equiv eqbO He) as Hk.
  exists b. split; auto. rewrite Hiff. split.
  - intros (_ & H) k v k' v' Hkv Hkv' Hkk.
    destruct (H k v Hkv) as (k1 & v1 & F1 & V1). destruct (H k' v' Hkv') as (k2 & v2 & F2 & V2).
    assert (S : forall e : key O * V, key_eqb eqbO k (fst e) = key_eqb eqbO k' (fst e)).
    { intros e. apply eq_true_iff_eq. split; intros X; eapply (eq_trans_ok _ Hk); try exact X; auto. now apply (eq_sym_ok _ Hk). }
    assert (F : find (fun e => key_eqb eqbO k (fst e)) es = find (fun e => key_eqb eqbO k' (fst e)) es).
    { clear - S. induction es as [|e es IH]; [reflexivity|]. cbn [find]. now rewrite S, IH. }
    rewrite F, F2 in F1. injection F1 as <- <-. eapply (eq_trans_ok _ Hv); [exact V1|]. now apply (eq_sym_ok _ Hv).
  - intros H. split; auto. intros k v Hkv. destruct (find (fun e => key_eqb eqbO k (fst e)) es) as [[k' v']|] eqn:F.
    + exists k', v'. split; auto. apply find_some in F. destruct F as (F1 & F2). apply (H k v k' v' Hkv); auto.
      now apply (Permutation_in _ (Permutation_sym HP)).
    + exfalso. pose proof (find_none _ _ F (k, v) (Permutation_in _ HP Hkv)) as N. cbn [fst] in N.
      rewrite (eq_refl_ok _ Hk) in N. discriminate.
Qed.

(** Eq promises that every map is equal to itself and that == is symmetric. *)
Lemma repeated_map_eq_not_reflexive_refuted :
  exists p : list (key Z * Z), typed KindU32 p /\
    forall (E : env) (bh : hasher Z), exists m, fm_new E KindU32 p bh = Ok m /\ fm_eq Z.eqb E Z.eqb m m = Ok false.
Proof.
  exists [(KU32 1, 10); (KU32 1, 20)]. split.
  - intros e [<-|[<-|[]]]; cbn; lia.
  - intros E bh. eexists. split; reflexivity.
Qed.

Lemma repeated_set_eq_not_symmetric_refuted :
  exists i1 i2 : list (key Z),
    forall (E : env) (bh : hasher Z), exists s1 s2,
      fs_new E KindU32 i1 bh = Ok s1 /\ fs_new E KindU32 i2 bh = Ok s2 /\
      fs_eq Z.eqb E s1 s2 = Ok true /\ fs_eq Z.eqb E s2 s1 = Ok false.
Proof.
  exists [KU32 1; KU32 1], [KU32 1; KU32 2]. intros E bh. eexists _, _. repeat split; reflexivity.
Qed.

(** A FrozenSet of u32 items that are as many as the integers from the least to the greatest. *)
Lemma filled_frozen_set :
  forall (O : Type) (eqbO : O -> O -> bool) (E : env) (bh : hasher O) (items : list (key O)) (s : set_types O) (mn : Z),
  4 <= zlen items -> zlen items < 2 ^ 32 -> (forall x, In x items -> has_kind KindU32 x) ->
  spans_from mn (map u32_of items) ->
  fs_new E KindU32 items bh = Ok s ->
  exists es, sorted_entries u32_of (map (fun x => (x, tt)) items) es /\ s_items (fs_as_set eqbO E s) = map fst es /\
    forall x, has_kind KindU32 x ->
    let place := offset_from mn (length items) (u32_of x) in
    fs_contains eqbO E s x = Ok (match place with Some _ => true | None => false end) /\
    fs_get eqbO E s x = Ok (match place with Some i => nth_error (map fst es) i | None => None end).
Proof.
  intros O eqbO E bh items s mn H4 Hn Ht Hs Hm. apply fs_new_ok in Hm. apply typed_with_unit in Ht.
  rewrite <- (with_unit_len items) in H4, Hn.
  destruct (frozen_map_places O unit eqbO E bh (with_unit items) mn H4 Hn Ht) as (m & es & Hm' & Hes & (Hit & Hkv) & _).
  { unfold with_unit. rewrite map_map. exact Hs. }
  rewrite Hm in Hm'. injection Hm' as <-.
  exists es. split; [exact Hes|]. cbn [fs_as_set s_items]. rewrite fs_items_map, Hit. split; [reflexivity|].
  intros x Hx. set (place := offset_from mn (length items) (u32_of x)).
  assert (Hl : length (with_unit items) = length items) by (unfold with_unit; apply map_length).
  assert (Hle : length es = length items) by (rewrite <- Hl; symmetry; apply Permutation_length, Hes).
  assert (Hg : fs_get eqbO E s x = Ok (match place with Some i => nth_error (map fst es) i | None => None end)).
  { rewrite fs_get_map, (Hkv x Hx), Hl. fold place. unfold set_get_of. cbn [bind]. destruct place as [i|]; [|reflexivity].
    rewrite nth_error_map. reflexivity. }
  split; auto. rewrite fs_contains_get, Hg. unfold set_contains_of. cbn [bind]. f_equal.
  subst place. unfold offset_from. destruct ((mn <=? u32_of x) && _) eqn:B; [|reflexivity].
  destruct (nth_error (map fst es) _) eqn:N; [reflexivity|]. apply nth_error_None in N. rewrite map_length in N. lia.
Qed.
