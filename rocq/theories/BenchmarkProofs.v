(** The benchmarks measure what their names say and find what a HashMap finds. *)
From Coq Require Import String List ZArith Bool Lia Permutation.
From Verif Require Import Base BaseLemmas EqbLists SliceKeyAnalyzer HashTable Maps FrozenMap FrozenMapFacts FrozenMapProofs BuildSound Constructors Spec IterSpec MapSpec
  CollisionSpec ProjectTests DocExamples Benchmarks ConstructorProofs ComponentTheorems MapTheorems ProjectTestProofs DocExampleProofs SpecializedConstructorProofs.
Import ListNotations.
Open Scope Z_scope.

(** Exactly one entry has the key. *)
Definition only_value (payload : list (key datum * Z)) (k : key datum) : bool :=
  match filter (fun e => key_eqb datum_eqb k (fst e)) payload with [e] => true | _ => false end.

Lemma only_supplied payload k : only_value payload k = true ->
  exists v, std_lookup payload k = Some v /\ (forall v', supplied (key_eqb datum_eqb) payload k v' -> v' = v) /\
    ~ not_supplied (key_eqb datum_eqb) payload k.
Proof.
  unfold only_value, std_lookup. destruct (filter _ payload) as [|e [|? ?]] eqn:Hf; try discriminate. intros _.
  assert (Hi : forall e', In e' payload /\ key_eqb datum_eqb k (fst e') = true <-> e' = e).
  { intros e'. pose proof (filter_In (fun e => key_eqb datum_eqb k (fst e)) e' payload) as H. rewrite Hf in H. cbn in H.
    rewrite <- H. split; [intros [->|[]]; reflexivity|intros ->; now left]. }
  destruct (proj2 (Hi e) eq_refl) as (Ie & Ke). exists (snd e). split.
  - destruct (find _ (rev payload)) as [e'|] eqn:Hd.
    + apply find_some in Hd. destruct Hd as (I' & K'). cbn. f_equal. f_equal. apply Hi. split; [now apply in_rev|].
      apply doc_key_eqb_eq. apply doc_key_eqb_eq in K'. congruence.
    + exfalso. apply find_none with (x := e) in Hd; [|now apply -> in_rev]. apply doc_key_eqb_eq in Ke. subst k.
      assert (H : key_eqb datum_eqb (fst e) (fst e) = true) by now apply doc_key_eqb_eq. congruence.
  - split.
    + intros v' (k' & Hin & Hk). now rewrite <- (proj1 (Hi (k', v')) (conj Hin Hk)).
    + intros Hn. destruct e as [k' v]. specialize (Hn k' v Ie). cbn in Ke. congruence.
Qed.

Lemma window_untroubled h keys : forallb (fun s => zlen s =? zlen (hd [] keys)) keys = true -> ~ string_trouble h keys.
Proof.
  intros H (_ & _ & (s & s' & Is & Is' & Hd) & _). rewrite forallb_forall in H. apply Hd.
  pose proof (H s Is). pose proof (H s' Is'). unfold zlen in *. lia.
Qed.

Lemma storage_common E (payload : list (key datum * Z)) bh m : fm_new_common_map E payload bh = Ok m -> storage_of m = ByHash.
Proof.
  unfold fm_new_common_map. destruct (zlen payload <=? _); intros H; apply bind_ok in H; destruct H as (x & _ & H);
    now injection H as <-.
Qed.

Lemma length_analysis h : analyze_slice_keys h (str_keys (bm_payload string_keys_length)) = Ok SliceLength.
Proof. vm_compute. reflexivity. Qed.

Lemma window_analysis h : separates h (str_keys (bm_payload string_keys_subslice)) ->
  analyze_slice_keys h (str_keys (bm_payload string_keys_subslice)) = Ok (LeftHandSubslice 9 1).
Proof.
  intros Hs. change (str_keys (bm_payload string_keys_subslice)) with
    (map literal_bytes ["abcdefghi0"; "abcdefghi1"; "abcdefghi2"; "abcdefghi3"; "abcdefghi4"; "abcdefghi5"]%string) in *.
  rewrite (analysis_sees_collisions _ h byte_code _ (separating_alike h _ Hs)). vm_compute. reflexivity.
Qed.

Lemma string_analysis E bh (payload : list (key datum * Z)) m : typed KindString payload -> 4 <= zlen payload <= 255 ->
  fm_new E KindString payload bh = Ok m ->
  (analyze_slice_keys (hash_one_slice bh) (str_keys payload) = Ok SliceLength -> storage_of m = ByLength) /\
  (forall i l, analyze_slice_keys (hash_one_slice bh) (str_keys payload) = Ok (LeftHandSubslice i l) ->
     storage_of m = ByWindow i (i + l)).
Proof.
  intros Ht Hn. unfold fm_new. destruct (Z.ltb_spec (zlen payload) 4); [lia|]. unfold fm_new_string_map.
  destruct (as_string_payload payload Ht) as (p & -> & Hp & _). cbn [bind].
  assert (Hk : map fst p = str_keys payload).
  { rewrite <- Hp. unfold str_keys. rewrite map_map. reflexivity. }
  assert (Hz : zlen p = zlen payload) by (rewrite <- Hp; unfold zlen; now rewrite map_length).
  rewrite Hk, Hz. intros H1. apply bind_ok in H1. destruct H1 as (an & Ha & H1). change (imax u8) with 255 in H1.
  destruct (Z.leb_spec (zlen payload) 255); [|lia]. split.
  - intros Hl. rewrite Hl in Ha. injection Ha as <-. apply bind_ok in H1. destruct H1 as (x & _ & H1). now injection H1 as <-.
  - intros i l Hl. rewrite Hl in Ha. injection Ha as <-. apply bind_ok in H1. destruct H1 as (x & Hx & H1). injection H1 as <-.
    unfold lsm_from_vec in Hx. apply bind_ok in Hx. destruct Hx as (? & _ & Hx). apply bind_ok in Hx. destruct Hx as (? & _ & Hx).
    apply bind_ok in Hx. destruct Hx as (? & _ & Hx). now injection Hx as <-.
Qed.

(** ** C94 *)
Lemma benchmark_programs :
  forall (E : env) (rs : hasher datum), env_ok E ->
  Forall (fun b => exists m v,
    fm_from E (bm_kind b) rs (bm_payload b) = Ok m /\
    fm_get datum_eqb E m (bm_query b) = Ok (Some v) /\ std_lookup (bm_payload b) (bm_query b) = Some v /\
    fm_len m = zlen (bm_payload b) /\
    ((bm_kept b = ByWindow 9 10 -> separates (hash_one_slice rs) (str_keys (bm_payload b))) -> storage_of m = bm_kept b)) benchmarks.
Proof.
  intros E rs HE.
  assert (G : forall b, forallb (kind_ok (bm_kind b)) (bm_query b :: map fst (bm_payload b)) = true ->
    only_value (bm_payload b) (bm_query b) = true -> zlen (bm_payload b) < 100 ->
    bm_kind b <> KindU32 \/ apart (map fst (bm_payload b)) = true ->
    (exists m, fm_new E (bm_kind b) (bm_payload b) rs = Ok m) ->
    (forall m, fm_new E (bm_kind b) (bm_payload b) rs = Ok m -> typed (bm_kind b) (bm_payload b) ->
      (bm_kept b = ByWindow 9 10 -> separates (hash_one_slice rs) (str_keys (bm_payload b))) -> storage_of m = bm_kept b) ->
    exists m v,
      fm_from E (bm_kind b) rs (bm_payload b) = Ok m /\
      fm_get datum_eqb E m (bm_query b) = Ok (Some v) /\ std_lookup (bm_payload b) (bm_query b) = Some v /\
      fm_len m = zlen (bm_payload b) /\
      ((bm_kept b = ByWindow 9 10 -> separates (hash_one_slice rs) (str_keys (bm_payload b))) -> storage_of m = bm_kept b)).
  { intros b Hk Ho Hn Hs (m & Hm) Hst. cbn [forallb] in Hk. apply andb_prop in Hk. destruct Hk as (Hq & Hk).
    assert (Ht : typed (bm_kind b) (bm_payload b)).
    { intros e He. rewrite forallb_forall in Hk. apply kind_ok_has, Hk, in_map, He. }
    destruct (only_supplied _ _ Ho) as (v & Hv & Hu & Hno).
    destruct (map_content datum Z E (bm_kind b) rs (bm_payload b) m HE ltac:(lia) Hm) as (_ & _ & _ & _ & _ & Hl & _).
    assert (Hg : (exists r, fm_get datum_eqb E m (bm_query b) = Ok r) /\
      (forall v, fm_get datum_eqb E m (bm_query b) = Ok (Some v) -> supplied (key_eqb datum_eqb) (bm_payload b) (bm_query b) v) /\
      (fm_get datum_eqb E m (bm_query b) = Ok None <-> not_supplied (key_eqb datum_eqb) (bm_payload b) (bm_query b))).
    { assert (Hc : countable (prof E) (zlen (bm_payload b))) by (right; lia). apply kind_ok_has in Hq. destruct Hs as [Hs|Hs].
      - apply (map_get_duplicates datum Z datum_eqb E (bm_kind b) rs (bm_payload b) m); auto using datum_equiv, datum_hash.
      - destruct (map_get_exact datum Z datum_eqb E (bm_kind b) rs (bm_payload b) m HE datum_equiv (datum_hash rs) Hc Ht
          (apart_distinct _ Hs) Hm (bm_query b) Hq) as (H1 & H2 & H3). split; [auto|]. split; [intros v'; apply H2|auto]. }
    destruct Hg as ((r & Hr) & Hg & Hg').
    exists m, v. split; [unfold fm_from, fm_from_iter_with_hasher; now rewrite collect_array|].
    split; [|auto]. destruct r as [v'|]; [now rewrite <- (Hu v' (Hg v' Hr))|]. elim Hno. now apply Hg'. }
  assert (Hty : forall b, forallb (kind_ok (bm_kind b)) (map fst (bm_payload b)) = true -> typed (bm_kind b) (bm_payload b)).
  { intros b Hk e He. rewrite forallb_forall in Hk. apply kind_ok_has, Hk, in_map, He. }
  assert (Hstr : forall b, bm_kind b = KindString -> forallb (kind_ok (bm_kind b)) (map fst (bm_payload b)) = true ->
    zlen (bm_payload b) < 100 -> ~ string_trouble (hash_one_slice rs) (str_keys (bm_payload b)) ->
    exists m, fm_new E (bm_kind b) (bm_payload b) rs = Ok m).
  { intros b Hb Hk Hn Hno. apply Hty in Hk. rewrite Hb in *.
    destruct (map_new_string_outcome datum Z E rs (bm_payload b) HE ltac:(lia) Hk) as [((H & _) & _)|[((H & _) & _)|(_ & _ & H)]];
      auto; contradiction. }
  unfold benchmarks. repeat apply Forall_cons; [..|constructor].
  - apply G; [reflexivity|reflexivity|reflexivity|left; discriminate| |].
    + apply Hstr; [reflexivity..|]. intros (_ & H & _). apply H. apply (length_representation _ (hash_one_slice rs)), length_analysis.
    + intros m Hm Ht _. apply (string_analysis E rs _ m Ht); [vm_compute; split; discriminate|exact Hm|apply length_analysis].
  - apply G; [reflexivity|reflexivity|reflexivity|left; discriminate| |].
    + apply Hstr; [reflexivity..|]. apply window_untroubled. reflexivity.
    + intros m Hm Ht Hs. destruct (string_analysis E rs _ m Ht) as (_ & H); [vm_compute; split; discriminate|exact Hm|].
      apply (H 9 1), window_analysis, Hs. reflexivity.
  - assert (Ht : typed KindU32 (bm_payload u32_keys)) by (apply (Hty u32_keys); reflexivity).
    destruct (map_new_u32_total datum Z E rs (bm_payload u32_keys) HE ltac:(reflexivity) Ht) as (m & Hm & Hc).
    apply G; [reflexivity|reflexivity|reflexivity|right; reflexivity|now exists m|].
    intros m' Hm' _ _. change (bm_kind u32_keys) with KindU32 in Hm'. rewrite Hm in Hm'. injection Hm' as <-.
    destruct Hc as (_ & Hc); [cbn; lia|repeat constructor; cbn; intuition discriminate|].
    destruct Hc as (im & [-> | ->]); [|reflexivity..]. intros (a & Ha).
    assert (H0 : In 0 (interval a 5)) by (apply (Permutation_in 0 Ha); cbn; auto).
    assert (H8 : In 8 (interval a 5)) by (apply (Permutation_in 8 Ha); cbn; intuition).
    unfold interval in H0, H8. apply in_map_iff in H0, H8. destruct H0 as (i & H0 & Ii), H8 as (j & H8 & Ij).
    apply in_seq in Ii, Ij. lia.
  - assert (Ht : typed KindU32 (bm_payload u32_keys_range)) by (apply (Hty u32_keys_range); reflexivity).
    destruct (map_new_u32_total datum Z E rs (bm_payload u32_keys_range) HE ltac:(reflexivity) Ht) as (m & Hm & Hc).
    apply G; [reflexivity|reflexivity|reflexivity|right; reflexivity|now exists m|].
    intros m' Hm' _ _. change (bm_kind u32_keys_range) with KindU32 in Hm'. rewrite Hm in Hm'. injection Hm' as <-.
    destruct Hc as (Hc & _); [cbn; lia|repeat constructor; cbn; intuition discriminate|].
    destruct Hc as (rm & ->); [|reflexivity]. exists 0. apply Permutation_refl.
  - apply G; [reflexivity|reflexivity|reflexivity|left; discriminate| |].
    + apply map_new_other_total; [auto|reflexivity].
    + intros m Hm _ _. apply storage_common in Hm. exact Hm.
Qed.

(** The standard HashMap beside a benchmark: each insertion replaces the value of an equal key. *)
Lemma benchmark_hash_map :
  forall (V : Type) (payload : list (key datum * V)) (k : key datum),
  std_lookup payload k =
    fold_left (fun held e => if key_eqb datum_eqb (fst e) k then Some (snd e) else held) payload None.
Proof.
  intros V payload k. unfold std_lookup. induction payload as [|e payload IH] using rev_ind; [reflexivity|].
  rewrite rev_app_distr, fold_left_app. cbn [rev app find fold_left]. rewrite <- IH.
  now destruct (key_eqb datum_eqb (fst e) k).
Qed.
