(** Reinterpretation of keys: no [WrongType] ever, at any size (C39). *)
From Coq Require Import List ZArith Bool Arith Lia Permutation.
From Verif Require Import Spec MapSpec Base BaseLemmas IntKeyAnalyzer SliceKeyAnalyzer HashCodeAnalyzer
  HashTable HashCodeAnalyzerProofs Maps FrozenMap FrozenMapProofs.
Import ListNotations.
Open Scope Z_scope.

Definition no_wrong_type {A} (r : res A) : Prop := r <> UB WrongType.
Notation ok := no_wrong_type.

Lemma nwt_bind {A B} (x : res A) (f : A -> res B) : ok x -> (forall a, ok (f a)) -> ok (bind x f).
Proof. unfold ok. destruct x; cbn; congruence. Qed.
Lemma nwt_Ok {A} (a : A) : ok (Ok a). Proof. discriminate. Qed.
Lemma nwt_Panic {A} p : ok (@Panic A p). Proof. discriminate. Qed.
Lemma nwt_OOB {A} : ok (@UB A OutOfBounds). Proof. discriminate. Qed.
Lemma nwt_arith pr t z : ok (arith pr t z).
Proof. unfold arith. destruct (in_type _ _), pr; discriminate. Qed.
Lemma nwt_unwrap {A} (o : option A) : ok (unwrap o). Proof. destruct o; discriminate. Qed.
Lemma nwt_sc {A} a b (l : list A) : ok (slice_checked a b l).
Proof. unfold slice_checked. destruct (range_ok _ _ _); discriminate. Qed.
Lemma nwt_su {A} a b (l : list A) : ok (slice_unchecked a b l).
Proof. unfold slice_unchecked. destruct (range_ok _ _ _); discriminate. Qed.
Lemma nwt_index {A} (l : list A) i : ok (index_checked l i).
Proof. unfold index_checked. destruct (if _ : bool then _ else _); discriminate. Qed.
Lemma nwt_deref {K V} (l : list (K * V)) r : ok (deref l r).
Proof. destruct r as [i|]; cbn [deref]; try discriminate. destruct (nth_error l i); discriminate. Qed.
Lemma nwt_mapM {A B} (f : A -> res B) l : (forall a, In a l -> ok (f a)) -> ok (mapM f l).
Proof.
  induction l as [|a l IH]; intros H; cbn [mapM]; [apply nwt_Ok|].
  apply nwt_bind; [apply H; now left|]. intros b. apply nwt_bind; [|intros; apply nwt_Ok].
  apply IH. intros. apply H. now right.
Qed.
Lemma nwt_ahc codes : ok (analyze_hash_codes codes).
Proof. destruct (analyze_hash_codes_pos codes) as (s & c & -> & _). discriminate. Qed.

#[local] Hint Resolve nwt_Ok nwt_Panic nwt_OOB nwt_arith nwt_unwrap nwt_sc nwt_su nwt_index nwt_deref nwt_mapM nwt_ahc : nwt.
Ltac nwt :=
  repeat (auto with nwt;
    lazymatch goal with
    | |- no_wrong_type (bind _ _) => apply nwt_bind; [|intros]
    | |- no_wrong_type (if ?b then _ else _) => destruct b
    | |- no_wrong_type (match ?b with _ => _ end) => destruct b
    | |- no_wrong_type (let '(_, _) := ?b in _) => destruct b
    | |- no_wrong_type (let _ := _ in _) => cbv zeta
    end).

Lemma nwt_scan pr ty keys : forall mn mx c, ok (scan_int_keys pr ty keys mn mx c).
Proof. induction keys; intros; cbn [scan_int_keys]; nwt. Qed.
#[local] Hint Resolve nwt_scan : nwt.
Lemma nwt_aik pr ty keys : ok (analyze_int_keys pr ty keys).
Proof. unfold analyze_int_keys. nwt. Qed.

Section Slices.
Context {T : Type}.
Variable h : list T -> Z.
Lemma nwt_uniq lj i l keys : forall set acc, ok (uniqueness_loop h lj i l keys set acc).
Proof. induction keys; intros; cbn [uniqueness_loop]; nwt; unfold take_subslice; nwt. Qed.
Lemma nwt_find_index keys l lj acc n : forall i, ok (find_index h keys l lj acc n i).
Proof. induction n; intros; cbn [find_index]; nwt. unfold is_sufficiently_unique. apply nwt_uniq. Qed.
Lemma nwt_find_subslice keys mn mx acc n : forall l, ok (find_subslice h keys mn mx acc n l).
Proof. induction n; intros; cbn [find_subslice]; nwt; apply nwt_find_index. Qed.
Lemma nwt_ask keys : ok (analyze_slice_keys h keys).
Proof.
  unfold analyze_slice_keys. destruct (analyze_lengths keys); try discriminate.
  apply nwt_find_subslice.
Qed.
End Slices.
#[local] Hint Resolve nwt_aik nwt_ask : nwt.

Section Table.
Context {K V : Type}.
Implicit Types (t : hash_table K V).
Lemma nwt_prepare hash n (p : list (K * V)) : (forall k, ok (hash k)) -> ok (prepare hash n p).
Proof. intros H. induction p as [|e p IH]; cbn [prepare]; nwt. Qed.
Lemma nwt_collect pr h (s : list (Z * (K * V))) : forall it n es, ok (collect_run pr h it s n es).
Proof. induction s; intros; cbn [collect_run]; nwt. Qed.
Lemma nwt_fill pr S_ty n : forall (s : list (Z * (K * V))) i ss es, ok (fill pr S_ty n s i ss es).
Proof.
  induction n; intros [|it s] i ss es; cbn [fill]; nwt; try apply nwt_collect; try discriminate.
  unfold store_slot. nwt.
Qed.
Lemma nwt_ht_new E S_ty (p : list (K * V)) n hash : (forall k, ok (hash k)) -> ok (ht_new E S_ty p n hash).
Proof. intros H. unfold ht_new. nwt. - now apply nwt_prepare. - apply nwt_fill. Qed.
Lemma nwt_info t c : ok (ht_get_hash_info t c).
Proof. unfold ht_get_hash_info. nwt. Qed.
Lemma nwt_probe t r f : ok (ht_probe t r f).
Proof. unfold ht_probe. nwt. Qed.
Lemma nwt_probe_entry t r f : ok (ht_probe_entry t r f).
Proof. unfold ht_probe_entry. nwt. Qed.
End Table.
#[local] Hint Resolve nwt_ht_new nwt_info nwt_probe nwt_probe_entry : nwt.

Section Maps.
Context {V BH : Type}.
Variable hw : BH -> list Z -> Z.
Lemma nwt_slice_hash bh k a b : ok (slice_hash hw bh k a b).
Proof. unfold slice_hash. nwt. Qed.
Lemma nwt_right_hash pr bh k a b : ok (right_hash hw pr bh k a b).
Proof. unfold right_hash. nwt. apply nwt_slice_hash. Qed.
#[local] Hint Resolve nwt_slice_hash nwt_right_hash : nwt.
Lemma nwt_lsm E S_ty (p : list (list Z * V)) a b bh : ok (lsm_from_vec hw E S_ty p a b bh).
Proof. unfold lsm_from_vec. nwt. apply nwt_mapM. intros. cbv zeta. nwt. Qed.
Lemma nwt_rsm E S_ty (p : list (list Z * V)) a b bh : ok (rsm_from_vec hw E S_ty p a b bh).
Proof. unfold rsm_from_vec. nwt. apply nwt_mapM. intros. cbv zeta. nwt. Qed.
Lemma nwt_irm pr ty (p : list (Z * V)) : ok (irm_from_vec pr ty p).
Proof. unfold irm_from_vec. nwt. Qed.
Lemma nwt_im E S_ty (p : list (Z * V)) : ok (im_from_vec E S_ty p).
Proof. unfold im_from_vec. nwt. Qed.
Lemma nwt_lm {K} (len : K -> Z) E S_ty (p : list (K * V)) : ok (lm_from_vec len E S_ty p).
Proof. unfold lm_from_vec. nwt. Qed.
Lemma nwt_cm {K} (hk : BH -> K -> Z) E S_ty (p : list (K * V)) bh : ok (cm_from_vec hk E S_ty p bh).
Proof. unfold cm_from_vec. nwt. Qed.
End Maps.
#[local] Hint Resolve nwt_slice_hash nwt_right_hash nwt_lsm nwt_rsm nwt_irm nwt_im nwt_lm nwt_cm : nwt.

Section Facade.
Context {O V : Type}.
Variable eqbO : O -> O -> bool.
Variable E : env.
Implicit Types (m : map_types O V) (k : key O).

(** What the representation says about the key type. *)
Definition tag_ok (kd : kind) m : Prop :=
  match m with
  | MScanning _ | MCommonSmall _ | MCommonLarge _ => True
  | MU32Small _ | MU32Large _ | MU32Range _ => kd = KindU32
  | _ => kd = KindString
  end.

Lemma nwt_as_u32 k : has_kind KindU32 k -> ok (as_u32 k).
Proof. destruct k; cbn; intros H; try destruct H; discriminate. Qed.
Lemma nwt_as_string k : has_kind KindString k -> ok (as_string k).
Proof. destruct k; cbn; intros H; try destruct H; discriminate. Qed.

Lemma new_tag kd payload bh m : fm_new E kd payload bh = Ok m -> tag_ok kd m.
Proof.
  unfold fm_new. destruct (_ <? 4); [intros [= <-]; exact I|]. destruct kd; intros H.
  - unfold fm_new_u32_map in H. apply bind_ok in H. destruct H as (p & _ & H).
    apply bind_ok in H. destruct H as ([] & _ & H); [destruct (_ <=? _)|];
      apply bind_ok in H; destruct H as (x & _ & H); injection H as <-; reflexivity.
  - unfold fm_new_string_map in H. apply bind_ok in H. destruct H as (p & _ & H).
    apply bind_ok in H. destruct H as (a & _ & H).
    destruct (_ <=? _), a; apply bind_ok in H; destruct H as (x & _ & H); injection H as <-; cbn; auto.
  - unfold fm_new_common_map in H. destruct (_ <=? _); apply bind_ok in H; destruct H as (x & _ & H);
      injection H as <-; exact I.
Qed.

Lemma new_no_wrong_type kd payload bh : typed kd payload -> ok (@fm_new O V E kd payload bh).
Proof.
  intros Ht. unfold fm_new. destruct (_ <? 4); [apply nwt_Ok|]. destruct kd.
  - unfold fm_new_u32_map, payload_as_u32. nwt. apply nwt_mapM. intros e He. nwt. now apply nwt_as_u32, Ht.
  - unfold fm_new_string_map, payload_as_string. nwt. apply nwt_mapM. intros e He. nwt. now apply nwt_as_string, Ht.
  - unfold fm_new_common_map. nwt.
Qed.

Lemma get_no_wrong_type kd m k : tag_ok kd m -> has_kind kd k ->
  ok (fm_get_at eqbO E m k) /\ ok (fm_get eqbO E m k) /\
  ok (fm_get_key_value eqbO E m k) /\ ok (fm_get_mut eqbO E m k).
Proof.
  intros Htag Hk.
  assert (H1 : ok (fm_get_at eqbO E m k)).
  { destruct m; cbn [tag_ok] in Htag; try subst kd; cbn [fm_get_at]; nwt;
      try (now apply nwt_as_u32); try (now apply nwt_as_string);
      unfold sm_get_at, cm_get_at, cm_get_hash_info, im_get_at, im_get_hash_info, irm_get_at,
        lsm_get_at, lsm_get_hash_info, rsm_get_at, rsm_get_hash_info, lm_get_at, lm_get_hash_info; nwt. }
  split; auto.
  assert (H2 : ok (fm_get_mut eqbO E m k)).
  { destruct m; exact H1. }
  split; [|split; auto].
  - destruct m; cbn [fm_get fm_get_at] in *; unfold sm_get, cm_get, im_get, irm_get, lsm_get, rsm_get, lm_get;
      nwt; try (now apply nwt_as_u32); try (now apply nwt_as_string);
      try (destruct k; cbn in *; auto; discriminate);
      unfold sm_get_at, cm_get_at, cm_get_hash_info, im_get_at, im_get_hash_info, irm_get_at,
        lsm_get_at, lsm_get_hash_info, rsm_get_at, rsm_get_hash_info, lm_get_at, lm_get_hash_info; nwt;
      cbn [tag_ok] in Htag; subst kd; try (now apply nwt_as_u32); try (now apply nwt_as_string).
  - destruct m; cbn [tag_ok] in Htag; try subst kd; cbn [fm_get_key_value]; nwt;
      try (now apply nwt_as_u32); try (now apply nwt_as_string);
      unfold sm_get_key_value, cm_get_key_value, cm_get_hash_info, im_get_key_value, im_get_hash_info, irm_get_key_value,
        lsm_get_key_value, lsm_get_hash_info, rsm_get_key_value, rsm_get_hash_info, lm_get_key_value, lm_get_hash_info; nwt.
Qed.

Lemma each_no_wrong_type (f : key O -> res (option nat)) ks :
  (forall k, In k ks -> ok (f k)) -> ok (get_each f ks).
Proof.
  induction ks as [|k ks IH]; intros H; cbn [get_each]; [apply nwt_Ok|].
  apply nwt_bind; [apply H; now left|]. intros [i|]; [|apply nwt_Ok].
  apply nwt_bind; [|intros; apply nwt_Ok]. apply IH. intros. apply H. now right.
Qed.
End Facade.

(** C39 *)
Lemma map_no_type_confusion :
  forall (O V : Type) (eqbO : O -> O -> bool) (E : env) (kd : kind) (bh : hasher O)
         (payload : list (key O * V)),
  typed kd payload ->
  fm_new E kd payload bh <> UB WrongType /\
  forall m, fm_new E kd payload bh = Ok m ->
    (forall k, has_kind kd k ->
      fm_get eqbO E m k <> UB WrongType /\ fm_get_key_value eqbO E m k <> UB WrongType /\
      fm_get_mut eqbO E m k <> UB WrongType /\ fm_contains_key eqbO E m k <> UB WrongType /\
      fm_index eqbO E m k <> UB WrongType /\ fm_index_mut eqbO E m k <> UB WrongType) /\
    (forall keys, (forall k, In k keys -> has_kind kd k) ->
      fm_get_many_mut eqbO E m keys <> UB WrongType).
Proof.
  intros O V eqbO E kd bh payload Ht. split; [now apply new_no_wrong_type|].
  intros m Hm. pose proof (new_tag _ _ _ _ _ Hm) as Htag. split.
  - intros k Hk. destruct (get_no_wrong_type eqbO E kd m k Htag Hk) as (H1 & H2 & H3 & H4).
    split; auto. split; auto. split; auto. split; [|split].
    + unfold fm_contains_key, contains_key. apply nwt_bind; nwt.
    + unfold fm_index, index_of. apply nwt_bind; nwt.
    + unfold fm_index_mut, index_of. apply nwt_bind; nwt.
  - intros keys Hk. unfold fm_get_many_mut, get_many_mut. destruct (has_duplicate_key _ _ _); [discriminate|].
    apply each_no_wrong_type. intros k Hi. now apply (get_no_wrong_type eqbO E kd m k Htag (Hk k Hi)).
Qed.
