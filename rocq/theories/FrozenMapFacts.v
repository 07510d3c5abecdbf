(** User-level facts about built FrozenMaps: lookups, writes, get_many_mut, equality. *)
From Coq Require Import List ZArith Bool Arith Lia Permutation.
From Verif Require Import Spec MapSpec Base BaseLemmas EqbLists IntKeyAnalyzer SliceKeyAnalyzer HashTable
  HashTableProofs HashCodeAnalyzerProofs IntProofs SliceKeyAnalyzerProofs Maps MapsProofs FrozenMap
  FrozenMapProofs FrozenMapBuild.
Import ListNotations.
Open Scope Z_scope.

(** ** Nothing lost by table construction, whatever its size *)

Section Perm.
Context {K V : Type}.
Notation item := (Z * (K * V))%type.

Lemma prepare_snd (hash : K -> res Z) n (payload : list (K * V)) : forall items,
  prepare hash n payload = Ok items -> map snd items = payload.
Proof.
  induction payload as [|e p IH]; cbn [prepare]; intros items H.
  - injection H as <-. reflexivity.
  - apply bind_ok in H. destruct H as (c & _ & H). destruct (n =? 0); [discriminate|].
    apply bind_ok in H. destruct H as (rest & Hr & H). injection H as <-. cbn. f_equal. auto.
Qed.

Lemma collect_run_perm pr h : forall stack (it : item) num es stack' num' es',
  collect_run pr h it stack num es = Ok (stack', num', es') ->
  es' ++ map snd stack' = es ++ snd it :: map snd stack.
Proof.
  induction stack as [|it' stack IH]; intros it num es stack' num' es' H; cbn [collect_run] in H;
    apply bind_ok in H; destruct H as (n' & _ & H).
  - injection H as <- <- <-. cbn. now rewrite app_nil_r.
  - destruct (_ =? _).
    + apply IH in H. rewrite H, <- app_assoc. reflexivity.
    + injection H as <- <- <-. rewrite <- app_assoc. reflexivity.
Qed.

Lemma fill_perm pr S_ty : forall fuel (stack : list item) ei ss es ss' es',
  fill pr S_ty fuel stack ei ss es = Ok (ss', es') -> es' = es ++ map snd stack.
Proof.
  induction fuel as [|fuel IH]; intros [|it stack] ei ss es ss' es' H; cbn [fill] in H;
    try (injection H as <- <-; cbn; now rewrite app_nil_r); try discriminate.
  apply bind_ok in H. destruct H as ([[st n] es1] & Hc & H).
  repeat (apply bind_ok in H; destruct H as (? & _ & H)).
  apply IH in H. rewrite H. apply collect_run_perm in Hc. rewrite Hc. reflexivity.
Qed.

Lemma ht_new_perm E S_ty (payload : list (K * V)) n hash t :
  env_ok E -> ht_new E S_ty payload n hash = Ok t -> Permutation payload (entries t).
Proof.
  intros HE H. unfold ht_new in H. destruct payload as [|e p]; [injection H as <-; constructor|].
  apply bind_ok in H. destruct H as (cap & _ & H). destruct (_ <? _); [discriminate|].
  apply bind_ok in H. destruct H as (items & Hi & H).
  apply bind_ok in H. destruct H as ([ss es] & Hf & H). destruct (_ =? 0); [discriminate|].
  injection H as <-. cbn [entries]. apply fill_perm in Hf. cbn [app] in Hf. subst es.
  rewrite <- (prepare_snd _ _ _ _ Hi).
  apply Permutation_map. rewrite <- Permutation_rev. apply HE.
Qed.

Lemma irm_from_vec_perm pr ty (payload : list (Z * V)) m :
  irm_from_vec pr ty payload = Ok m -> Permutation payload (irm_entries m).
Proof.
  unfold irm_from_vec. destruct payload as [|e p]; intros H; [injection H as <-; constructor|].
  apply bind_ok in H. destruct H as (a & _ & H). apply bind_ok in H. destruct H as (b & _ & H).
  apply bind_ok in H. destruct H as (c & _ & H). apply bind_ok in H. destruct H as (d & _ & H).
  destruct (_ =? _); [|discriminate]. injection H as <-. cbn [irm_entries]. apply (stable_sort_perm fst (e :: p)).
Qed.
End Perm.

(** ** Probing after a write *)

Lemma ht_probe_keys {K V W} (t : hash_table K V) (t' : hash_table K W) range matches :
  map fst (entries t) = map fst (entries t') -> ht_probe t range matches = ht_probe t' range matches.
Proof.
  intros H. unfold ht_probe, slice_unchecked, range_ok.
  assert (Hl : zlen (entries t) = zlen (entries t')).
  { rewrite <- (zlen_map fst (entries t)), H. apply zlen_map. }
  rewrite Hl. destruct (_ && _); cbn [bind]; auto. do 2 f_equal.
  apply find_pos_keys. rewrite <- !sub_map, H. reflexivity.
Qed.

(** ** The loops of get_many_mut *)

Lemma has_duplicate_key_spec {Q} (eqb : Q -> Q -> bool) keys : forall seen,
  has_duplicate_key eqb seen keys = false <->
  distinct eqb keys /\ (forall s k, In s seen -> In k keys -> eqb s k = false).
Proof.
  induction keys as [|k keys IH]; intros seen; cbn [has_duplicate_key distinct].
  - split; auto. intros _. split; auto. intros s k _ [].
  - rewrite orb_false_iff, IH. split.
    + intros (H1 & H2 & H3). split; [split; auto|].
      * intros k' Hk'. apply H3; auto. apply in_or_app. right. now left.
      * intros s x Hs [<-|Hx].
        -- destruct (eqb s k) eqn:E1; auto.
           assert (existsb (fun j => eqb j k) seen = true) by (apply existsb_exists; eauto). congruence.
        -- apply H3; auto. apply in_or_app. now left.
    + intros ((H1 & H2) & H3). split; [|split; auto].
      * destruct (existsb _ seen) eqn:E1; auto. apply existsb_exists in E1.
        destruct E1 as (s & Hs & E1). rewrite (H3 s k) in E1; auto. now left.
      * intros s x Hs Hx. apply in_app_or in Hs. destruct Hs as [Hs|[<-|[]]]; auto.
        apply H3; auto. now right.
Qed.

Lemma get_each_spec {Q} (get_at : Q -> res (option nat)) (f : Q -> option nat) keys :
  (forall k, In k keys -> get_at k = Ok (f k)) ->
  (exists ps, get_each get_at keys = Ok (Some ps) /\ Forall2 (fun k p => f k = Some p) keys ps) \/
  (get_each get_at keys = Ok None /\ exists k, In k keys /\ f k = None).
Proof.
  induction keys as [|k keys IH]; intros H.
  - left. exists []. split; [reflexivity|constructor].
  - cbn [get_each]. rewrite (H k) by now left. cbn [bind].
    destruct (f k) as [p|] eqn:Ef.
    + destruct IH as [(ps & -> & H2)|(-> & k' & H2 & H3)].
      * intros; apply H; now right.
      * left. exists (p :: ps). split; [reflexivity|]. constructor; auto.
      * right. split; [reflexivity|]. exists k'. split; auto. now right.
    + right. split; [reflexivity|]. exists k. split; auto. now left.
Qed.

Section Facts.
Context {O V : Type}.
Variable eqbO : O -> O -> bool.
Variable E : env.
Notation key := (key O).
Notation hasher := (hasher O).
Notation keq := (key_eqb eqbO).
Implicit Types (payload : list (key * V)) (m : map_types O V) (k : key) (bh : hasher).

Lemma key_eqb_equiv : equivalence eqbO -> equivalence keq.
Proof.
  intros H. split.
  - intros [n|s|o]; cbn; [apply Z.eqb_refl|apply bytes_eqb_refl|apply H].
  - intros [n|s|o] [n'|s'|o']; cbn; try discriminate.
    + rewrite !Z.eqb_eq. congruence.
    + rewrite !bytes_eqb_eq. congruence.
    + apply H.
  - intros [n|s|o] [n'|s'|o'] [n''|s''|o'']; cbn; try discriminate.
    + rewrite !Z.eqb_eq. congruence.
    + rewrite !bytes_eqb_eq. congruence.
    + apply H.
Qed.

Lemma lawful_respects bh : lawful_hash eqbO bh -> respects eqbO bh.
Proof.
  intros H [n|s|o] [n'|s'|o']; cbn; try discriminate.
  - intros E1. apply Z.eqb_eq in E1. now subst.
  - intros E1. apply bytes_eqb_eq in E1. now subst.
  - apply H.
Qed.

Lemma is_min_max_keys payload mn mx : typed KindU32 payload ->
  is_min mn (map (fun e => u32_of (fst e)) payload) ->
  is_max mx (map (fun e => u32_of (fst e)) payload) ->
  In (KU32 mn) (map fst payload) /\ In (KU32 mx) (map fst payload) /\
  (forall n, In (KU32 n) (map fst payload) -> mn <= n <= mx).
Proof.
  intros Ht (H1 & H2) (H3 & H4).
  assert (Hin : forall n, In n (map (fun e => u32_of (fst e)) payload) <-> In (KU32 n) (map fst payload)).
  { intros n. rewrite !in_map_iff. split; intros ([k v] & He & Hi).
    - destruct (has_kind_u32 k (Ht _ Hi)) as (n' & -> & _). cbn in He. subst n'. exists (KU32 n, v). auto.
    - cbn in He. subst k. exists (KU32 n, v). auto. }
  rewrite <- !Hin. split; auto. split; auto. intros n Hn. apply Hin in Hn. auto.
Qed.

Lemma distinct_u32 payload : typed KindU32 payload -> distinct keq (map fst payload) ->
  NoDup (map (fun e => u32_of (fst e)) payload).
Proof.
  induction payload as [|[k v] p IH]; intros Ht Hd; cbn; constructor.
  - destruct Hd as (Hd & _). intros Hi. apply in_map_iff in Hi. destruct Hi as ([k' v'] & He & Hi).
    destruct (has_kind_u32 k (Ht (k, v) ltac:(now left))) as (n & -> & _).
    destruct (has_kind_u32 k' (Ht (k', v') ltac:(now right))) as (n' & -> & _).
    cbn in He. subst n'. specialize (Hd (KU32 n) ltac:(apply (in_map fst _ _ Hi))).
    cbn in Hd. rewrite Z.eqb_refl in Hd. discriminate.
  - apply IH. + intros e He. apply Ht. now right. + apply Hd.
Qed.

(** ** Lookups *)

Lemma get_exact kd payload bh m k :
  equivalence eqbO -> lawful_hash eqbO bh ->
  Permutation payload (fm_iter m) -> fm_inv kd bh m -> fm_exact m ->
  distinct keq (map fst payload) -> has_kind kd k ->
  (forall v, fm_get eqbO E m k = Ok (Some v) <-> supplied keq payload k v) /\
  (fm_get eqbO E m k = Ok None <-> not_supplied keq payload k).
Proof.
  intros He Hl HP Hinv Hex Hd Hk. apply key_eqb_equiv in He.
  destruct (fm_lookup_exact eqbO E kd bh m k Hinv Hex (lawful_respects bh Hl) Hk) as (_ & _ & -> & _).
  assert (Hd' : distinct keq (map fst (fm_iter m))).
  { apply (distinct_perm _ He (map fst payload)); auto. now apply Permutation_map. }
  split.
  - intros v. split.
    + intros H. injection H as H. apply (supplied_iff_find _ He) in H; auto.
      apply (supplied_perm _ (fm_iter m)); auto. now apply Permutation_sym.
    + intros H. f_equal. apply (supplied_iff_find _ He); auto. now apply (supplied_perm _ payload).
  - split.
    + intros H. injection H as H. destruct (find _ _) eqn:F; [discriminate|].
      apply (find_not_supplied _) in F. apply (not_supplied_perm _ (fm_iter m)); auto. now apply Permutation_sym.
    + intros H. apply (not_supplied_perm _ _ (fm_iter m)) in H; auto.
      apply find_not_supplied in H. now rewrite H.
Qed.

(** Duplicates allowed: some supplied value, and [None] exactly for keys never supplied. *)
Lemma get_some_supplied kd payload bh m k :
  equivalence eqbO -> lawful_hash eqbO bh ->
  Permutation payload (fm_iter m) -> fm_inv kd bh m -> fm_exact m -> has_kind kd k ->
  (forall v, fm_get eqbO E m k = Ok (Some v) -> supplied keq payload k v) /\
  (fm_get eqbO E m k = Ok None <-> not_supplied keq payload k) /\
  (exists r, fm_get eqbO E m k = Ok r).
Proof.
  intros He Hl HP Hinv Hex Hk.
  destruct (fm_lookup_exact eqbO E kd bh m k Hinv Hex (lawful_respects bh Hl) Hk) as (_ & _ & -> & _).
  split; [|split; [split|eauto]].
  - intros v H. injection H as H. destruct (find _ _) as [[k' v']|] eqn:F; [|discriminate].
    cbn in H. injection H as ->. apply find_supplied in F. destruct F as (F1 & F2).
    exists k'. split; auto. now apply (Permutation_in _ (Permutation_sym HP)).
  - intros H. injection H as H. destruct (find _ _) eqn:F; [discriminate|].
    apply (find_not_supplied _) in F. apply (not_supplied_perm _ (fm_iter m)); auto. now apply Permutation_sym.
  - intros H. apply (not_supplied_perm _ _ (fm_iter m)) in H; auto.
    apply find_not_supplied in H. now rewrite H.
Qed.

(** ** Positions *)

Lemma fm_pos_inj kd m k k' i :
  equivalence eqbO -> fm_safe kd m -> has_kind kd k -> has_kind kd k' ->
  fm_get_at eqbO E m k = Ok (Some i) -> fm_get_at eqbO E m k' = Ok (Some i) -> keq k k' = true.
Proof.
  intros He Hinv Hk Hk' H H'. apply key_eqb_equiv in He.
  assert (Hdec : is_range m \/ ~ is_range m) by (destruct m; cbn; auto).
  destruct Hdec as [Hr|Hr].
  - destruct m; cbn [is_range] in Hr; try (destruct Hr). cbn [fm_safe] in Hinv. destruct Hinv as (-> & Hwf).
    destruct (has_kind_u32 k Hk) as (n & -> & Hn), (has_kind_u32 k' Hk') as (n' & -> & Hn').
    cbn [fm_get_at as_u32 bind] in H, H'. unfold irm_get_at in H, H'.
    destruct ((irm_min m <=? n) && (n <=? irm_max m)) eqn:E1; [|discriminate].
    destruct ((irm_min m <=? n') && (n' <=? irm_max m)) eqn:E2; [|discriminate].
    destruct Hwf as (_ & _ & Hsp).
    rewrite arith_ok in H by (change (imin u32) with 0; change (imax u32) with (2 ^ 32 - 1); lia).
    rewrite arith_ok in H' by (change (imin u32) with 0; change (imax u32) with (2 ^ 32 - 1); lia).
    cbn [bind] in H, H'. rewrite to_usize_ok in H, H' by lia.
    apply bind_ok in H. destruct H as (_ & _ & H). apply bind_ok in H'. destruct H' as (_ & _ & H').
    injection H as H. injection H' as H'. cbn. apply Z.eqb_eq. lia.
  - destruct (fm_lookup_safe eqbO E kd m k Hinv Hk) as (r & H1 & _ & _ & _ & H2).
    destruct (fm_lookup_safe eqbO E kd m k' Hinv Hk') as (r' & H1' & _ & _ & _ & H2').
    rewrite H in H1. injection H1 as <-. rewrite H' in H1'. injection H1' as <-.
    destruct (H2 i eq_refl) as (e & Hi & Hq), (H2' i eq_refl) as (e' & Hi' & Hq').
    rewrite Hi in Hi'. injection Hi' as <-. specialize (Hq Hr). specialize (Hq' Hr).
    apply (eqb_trans _ He k (fst e) k'); auto. now rewrite (eqb_sym _ He).
Qed.

(** ** Writes *)

Lemma write_entry_map {A B} (f : A * V -> B * V) (g : A -> B) i v (l : list (A * V)) :
  (forall e, f e = (g (fst e), snd e)) ->
  map f (write_entry i v l) = write_entry i v (map f l).
Proof.
  intros Hf. unfold write_entry. rewrite nth_error_map.
  destruct (nth_error l i) as [e|]; cbn [option_map]; [|reflexivity].
  assert (Hs : forall x l, map f (set_nth i x l) = set_nth i (f x) (map f l)).
  { clear. intros x. induction i; intros [|y l]; cbn; auto. now rewrite IHi. }
  rewrite Hs. f_equal. rewrite !Hf. reflexivity.
Qed.

Lemma fm_iter_write i v m : fm_iter (fm_write i v m) = write_entry i v (fm_iter m).
Proof.
  destruct m; cbn [fm_write fm_iter cm_table im_table irm_entries slm_table lm_table sm_entries entries write_table]; auto.
  all: try (rewrite (write_entry_map (@from_u32_entry O V) KU32); [reflexivity|reflexivity]).
  all: rewrite (write_entry_map (@from_string_entry O V) KStr); [reflexivity|reflexivity].
Qed.

Lemma write_table_keys {K} i v (t : hash_table K V) :
  map fst (entries (write_table i v t)) = map fst (entries t).
Proof. apply write_entry_keys. Qed.

Lemma write_entry_in_keys {A} i v (l : list (A * V)) e :
  In e (write_entry i v l) -> exists e', In e' l /\ fst e' = fst e.
Proof.
  intros H. apply (in_map fst) in H. rewrite write_entry_keys in H. apply in_map_iff in H.
  destruct H as (e' & H1 & H2). eauto.
Qed.

Lemma fm_write_inv kd bh i v m : fm_inv kd bh m -> fm_inv kd bh (fm_write i v m).
Proof.
  assert (Htab : forall K (h : K -> Z) (t : hash_table K V), table_ok h t -> table_ok h (write_table i v t)).
  { intros K h t. apply table_ok_write; auto. apply write_table_keys. }
  assert (Hl : forall A (l : list (A * V)), zlen (write_entry i v l) = zlen l).
  { intros. unfold zlen. now rewrite write_entry_length. }
  destruct m; cbn [fm_inv fm_write cm_table cm_bh im_table lm_table]; auto.
  - intros (H1 & H2). auto.
  - intros (H1 & H2). auto.
  - intros (H1 & H2). auto.
  - intros (H1 & H2). auto.
  - intros (H1 & Hne & H2 & H3). split; auto. unfold irm_wf. cbn [irm_entries irm_min irm_max].
    rewrite Hl. repeat split; auto. intros H0. apply Hne. apply zlen_0. rewrite <- Hl, H0. reflexivity.
  - intros (H1 & H2 & H3 & H4). split; auto. split; [|split]; cbn [slm_table slm_bh slm_start slm_end]; auto.
    intros e He. apply write_entry_in_keys in He. destruct He as (e' & He & <-). auto.
  - intros (H1 & H2 & H3 & H4). split; auto. split; [|split]; cbn [slm_table slm_bh slm_start slm_end]; auto.
    intros e He. apply write_entry_in_keys in He. destruct He as (e' & He & <-). auto.
  - intros (H1 & H2 & H3 & H4). split; auto. split; [|split]; cbn [slm_table slm_bh slm_start slm_end]; auto.
    intros e He. apply write_entry_in_keys in He. destruct He as (e' & He & <-). auto.
  - intros (H1 & H2 & H3 & H4). split; auto. split; [|split]; cbn [slm_table slm_bh slm_start slm_end]; auto.
    intros e He. apply write_entry_in_keys in He. destruct He as (e' & He & <-). auto.
  - intros (H1 & H2). auto.
Qed.

Lemma fm_write_safe kd i v m : fm_safe kd m -> fm_safe kd (fm_write i v m).
Proof.
  assert (Hl : forall A (l : list (A * V)), zlen (write_entry i v l) = zlen l).
  { intros. unfold zlen. now rewrite write_entry_length. }
  assert (Htab : forall K (t : hash_table K V), table_safe t -> table_safe (write_table i v t)).
  { intros K t H code. destruct (H code) as (a & b & H1 & H2). exists a, b. split; [exact H1|].
    apply range_ok_iff in H2. apply range_ok_iff. cbn [write_table entries]. now rewrite Hl. }
  destruct m; cbn [fm_safe fm_write cm_table cm_bh im_table lm_table slm_table slm_start slm_end]; auto.
  3: { intros (H1 & Hne & H2 & H3). split; auto. unfold irm_wf. cbn [irm_entries irm_min irm_max].
    rewrite Hl. split; [|split]; auto. intros H0. apply Hne. apply zlen_0. rewrite <- Hl, H0. reflexivity. }
  all: intuition auto.
Qed.

Lemma fm_write_exact i v m : fm_exact m -> fm_exact (fm_write i v m).
Proof.
  destruct m; cbn [fm_exact fm_write]; auto. unfold irm_ok. cbn [irm_entries irm_min irm_max].
  intros (H1 & H2 & H3 & H4 & H5 & H6).
  assert (Hl : length (write_entry i v (irm_entries m)) = length (irm_entries m)) by apply write_entry_length.
  unfold zlen in *. rewrite Hl, write_entry_keys. repeat split; auto.
  intros H0. apply H1. apply length_zero_iff_nil. rewrite <- Hl, H0. reflexivity.
Qed.

Lemma index_checked_write {A} i v (l : list (A * V)) j (B : Type) (b : res B) :
  (_ <- index_checked (write_entry i v l) j ;; b) = (_ <- index_checked l j ;; b).
Proof.
  unfold index_checked. destruct (0 <=? j); auto. rewrite nth_error_write_entry.
  destruct (Nat.eqb _ _); auto. destruct (nth_error l _); reflexivity.
Qed.

Lemma fm_write_get_at i v m k : fm_get_at eqbO E (fm_write i v m) k = fm_get_at eqbO E m k.
Proof.
  destruct m; cbn [fm_get_at fm_write].
  - unfold sm_get_at. cbn [sm_entries]. f_equal. apply (find_pos_keys (fun x => keq k (id_key x))).
    apply write_entry_keys.
  - unfold cm_get_at, cm_get_hash_info, ht_get_hash_info. cbn [cm_table cm_bh num_slots slots write_table].
    destruct (nth_error _ _); cbn [bind]; auto.
    destruct (unwrap _); cbn [bind]; auto. destruct (unwrap _); cbn [bind]; auto.
    apply ht_probe_keys, write_table_keys.
  - unfold cm_get_at, cm_get_hash_info, ht_get_hash_info. cbn [cm_table cm_bh num_slots slots write_table].
    destruct (nth_error _ _); cbn [bind]; auto.
    destruct (unwrap _); cbn [bind]; auto. destruct (unwrap _); cbn [bind]; auto.
    apply ht_probe_keys, write_table_keys.
  - destruct (as_u32 k) as [n| | |]; cbn [bind]; auto.
    unfold im_get_at, im_get_hash_info, ht_get_hash_info. cbn [im_table num_slots slots write_table].
    destruct (nth_error _ _); cbn [bind]; auto.
    destruct (unwrap _); cbn [bind]; auto. destruct (unwrap _); cbn [bind]; auto.
    apply ht_probe_keys, write_table_keys.
  - destruct (as_u32 k) as [n| | |]; cbn [bind]; auto.
    unfold im_get_at, im_get_hash_info, ht_get_hash_info. cbn [im_table num_slots slots write_table].
    destruct (nth_error _ _); cbn [bind]; auto.
    destruct (unwrap _); cbn [bind]; auto. destruct (unwrap _); cbn [bind]; auto.
    apply ht_probe_keys, write_table_keys.
  - destruct (as_u32 k) as [n| | |]; cbn [bind]; auto.
    unfold irm_get_at. cbn [irm_min irm_max irm_entries]. destruct (_ && _); auto.
    destruct (arith _ _ _); cbn [bind]; auto. destruct (to_usize _); auto.
    apply index_checked_write.
  - destruct (as_string k) as [s| | |]; cbn [bind]; auto.
    unfold lsm_get_at, lsm_get_hash_info, ht_get_hash_info.
    cbn [slm_table slm_bh slm_start slm_end num_slots slots write_table].
    destruct (if _ <=? _ then _ else _); cbn [bind]; auto.
    destruct (nth_error _ _); cbn [bind]; auto.
    destruct (unwrap _); cbn [bind]; auto. destruct (unwrap _); cbn [bind]; auto.
    apply ht_probe_keys, write_table_keys.
  - destruct (as_string k) as [s| | |]; cbn [bind]; auto.
    unfold lsm_get_at, lsm_get_hash_info, ht_get_hash_info.
    cbn [slm_table slm_bh slm_start slm_end num_slots slots write_table].
    destruct (if _ <=? _ then _ else _); cbn [bind]; auto.
    destruct (nth_error _ _); cbn [bind]; auto.
    destruct (unwrap _); cbn [bind]; auto. destruct (unwrap _); cbn [bind]; auto.
    apply ht_probe_keys, write_table_keys.
  - destruct (as_string k) as [s| | |]; cbn [bind]; auto.
    unfold rsm_get_at, rsm_get_hash_info, ht_get_hash_info.
    cbn [slm_table slm_bh slm_start slm_end num_slots slots write_table].
    destruct (if _ <=? _ then _ else _); cbn [bind]; auto.
    destruct (nth_error _ _); cbn [bind]; auto.
    destruct (unwrap _); cbn [bind]; auto. destruct (unwrap _); cbn [bind]; auto.
    apply ht_probe_keys, write_table_keys.
  - destruct (as_string k) as [s| | |]; cbn [bind]; auto.
    unfold rsm_get_at, rsm_get_hash_info, ht_get_hash_info.
    cbn [slm_table slm_bh slm_start slm_end num_slots slots write_table].
    destruct (if _ <=? _ then _ else _); cbn [bind]; auto.
    destruct (nth_error _ _); cbn [bind]; auto.
    destruct (unwrap _); cbn [bind]; auto. destruct (unwrap _); cbn [bind]; auto.
    apply ht_probe_keys, write_table_keys.
  - destruct (as_string k) as [s| | |]; cbn [bind]; auto.
    unfold lm_get_at, lm_get_hash_info, ht_get_hash_info. cbn [lm_table num_slots slots write_table].
    destruct (nth_error _ _); cbn [bind]; auto.
    destruct (unwrap _); cbn [bind]; auto. destruct (unwrap _); cbn [bind]; auto.
    apply ht_probe_keys, write_table_keys.
Qed.

Lemma fm_get_mut_get_at kd m k : fm_safe kd m -> has_kind kd k ->
  fm_get_mut eqbO E m k = fm_get_at eqbO E m k.
Proof.
  intros H1 H2. destruct (fm_lookup_safe eqbO E kd m k H1 H2) as (r & -> & -> & _). reflexivity.
Qed.

Lemma write_effect kd m k i w :
  equivalence eqbO -> fm_safe kd m -> has_kind kd k ->
  fm_get_mut eqbO E m k = Ok (Some i) ->
  let m' := fm_write i w m in
  fm_get eqbO E m' k = Ok (Some w) /\
  (forall k', has_kind kd k' -> keq k k' = false -> fm_get eqbO E m' k' = fm_get eqbO E m k') /\
  map fst (fm_iter m') = map fst (fm_iter m) /\ fm_len m' = fm_len m /\
  (forall j, j <> i -> nth_error (fm_iter m') j = nth_error (fm_iter m) j).
Proof.
  intros He Hinv Hk Hg m'. rewrite (fm_get_mut_get_at kd) in Hg by auto.
  pose proof (fm_write_safe kd i w m Hinv) as Hinv'.
  destruct (fm_lookup_safe eqbO E kd m k Hinv Hk) as (r & Hr & _ & _ & _ & Hrange).
  rewrite Hg in Hr. injection Hr as <-. destruct (Hrange i eq_refl) as (e & Hei & _).
  split; [|split; [|split; [|split]]].
  - destruct (fm_lookup_safe eqbO E kd m' k Hinv' Hk) as (r' & Hr' & _ & -> & _).
    unfold m' in Hr'. rewrite fm_write_get_at, Hg in Hr'. injection Hr' as <-.
    cbn [at_pos]. unfold m'. rewrite fm_iter_write, nth_error_write_entry, Nat.eqb_refl, Hei. reflexivity.
  - intros k' Hk' Hne.
    destruct (fm_lookup_safe eqbO E kd m k' Hinv Hk') as (r & Hr & _ & -> & _).
    destruct (fm_lookup_safe eqbO E kd m' k' Hinv' Hk') as (r' & Hr' & _ & -> & _).
    unfold m' in Hr'. rewrite fm_write_get_at, Hr in Hr'. injection Hr' as <-.
    destruct r as [j|]; [|reflexivity]. cbn [at_pos]. unfold m'.
    rewrite fm_iter_write, nth_error_write_entry. destruct (Nat.eqb_spec i j) as [Hij|Hij]; [|reflexivity].
    subst j. rewrite (fm_pos_inj kd m k k' i) in Hne by auto. discriminate.
  - unfold m'. rewrite fm_iter_write. apply write_entry_keys.
  - unfold m'. rewrite !fm_len_iter, fm_iter_write. unfold zlen. now rewrite write_entry_length.
  - intros j Hj. unfold m'. rewrite fm_iter_write, nth_error_write_entry.
    destruct (Nat.eqb_spec i j); congruence.
Qed.

(** ** get_many_mut *)

Lemma get_many_mut_spec kd m keys :
  equivalence eqbO -> fm_safe kd m -> (forall k, In k keys -> has_kind kd k) ->
  exists r, fm_get_many_mut eqbO E m keys = Ok r /\
    match r with
    | Some ps =>
        distinct keq keys /\ NoDup ps /\
        Forall2 (fun k p => exists e, nth_error (fm_iter m) p = Some e /\
                   fm_get eqbO E m k = Ok (Some (snd e)) /\ fm_get_mut eqbO E m k = Ok (Some p)) keys ps
    | None => ~ distinct keq keys \/ exists k, In k keys /\ fm_get eqbO E m k = Ok None
    end.
Proof.
  intros He Hinv Hk. unfold fm_get_many_mut, get_many_mut.
  destruct (has_duplicate_key keq [] keys) eqn:Hd.
  { exists None. split; auto. left. intros Hdist.
    assert (has_duplicate_key keq [] keys = false); [|congruence].
    apply has_duplicate_key_spec. split; auto. intros s k []. }
  apply has_duplicate_key_spec in Hd. destruct Hd as (Hd & _).
  set (f := fun k => match fm_get_at eqbO E m k with Ok r => r | _ => None end).
  destruct (get_each_spec (fm_get_at eqbO E m) f keys) as [(ps & -> & HF)|(-> & k & Hik & Hf)].
  { intros k Hik. unfold f. destruct (fm_lookup_safe eqbO E kd m k Hinv (Hk k Hik)) as (r & -> & _).
    reflexivity. }
  - exists (Some ps). split; auto. split; auto.
    assert (HF' : Forall2 (fun k p => In k keys /\ fm_get_at eqbO E m k = Ok (Some p)) keys ps).
    { assert (Hgen : forall l ps, (forall k, In k l -> In k keys) -> Forall2 (fun k p => f k = Some p) l ps ->
        Forall2 (fun k p => In k keys /\ fm_get_at eqbO E m k = Ok (Some p)) l ps).
      { clear - Hinv Hk. intros l ps Hl. induction 1 as [|k p l ps Hf _ IH]; constructor.
        - split; [apply Hl; now left|]. unfold f in Hf.
          destruct (fm_lookup_safe eqbO E kd m k Hinv (Hk k ltac:(apply Hl; now left))) as (r & Hr & _).
          rewrite Hr in *. congruence.
        - apply IH. intros; apply Hl; now right. }
      apply Hgen; auto. }
    clear HF. split.
    + assert (Hgen : forall l ps, distinct keq l ->
         Forall2 (fun k p => In k keys /\ fm_get_at eqbO E m k = Ok (Some p)) l ps -> NoDup ps).
      { clear - He Hinv Hk. intros l ps' Hd HF. revert Hd.
        induction HF as [|k p l ps' (Hi & Hp) HF IH]; intros Hd.
        - constructor.
        - cbn [distinct] in Hd. destruct Hd as (Hd1 & Hd2). constructor; auto.
          intros Hin. clear IH. induction HF as [|k' p' l ps' (Hi' & Hp') HF IH]; [destruct Hin|].
          destruct Hin as [->|Hin].
          + specialize (Hd1 k' ltac:(now left)).
            rewrite (fm_pos_inj kd m k k' p) in Hd1; auto. discriminate.
          + apply IH; auto.
            * intros; apply Hd1; now right.
            * apply Hd2. }
      exact (Hgen keys ps Hd HF').
    + assert (Hgen : forall l ps,
         Forall2 (fun k p => In k keys /\ fm_get_at eqbO E m k = Ok (Some p)) l ps ->
         Forall2 (fun k p => exists e, nth_error (fm_iter m) p = Some e /\
           fm_get eqbO E m k = Ok (Some (snd e)) /\ fm_get_mut eqbO E m k = Ok (Some p)) l ps).
      2: exact (Hgen keys ps HF').
      clear - Hinv Hk. intros l0 ps0 HF'.
      induction HF' as [|k p l ps' (Hi & Hp) HF IH]; constructor; auto.
      destruct (fm_lookup_safe eqbO E kd m k Hinv (Hk k Hi)) as (r & H1 & H2 & H3 & _ & H5).
      rewrite Hp in H1. injection H1 as <-. destruct (H5 p eq_refl) as (e & He & _).
      exists e. split; auto. rewrite H3. cbn [at_pos]. rewrite He. auto.
  - exists None. split; auto. right. exists k. split; auto.
    destruct (fm_lookup_safe eqbO E kd m k Hinv (Hk k Hik)) as (r & H1 & _ & H3 & _).
    unfold f in Hf. rewrite H1 in Hf. subst r. exact H3.
Qed.

End Facts.
