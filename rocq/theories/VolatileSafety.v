(** Memory safety of FrozenMap for keys and hashers whose answers change from call to call. *)
From Coq Require Import List ZArith Bool Arith Lia Permutation.
From Verif Require Import Spec MapSpec Base BaseLemmas HashCodeAnalyzer IntKeyAnalyzer SliceKeyAnalyzer HashTable
  Maps FrozenMap FrozenMapProofs FrozenMapFacts BuildSound Iterators IterSpec IteratorProofs
  HistorySpec History HistorySafety Volatile VolatileProofs VolatileMaps EffectSpec.
Import ListNotations.
Open Scope Z_scope.

(** ** Histories *)

Section Histories.
Context {W O V : Type}.
Variable F : conduct W O.
Variable E : env.
Variable kd : kind.
Variable payload : list (key O * V).
Hypothesis Hsize : zlen payload < 2 ^ 64.
Implicit Types (m : map_types O V) (w : W) (written : list V).

(** The possible outcomes of a search. *)
Lemma find_cases m k w : fm_safe kd m -> has_kind kd k ->
  (exists w', v_find F E m k w = (Panic PForeign, w')) \/
  (exists w', v_find F E m k w = (Ok None, w')) \/
  (exists i e w', v_find F E m k w = (Ok (Some i), w') /\ nth_error (fm_iter m) i = Some e).
Proof.
  intros Hs Hk. destruct (v_find_found F E kd m k w Hs Hk) as [H|(o & H & Ho)];
    destruct (v_find F E m k w) as [r w1]; cbn [fst] in H; subst r; [eauto|].
  right. destruct o as [i|]; [|eauto]. destruct (Ho i eq_refl) as (e & He). right. eauto.
Qed.

Lemma duplicate_answers seen keys : answers (v_has_duplicate_key F seen keys).
Proof.
  revert seen. induction keys as [|k keys IH]; intros seen w; cbn [v_has_duplicate_key]; [cbn; eauto|].
  unfold mbind. destruct (v_find_pos_found (fun j => v_key_eq F j k) seen (fun j => v_key_eq_answers F j k) w)
    as [H|(o & H & _)]; destruct (v_find_pos _ seen w) as [r w1]; cbn [fst] in H; subst r; [cbn; auto|].
  destruct o; [cbn; eauto|]. apply IH.
Qed.

Lemma each_answers m keys : fm_safe kd m -> (forall k, In k keys -> has_kind kd k) ->
  answers (v_get_each F E m keys).
Proof.
  intros Hs. induction keys as [|k keys IH]; intros Hk w; cbn [v_get_each]; [cbn; eauto|]. unfold mbind.
  destruct (find_cases m k w Hs ltac:(apply Hk; now left)) as [(w1 & ->)|[(w1 & ->)|(i & e & w1 & -> & _)]];
    [cbn; auto|cbn; eauto|].
  destruct (IH ltac:(intros; apply Hk; now right) w1) as [H|(o & H)];
    destruct (v_get_each F E m keys w1) as [r w2]; cbn [fst] in H; subst r; cbn; eauto.
Qed.

Lemma v_step_sane written m o w : tracks kd payload written m ->
  (forall k, In k (op_keys o) -> has_kind kd k) ->
  let '(b, m', _) := v_step F E m o w in
  match b with
  | None => op_keys o <> [] /\ m' = m
  | Some b => sane payload written o b /\ tracks kd payload (written ++ op_writes o) m'
  end.
Proof.
  intros H Hk. pose proof (tracks_len _ _ _ _ H) as Hlen. pose proof H as (Hs & HP & HI).
  assert (Hl : forall k w, In k (op_keys o) -> _)
    by (intros k w0 Hko; exact (find_cases m k w0 Hs (Hk k Hko))).
  assert (Hsame : tracks kd payload (written ++ []) m) by now apply tracks_more.
  destruct o as [k|k|k|k| | | |k v|k v|kws]; cbn [op_keys op_writes] in *; cbn [v_step].
  - unfold v_get, mbind. destruct (Hl k w ltac:(cbn; auto)) as [(w1 & ->)|[(w1 & ->)|(i & e & w1 & -> & He)]];
      cbn -[In]; [split; [discriminate|reflexivity]|auto|].
    rewrite He. cbn -[In]. split; auto. apply (tracks_entry _ _ _ _ _ _ H He).
  - unfold v_get_key_value, mbind. destruct (Hl k w ltac:(cbn; auto)) as [(w1 & ->)|[(w1 & ->)|(i & e & w1 & -> & He)]];
      cbn -[In]; [split; [discriminate|reflexivity]|auto|].
    rewrite He. cbn -[In]. split; auto. apply (tracks_entry _ _ _ _ _ _ H He).
  - unfold v_contains_key, v_get, mbind. destruct (Hl k w ltac:(cbn; auto)) as [(w1 & ->)|[(w1 & ->)|(i & e & w1 & -> & He)]];
      cbn -[In]; [split; [discriminate|reflexivity]|auto|].
    rewrite He. cbn -[In]. auto.
  - unfold v_index, v_get, mbind. destruct (Hl k w ltac:(cbn; auto)) as [(w1 & ->)|[(w1 & ->)|(i & e & w1 & -> & He)]];
      cbn -[In]; [split; [discriminate|reflexivity]|auto|].
    rewrite He. cbn -[In]. split; auto. apply (tracks_entry _ _ _ _ _ _ H He).
  - cbn [sane]. split; auto. rewrite fm_len_iter, Hlen. reflexivity.
  - cbn [sane]. split; auto. unfold fm_is_empty. rewrite fm_len_iter, Hlen, Z.eqb_eq.
    unfold zlen. destruct payload; cbn; split; intros; try discriminate; auto; lia.
  - assert (Hz' : zlen (fm_iter m) < 2 ^ 64) by lia.
    pose proof (fun it a l => it_at_cons (prof E) (fm_iter m) it a l Hz') as Hcons.
    rewrite (R_fold (it_next (prof E)) (it_at (fm_iter m)) (it_at_nil (prof E) (fm_iter m)) Hcons _ (fm_iter m));
      [|apply it_at_new|lia].
    assert (Hf : forall (l acc : list (key O * V)), fold_left (fun acc e => acc ++ [e]) l acc = acc ++ l).
    { induction l as [|x l IH]; intros acc; cbn; [now rewrite app_nil_r|]. now rewrite IH, <- app_assoc. }
    rewrite Hf. cbn [app v_observe observe sane]. auto.
  - destruct (Hl k w ltac:(cbn; auto)) as [(w1 & ->)|[(w1 & ->)|(i & e & w1 & -> & He)]];
      cbn [v_observe observe sane]; [split; [discriminate|reflexivity]|split; [exact I|now apply tracks_more]|].
    split; [exact I|]. apply tracks_write; [apply in_or_app; right; now left|now apply tracks_more].
  - unfold v_index_mut, mbind.
    destruct (Hl k w ltac:(cbn; auto)) as [(w1 & ->)|[(w1 & ->)|(i & e & w1 & -> & He)]];
      cbn [lift unwrap v_observe observe sane]; [split; [discriminate|reflexivity]|split; [exact I|now apply tracks_more]|].
    split; [exact I|]. apply tracks_write; [apply in_or_app; right; now left|now apply tracks_more].
  - assert (Ha : answers (v_get_many_mut F E m (map fst kws))).
    { intros w0. unfold v_get_many_mut, mbind.
      destruct (duplicate_answers [] (map fst kws) w0) as [Hd|(d & Hd)];
        destruct (v_has_duplicate_key F [] (map fst kws) w0) as [r w1]; cbn [fst] in Hd; subst r; [cbn; auto|].
      destruct d; [cbn; eauto|]. apply each_answers; auto. }
    assert (Hnil : forall w0 w1, v_get_many_mut F E m (map fst kws) w0 = (Panic PForeign, w1) -> map fst kws <> []).
    { intros w0 w1 Hp. destruct kws; [discriminate Hp|discriminate]. }
    specialize (Hnil w). destruct (Ha w) as [Hr|(o & Hr)];
      destruct (v_get_many_mut F E m (map fst kws) w) as [r w1]; cbn [fst] in Hr; subst r; cbn [v_observe].
    + split; [eauto|reflexivity].
    + destruct o as [ps|]; cbn [v_observe observe sane].
      * split; [exact I|]. apply tracks_write_all; [apply incl_appr, incl_refl|now apply tracks_more].
      * split; [exact I|now apply tracks_more].
Qed.

Lemma v_run_sane : forall os written m w, tracks kd payload written m ->
  (forall o k, In o os -> In k (op_keys o) -> has_kind kd k) ->
  sane_run_caught payload written os (v_run F E m os w).
Proof.
  induction os as [|o os IH]; intros written m w H Hk; cbn [v_run]; [exact I|].
  pose proof (v_step_sane written m o w H (fun k => Hk o k (or_introl eq_refl))) as Hstep.
  destruct (v_step F E m o w) as [[b m'] w']. destruct b as [b|]; cbn [sane_run_caught]; destruct Hstep as (H1 & H2).
  - split; auto. apply IH; auto. intros o' k Ho. apply Hk. cbn. auto.
  - subst m'. split; auto. apply IH; auto. intros o' k Ho. apply Hk. cbn. auto.
Qed.
End Histories.

Lemma built_tracks {W O V} (F : conduct W O) E kd (payload : list (key O * V)) bh w m w' :
  env_ok E -> typed kd payload -> v_new F E kd payload bh w = (Ok m, w') -> tracks kd payload [] m.
Proof.
  intros HE Ht H. destruct (v_built F E HE kd payload bh w m w' Ht H) as (HP & Hs).
  split; auto. split; [apply Permutation_sym; now apply Permutation_map|].
  rewrite app_nil_r. intros v Hv. apply (Permutation_in _ (Permutation_sym (Permutation_map snd HP))). exact Hv.
Qed.

(** C71 *)
Lemma volatile_history_never_goes_wrong :
  forall (W O V : Type) (F : conduct W O) (E : env) (kd : kind) (bh : hasher O)
         (payload : list (key O * V)) (m : map_types O V) (history : list (op (key O) V)) (w w' w1 : W),
  env_ok E -> zlen payload < 2 ^ 64 -> typed kd payload ->
  v_new F E kd payload bh w = (Ok m, w') ->
  (forall o k, In o history -> In k (op_keys o) -> has_kind kd k) ->
  sane_run_caught payload [] history (v_run F E m history w1).
Proof.
  intros W O V F E kd bh payload m history w w' w1 HE Hz Ht Hm Hk.
  apply (v_run_sane F E kd payload Hz); auto. eapply built_tracks; eauto.
Qed.

Lemma volatile_construction :
  forall (W O V : Type) (F : conduct W O) (E : env) (kd : kind) (bh : hasher O)
         (payload : list (key O * V)) (w : W),
  env_ok E -> typed kd payload ->
  match fst (v_new F E kd payload bh w) with
  | Ok m => Permutation payload (fm_iter m)
  | Panic _ => True
  | UB _ => kd = KindString /\
      exists i l w1, v_analyze_slice_keys (fun s => call (on_hash_slice F bh s)) (str_keys payload) w =
        (Ok (RightHandSubslice i l), w1)
  | OutOfFuel => False
  end.
Proof.
  intros W O V F E kd bh payload w HE Ht.
  assert (Hr : {kd = KindString /\ right_window_chosen F payload bh w} +
               {kd = KindString -> ~ right_window_chosen F payload bh w}).
  { destruct kd; try (right; discriminate). unfold right_window_chosen, right_window_chosen_as.
    destruct (v_analyze_slice_keys _ (str_keys payload) w) as [[[|i l|i l|]|p|u|] w1];
      try (right; intros _ (i' & l' & w2 & H); discriminate).
    left. split; [reflexivity|]. eauto. }
  destruct Hr as [(-> & Hr)|Hr].
  - assert (Hfuel : fst (v_new F E KindString payload bh w) <> OutOfFuel).
    { apply v_new_ends; auto. }
    destruct (v_new F E KindString payload bh w) as [[m|p|u|] w1] eqn:En; cbn [fst] in *; auto.
    now apply (v_built F E HE KindString payload bh w m w1 Ht).
  - pose proof (v_new_fine F E kd payload bh w Ht Hr) as Hf.
    destruct (v_new F E kd payload bh w) as [[m|p|u|] w1] eqn:En; cbn [fst fine] in *; auto; try contradiction.
    now apply (v_built F E HE kd payload bh w m w1 Ht).
Qed.

Lemma answers_bind {W A B} (x : M W A) (f : A -> M W B) :
  answers x -> (forall a, answers (f a)) -> answers (mbind x f).
Proof.
  intros Hx Hf w. unfold mbind. destruct (Hx w) as [H|(a & H)]; destruct (x w) as [r w1]; cbn [fst] in H; subst r.
  - cbn. auto.
  - apply Hf.
Qed.

(** Comparing two maps, where [==] of the values is foreign code as well. *)
Lemma volatile_equality :
  forall (W O V : Type) (F : conduct W O) (E : env) (veq : V -> V -> W -> option bool * W)
         (kd : kind) (bh1 bh2 : hasher O) (p1 p2 : list (key O * V)) (m1 m2 : map_types O V)
         (w1 w1' w2 w2' w : W),
  env_ok E -> typed kd p1 -> typed kd p2 ->
  v_new F E kd p1 bh1 w1 = (Ok m1, w1') -> v_new F E kd p2 bh2 w2 = (Ok m2, w2') ->
  match fst (v_eq F E veq m1 m2 w) with
  | Ok true => length p1 = length p2
  | Ok false | Panic PForeign => True
  | _ => False
  end.
Proof.
  intros W O V F E veq kd bh1 bh2 p1 p2 m1 m2 w1 w1' w2 w2' w HE T1 T2 H1 H2.
  destruct (v_built F E HE kd p1 bh1 w1 m1 w1' T1 H1) as (P1 & _).
  destruct (v_built F E HE kd p2 bh2 w2 m2 w2' T2 H2) as (P2 & S2).
  unfold v_eq. rewrite !fm_len_iter, <- (zlen_perm _ _ P1), <- (zlen_perm _ _ P2).
  destruct (Z.eqb_spec (zlen p1) (zlen p2)) as [Hl|Hl]; cbn [negb]; [|exact I].
  assert (Hlen : length p1 = length p2) by (unfold zlen in Hl; lia).
  assert (Hin : forall e, In e (fm_iter m1) -> has_kind kd (fst e)).
  { intros e He. apply T1. now apply (Permutation_in _ (Permutation_sym P1)). }
  clear H1 H2 P1 P2 Hl. revert w.
  assert (Hall : answers (v_all (fun e => mbind (v_get F E m2 (fst e)) (fun r =>
            match r with Some v => call (veq (snd e) v) | None => lift (Ok false) end)) (fm_iter m1))).
  { induction (fm_iter m1) as [|e l IH]; cbn [v_all]; [intros w; cbn; eauto|].
    apply answers_bind; [apply answers_bind|].
    - intros w0. unfold v_get, mbind.
      destruct (find_cases F E kd m2 (fst e) w0 S2 ltac:(apply Hin; now left)) as [(w3 & ->)|[(w3 & ->)|(i & x & w3 & -> & Hx)]];
        cbn [lift deref fst]; [auto|eauto|]. rewrite Hx. cbn [fst]. eauto.
    - intros [v|]; [apply call_answers|intros w; cbn; eauto].
    - intros []; [|intros w; cbn; eauto]. apply IH. intros; apply Hin; now right. }
  intros w. destruct (Hall w) as [H|(b & H)]; rewrite H; [exact I|]. destruct b; auto.
Qed.

(** ** Agreement with FrozenMap.v *)

Section Same.
Context {W V : Type}.
Variable E : env.
Implicit Types (w : W).

(** Always the same result. *)
Definition same {A} (x : M W A) (r : res A) : Prop := forall w, fst (x w) = r.

Lemma same_lift {A} (r : res A) : same (lift r) r.
Proof. intros w. reflexivity. Qed.
Lemma same_call {A} (f : W -> option A * W) a : always f a -> same (call f) (Ok a).
Proof. intros H w. unfold call. specialize (H w). destruct (f w) as [o w']. cbn [fst] in H. now subst o. Qed.
Lemma same_bind {A B} (x : M W A) r (f : A -> M W B) g :
  same x r -> (forall a, same (f a) (g a)) -> same (mbind x f) (bind r g).
Proof.
  intros H1 H2 w. unfold mbind. specialize (H1 w). destruct (x w) as [r' w']. cbn [fst] in H1. subst r'.
  destruct r; cbn; auto. apply H2.
Qed.
Lemma same_eq {A} (x : M W A) r r' : same x r -> r = r' -> same x r'.
Proof. now intros H <-. Qed.

Lemma same_map {A B} (f : A -> M W B) g l : (forall a, same (f a) (g a)) -> same (v_map f l) (mapM g l).
Proof.
  intros H. induction l; cbn [v_map mapM]; [apply same_lift|]. apply same_bind; auto. intros b.
  apply same_bind; auto. intros bs. apply same_lift.
Qed.

Lemma same_find_pos {A} (p : A -> M W bool) q l : (forall a, same (p a) (Ok (q a))) ->
  same (v_find_pos p l) (Ok (find_pos q l)).
Proof.
  intros H. induction l as [|a l IH]; cbn [v_find_pos find_pos]; [apply same_lift|].
  eapply same_eq; [apply (same_bind _ (Ok (q a)) _ (fun b => if b : bool then Ok (Some 0%nat) else Ok (option_map S (find_pos q l))));
    [apply H|]|now destruct (q a)].
  intros []; [apply same_lift|]. eapply same_eq; [apply (same_bind _ _ _ (fun r => Ok (option_map S r)) IH)|reflexivity].
  intros r. apply same_lift.
Qed.
Lemma same_all {A} (p : A -> M W bool) q l : (forall a, same (p a) (q a)) -> same (v_all p l) (all_res q l).
Proof.
  intros H. induction l as [|a l IH]; cbn [v_all all_res]; [apply same_lift|].
  apply same_bind; auto. intros []; [exact IH|apply same_lift].
Qed.

Lemma same_ht_new {K} S_ty (payload : list (K * V)) n hash h :
  (forall k, same (hash k) (h k)) -> same (v_ht_new E S_ty payload n hash) (ht_new E S_ty payload n h).
Proof.
  intros H. unfold v_ht_new, ht_new. destruct payload as [|e p] eqn:Hp; [apply same_lift|]. rewrite <- Hp.
  apply same_bind; [apply same_lift|]. intros cap. destruct (_ <? _); [apply same_lift|].
  apply same_bind; [|intros items; apply same_lift]. clear Hp.
  induction payload as [|x l IH]; cbn [v_prepare prepare]; [apply same_lift|].
  apply same_bind; auto. intros c. destruct (_ =? 0); [apply same_lift|]. apply same_bind; auto. intros r. apply same_lift.
Qed.

Lemma same_probe {K} (t : hash_table K V) range (p : K -> M W bool) q :
  (forall k, same (p k) (Ok (q k))) -> same (v_probe t range p) (ht_probe t range q).
Proof.
  intros H. unfold v_probe, ht_probe. apply same_bind; [apply same_lift|]. intros es.
  eapply same_eq; [apply (same_bind _ _ _ (fun r => Ok (option_map (fun i => (Z.to_nat (fst range) + i)%nat) r))
    (same_find_pos _ (fun e => q (fst e)) es (fun e => H (fst e))))|reflexivity].
  intros r. apply same_lift.
Qed.
End Same.

Section Regular.
Context {W O V : Type}.
Variable eqbO : O -> O -> bool.
Variable E : env.
Variable F : conduct W O.
Hypothesis HF : regular F eqbO.
Implicit Types (w : W).

Lemma same_key_eq a b : same (v_key_eq F a b) (Ok (key_eqb eqbO a b)).
Proof. destruct a, b; try apply same_lift. apply same_call, HF. Qed.
Lemma same_hash bh k : same (v_hash F bh k) (Ok (hash_one bh k)).
Proof. apply same_call, HF. Qed.

Lemma same_slice_hash bh s a b : same (v_slice_hash F bh s a b) (slice_hash hash_write bh s a b).
Proof. apply same_bind; [apply same_lift|]. intros s'. apply same_call, HF. Qed.
Lemma same_right_hash bh s a b : same (v_right_hash F E bh s a b) (right_hash hash_write (prof E) bh s a b).
Proof.
  apply same_bind; [apply same_lift|]. intros x. apply same_bind; [apply same_lift|]. intros y. apply same_slice_hash.
Qed.

Lemma same_find (m : map_types O V) k : same (v_find F E m k) (fm_get_at eqbO E m k).
Proof.
  assert (Hcm : forall cm, same (v_cm_find F cm k) (cm_get_at (key_eqb eqbO) id_key hash_one (V := V) cm k)).
  { intros cm. unfold v_cm_find, cm_get_at, cm_get_hash_info.
    eapply same_eq; [apply (same_bind _ (Ok (hash_one (cm_bh cm) k)) _ (fun code => range <- ht_get_hash_info (cm_table cm) code ;;
      ht_probe (cm_table cm) range (fun k' => key_eqb eqbO k k')))|reflexivity]; [apply same_hash|].
    intros code. apply same_bind; [apply same_lift|]. intros r. apply same_probe. intros k'. apply same_key_eq. }
  assert (Hl : forall (sm : slice_map V (hasher O)) s, same (v_lsm_find F sm s) (lsm_get_at hash_write sm s)).
  { intros sm s. unfold v_lsm_find, lsm_get_at, lsm_get_hash_info.
    eapply same_eq; [apply (same_bind _ (if slm_end sm <=? zlen s then slice_hash hash_write (slm_bh sm) s (slm_start sm) (slm_end sm) else Ok 0)
      _ (fun code => range <- ht_get_hash_info (slm_table sm) code ;; ht_probe (slm_table sm) range (fun k => bytes_eqb s k)))|].
    - destruct (_ <=? _); [apply same_slice_hash|apply same_lift].
    - intros code. apply same_bind; [apply same_lift|]. intros r. apply same_lift.
    - destruct (if _ : bool then _ else _); reflexivity. }
  assert (Hr : forall (sm : slice_map V (hasher O)) s, same (v_rsm_find F E sm s) (rsm_get_at hash_write E sm s)).
  { intros sm s. unfold v_rsm_find, rsm_get_at, rsm_get_hash_info.
    eapply same_eq; [apply (same_bind _ (if slm_start sm <=? zlen s then right_hash hash_write (prof E) (slm_bh sm) s (slm_start sm) (slm_end sm) else Ok 0)
      _ (fun code => range <- ht_get_hash_info (slm_table sm) code ;; ht_probe (slm_table sm) range (fun k => bytes_eqb s k)))|].
    - destruct (_ <=? _); [apply same_right_hash|apply same_lift].
    - intros code. apply same_bind; [apply same_lift|]. intros r. apply same_lift.
    - destruct (if _ : bool then _ else _); reflexivity. }
  destruct m; cbn [v_find fm_get_at]; try apply Hcm;
    try (apply same_bind; [apply same_lift|]; intros x; first [apply same_lift|apply Hl|apply Hr]).
  apply same_find_pos. intros e. apply same_key_eq.
Qed.

Lemma same_cm S_ty payload bh : same (v_cm_from_vec F E S_ty payload bh) (cm_from_vec (V := V) hash_one E S_ty payload bh).
Proof.
  unfold v_cm_from_vec, cm_from_vec.
  assert (Hm : mapM (fun e : key O * V => Ok (hash_one bh (fst e))) payload = Ok (map (fun e => hash_one bh (fst e)) payload)).
  { induction payload as [|e p IH]; [reflexivity|]. cbn [mapM map bind]. rewrite IH. reflexivity. }
  eapply same_eq; [apply (same_bind _ (mapM (fun e : key O * V => Ok (hash_one bh (fst e))) payload) _ (fun codes =>
    analysis <- analyze_hash_codes codes ;; t <- ht_new E S_ty payload (fst analysis) (fun k => Ok (hash_one bh k)) ;;
    Ok {| cm_table := t; cm_bh := bh |}))|now rewrite Hm].
  - apply same_map. intros e. apply same_hash.
  - intros codes. apply same_bind; [apply same_lift|]. intros a.
    apply same_bind; [apply same_ht_new; intros k; apply same_hash|]. intros t. apply same_lift.
Qed.

Lemma same_lsm S_ty (p : list (list Z * V)) a b bh :
  same (v_lsm_from_vec F E S_ty p a b bh) (lsm_from_vec hash_write E S_ty p a b bh).
Proof.
  apply same_bind.
  - apply same_map. intros e. cbv zeta. destruct (_ <=? _); [apply same_slice_hash|apply same_lift].
  - intros codes. apply same_bind; [apply same_lift|]. intros an.
    apply same_bind; [apply same_ht_new; intros k; apply same_slice_hash|]. intros t. apply same_lift.
Qed.
Lemma same_rsm S_ty (p : list (list Z * V)) a b bh :
  same (v_rsm_from_vec F E S_ty p a b bh) (rsm_from_vec hash_write E S_ty p a b bh).
Proof.
  apply same_bind.
  - apply same_map. intros e. cbv zeta. destruct (_ <=? _); [apply same_right_hash|apply same_lift].
  - intros codes. apply same_bind; [apply same_lift|]. intros an.
    apply same_bind; [apply same_ht_new; intros k; apply same_right_hash|]. intros t. apply same_lift.
Qed.

Lemma same_analyze (hv : list Z -> M W Z) (h : list Z -> Z) keys : (forall s, same (hv s) (Ok (h s))) ->
  same (v_analyze_slice_keys hv keys) (analyze_slice_keys h keys).
Proof.
  intros H.
  assert (Hu : forall lj i l ks set acc,
    same (v_uniqueness_loop hv lj i l ks set acc) (uniqueness_loop h lj i l ks set acc)).
  { intros lj i l. induction ks as [|s ks IH]; intros set acc; cbn [v_uniqueness_loop uniqueness_loop]; [apply same_lift|].
    apply same_bind; [apply same_lift|]. intros x.
    eapply same_eq; [apply (same_bind _ _ _ (fun code => if existsb (Z.eqb code) set
      then (if acc =? 0 then Ok false else uniqueness_loop h lj i l ks set (acc - 1))
      else uniqueness_loop h lj i l ks (code :: set) acc) (H x))|reflexivity].
    intros code. destruct (existsb _ _); [destruct (_ =? _); [apply same_lift|]|]; apply IH. }
  assert (Hi : forall l lj acc n i,
    same (v_find_index hv keys l lj acc n i) (find_index h keys l lj acc n i)).
  { intros l lj acc. induction n as [|n IH]; intros i; cbn [v_find_index find_index]; [apply same_lift|].
    apply same_bind; [apply Hu|]. intros []; [apply same_lift|apply IH]. }
  unfold v_analyze_slice_keys, analyze_slice_keys. destruct (analyze_lengths keys); try apply same_lift.
  unfold analyze_subslices. cbv zeta. generalize 1.
  generalize (Z.to_nat (Z.min (fold_left (fun m s => Z.min m (zlen s)) keys (imax usize)) 16)).
  induction n as [|n IH]; intros l; cbn [v_find_subslice find_subslice]; [apply same_lift|].
  apply same_bind; [apply Hi|]. intros [i|]; [apply same_lift|].
  apply same_bind; [destruct (_ =? _); [apply same_lift|apply Hi]|]. intros [i|]; [apply same_lift|apply IH].
Qed.

Lemma same_new kd (payload : list (key O * V)) bh : same (v_new F E kd payload bh) (fm_new E kd payload bh).
Proof.
  unfold v_new, fm_new. destruct (_ <? 4); [apply same_lift|]. destruct kd.
  - apply same_lift.
  - unfold v_new_string_map, fm_new_string_map. apply same_bind; [apply same_lift|]. intros p.
    apply same_bind; [apply same_analyze; intros s; apply same_call, HF|]. intros an.
    destruct (_ <=? _); destruct an; apply same_bind;
      solve [apply same_lift|apply same_cm|apply same_lsm|apply same_rsm|intros x; apply same_lift].
  - unfold v_new_common_map, fm_new_common_map.
    destruct (_ <=? _); (apply same_bind; [apply same_cm|intros x; apply same_lift]).
Qed.

(** Histories on a map in good order. *)
Section Run.
Variable kd : kind.

Lemma same_each m keys : same (v_get_each F E m keys) (get_each (fm_get_at eqbO E (V := V) m) keys).
Proof.
  induction keys as [|k keys IH]; cbn [v_get_each get_each]; [apply same_lift|].
  apply same_bind; [apply same_find|]. intros [i|]; [|apply same_lift]. apply same_bind; auto. intros rs. apply same_lift.
Qed.

Lemma find_pos_ext {A} (p q : A -> bool) l : (forall a, p a = q a) -> find_pos p l = find_pos q l.
Proof. intros H. induction l as [|a l IH]; cbn; [reflexivity|]. now rewrite H, IH. Qed.
Lemma find_pos_existsb {A} (p : A -> bool) l :
  existsb p l = match find_pos p l with Some _ => true | None => false end.
Proof.
  induction l as [|a l IH]; [reflexivity|]. cbn [existsb find_pos]. destruct (p a); [reflexivity|].
  cbn [orb]. rewrite IH. destruct (find_pos p l); reflexivity.
Qed.

Lemma same_duplicate : forall keys seen,
  same (v_has_duplicate_key F seen keys) (Ok (has_duplicate_key (key_eqb eqbO) seen keys)).
Proof.
  induction keys as [|k keys IH]; intros seen; cbn [v_has_duplicate_key has_duplicate_key]; [apply same_lift|].
  eapply same_eq; [apply (same_bind _ (Ok (find_pos (fun j => key_eqb eqbO j k) seen)) _ (fun r => match r with
    | Some _ => Ok true | None => Ok (has_duplicate_key (key_eqb eqbO) (seen ++ [k]) keys) end))|].
  - apply same_find_pos. intros j. apply same_key_eq.
  - intros [i|]; [apply same_lift|apply IH].
  - rewrite find_pos_existsb. cbn [bind]. now destruct (find_pos _ seen).
Qed.

Lemma same_many m keys : same (v_get_many_mut F E m keys) (fm_get_many_mut eqbO E (V := V) m keys).
Proof.
  unfold v_get_many_mut, fm_get_many_mut, get_many_mut.
  eapply same_eq; [apply (same_bind _ _ _ (fun d => if d : bool then Ok None else get_each (fm_get_at eqbO E m) keys) (same_duplicate keys []))|].
  - intros []; [apply same_lift|apply same_each].
  - reflexivity.
Qed.

Lemma v_step_same (m : map_types O V) o w : fm_safe kd m -> zlen (fm_iter m) < 2 ^ 64 -> (forall k, In k (op_keys o) -> has_kind kd k) ->
  exists w', v_step F E m o w = (Some (fst (step eqbO E m o)), snd (step eqbO E m o), w').
Proof.
  intros Hs Hz Hk.
  assert (Hl : forall k, In k (op_keys o) -> _)
    by (intros k Hko; exact (fm_lookup_safe eqbO E kd m k Hs (Hk k Hko))).
  assert (Hget : forall k r, fm_get_at eqbO E m k = Ok r ->
    (forall i, r = Some i -> exists e, nth_error (fm_iter m) i = Some e) ->
    same (v_get F E m k) (Ok (option_map snd (at_pos (fm_iter m) r)))).
  { intros k r Hr Hi. eapply same_eq; [apply (same_bind _ _ _ (deref (fm_iter m)) (same_find m k)); intros; apply same_lift|].
    rewrite Hr. now apply deref_at_pos. }
  assert (Hsee : forall A (x : M W A) r (f : A -> obs (key O) V), same x (Ok r) ->
    exists w', (let (r0, w'0) := x w in (v_observe r0 f, m, w'0)) = (Some (f r), m, w')).
  { intros A x r f Hx. specialize (Hx w). destruct (x w) as [r0 w0]. cbn [fst] in Hx. subst r0. eexists. reflexivity. }
  destruct o as [k|k|k|k| | | |k v|k v|kws]; cbn [op_keys] in *; cbn [v_step step]; try (eexists; reflexivity).
  - destruct (Hl k ltac:(cbn; auto)) as (r & Hr & _ & -> & _ & Hi). apply Hsee. apply Hget; auto.
    intros i Hri. destruct (Hi i Hri) as (e & He & _). eauto.
  - destruct (Hl k ltac:(cbn; auto)) as (r & Hr & _ & _ & -> & Hi). apply Hsee.
    eapply same_eq; [apply (same_bind _ _ _ (fun r => Ok (at_pos (fm_iter m) r)) (same_find m k)); intros; apply same_lift|].
    now rewrite Hr.
  - destruct (Hl k ltac:(cbn; auto)) as (r & Hr & _ & Hg & _ & Hi).
    unfold fm_contains_key, contains_key. rewrite Hg. apply Hsee.
    eapply same_eq; [apply (same_bind _ _ _ (fun r => Ok (match r with Some _ => true | None => false end)) (Hget k r Hr ltac:(intros i Hri; destruct (Hi i Hri) as (e & He & _); eauto)));
      intros; apply same_lift|reflexivity].
  - destruct (Hl k ltac:(cbn; auto)) as (r & Hr & _ & Hg & _ & Hi).
    assert (Hx : same (v_index F E m k) (unwrap (option_map snd (at_pos (fm_iter m) r)))).
    { eapply same_eq; [apply (same_bind _ _ _ unwrap (Hget k r Hr ltac:(intros i Hri; destruct (Hi i Hri) as (e & He & _); eauto)));
        intros; apply same_lift|reflexivity]. }
    unfold fm_index, index_of. rewrite Hg. cbn [bind]. specialize (Hx w). destruct (v_index F E m k w) as [r0 w0]. cbn [fst] in Hx. subst r0.
    destruct (option_map snd _); eexists; reflexivity.
  - exists w. pose proof (fun it a l => it_at_cons (prof E) (fm_iter m) it a l Hz) as Hcons.
    rewrite (R_fold (it_next (prof E)) (it_at (fm_iter m)) (it_at_nil (prof E) (fm_iter m)) Hcons _ (fm_iter m));
      [reflexivity|apply it_at_new|lia].
  - destruct (Hl k ltac:(cbn; auto)) as (r & Hr & -> & _ & _ & Hi). pose proof (same_find m k w) as Hf. rewrite Hr in Hf.
    destruct (v_find F E m k w) as [r0 w0]. cbn [fst] in Hf. subst r0. destruct r; eexists; reflexivity.
  - destruct (Hl k ltac:(cbn; auto)) as (r & Hr & Hm & _ & _ & Hi).
    assert (Hx : same (v_index_mut F E m k) (unwrap r)).
    { eapply same_eq; [apply (same_bind _ _ _ unwrap (same_find m k)); intros; apply same_lift|]. now rewrite Hr. }
    unfold fm_index_mut, index_of. rewrite Hm. cbn [bind]. specialize (Hx w). destruct (v_index_mut F E m k w) as [r0 w0].
    cbn [fst] in Hx. subst r0. destruct r; eexists; reflexivity.
  - pose proof (same_many m (map fst kws) w) as Hf.
    assert (Hr : exists r, fm_get_many_mut eqbO E m (map fst kws) = Ok r).
    { unfold fm_get_many_mut, get_many_mut. destruct (has_duplicate_key _ _ _); [eauto|].
      set (f := fun k => match fm_get_at eqbO E m k with Ok r => r | _ => None end).
      destruct (get_each_spec (fm_get_at eqbO E m) f (map fst kws)) as [(ps & -> & _)|(-> & _)]; eauto.
      intros k Hik. unfold f. destruct (Hl k Hik) as (r & -> & _). reflexivity. }
    destruct Hr as (r & Hr). rewrite Hr in *. destruct (v_get_many_mut F E m (map fst kws) w) as [r0 w0]. cbn [fst] in Hf. subst r0.
    destruct r; eexists; reflexivity.
Qed.

End Run.
End Regular.

Lemma steady_regular {W O} (eqbO : O -> O -> bool) : regular (steady (W := W) eqbO) eqbO.
Proof. repeat split. Qed.

(** Whatever its side effects, with regular answers of the caller's code nothing changes with respect to FrozenMap.v and History.v. *)
Lemma regular_agrees :
  forall (W O V : Type) (F : conduct W O) (eqbO : O -> O -> bool) (E : env) (kd : kind) (bh : hasher O)
         (payload : list (key O * V)) (history : list (op (key O) V)) (w w1 : W),
  regular F eqbO -> env_ok E -> zlen payload < 2 ^ 64 -> typed kd payload ->
  (forall o k, In o history -> In k (op_keys o) -> has_kind kd k) ->
  fst (v_new F E kd payload bh w) = fm_new E kd payload bh /\
  (forall m, fm_new E kd payload bh = Ok m ->
     v_run F E m history w1 = map Some (run eqbO E m history)).
Proof.
  intros W O V F eqbO E kd bh payload history w w1 HF HE Hz Ht Hk. split; [now apply (same_new eqbO)|]. intros m Hm.
  assert (Htr : tracks kd payload [] m).
  { pose proof (same_new eqbO E F HF kd payload bh w1) as Hn. rewrite Hm in Hn.
    destruct (v_new F E kd payload bh w1) as [r w2] eqn:Hv. cbn [fst] in Hn. subst r.
    eapply (built_tracks F E kd payload bh w1 m w2); auto. }
  revert m Htr Hm Hk. generalize (@nil V).
  enough (H : forall (os : list (op (key O) V)) written m w1, tracks kd payload written m ->
    (forall o k, In o os -> In k (op_keys o) -> has_kind kd k) ->
    v_run F E m os w1 = map Some (run eqbO E m os)).
  { intros l m Htr _ Hk. eapply H; eauto. }
  clear w1. induction os as [|o os IH]; intros written m w1 H Hk; [reflexivity|]. cbn [v_run run map].
  destruct (v_step_same eqbO E F HF kd m o w1) as (w2 & ->).
  - apply H.
  - rewrite (tracks_len _ _ _ _ H). exact Hz.
  - intros k. apply Hk. cbn. auto.
  - destruct (step_sane eqbO E kd payload Hz written m o H) as (_ & H2); [intros k; apply Hk; cbn; auto|].
    destruct (step eqbO E m o) as [b m']. cbn [fst snd map] in *. f_equal. eapply IH; eauto.
    intros o' k Ho. apply Hk. cbn. auto.
Qed.

Lemma regular_equality :
  forall (W O V : Type) (F : conduct W O) (eqbO : O -> O -> bool) (veq : V -> V -> W -> option bool * W) (veqb : V -> V -> bool)
         (E : env) (kd : kind) (bh1 bh2 : hasher O) (p1 p2 : list (key O * V)) (m1 m2 : map_types O V) (w : W),
  regular F eqbO -> (forall a b, always (veq a b) (veqb a b)) -> env_ok E -> typed kd p1 -> typed kd p2 ->
  fm_new E kd p1 bh1 = Ok m1 -> fm_new E kd p2 bh2 = Ok m2 ->
  fst (v_eq F E veq m1 m2 w) = fm_eq eqbO E veqb m1 m2.
Proof.
  intros W O V F eqbO veq veqb E kd bh1 bh2 p1 p2 m1 m2 w HF Hv HE Ht1 Ht2 H1 H2.
  assert (Hb : forall bh (p : list (key O * V)) m, typed kd p -> fm_new E kd p bh = Ok m -> Permutation p (fm_iter m) /\ fm_safe kd m).
  { intros bh p m Ht Hm. pose proof (same_new eqbO E F HF kd p bh w) as Hn. rewrite Hm in Hn.
    destruct (v_new F E kd p bh w) as [r w2] eqn:Hvn. cbn [fst] in Hn. subst r. exact (v_built F E HE kd p bh w m w2 Ht Hvn). }
  destruct (Hb bh1 p1 m1 Ht1 H1) as (P1 & _). destruct (Hb bh2 p2 m2 Ht2 H2) as (_ & S2).
  assert (Hk : forall e, In e (fm_iter m1) -> has_kind kd (fst e)).
  { intros e He. apply Ht1. eapply Permutation_in; [symmetry; exact P1|exact He]. }
  clear P1 H1 Hb. unfold v_eq, fm_eq. destruct (negb _); [reflexivity|]. revert w Hk. generalize (fm_iter m1).
  enough (H : forall l : list (key O * V), (forall e, In e l -> has_kind kd (fst e)) -> same (v_all (fun e =>
         mbind (v_get F E m2 (fst e)) (fun r => match r with
         | Some v => call (veq (snd e) v)
         | None => lift (Ok false)
         end)) l) (all_res (fun e => r <- fm_get eqbO E m2 (fst e) ;;
           Ok (match r with Some v => veqb (snd e) v | None => false end)) l)) by (intros l w Hk; now apply H).
  induction l as [|e l IH]; intros Hk; cbn [v_all all_res]; [apply same_lift|].
  apply same_bind; [|intros []; [apply IH; intros; apply Hk; now right|apply same_lift]].
  apply same_bind.
  - destruct (fm_lookup_safe eqbO E kd m2 (fst e) S2 (Hk e ltac:(now left))) as (r & Hr & _ & -> & _ & Hi).
    eapply same_eq; [apply (same_bind _ _ _ (deref (fm_iter m2)) (same_find eqbO E F HF m2 (fst e))); intros; apply same_lift|].
    rewrite Hr. cbn [bind]. apply deref_at_pos. intros i Hri. destruct (Hi i Hri) as (x & Hx & _). eauto.
  - intros [v|]; [apply same_call, Hv|apply same_lift].
Qed.
