(** Memory safety of the specialized maps for code of the caller whose answers change from call to
    call. *)
From Coq Require Import List ZArith Bool Arith Lia Permutation.
From Verif Require Import Spec MapSpec Base BaseLemmas HashCodeAnalyzer HashTable HashTableProofs Maps FrozenMap
  Iterators IterSpec IteratorProofs HistorySpec Volatile VolatileProofs VolatileSafety VolatileMaps EffectSpec VolatileMapSpec.
Import ListNotations.
Open Scope Z_scope.

(** ** Computations that end in an answer or in one of certain panics *)

Section Replies.
Context {W : Type}.
Variable P : panic -> Prop.

Definition replies {A} (x : M W A) : Prop :=
  forall w, (exists p, fst (x w) = Panic p /\ P p) \/ exists a, fst (x w) = Ok a.

Lemma replies_lift {A} (a : A) : replies (lift (Ok a)).
Proof. intros w. right. cbn. eauto. Qed.
Lemma replies_call {A} (f : W -> option A * W) : P PForeign -> replies (call f).
Proof. intros H w. unfold call. destruct (f w) as [[a|] w']; cbn; eauto. Qed.
Lemma replies_bind {A B} (x : M W A) (f : A -> M W B) :
  replies x -> (forall a w w', x w = (Ok a, w') -> replies (f a)) -> replies (mbind x f).
Proof.
  intros Hx Hf w. unfold mbind. specialize (Hx w). destruct (x w) as [r w'] eqn:Ex; cbn [fst] in Hx.
  destruct Hx as [(p & -> & Hp)|(a & ->)]; [left; cbn; eauto|]. apply (Hf a w w' Ex).
Qed.

Lemma find_pos_replies {A} (p : A -> M W bool) l : (forall a, replies (p a)) -> replies (v_find_pos p l).
Proof.
  intros Hp. induction l as [|a l IH]; cbn [v_find_pos]; [apply replies_lift|].
  apply replies_bind; [apply Hp|]. intros [] _ _ _; [apply replies_lift|].
  apply replies_bind; [exact IH|]. intros r _ _ _. apply replies_lift.
Qed.

Lemma find_pos_in {A} (p : A -> M W bool) : forall l w i w',
  v_find_pos p l w = (Ok (Some i), w') -> exists a, nth_error l i = Some a.
Proof.
  induction l as [|a l IH]; intros w i w' H; cbn [v_find_pos] in H; [discriminate|].
  apply mbind_ok in H. destruct H as ([] & w1 & _ & H).
  - apply lift_ok in H. destruct H as (H & _). injection H as <-. cbn. eauto.
  - apply mbind_ok in H. destruct H as (r & w2 & H1 & H). apply lift_ok in H. destruct H as (H & _).
    destruct r as [j|]; [|discriminate]. injection H as <-. cbn. eauto.
Qed.
End Replies.

(** ** Searching *)

Definition sp_shape {K V BH} (m : special K V BH) : shape BH :=
  match m with Entries _ => Scanning | InTable sh _ => sh end.
Definition sp_safe {K V BH} (m : special K V BH) : Prop :=
  match m with Entries _ => True | InTable _ t => table_safe t end.

Section Search.
Context {W K Q V BH : Type}.
Variable F : foreign W K Q BH.
Variable E : env.
Implicit Types (m : special K V BH) (sh : shape BH) (q : Q) (w : W).

Lemma expected_foreign sh : expected sh PForeign.
Proof. now left. Qed.
Local Hint Resolve expected_foreign : core.

Lemma from_right_replies (len : M W Z) bh a b (hash : Z -> Z -> M W Z) :
  replies (expected (RightSlice bh a b)) len -> (forall x y, replies (expected (RightSlice bh a b)) (hash x y)) ->
  replies (expected (RightSlice (BH := BH) bh a b)) (sp_from_right E len a b hash).
Proof.
  intros Hl Hh. unfold sp_from_right.
  assert (Har : forall z, replies (W := W) (expected (RightSlice (BH := BH) bh a b)) (lift (arith (prof E) usize z))).
  { intros z w. unfold lift, arith. destruct (in_type usize z); cbn [fst]; [eauto|].
    destruct (prof E); cbn [fst]; [|eauto]. left. exists POverflow. split; [reflexivity|]. right. auto. }
  apply replies_bind; [exact Hl|]. intros l1 _ _ _. apply replies_bind; [apply Har|]. intros x _ _ _.
  apply replies_bind; [exact Hl|]. intros l2 _ _ _. apply replies_bind; [apply Har|]. intros y _ _ _. apply Hh.
Qed.

Lemma query_code_replies sh q : replies (expected sh) (sp_query_code F E sh q).
Proof.
  destruct sh; cbn [sp_query_code]; try (apply replies_call; auto).
  - apply replies_lift.
  - apply replies_bind; [apply replies_call; auto|]. intros l _ _ _.
    destruct (_ <=? l); [apply replies_call; auto|apply replies_lift].
  - apply replies_bind; [apply replies_call; auto|]. intros l _ _ _.
    destruct (_ <=? l); [|apply replies_lift].
    apply from_right_replies; [|intros x y]; apply replies_call; auto.
Qed.

Lemma table_code_replies sh k : replies (expected sh) (sp_table_code F E sh k).
Proof.
  destruct sh; cbn [sp_table_code]; try (apply replies_call; auto).
  - apply replies_lift.
  - apply from_right_replies; [|intros x y]; apply replies_call; auto.
Qed.

Lemma analysis_code_replies sh k : replies (expected sh) (sp_analysis_code F E sh k).
Proof.
  destruct sh; cbn [sp_analysis_code]; try (apply replies_call; auto).
  - apply replies_lift.
  - apply replies_bind; [apply replies_call; auto|]. intros l _ _ _.
    destruct (_ <=? l); [apply replies_call; auto|apply replies_lift].
  - apply replies_bind; [apply replies_call; auto|]. intros l _ _ _.
    destruct (_ <=? l); [|apply replies_lift].
    apply from_right_replies; [|intros x y]; apply replies_call; auto.
Qed.

Lemma matches_replies sh q k : replies (expected sh) (sp_matches F q k).
Proof.
  unfold sp_matches. apply replies_bind; [apply replies_call; auto|]. intros b _ _ _. apply replies_call; auto.
Qed.

Lemma find_replies m q : sp_safe m -> replies (expected (sp_shape m)) (sp_find F E m q).
Proof.
  destruct m as [es|sh t]; cbn [sp_safe sp_shape sp_find]; intros Hs.
  - apply find_pos_replies. intros e. apply matches_replies.
  - apply replies_bind; [apply query_code_replies|]. intros code _ _ _.
    destruct (Hs code) as (a & b & Hi & Hr). rewrite Hi.
    apply replies_bind; [apply replies_lift|]. intros range w w' H. apply lift_ok in H. destruct H as (H & _). injection H as <-.
    unfold v_probe, slice_unchecked. cbn [fst snd]. rewrite Hr.
    apply replies_bind; [apply replies_lift|]. intros es _ _ _.
    apply replies_bind; [apply find_pos_replies; intros e; apply matches_replies|]. intros r _ _ _. apply replies_lift.
Qed.

Lemma find_in m q w i w' : sp_safe m -> sp_find F E m q w = (Ok (Some i), w') ->
  exists e, nth_error (sp_entries m) i = Some e.
Proof.
  destruct m as [es|sh t]; cbn [sp_safe sp_find sp_entries]; intros Hs H.
  - eapply find_pos_in; eauto.
  - apply mbind_ok in H. destruct H as (code & w1 & _ & H). apply mbind_ok in H. destruct H as (range & w2 & H1 & H).
    apply lift_ok in H1. destruct H1 as (H1 & _). destruct (Hs code) as (a & b & Hi & Hr). rewrite Hi in H1.
    injection H1 as <-. unfold v_probe, slice_unchecked in H. cbn [fst snd] in H. rewrite Hr in H.
    apply mbind_ok in H. destruct H as (es & w3 & H1 & H). apply lift_ok in H1. destruct H1 as (H1 & _). injection H1 as <-.
    apply mbind_ok in H. destruct H as (r & w4 & H1 & H). apply lift_ok in H. destruct H as (H & _).
    destruct r as [j|]; [|discriminate]. injection H as <-. apply find_pos_in in H1. destruct H1 as (e & He).
    exists e. apply range_ok_iff in Hr. destruct Hr as (Ha & Hb).
    destruct (sub_split a b (entries t) Ha Hb) as (pre & post & Hes & Hpre & Hlen).
    rewrite Hes. rewrite nth_error_app2 by (unfold zlen in *; lia).
    replace (Z.to_nat a + j - length pre)%nat with j by (unfold zlen in *; lia).
    rewrite nth_error_app1; [exact He|]. apply nth_error_Some. congruence.
Qed.

(** The possible outcomes of a search. *)
Lemma sp_find_cases m q w : sp_safe m ->
  (exists p w', sp_find F E m q w = (Panic p, w') /\ expected (sp_shape m) p) \/
  (exists w', sp_find F E m q w = (Ok None, w')) \/
  (exists i e w', sp_find F E m q w = (Ok (Some i), w') /\ nth_error (sp_entries m) i = Some e).
Proof.
  intros Hs. pose proof (find_replies m q Hs w) as H. pose proof (find_in m q w) as Hi.
  destruct (sp_find F E m q w) as [r w']. cbn [fst] in H.
  destruct H as [(p & -> & Hp)|([i|] & ->)]; [left; eauto| |right; left; eauto].
  destruct (Hi i w' Hs eq_refl) as (e & He). right. right. eauto 6.
Qed.

Lemma sp_each_replies m qs : sp_safe m -> replies (expected (sp_shape m)) (sp_get_each F E m qs).
Proof.
  intros Hs. induction qs as [|q qs IH]; cbn [sp_get_each]; [apply replies_lift|].
  apply replies_bind; [now apply find_replies|]. intros [i|] _ _ _; [|apply replies_lift].
  apply replies_bind; [exact IH|]. intros rs _ _ _. apply replies_lift.
Qed.

Lemma sp_duplicate_replies sh seen qs : replies (expected sh) (sp_has_duplicate_key F seen qs).
Proof.
  revert seen. induction qs as [|q qs IH]; intros seen; cbn [sp_has_duplicate_key]; [apply replies_lift|].
  apply replies_bind; [apply find_pos_replies; intros j; apply replies_call; auto|].
  intros [i|] _ _ _; [apply replies_lift|apply IH].
Qed.

Lemma sp_many_replies m qs : sp_safe m -> replies (expected (sp_shape m)) (sp_get_many_mut F E m qs).
Proof.
  intros Hs. unfold sp_get_many_mut. apply replies_bind; [apply sp_duplicate_replies|].
  intros [] _ _ _; [apply replies_lift|now apply sp_each_replies].
Qed.

Lemma sp_observe_expected {A} m p (f : A -> obs K V) : sp_safe m -> expected (sp_shape m) p ->
  sp_observe m (Panic p) f = None.
Proof.
  intros _ [->|(-> & H)]; [reflexivity|]. destruct m as [es|[]]; cbn in *; auto; contradiction.
Qed.
End Search.

(** ** Building *)

Lemma sp_built {W K Q V BH} (F : foreign W K Q BH) E S_ty sh (payload : list (K * V)) w m w' :
  env_ok E -> imin S_ty = 0 -> sp_from_vec F E S_ty sh payload w = (Ok m, w') ->
  sp_safe m /\ Permutation payload (sp_entries m) /\ sp_shape m = sh.
Proof.
  intros HE HS H. unfold sp_from_vec in H.
  assert (Hh : sh = Scanning \/ mbind (v_map (fun e => sp_analysis_code F E sh (fst e)) payload) (fun codes =>
     mbind (lift (analyze_hash_codes codes)) (fun analysis =>
     mbind (v_ht_new E S_ty payload (fst analysis) (sp_table_code F E sh)) (fun t => lift (Ok (InTable sh t))))) w = (Ok m, w')).
  { destruct sh; auto. }
  destruct Hh as [->|Hh].
  { apply lift_ok in H. destruct H as (H & _). injection H as <-. cbn. auto. }
  clear H. apply mbind_ok in Hh. destruct Hh as (codes & w1 & Hc & H). apply v_map_length in Hc.
  apply mbind_ok in H. destruct H as (a & w2 & Ha & H). apply lift_ok in Ha. destruct Ha as (Ha & _).
  apply mbind_ok in H. destruct H as (t & w3 & Ht & H). apply lift_ok in H. destruct H as (H & _). injection H as <-.
  apply v_ht_new_ok in Ht; auto; [|apply (codes_positive payload codes a); auto].
  destruct Ht as (Ht & Hp). cbn. auto.
Qed.

Lemma replies_fine {W A} P (x : M W A) : replies P x -> all_fine x.
Proof. intros H w. destruct (H w) as [(p & -> & _)|(a & ->)]; exact I. Qed.
Lemma replies_only {W A} (P : panic -> Prop) (x : M W A) : replies P x -> only_panics P x.
Proof. intros H w. destruct (H w) as [(p & -> & Hp)|(a & ->)]; auto. Qed.

Lemma special_construction :
  forall (W K Q V BH : Type) (F : foreign W K Q BH) (E : env) (S_ty : int_type) (sh : shape BH)
         (payload : list (K * V)) (w : W),
  env_ok E -> imin S_ty = 0 ->
  match fst (sp_from_vec F E S_ty sh payload w) with
  | Ok m => Permutation payload (sp_entries m)
  | Panic p => fits S_ty (zlen payload) -> expected sh p
  | UB _ | OutOfFuel => False
  end.
Proof.
  intros W K Q V BH F E S_ty sh payload w HE HS.
  pose proof (sp_built F E S_ty sh payload w) as Hb.
  set (build := mbind (v_map (fun e => sp_analysis_code F E sh (fst e)) payload) (fun codes =>
     mbind (lift (analyze_hash_codes codes)) (fun analysis =>
     mbind (v_ht_new E S_ty payload (fst analysis) (sp_table_code F E sh)) (fun t => lift (Ok (InTable sh t)))))).
  assert (Hfine : all_fine build).
  { apply mbind_fine; [apply v_map_fine; intros e _; eapply replies_fine, analysis_code_replies|].
    intros codes _ _ _. apply mbind_fine; [apply lift_fine, analyze_codes_fine|]. intros a _ _ _.
    apply mbind_fine; [|intros t _ _ _; now apply lift_fine].
    apply v_ht_new_fine. intros e _. eapply replies_fine, table_code_replies. }
  assert (Hpanic : fits S_ty (zlen payload) -> only_panics (expected sh) build).
  { intros Hfits. apply only_bind; [apply only_map; intros e _; apply replies_only, analysis_code_replies|].
    intros codes w1 w2 Hc. apply v_map_length in Hc.
    apply only_bind; [apply only_lift; intros p Hp; pose proof (analyze_codes_fine codes) as Hf;
      destruct (HashCodeAnalyzerProofs.analyze_hash_codes_pos codes) as (s & c & He & _); congruence|].
    intros a w3 w4 Ha. apply lift_ok in Ha. destruct Ha as (Ha & _).
    apply only_bind; [|intros t _ _ _; apply only_lift; discriminate].
    apply only_ht_new; auto; [apply (codes_positive payload codes a); auto|].
    intros e _. apply replies_only, table_code_replies. }
  assert (Hsame : (exists m, sp_from_vec F E S_ty sh payload w = (Ok m, w)) \/ sp_from_vec F E S_ty sh payload = build).
  { destruct sh; [left; cbn; unfold lift; eauto|right; reflexivity..]. }
  destruct Hsame as [(m & Hm)|Hm].
  - rewrite Hm. cbn [fst]. apply (Hb m w HE HS Hm).
  - rewrite Hm in *. specialize (Hfine w). destruct (build w) as [[m|p|u|] w'] eqn:Eb; cbn [fst fine] in *; auto.
    + apply (Hb m w' HE HS eq_refl).
    + intros Hfits. specialize (Hpanic Hfits w). rewrite Eb in Hpanic. exact Hpanic.
Qed.

(** ** Histories *)

Section Histories.
Context {W K Q V BH : Type}.
Variable F : foreign W K Q BH.
Variable E : env.
Variable payload : list (K * V).
Hypothesis Hsize : zlen payload < 2 ^ 64.
Implicit Types (m : special K V BH) (w : W) (written : list V).

Definition sp_tracks written m : Prop :=
  sp_safe m /\ Permutation (map fst (sp_entries m)) (map fst payload) /\
  incl (map snd (sp_entries m)) (map snd payload ++ written).

Lemma sp_tracks_len written m : sp_tracks written m -> zlen (sp_entries m) = zlen payload.
Proof. intros (_ & H & _). apply zlen_perm in H. now rewrite !zlen_map in H. Qed.

Lemma sp_tracks_more written ws m : sp_tracks written m -> sp_tracks (written ++ ws) m.
Proof.
  intros (H1 & H2 & H3). split; auto. split; auto. intros v Hv. apply H3 in Hv.
  rewrite app_assoc. apply in_or_app. auto.
Qed.

Lemma sp_entries_write i v m : sp_entries (sp_write i v m) = write_entry i v (sp_entries m).
Proof. now destruct m. Qed.

Lemma sp_write_safe i v m : sp_safe m -> sp_safe (sp_write i v m).
Proof.
  destruct m as [es|sh t]; cbn; auto. intros H code. destruct (H code) as (a & b & Hi & Hr).
  exists a, b. split; [exact Hi|]. apply range_ok_iff. apply range_ok_iff in Hr. cbn [write_table entries].
  rewrite <- (zlen_map fst (write_entry i v (entries t))), write_entry_keys, zlen_map. exact Hr.
Qed.

Lemma sp_tracks_write written m i v : In v written -> sp_tracks written m -> sp_tracks written (sp_write i v m).
Proof.
  intros Hw (H1 & H2 & H3). split; [now apply sp_write_safe|].
  rewrite sp_entries_write. split; [now rewrite write_entry_keys|].
  intros x Hx. apply in_map_iff in Hx. destruct Hx as (e & <- & He).
  apply In_nth_error in He. destruct He as (j & He). rewrite nth_error_write_entry in He.
  destruct (Nat.eqb i j).
  - destruct (nth_error (sp_entries m) j); [|discriminate]. injection He as <-. apply in_or_app. auto.
  - apply H3. apply in_map. eapply nth_error_In; eauto.
Qed.

Lemma sp_tracks_write_all written : forall ps vs m, incl vs written -> sp_tracks written m ->
  sp_tracks written (sp_write_all ps vs m).
Proof.
  unfold sp_write_all. induction ps as [|p ps IH]; intros vs m Hw H; [exact H|].
  destruct vs as [|v vs]; [exact H|]. cbn [combine fold_left fst snd]. apply IH.
  - intros x Hx. apply Hw. now right.
  - apply sp_tracks_write; auto. apply Hw. now left.
Qed.

Lemma sp_tracks_entry written m i e : sp_tracks written m -> nth_error (sp_entries m) i = Some e ->
  In (fst e) (map fst payload) /\ In (snd e) (map snd payload ++ written).
Proof.
  intros (_ & H2 & H3) He. apply nth_error_In in He. split.
  - apply (Permutation_in _ H2). now apply in_map.
  - apply H3. now apply in_map.
Qed.

Lemma sp_step_sane written m (o : op Q V) w : sp_tracks written m ->
  let '(b, m', _) := sp_step F E m o w in
  match b with
  | None => op_keys o <> [] /\ m' = m
  | Some b => sane payload written o b /\ sp_tracks (written ++ op_writes o) m'
  end.
Proof.
  intros H. pose proof (sp_tracks_len _ _ H) as Hlen. pose proof H as (Hs & HP & HI).
  assert (Hl : forall q w, _) by (intros q w0; exact (sp_find_cases F E m q w0 Hs)).
  assert (Hsame : sp_tracks (written ++ []) m) by now apply sp_tracks_more.
  assert (Hobs : forall (A : Type) p (f : A -> obs K V), expected (sp_shape m) p -> sp_observe m (Panic p) f = None)
    by (intros A p f; now apply sp_observe_expected).
  destruct o as [k|k|k|k| | | |k v|k v|kws]; cbn [op_keys op_writes] in *; cbn [sp_step].
  - unfold sp_get, mbind. destruct (Hl k w) as [(p & w1 & -> & Hp)|[(w1 & ->)|(i & e & w1 & -> & He)]].
    + rewrite Hobs by auto. split; [discriminate|reflexivity].
    + cbn -[In]. auto.
    + cbn -[In]. rewrite He. cbn -[In]. split; auto. apply (sp_tracks_entry _ _ _ _ H He).
  - unfold sp_get_key_value, mbind. destruct (Hl k w) as [(p & w1 & -> & Hp)|[(w1 & ->)|(i & e & w1 & -> & He)]].
    + rewrite Hobs by auto. split; [discriminate|reflexivity].
    + cbn -[In]. auto.
    + cbn -[In]. rewrite He. cbn -[In]. split; auto. apply (sp_tracks_entry _ _ _ _ H He).
  - unfold sp_contains_key, sp_get, mbind. destruct (Hl k w) as [(p & w1 & -> & Hp)|[(w1 & ->)|(i & e & w1 & -> & He)]].
    + rewrite Hobs by auto. split; [discriminate|reflexivity].
    + cbn -[In]. auto.
    + cbn -[In]. rewrite He. cbn -[In]. auto.
  - unfold sp_index, sp_get, mbind. destruct (Hl k w) as [(p & w1 & -> & Hp)|[(w1 & ->)|(i & e & w1 & -> & He)]].
    + rewrite Hobs by auto. split; [discriminate|reflexivity].
    + cbn -[In]. auto.
    + cbn -[In]. rewrite He. cbn -[In]. split; auto. apply (sp_tracks_entry _ _ _ _ H He).
  - cbn [sane]. split; auto.
  - cbn [sane]. split; auto. rewrite Hlen, Z.eqb_eq.
    unfold zlen. destruct payload; cbn; split; intros; try discriminate; auto; lia.
  - assert (Hz' : zlen (sp_entries m) < 2 ^ 64) by lia.
    pose proof (fun it a l => it_at_cons (prof E) (sp_entries m) it a l Hz') as Hcons.
    rewrite (R_fold (it_next (prof E)) (it_at (sp_entries m)) (it_at_nil (prof E) (sp_entries m)) Hcons _ (sp_entries m));
      [|apply it_at_new|lia].
    assert (Hf : forall (l acc : list (K * V)), fold_left (fun acc e => acc ++ [e]) l acc = acc ++ l).
    { induction l as [|x l IH]; intros acc; cbn; [now rewrite app_nil_r|]. now rewrite IH, <- app_assoc. }
    rewrite Hf. cbn [app sp_observe sane]. auto.
  - destruct (Hl k w) as [(p & w1 & -> & Hp)|[(w1 & ->)|(i & e & w1 & -> & He)]].
    + rewrite Hobs by auto. split; [discriminate|reflexivity].
    + cbn [sp_observe sane]. split; [exact I|now apply sp_tracks_more].
    + cbn [sane]. split; [exact I|]. apply sp_tracks_write; [apply in_or_app; right; now left|now apply sp_tracks_more].
  - unfold sp_index_mut, mbind. destruct (Hl k w) as [(p & w1 & -> & Hp)|[(w1 & ->)|(i & e & w1 & -> & He)]].
    + rewrite Hobs by auto. split; [discriminate|reflexivity].
    + cbn [lift unwrap sp_observe sane]. split; [exact I|now apply sp_tracks_more].
    + cbn [lift unwrap sane]. split; [exact I|].
      apply sp_tracks_write; [apply in_or_app; right; now left|now apply sp_tracks_more].
  - assert (Hnil : forall r w1, sp_get_many_mut F E m (map fst kws) w = (r, w1) -> (forall o, r <> Ok o) -> map fst kws <> []).
    { intros r w1 Hr Hno. destruct kws; [|discriminate]. cbn in Hr. injection Hr as <- _. now elim (Hno (Some [])). }
    pose proof (sp_many_replies F E m (map fst kws) Hs w) as Hr.
    destruct (sp_get_many_mut F E m (map fst kws) w) as [r w1]. cbn [fst] in Hr.
    destruct Hr as [(p & -> & Hp)|([ps|] & ->)].
    + rewrite Hobs by auto. split; [|reflexivity]. apply (Hnil (Panic p) w1 eq_refl). discriminate.
    + cbn [sane]. split; [exact I|]. apply sp_tracks_write_all; [apply incl_appr, incl_refl|now apply sp_tracks_more].
    + cbn [sp_observe sane]. split; [exact I|now apply sp_tracks_more].
Qed.

Lemma sp_run_sane : forall os written m w, sp_tracks written m ->
  sane_run_caught payload written os (sp_run F E m os w).
Proof.
  induction os as [|o os IH]; intros written m w H; cbn [sp_run]; [exact I|].
  pose proof (sp_step_sane written m o w H) as Hstep.
  destruct (sp_step F E m o w) as [[b m'] w']. destruct b as [b|]; cbn [sane_run_caught]; destruct Hstep as (H1 & H2).
  - split; auto.
  - subst m'. split; auto.
Qed.
End Histories.

Lemma special_history_never_goes_wrong :
  forall (W K Q V BH : Type) (F : foreign W K Q BH) (E : env) (S_ty : int_type) (sh : shape BH)
         (payload : list (K * V)) (m : special K V BH) (history : list (op Q V)) (w w' w1 : W),
  env_ok E -> imin S_ty = 0 -> zlen payload < 2 ^ 64 ->
  sp_from_vec F E S_ty sh payload w = (Ok m, w') ->
  sane_run_caught payload [] history (sp_run F E m history w1).
Proof.
  intros W K Q V BH F E S_ty sh payload m history w w' w1 HE HS Hz Hm.
  destruct (sp_built F E S_ty sh payload w m w' HE HS Hm) as (Hs & HP & _).
  apply sp_run_sane; auto. split; auto. split; [apply Permutation_sym; now apply Permutation_map|].
  rewrite app_nil_r. intros v Hv. apply (Permutation_in _ (Permutation_sym (Permutation_map snd HP))). exact Hv.
Qed.

(** Comparing two maps. *)
Lemma special_equality :
  forall (W K V BH : Type) (F : foreign W K K BH) (E : env) (veq : V -> V -> W -> option bool * W)
         (S1 S2 : int_type) (sh1 sh2 : shape BH) (p1 p2 : list (K * V)) (m1 m2 : special K V BH) (w1 w1' w2 w2' w : W),
  env_ok E -> imin S1 = 0 -> imin S2 = 0 ->
  sp_from_vec F E S1 sh1 p1 w1 = (Ok m1, w1') -> sp_from_vec F E S2 sh2 p2 w2 = (Ok m2, w2') ->
  match fst (sp_eq F E veq m1 m2 w) with
  | Ok true => length p1 = length p2
  | Ok false => True
  | Panic p => expected sh2 p
  | UB _ | OutOfFuel => False
  end.
Proof.
  intros W K V BH F E veq S1 S2 sh1 sh2 p1 p2 m1 m2 w1 w1' w2 w2' w HE HS1 HS2 H1 H2.
  destruct (sp_built F E S1 sh1 p1 w1 m1 w1' HE HS1 H1) as (_ & P1 & _).
  destruct (sp_built F E S2 sh2 p2 w2 m2 w2' HE HS2 H2) as (Hs & P2 & Hsh).
  unfold sp_eq. rewrite <- (zlen_perm _ _ P1), <- (zlen_perm _ _ P2).
  destruct (Z.eqb_spec (zlen p1) (zlen p2)) as [Hl|Hl]; cbn [negb]; [|exact I].
  assert (Hlen : length p1 = length p2) by (unfold zlen in Hl; lia).
  assert (Hall : replies (expected sh2) (v_all (fun e => mbind (sp_get F E m2 (fst e)) (fun r =>
            match r with Some v => call (veq (snd e) v) | None => lift (Ok false) end)) (sp_entries m1))).
  { clear P1 H1. induction (sp_entries m1) as [|e l IH]; cbn [v_all]; [apply replies_lift|].
    apply replies_bind; [apply replies_bind|].
    - intros w0. unfold sp_get, mbind.
      destruct (sp_find_cases F E m2 (fst e) w0 Hs) as [(p & w3 & -> & Hp)|[(w3 & ->)|(i & x & w3 & -> & Hx)]];
        cbn [lift deref fst]; [rewrite Hsh in Hp; eauto|eauto|]. rewrite Hx. cbn [fst]. eauto.
    - intros [v|] _ _ _; [apply replies_call; now left|apply replies_lift].
    - intros [] _ _ _; [exact IH|apply replies_lift]. }
  destruct (Hall w) as [(p & -> & Hp)|(b & ->)]; [exact Hp|]. destruct b; auto.
Qed.

(** SliceHash for String and [u8] is a safe function but slices without a check. *)
Lemma slice_hash_outcome :
  forall (BH : Type) (hw : BH -> list Z -> Z) (bh : BH) (key : list Z) (a b : Z),
  0 <= a -> 0 <= b ->
  (a <= b <= zlen key -> exists h, slice_hash hw bh key a b = Ok h) /\
  (~ a <= b <= zlen key -> slice_hash hw bh key a b = UB OutOfBounds).
Proof.
  intros BH hw bh key a b Ha Hb. unfold slice_hash, slice_unchecked. split; intros H.
  - rewrite (proj2 (range_ok_iff _ _ _)) by lia. cbn. eauto.
  - destruct (range_ok a b key) eqn:Hr; [|reflexivity]. apply range_ok_iff in Hr. lia.
Qed.

(** ** Agreement with Maps.v *)

Section Agreement.
Context {W : Type}.

(** [x] is [r], except that, when [lax], nothing is said where [r] is undefined behaviour. *)
Definition agrees (lax : bool) {A} (x : M W A) (r : res A) : Prop :=
  (lax = true /\ exists u, r = UB u) \/ same x r.

Lemma agrees_lift lax {A} (r : res A) : agrees lax (lift r) r.
Proof. right. apply same_lift. Qed.
Lemma agrees_call lax {A} (f : W -> option A * W) a : always f a -> agrees lax (call f) (Ok a).
Proof. intros H. right. now apply same_call. Qed.
Lemma agrees_eq lax {A} (x : M W A) r r' : agrees lax x r -> r = r' -> agrees lax x r'.
Proof. now intros H <-. Qed.
Lemma agrees_bind lax {A B} (x : M W A) r (f : A -> M W B) g :
  agrees lax x r -> (forall a, agrees lax (f a) (g a)) -> agrees lax (mbind x f) (bind r g).
Proof.
  intros [(Hl & u & ->)|H1] H2; [left; cbn; eauto|].
  destruct r as [a|p|u|]; cbn [bind]; [|right; intros w; unfold mbind; specialize (H1 w); destruct (x w); cbn [fst] in H1; now subst..].
  destruct (H2 a) as [H|H]; [now left|right]. intros w. unfold mbind. specialize (H1 w). destruct (x w) as [r' w']. cbn [fst] in H1.
  subst r'. apply H.
Qed.
Lemma agrees_map lax {A B} (f : A -> M W B) g l : (forall a, agrees lax (f a) (g a)) -> agrees lax (v_map f l) (mapM g l).
Proof.
  intros H. induction l; cbn [v_map mapM]; [apply agrees_lift|]. apply agrees_bind; auto. intros b.
  apply agrees_bind; auto. intros bs. apply agrees_lift.
Qed.
Lemma agrees_ht_new lax {K V} E S_ty (payload : list (K * V)) n hash h :
  (forall k, agrees lax (hash k) (h k)) -> agrees lax (v_ht_new E S_ty payload n hash) (ht_new E S_ty payload n h).
Proof.
  intros H. unfold v_ht_new, ht_new. destruct payload as [|e p] eqn:Hp; [apply agrees_lift|]. rewrite <- Hp.
  apply agrees_bind; [apply agrees_lift|]. intros cap. destruct (_ <? _); [apply agrees_lift|].
  apply agrees_bind; [|intros items; apply agrees_lift]. clear Hp.
  induction payload as [|x l IH]; cbn [v_prepare prepare]; [apply agrees_lift|].
  apply agrees_bind; auto. intros c. destruct (_ =? 0); [apply agrees_lift|]. apply agrees_bind; auto. intros r. apply agrees_lift.
Qed.
Lemma agrees_probe lax {K V} (t : hash_table K V) range (p : K -> M W bool) q :
  (forall k, same (p k) (Ok (q k))) -> agrees lax (v_probe t range p) (ht_probe t range q).
Proof. intros H. right. apply same_probe. exact H. Qed.
Lemma mapM_total {A B} (f : A -> B) l : mapM (fun a => Ok (f a)) l = Ok (map f l).
Proof. induction l as [|a l IH]; [reflexivity|]. cbn [mapM map bind]. rewrite IH. reflexivity. Qed.
Lemma agrees_strict {A} (x : M W A) r : agrees false x r -> same x r.
Proof. intros [(H & _)|H]; [discriminate|exact H]. Qed.

(** Building a map, with the codes of Maps.v. *)
Lemma agrees_from_vec lax {K Q V BH} (F : foreign W K Q BH) E S_ty sh (payload : list (K * V)) h1 h2 :
  sh <> Scanning ->
  (forall k, agrees lax (sp_analysis_code F E sh k) (h1 k)) -> (forall k, agrees lax (sp_table_code F E sh k) (h2 k)) ->
  agrees lax (sp_from_vec F E S_ty sh payload)
    (codes <- mapM (fun e => h1 (fst e)) payload ;; analysis <- analyze_hash_codes codes ;;
     t <- ht_new E S_ty payload (fst analysis) h2 ;; Ok (InTable sh t)).
Proof.
  intros Hsh H1 H2.
  assert (H : agrees lax (mbind (v_map (fun e => sp_analysis_code F E sh (fst e)) payload) (fun codes =>
     mbind (lift (analyze_hash_codes codes)) (fun analysis =>
     mbind (v_ht_new E S_ty payload (fst analysis) (sp_table_code F E sh)) (fun t => lift (Ok (InTable sh t))))))
    (codes <- mapM (fun e => h1 (fst e)) payload ;; analysis <- analyze_hash_codes codes ;;
     t <- ht_new E S_ty payload (fst analysis) h2 ;; Ok (InTable sh t))).
  { apply agrees_bind; [apply agrees_map; auto|]. intros codes. apply agrees_bind; [apply agrees_lift|]. intros a.
    apply agrees_bind; [now apply agrees_ht_new|]. intros t. apply agrees_lift. }
  destruct sh; [contradiction|exact H..].
Qed.
End Agreement.

Section Answers.
Context {W K Q V BH : Type}.
Variable F : foreign W K Q BH.
Variable a : oracle K Q BH.
Variable E : env.
Hypothesis HF : regular_foreign F a.

Lemma matches_answer q k : same (sp_matches F q k) (Ok (a_eq a q (a_borrow a k))).
Proof.
  eapply same_eq; [apply (same_bind _ (Ok (a_borrow a k)) _ (fun b => Ok (a_eq a q b)))|reflexivity].
  - apply same_call, HF.
  - intros b. apply same_call, HF.
Qed.

Lemma find_answer lax sh (t : hash_table K V) q r : agrees lax (sp_query_code F E sh q) r ->
  agrees lax (sp_find F E (InTable sh t) q)
    (code <- r ;; range <- ht_get_hash_info t code ;; ht_probe t range (fun k => a_eq a q (a_borrow a k))).
Proof.
  intros Hr. cbn [sp_find]. apply agrees_bind; [exact Hr|]. intros code.
  apply agrees_bind; [apply agrees_lift|]. intros range. apply agrees_probe. intros k. apply matches_answer.
Qed.
End Answers.

Lemma special_regular :
  forall (W K Q V BH : Type) (F : foreign W K Q BH) (a : oracle K Q BH) (E : env) (S_ty : int_type)
         (payload : list (K * V)) (bh : BH) (t : hash_table K V) (q : Q) (w : W),
  regular_foreign F a ->
  fst (sp_from_vec F E S_ty Scanning payload w) = Ok (Entries (sm_entries (sm_from_vec payload))) /\
  fst (sp_find F E (Entries payload : special K V BH) q w) = sm_get_at (a_eq a) (a_borrow a) (sm_from_vec payload) q /\
  fst (sp_from_vec F E S_ty (Common bh) payload w) =
    bind (cm_from_vec (a_hash_key a) E S_ty payload bh) (fun m => Ok (InTable (Common (cm_bh m)) (cm_table m))) /\
  fst (sp_find F E (InTable (Common bh) t) q w) =
    cm_get_at (a_eq a) (a_borrow a) (a_hash_query a) {| cm_table := t; cm_bh := bh |} q /\
  fst (sp_from_vec F E S_ty Length payload w) =
    bind (lm_from_vec (a_len_key a) E S_ty payload) (fun m => Ok (InTable Length (lm_table m))) /\
  fst (sp_find F E (InTable Length t : special K V BH) q w) =
    lm_get_at (a_eq a) (a_borrow a) (a_len_query a) {| lm_table := t |} q.
Proof.
  intros W K Q V BH F a E S_ty payload bh t q w HF.
  assert (Hf : forall sh code, agrees false (sp_query_code F E sh q) (Ok code) ->
     same (sp_find F E (InTable sh t) q)
       (range <- ht_get_hash_info t code ;; ht_probe t range (fun k => a_eq a q (a_borrow a k)))).
  { intros sh code Hc. apply agrees_strict. exact (find_answer F a E HF false sh t q _ Hc). }
  assert (Hb : forall sh h, sh <> Scanning -> (forall k, agrees false (sp_analysis_code F E sh k) (Ok (h k))) ->
     (forall k, agrees false (sp_table_code F E sh k) (Ok (h k))) ->
     fst (sp_from_vec F E S_ty sh payload w) =
       (analysis <- analyze_hash_codes (map (fun e => h (fst e)) payload) ;;
        t <- ht_new E S_ty payload (fst analysis) (fun k => Ok (h k)) ;; Ok (InTable sh t))).
  { intros sh h Hsh H1 H2. rewrite (agrees_strict _ _ (agrees_from_vec false F E S_ty sh payload _ _ Hsh H1 H2) w).
    rewrite (mapM_total (fun e => h (fst e))). reflexivity. }
  split; [reflexivity|]. split; [apply same_find_pos; intros e; now apply matches_answer|].
  split; [|split; [|split]].
  - rewrite (Hb (Common bh) (a_hash_key a bh)); [|discriminate|intros k; apply agrees_call, HF..]. unfold cm_from_vec.
    destruct (analyze_hash_codes _); cbn [bind]; auto. destruct (ht_new _ _ _ _ _); reflexivity.
  - apply (Hf (Common bh) (a_hash_query a bh q)). apply agrees_call, HF.
  - rewrite (Hb Length (a_len_key a)); [|discriminate|intros k; apply agrees_call, HF..]. unfold lm_from_vec.
    destruct (analyze_hash_codes _); cbn [bind]; auto. destruct (ht_new _ _ _ _ _); reflexivity.
  - apply (Hf Length (a_len_query a q)). apply agrees_call, HF.
Qed.

Lemma special_regular_integer :
  forall (W V BH : Type) (F : foreign W Z Z BH) (a : oracle Z Z BH) (E : env) (S_ty : int_type)
         (payload : list (Z * V)) (t : hash_table Z V) (q : Z) (w : W),
  regular_foreign F a -> a_eq a = Z.eqb -> a_borrow a = (fun k => k) -> a_as_key a = wrap u64 -> a_as_query a = wrap u64 ->
  fst (sp_from_vec F E S_ty Integer payload w) =
    bind (im_from_vec E S_ty payload) (fun m => Ok (InTable Integer (im_table m))) /\
  fst (sp_find F E (InTable Integer t : special Z V BH) q w) = im_get_at {| im_table := t |} q.
Proof.
  intros W V BH F a E S_ty payload t q w HF He Hbo Hk Hq. split.
  - assert (H1 : forall k, agrees false (sp_analysis_code F E Integer k) (Ok (a_as_key a k))) by (intros k; apply agrees_call, HF).
    assert (H2 : forall k, agrees false (sp_table_code F E Integer k) (Ok (a_as_key a k))) by (intros k; apply agrees_call, HF).
    assert (Hsh : @Integer BH <> Scanning) by discriminate.
    rewrite (agrees_strict _ _ (agrees_from_vec false F E S_ty Integer payload _ _ Hsh H1 H2) w).
    rewrite (mapM_total (fun e : Z * V => a_as_key a (fst e))). cbn [bind]. rewrite Hk. unfold im_from_vec, int_code.
    destruct (analyze_hash_codes _); cbn [bind]; auto. destruct (ht_new _ _ _ _ _); reflexivity.
  - assert (Hc : agrees false (sp_query_code F E (@Integer BH) q) (Ok (a_as_query a q))) by apply agrees_call, HF.
    rewrite (agrees_strict _ _ (find_answer F a E HF false Integer t q _ Hc) w). now rewrite He, Hbo, Hq.
Qed.

(** For keys that are strings or slices of bytes, except where Maps.v ends in undefined behaviour. *)
Lemma special_regular_slices :
  forall (W V BH : Type) (F : foreign W (list Z) (list Z) BH) (o : oracle (list Z) (list Z) BH) (E : env) (S_ty : int_type)
         (hw : BH -> list Z -> Z) (payload : list (list Z * V)) (t : hash_table (list Z) V) (bh : BH) (a b : Z) (q : list Z) (w : W),
  regular_foreign F o -> a_eq o = bytes_eqb -> a_borrow o = (fun k => k) -> a_len_key o = zlen -> a_len_query o = zlen ->
  (forall bh k x y, a_slice_hash_key o bh k x y = hw bh (sub x y k)) ->
  (forall bh k x y, a_slice_hash_query o bh k x y = hw bh (sub x y k)) ->
  let m := {| slm_table := t; slm_bh := bh; slm_start := a; slm_end := b |} in
  let unless_ub := fun A (x : res A * W) (r : res A) => (exists u, r = UB u) \/ fst x = r in
  unless_ub _ (sp_from_vec F E S_ty (LeftSlice bh a b) payload w)
    (bind (lsm_from_vec hw E S_ty payload a b bh) (fun m => Ok (InTable (LeftSlice bh a b) (slm_table m)))) /\
  unless_ub _ (sp_find F E (InTable (LeftSlice bh a b) t) q w) (lsm_get_at hw m q) /\
  unless_ub _ (sp_from_vec F E S_ty (RightSlice bh a b) payload w)
    (bind (rsm_from_vec hw E S_ty payload a b bh) (fun m => Ok (InTable (RightSlice bh a b) (slm_table m)))) /\
  unless_ub _ (sp_find F E (InTable (RightSlice bh a b) t) q w) (rsm_get_at hw E m q).
Proof.
  intros W V BH F o E S_ty hw payload t bh a b q w HF He Hbo Hlk Hlq Hpk Hpq m unless_ub.
  assert (Hlax : forall A (x : M W A) r r', agrees true x r -> r = r' -> unless_ub A (x w) r').
  { intros A x r r' [(_ & H)|H] <-; [now left|right; apply H]. }
  assert (Hslice : forall f k x y z, always f z -> z = hw bh (sub x y k) -> agrees true (call (W := W) f) (slice_hash hw bh k x y)).
  { intros f k x y z Hz ->. unfold slice_hash, slice_unchecked. destruct (range_ok x y k); [now apply agrees_call|left; cbn; eauto]. }
  assert (Hsk : forall k x y, agrees true (call (f_slice_hash_key F bh k x y)) (slice_hash hw bh k x y)).
  { intros k x y. eapply Hslice; [apply HF|apply Hpk]. }
  assert (Hsq : forall k x y, agrees true (call (f_slice_hash_query F bh k x y)) (slice_hash hw bh k x y)).
  { intros k x y. eapply Hslice; [apply HF|apply Hpq]. }
  assert (Hright : forall k (len : M W Z) hash, agrees true len (Ok (zlen k)) -> (forall x y, agrees true (hash x y) (slice_hash hw bh k x y)) ->
     agrees true (sp_from_right E len a b hash) (right_hash hw (prof E) bh k a b)).
  { intros k len hash Hl Hh. unfold sp_from_right, right_hash.
    eapply agrees_eq; [apply (agrees_bind true _ _ _ (fun l1 => x <- arith (prof E) usize (l1 - a) ;;
      y <- arith (prof E) usize (zlen k - b) ;; slice_hash hw bh k x y) Hl)|reflexivity]. intros l1.
    apply agrees_bind; [apply agrees_lift|]. intros x.
    eapply agrees_eq; [apply (agrees_bind true _ _ _ (fun l2 => y <- arith (prof E) usize (l2 - b) ;; slice_hash hw bh k x y) Hl)|reflexivity].
    intros l2. apply agrees_bind; [apply agrees_lift|]. intros y. apply Hh. }
  assert (Hlen : forall k, agrees true (call (f_len_key F k)) (Ok (zlen k))) by (intros k; rewrite <- Hlk; apply agrees_call, HF).
  assert (Hlenq : forall k, agrees true (call (f_len_query F k)) (Ok (zlen k))) by (intros k; rewrite <- Hlq; apply agrees_call, HF).
  assert (Hguard : forall (k : list Z) c (len : M W Z) (x : M W Z) r, agrees true len (Ok (zlen k)) -> agrees true x r ->
     agrees true (mbind len (fun l => if c <=? l then x else lift (Ok 0))) (if c <=? zlen k then r else Ok 0)).
  { intros k c len x r Hl Hx.
    eapply agrees_eq; [apply (agrees_bind true _ _ _ (fun l => if c <=? l then r else Ok 0) Hl)|reflexivity].
    intros l. destruct (_ <=? _); [exact Hx|apply agrees_lift]. }
  assert (Hfind : forall sh r, agrees true (sp_query_code F E sh q) r ->
     agrees true (sp_find F E (InTable sh t) q) (code <- r ;; range <- ht_get_hash_info t code ;; ht_probe t range (fun k => bytes_eqb q k))).
  { intros sh r Hr. eapply agrees_eq; [apply (find_answer F o E HF true sh t q r Hr)|]. now rewrite He, Hbo. }
  split; [|split; [|split]].
  - eapply Hlax.
    + apply (agrees_from_vec true F E S_ty (LeftSlice bh a b) payload
        (fun k => if b <=? zlen k then slice_hash hw bh k a b else Ok 0) (fun k => slice_hash hw bh k a b)); [discriminate| |].
      * intros k. apply Hguard; auto.
      * intros k. apply Hsk.
    + unfold lsm_from_vec. destruct (mapM _ _); cbn [bind]; auto. destruct (analyze_hash_codes _); cbn [bind]; auto.
      destruct (ht_new _ _ _ _ _); reflexivity.
  - eapply Hlax.
    + apply (Hfind (LeftSlice bh a b) (if b <=? zlen q then slice_hash hw bh q a b else Ok 0)). apply Hguard; auto.
    + unfold lsm_get_at, lsm_get_hash_info. cbn [slm_end slm_start slm_bh slm_table m].
      destruct (if _ : bool then _ else _); reflexivity.
  - eapply Hlax.
    + apply (agrees_from_vec true F E S_ty (RightSlice bh a b) payload
        (fun k => if b <=? zlen k then right_hash hw (prof E) bh k a b else Ok 0) (fun k => right_hash hw (prof E) bh k a b)); [discriminate| |].
      * intros k. apply Hguard; auto.
      * intros k. apply Hright; auto.
    + unfold rsm_from_vec. destruct (mapM _ _); cbn [bind]; auto. destruct (analyze_hash_codes _); cbn [bind]; auto.
      destruct (ht_new _ _ _ _ _); reflexivity.
  - eapply Hlax.
    + apply (Hfind (RightSlice bh a b) (if a <=? zlen q then right_hash hw (prof E) bh q a b else Ok 0)).
      apply Hguard; auto.
    + unfold rsm_get_at, rsm_get_hash_info. cbn [slm_end slm_start slm_bh slm_table m].
      destruct (if _ : bool then _ else _); reflexivity.
Qed.
