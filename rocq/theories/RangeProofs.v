(** IntegerRangeMap and IntegerRangeSet with arbitrary and with lawful integers of the caller. *)
From Coq Require Import List ZArith Bool Arith Lia Permutation Sorted.
From Verif Require Import VolatileMaps VolatileMapProofs VolatileSafety SetCallProofs SpecialCallProofs EffectProofs SpecialSetProofs.
From Verif Require Import Spec MapSpec SetSpec Base BaseLemmas HashTable HashTableProofs FrozenMapFacts IntProofs Maps ObjectSpec MapObjects MapObjectProofs MapObjectEq
  FrozenMap Iterators IterSpec IteratorProofs HistorySpec SetOps Sets FrozenSet FrozenSetProofs SetRunning RunSpec SetRunningProofs CallSpec
  Volatile VolatileProofs VolatileSets VolatileSetSpec VolatileSetProofs VolatileSetTheorems SetCallSpec
  SpecialCallSpec EffectSpec SpecialSets SpecialSetSpec VolatileRange RangeSpec.
Import ListNotations.
Open Scope Z_scope.

(** ** Sorting *)

Lemma index_checked_in {A} (l : list A) i : 0 <= i < zlen l -> exists a, index_checked l i = Ok a /\ nth_error l (Z.to_nat i) = Some a.
Proof.
  intros H. unfold index_checked. destruct (Z.leb_spec 0 i); [|lia].
  destruct (nth_error l (Z.to_nat i)) eqn:He; eauto. apply nth_error_None in He. unfold zlen in H. lia.
Qed.
Lemma index_checked_out {A} (l : list A) i : ~ 0 <= i < zlen l -> index_checked l i = Panic PIndexOutOfBounds.
Proof.
  intros H. unfold index_checked. destruct (Z.leb_spec 0 i); auto.
  destruct (nth_error l (Z.to_nat i)) eqn:He; auto.
  assert (nth_error l (Z.to_nat i) <> None) as Hn by congruence. apply nth_error_Some in Hn. unfold zlen in H. lia.
Qed.

(** The first and the last element. *)
Lemma index_first {A} (l : list A) : l <> [] -> exists a, index_checked l 0 = Ok a /\ hd_error l = Some a.
Proof. destruct l as [|a l]; [congruence|]. intros _. exists a. auto. Qed.
Lemma index_last {A} (l : list A) : l <> [] -> exists a, index_checked l (zlen l - 1) = Ok a /\ hd_error (rev l) = Some a.
Proof.
  intros H. destruct (@exists_last _ l H) as (l' & a & ->). exists a. rewrite rev_app_distr. split; auto.
  unfold index_checked, zlen. rewrite app_length. cbn [length].
  destruct (Z.leb_spec 0 (Z.of_nat (length l' + 1) - 1)); [|lia].
  replace (Z.to_nat (Z.of_nat (length l' + 1) - 1)) with (length l') by lia. now rewrite nth_error_app2, Nat.sub_diag by lia.
Qed.

Section Calls.
Context {W K Q V BH : Type}.
Variable G : integers W K Q.
Notation R := (request K Q V BH).
Notation X := (overhear (V := V) (BH := BH) G).

Lemma sort_traces (ks : list K) (s : sorting (K * V)) (P : res (list (K * V)) -> list R -> Prop) :
  (forall a b, may_compare s a b -> In (fst a) ks /\ In (fst b) ks) ->
  (forall c l, keys_compared ks c -> may_end s (Some l) -> P (Ok l) c) ->
  (forall c, keys_compared ks c -> may_end s None -> P (Panic PForeign) c) ->
  (forall c a b, keys_compared ks c -> In a ks -> In b ks -> P (Panic PForeign) (c ++ [AskLess a b None])) ->
  traces (v_sort (fun a b => call (g_less X (fst a) (fst b))) s) (v_sort (fun a b => call (g_less G (fst a) (fst b))) s) P.
Proof.
  revert P. induction s as [[l|]|a b next IH]; intros P Hin H1 H2 H3; cbn [v_sort].
  - apply traces_lift. apply H1; constructor.
  - apply traces_lift. apply H2; constructor.
  - destruct (Hin a b (compares_here _ _ _)) as (Ha & Hb).
    apply traces_bind, traces_call. intros [r|]; cbn [answer].
    + assert (Hk : forall c : list R, keys_compared ks c -> keys_compared ks ([AskLess (fst a) (fst b) (Some r)] ++ c)).
      { intros c Hc. constructor; eauto 6. }
      apply IH.
      * intros x y Hxy. apply Hin. econstructor; eauto.
      * intros c l Hc Hl. apply H1; [now apply Hk|econstructor; eauto].
      * intros c Hc Hl. apply H2; [now apply Hk|econstructor; eauto].
      * intros c x y Hc Hx Hy. rewrite app_assoc. apply H3; auto.
    + apply (H3 [] (fst a) (fst b)); auto. constructor.
Qed.

Lemma build_traces srt (payload : list (K * V)) : sorter_ok srt ->
  traces (rg_from_vec X srt payload) (rg_from_vec G srt payload) (range_built (may_end (srt _ payload) None) payload).
Proof.
  intros Hs. unfold rg_from_vec. destruct payload as [|e payload].
  { apply traces_bind, traces_call. intros [a|]; cbn [answer]; [|constructor].
    apply traces_bind, traces_call. intros [b|]; cbn [answer]; [|constructor]. apply traces_lift. constructor. }
  set (p := e :: payload). assert (Hne : p <> []) by discriminate. clearbody p. clear e payload.
  apply traces_bind. apply (sort_traces (map fst p)).
  - intros a b H. destruct (so_within _ Hs _ _ _ _ H) as (Ha & Hb). split; now apply in_map.
  - intros c l Hc Hl. apply (so_permutes _ Hs) in Hl.
    assert (Hl0 : l <> []). { intros ->. apply Permutation_sym, Permutation_nil in Hl. auto. }
    destruct (index_first l Hl0) as (x & Hx & Hx'). destruct (index_last l Hl0) as (y & Hy & Hy').
    assert (Hlen : zlen l = zlen p) by (symmetry; now apply zlen_perm).
    rewrite Hx, Hy. apply traces_bind, traces_lift, traces_bind, traces_lift. cbn [app].
    assert (Hfin : forall r (c' : list R), spread_asked (fst x) (fst y) (zlen p) r c' ->
      range_built (may_end (srt _ p) None) p
        (over (fun _ => {| rg_min := fst x; rg_max := fst y; rg_entries := l |}) r) (c ++ c')).
    { intros r c' H. apply built_sorted; auto.
      - destruct l; [congruence|]. injection Hx' as ->. reflexivity.
      - rewrite <- map_rev. destruct (rev l); [discriminate|]. injection Hy' as ->. reflexivity. }
    apply traces_bind, traces_call. intros [d|]; cbn [answer].
    2:{ apply (Hfin (Panic PForeign)). constructor. }
    apply traces_bind, traces_call. intros [[n|]|]; cbn [answer unwrap].
    + apply traces_bind, traces_lift. rewrite Hlen. destruct (Z.eqb_spec n (zlen p - 1)) as [->|Hn]; apply traces_lift; rewrite !app_nil_r; cbn [app].
      * apply (Hfin (Ok tt)). constructor.
      * apply (Hfin (Panic PAssert)). now constructor.
    + apply traces_bind, traces_lift. rewrite app_nil_r. apply (Hfin (Panic PUnwrapNone)). constructor.
    + apply (Hfin (Panic PForeign)). constructor.
  - intros c Hc Hg. now constructor.
  - intros c a b Hc Ha Hb. now constructor.
Qed.

Lemma range_find_traces (m : range_map K V) q :
  traces (rg_find X m q) (rg_find G m q) (range_searched (rg_min m) (rg_max m) (zlen (rg_entries m)) q).
Proof.
  unfold rg_find.
  assert (Hfail : forall b1 b2 b3 d before e after, lookup_requests (V := V) (BH := BH) (rg_min m) (rg_max m) q b1 b2 b3 d 0 = before ++ e :: after ->
    range_searched (rg_min m) (rg_max m) (zlen (rg_entries m)) q (Panic PForeign) (before ++ [unanswered e])).
  { intros. econstructor; eauto. }
  apply traces_bind, traces_call. intros [b1|]; cbn [answer].
  2:{ apply (Hfail q q q q [] (AskBorrow (rg_min m) (Some q)) _ eq_refl). }
  apply traces_bind, traces_call. intros [[]|]; cbn [answer app].
  2:{ apply traces_lift. constructor. }
  2:{ apply (Hfail b1 q q q [_] (AskGe q b1 (Some true)) _ eq_refl). }
  apply traces_bind, traces_call. intros [b2|]; cbn [answer app].
  2:{ apply (Hfail b1 q q q [_; _] (AskBorrow (rg_max m) (Some q)) _ eq_refl). }
  apply traces_bind, traces_call. intros [[]|]; cbn [answer app].
  2:{ apply traces_lift. constructor. }
  2:{ apply (Hfail b1 b2 q q [_; _; _] (AskLe q b2 (Some true)) _ eq_refl). }
  apply traces_bind, traces_call. intros [b3|]; cbn [answer app].
  2:{ apply (Hfail b1 b2 q q [_; _; _; _] (AskBorrow (rg_min m) (Some q)) _ eq_refl). }
  apply traces_bind, traces_call. intros [d|]; cbn [answer app].
  2:{ apply (Hfail b1 b2 b3 q [_; _; _; _; _] (AskMinus q b3 (Some q)) _ eq_refl). }
  apply traces_bind, traces_call. intros [[i|]|]; cbn [answer app].
  3:{ apply (Hfail b1 b2 b3 d [_; _; _; _; _; _] (AskUsize d (Some (Some 0))) _ eq_refl). }
  2:{ apply traces_lift. constructor. }
  assert (Hd : 0 <= i < zlen (rg_entries m) \/ ~ 0 <= i < zlen (rg_entries m)) by lia. destruct Hd as [Hi|Hi].
  - destruct (index_checked_in _ _ Hi) as (a & -> & _). apply traces_bind, traces_lift, traces_lift. cbn [app]. now apply in_range.
  - rewrite (index_checked_out _ _ Hi). apply traces_bind, traces_lift. now apply out_of_bounds.
Qed.

Lemma searched_sane min max n q r (c : list R) : range_searched min max n q r c ->
  (exists o, r = Ok o /\ forall i, o = Some i -> (i < Z.to_nat n)%nat) \/
  exists pn, r = Panic pn /\ (pn = PForeign \/ pn = PIndexOutOfBounds).
Proof.
  destruct 1; eauto; left; eexists; (split; [reflexivity|]); try discriminate. intros j [= <-]. lia.
Qed.

(** Comparing keys with each other is the same as in the other maps. *)
Definition comparing : foreign W K Q BH := {|
  f_eq := g_same G; f_borrow := g_borrow G;
  f_hash_key := fun _ _ w => (None, w); f_hash_query := fun _ _ w => (None, w);
  f_len_key := fun _ w => (None, w); f_len_query := fun _ w => (None, w);
  f_as_key := fun _ w => (None, w); f_as_query := fun _ w => (None, w);
  f_slice_hash_key := fun _ _ _ _ w => (None, w); f_slice_hash_query := fun _ _ _ _ w => (None, w) |}.

Lemma range_duplicate_traces keys :
  traces (rg_has_duplicate_key X [] keys) (rg_has_duplicate_key G [] keys) (fun r c => pairs_asked (V := V) (BH := BH) keys r c).
Proof.
  assert (H1 : forall keys seen, rg_has_duplicate_key G seen keys = sp_has_duplicate_key comparing seen keys).
  { induction keys0 as [|k keys0 IH]; intros seen; cbn [rg_has_duplicate_key sp_has_duplicate_key]; [reflexivity|]. now rewrite IH. }
  assert (H2 : forall keys seen, rg_has_duplicate_key X seen keys = sp_has_duplicate_key (witness comparing) seen keys).
  { induction keys0 as [|k keys0 IH]; intros seen; cbn [rg_has_duplicate_key sp_has_duplicate_key]; [reflexivity|]. now rewrite IH. }
  rewrite H1, H2. apply (duplicate_traces comparing keys []).
Qed.

Lemma range_each_traces (m : range_map K V) qs :
  traces (rg_get_each X m qs) (rg_get_each G m qs)
    (lookups_asked (range_searched (rg_min m) (rg_max m) (zlen (rg_entries m))) qs).
Proof.
  induction qs as [|q qs IH]; cbn [rg_get_each]; [apply traces_lift; constructor|].
  apply traces_bind. eapply traces_weaken; [apply range_find_traces|]. intros r c H.
  destruct (searched_sane _ _ _ _ _ _ H) as [([i|] & -> & _)|(pn & -> & _)].
  - apply traces_bind. eapply traces_weaken; [exact IH|]. intros r c' H'.
    assert (Hx := lookup_found (range_searched (rg_min m) (rg_max m) (zlen (rg_entries m))) q qs i c r c' H H').
    destruct r; cbn [over] in *; auto. apply traces_lift. now rewrite app_nil_r.
  - apply traces_lift. rewrite app_nil_r. now constructor.
  - now constructor.
Qed.

Lemma range_many_traces (m : range_map K V) qs :
  traces (rg_get_many_mut X m qs) (rg_get_many_mut G m qs)
    (many_looked_up (range_searched (rg_min m) (rg_max m) (zlen (rg_entries m))) qs).
Proof.
  unfold rg_get_many_mut. apply traces_bind. eapply traces_weaken; [apply range_duplicate_traces|].
  intros r c Hd. destruct r as [[]|p|u|].
  - apply traces_lift. rewrite app_nil_r. left. auto.
  - eapply traces_weaken; [apply range_each_traces|]. intros r c' H'. right. right. eauto.
  - right. left. assert (p = PForeign) as ->.
    { destruct Hd as [(H & _)|(be & a & b & af & _ & [(H & _)|(H & _)])]; congruence. }
    auto.
  - destruct Hd as [(H & _)|(be & a & b & af & _ & [(H & _)|(H & _)])]; discriminate.
  - destruct Hd as [(H & _)|(be & a & b & af & _ & [(H & _)|(H & _)])]; discriminate.
Qed.
End Calls.

Lemma range_eq_traces {W K V BH} (G : integers W K K) (m self : range_map K V) veq :
  traces (rg_eq (overhear (BH := BH) G) (witness_values veq) self m) (rg_eq G veq self m)
    (fun r log =>
       (zlen (rg_entries self) <> zlen (rg_entries m) -> r = Ok false /\ log = []) /\
       (zlen (rg_entries self) = zlen (rg_entries m) ->
        entries_asked (range_searched (rg_min m) (rg_max m) (zlen (rg_entries m))) (rg_entries m) (rg_entries self) r log)).
Proof.
  unfold rg_eq. destruct (Z.eqb_spec (zlen (rg_entries self)) (zlen (rg_entries m))) as [Hz|Hz]; cbn [negb].
  2:{ apply traces_lift. split; [auto|lia]. }
  set (asks := range_searched (rg_min m) (rg_max m) (zlen (rg_entries m))).
  eapply traces_weaken with (P := entries_asked asks (rg_entries m) (rg_entries self));
    [|intros r c H; split; [lia|auto]].
  generalize (rg_entries self). induction l as [|[k v] l IH]; cbn [v_all]; [apply traces_lift; constructor|].
  apply traces_bind, traces_bind. cbn [fst snd]. unfold rg_get. apply traces_bind.
  eapply traces_weaken; [apply range_find_traces|]. intros r c H.
  destruct (searched_sane _ _ _ _ _ _ H) as [([i|] & -> & Hi)|(pn & -> & _)]; [| |now constructor].
  - specialize (Hi i eq_refl). assert (Hn : nth_error (rg_entries m) i <> None) by (apply nth_error_Some; unfold zlen in Hi; lia).
    destruct (nth_error (rg_entries m) i) as [[k' v']|] eqn:He; [|congruence]. cbn [deref]. rewrite He. apply traces_lift. cbn [snd].
    apply traces_call. intros [[]|]; cbn [answer]; rewrite app_nil_r.
    + eapply traces_weaken; [exact IH|]. intros r c' H'. rewrite <- app_assoc. eapply entry_same; eauto.
    + apply traces_lift. rewrite app_nil_r. eapply value_differs; eauto.
    + eapply value_fails; eauto.
  - cbn [deref]. apply traces_lift. apply traces_lift. apply traces_lift. rewrite !app_nil_r. now constructor.
Qed.

(** ** Histories *)

Section Histories.
Context {W K Q V : Type}.
Variable G : integers W K Q.
Variable payload : list (K * V).
Hypothesis Hsize : zlen payload < 2 ^ 64.
Implicit Types (m : range_map K V) (w : W) (written : list V).

Definition range_panic (p : panic) : Prop := p = PForeign \/ p = PIndexOutOfBounds.

Lemma rg_find_cases m q w :
  (exists p w', rg_find G m q w = (Panic p, w') /\ range_panic p) \/
  (exists w', rg_find G m q w = (Ok None, w')) \/
  (exists i e w', rg_find G m q w = (Ok (Some i), w') /\ nth_error (rg_entries m) i = Some e).
Proof.
  destruct (traces_run _ _ _ w (range_find_traces (V := V) (BH := unit) G m q)) as (r & w' & c & _ & H2 & H3).
  destruct (searched_sane _ _ _ _ _ _ H3) as [([i|] & -> & Hi)|(pn & -> & Hp)]; eauto 6.
  right. right. destruct (nth_error (rg_entries m) i) as [e|] eqn:He; [eauto 6|].
  apply nth_error_None in He. specialize (Hi i eq_refl). unfold zlen in Hi. lia.
Qed.

Lemma rg_many_replies m qs : replies range_panic (rg_get_many_mut G m qs).
Proof.
  intros w. destruct (traces_run _ _ _ w (range_many_traces (V := V) (BH := unit) G m qs)) as (r & w' & c & _ & H2 & H3).
  rewrite H2. cbn [fst]. unfold range_panic.
  destruct H3 as [(_ & ->)|[(_ & ->)|(c1 & c2 & _ & _ & H)]]; [eauto|left; eauto|].
  clear H2. remember (range_searched (rg_min m) (rg_max m) (zlen (rg_entries m))) as asks. induction H; subst asks; eauto.
  - destruct IHlookups_asked as [(p & -> & Hp)|(o & ->)]; cbn [over]; eauto.
  - destruct (searched_sane _ _ _ _ _ _ H) as [(o & Ho & _)|(p' & Hp & Hp')]; [discriminate|]. injection Hp as <-. eauto.
Qed.

Definition rg_tracks written m : Prop :=
  Permutation (map fst (rg_entries m)) (map fst payload) /\
  incl (map snd (rg_entries m)) (map snd payload ++ written).

Lemma rg_tracks_len written m : rg_tracks written m -> zlen (rg_entries m) = zlen payload.
Proof. intros (H & _). apply zlen_perm in H. now rewrite !zlen_map in H. Qed.

Lemma rg_tracks_more written ws m : rg_tracks written m -> rg_tracks (written ++ ws) m.
Proof.
  intros (H2 & H3). split; auto. intros v Hv. apply H3 in Hv. rewrite app_assoc. apply in_or_app. auto.
Qed.

Lemma rg_tracks_write written m i v : In v written -> rg_tracks written m -> rg_tracks written (rg_write i v m).
Proof.
  intros Hw (H2 & H3). unfold rg_tracks, rg_write. cbn [rg_entries]. split; [now rewrite write_entry_keys|].
  intros x Hx. apply in_map_iff in Hx. destruct Hx as (e & <- & He).
  apply In_nth_error in He. destruct He as (j & He). rewrite nth_error_write_entry in He.
  destruct (Nat.eqb i j).
  - destruct (nth_error (rg_entries m) j); [|discriminate]. injection He as <-. apply in_or_app. auto.
  - apply H3. apply in_map. eapply nth_error_In; eauto.
Qed.

Lemma rg_tracks_write_all written : forall ps vs m, incl vs written -> rg_tracks written m ->
  rg_tracks written (rg_write_all ps vs m).
Proof.
  unfold rg_write_all. induction ps as [|p ps IH]; intros vs m Hw H; [exact H|].
  destruct vs as [|v vs]; [exact H|]. cbn [combine fold_left fst snd]. apply IH.
  - intros x Hx. apply Hw. now right.
  - apply rg_tracks_write; auto. apply Hw. now left.
Qed.

Lemma rg_tracks_entry written m i e : rg_tracks written m -> nth_error (rg_entries m) i = Some e ->
  In (fst e) (map fst payload) /\ In (snd e) (map snd payload ++ written).
Proof.
  intros (H2 & H3) He. apply nth_error_In in He. split.
  - apply (Permutation_in _ H2). now apply in_map.
  - apply H3. now apply in_map.
Qed.

Lemma rg_step_sane pr written m (o : op Q V) w : rg_tracks written m ->
  let '(b, m', _) := rg_step G pr m o w in
  match b with
  | None => op_keys o <> [] /\ m' = m
  | Some b => sane payload written o b /\ rg_tracks (written ++ op_writes o) m'
  end.
Proof.
  intros H. pose proof (rg_tracks_len _ _ H) as Hlen. pose proof H as (HP & HI).
  pose proof (rg_find_cases m) as Hl.
  assert (Hsame : rg_tracks (written ++ []) m) by now apply rg_tracks_more.
  assert (Hobs : forall (A : Type) p (f : A -> obs K V), range_panic p -> rg_observe (Panic p) f = None)
    by (intros A p f [->| ->]; reflexivity).
  destruct o as [k|k|k|k| | | |k v|k v|kws]; cbn [op_keys op_writes] in *; cbn [rg_step].
  - unfold rg_get, mbind. destruct (Hl k w) as [(p & w1 & -> & Hp)|[(w1 & ->)|(i & e & w1 & -> & He)]].
    + rewrite Hobs by auto. split; [discriminate|reflexivity].
    + cbn -[In]. auto.
    + cbn -[In]. rewrite He. cbn -[In]. split; auto. apply (rg_tracks_entry _ _ _ _ H He).
  - unfold rg_get_key_value, mbind. destruct (Hl k w) as [(p & w1 & -> & Hp)|[(w1 & ->)|(i & e & w1 & -> & He)]].
    + rewrite Hobs by auto. split; [discriminate|reflexivity].
    + cbn -[In]. auto.
    + cbn -[In]. rewrite He. cbn -[In]. split; auto. apply (rg_tracks_entry _ _ _ _ H He).
  - unfold rg_contains_key, rg_get, mbind. destruct (Hl k w) as [(p & w1 & -> & Hp)|[(w1 & ->)|(i & e & w1 & -> & He)]].
    + rewrite Hobs by auto. split; [discriminate|reflexivity].
    + cbn -[In]. auto.
    + cbn -[In]. rewrite He. cbn -[In]. auto.
  - unfold rg_index, rg_get, mbind. destruct (Hl k w) as [(p & w1 & -> & Hp)|[(w1 & ->)|(i & e & w1 & -> & He)]].
    + rewrite Hobs by auto. split; [discriminate|reflexivity].
    + cbn -[In]. auto.
    + cbn -[In]. rewrite He. cbn -[In]. split; auto. apply (rg_tracks_entry _ _ _ _ H He).
  - cbn [sane]. split; auto.
  - cbn [sane]. split; auto. rewrite Hlen, Z.eqb_eq.
    unfold zlen. destruct payload; cbn; split; intros; try discriminate; auto; lia.
  - assert (Hz' : zlen (rg_entries m) < 2 ^ 64) by lia.
    pose proof (fun it a l => it_at_cons pr (rg_entries m) it a l Hz') as Hcons.
    rewrite (R_fold (it_next pr) (it_at (rg_entries m)) (it_at_nil pr (rg_entries m)) Hcons _ (rg_entries m));
      [|apply it_at_new|lia].
    assert (Hf : forall (l acc : list (K * V)), fold_left (fun acc e => acc ++ [e]) l acc = acc ++ l).
    { induction l as [|x l IH]; intros acc; cbn; [now rewrite app_nil_r|]. now rewrite IH, <- app_assoc. }
    rewrite Hf. cbn [app rg_observe sane]. auto.
  - destruct (Hl k w) as [(p & w1 & -> & Hp)|[(w1 & ->)|(i & e & w1 & -> & He)]].
    + rewrite Hobs by auto. split; [discriminate|reflexivity].
    + cbn [rg_observe sane]. split; [exact I|now apply rg_tracks_more].
    + cbn [sane]. split; [exact I|]. apply rg_tracks_write; [apply in_or_app; right; now left|now apply rg_tracks_more].
  - unfold rg_index_mut, mbind. destruct (Hl k w) as [(p & w1 & -> & Hp)|[(w1 & ->)|(i & e & w1 & -> & He)]].
    + rewrite Hobs by auto. split; [discriminate|reflexivity].
    + cbn [lift unwrap rg_observe sane]. split; [exact I|now apply rg_tracks_more].
    + cbn [lift unwrap sane]. split; [exact I|].
      apply rg_tracks_write; [apply in_or_app; right; now left|now apply rg_tracks_more].
  - assert (Hnil : forall r w1, rg_get_many_mut G m (map fst kws) w = (r, w1) -> (forall o, r <> Ok o) -> map fst kws <> []).
    { intros r w1 Hr Hno. destruct kws; [|discriminate]. cbn in Hr. injection Hr as <- _. now elim (Hno (Some [])). }
    pose proof (rg_many_replies m (map fst kws) w) as Hr.
    destruct (rg_get_many_mut G m (map fst kws) w) as [r w1]. cbn [fst] in Hr.
    destruct Hr as [(p & -> & Hp)|([ps|] & ->)].
    + rewrite Hobs by auto. split; [|reflexivity]. apply (Hnil (Panic p) w1 eq_refl). discriminate.
    + cbn [sane]. split; [exact I|]. apply rg_tracks_write_all; [apply incl_appr, incl_refl|now apply rg_tracks_more].
    + cbn [rg_observe sane]. split; [exact I|now apply rg_tracks_more].
Qed.

Lemma rg_run_sane pr : forall os written m w, rg_tracks written m ->
  sane_run_caught payload written os (rg_run G pr m os w).
Proof.
  induction os as [|o os IH]; intros written m w H; cbn [rg_run]; [exact I|].
  pose proof (rg_step_sane pr written m o w H) as Hstep.
  destruct (rg_step G pr m o w) as [[b m'] w']. destruct b as [b|]; cbn [sane_run_caught]; destruct Hstep as (H1 & H2).
  - split; auto.
  - subst m'. split; auto.
Qed.
End Histories.

Lemma build_perm {K Q V BH} gives_up (payload : list (K * V)) m (c : list (request K Q V BH)) :
  range_built gives_up payload (Ok m) c -> Permutation payload (rg_entries m).
Proof.
  remember (Ok m) as r. intros H. destruct H; try discriminate.
  - injection Heqr as <-. constructor.
  - destruct r; try discriminate. injection Heqr as <-. assumption.
Qed.
Lemma rg_built {W K Q V} (G : integers W K Q) srt (payload : list (K * V)) w m w' : sorter_ok srt ->
  rg_from_vec G srt payload w = (Ok m, w') -> Permutation payload (rg_entries m).
Proof.
  intros Hs H. destruct (traces_run _ _ _ w (build_traces (BH := unit) G srt payload Hs)) as (r & w1 & c & _ & H2 & H3).
  rewrite H in H2. injection H2 as <- <-. eapply build_perm; eauto.
Qed.

(** ** C82: the calls made *)

Lemma range_construction :
  forall (W K Q V BH : Type) (G : integers W K Q) (srt : sorter) (payload : list (K * V)) (w : W),
  sorter_ok srt ->
  exists r w' log,
    rg_from_vec (overhear (BH := BH) G) srt payload (w, []) = (r, (w', log)) /\
    rg_from_vec G srt payload w = (r, w') /\
    range_built (may_end (srt _ payload) None) payload r log.
Proof. intros W K Q V BH G srt payload w Hs. apply (traces_run _ _ _ w (build_traces (BH := BH) G srt payload Hs)). Qed.

Lemma range_lookups :
  forall (W K Q V BH : Type) (G : integers W K Q) (m0 : range_map K V) (ws : list (nat * V)),
  let m := after_range_writes ws m0 in
  let search := range_searched (rg_min m0) (rg_max m0) (zlen (rg_entries m0)) in
  (forall q w, exists r w' log,
     rg_find (overhear (V := V) (BH := BH) G) m q (w, []) = (r, (w', log)) /\ search q r log /\
     rg_find G m q w = (r, w') /\
     rg_get G m q w = (over (fun o => option_map snd (entry_at (rg_entries m) o)) r, w') /\
     rg_get_key_value G m q w = (over (entry_at (rg_entries m)) r, w') /\
     rg_contains_key G m q w = (over (fun o => match o with Some _ => true | None => false end) r, w') /\
     rg_index G m q w = (unwrapped (over (fun o => option_map snd (entry_at (rg_entries m) o)) r), w') /\
     rg_index_mut G m q w = (unwrapped r, w')) /\
  (forall qs w, exists r w' log,
     rg_get_many_mut (overhear (V := V) (BH := BH) G) m qs (w, []) = (r, (w', log)) /\
     rg_get_many_mut G m qs w = (r, w') /\ many_looked_up search qs r log).
Proof.
  intros W K Q V BH G m0 ws m search.
  assert (Hm : rg_min m = rg_min m0 /\ rg_max m = rg_max m0 /\ zlen (rg_entries m) = zlen (rg_entries m0)).
  { unfold m, after_range_writes. clear m search. revert m0. induction ws as [|[i v] ws IH]; intros m0; cbn [fold_left]; auto.
    cbn [fst snd]. destruct (IH (rg_write i v m0)) as (-> & -> & ->). unfold rg_write. cbn [rg_min rg_max rg_entries fst snd].
    unfold zlen. now rewrite write_entry_length. }
  unfold search. destruct Hm as (<- & <- & <-). clear search. clearbody m. split.
  - intros q w. destruct (traces_run _ _ _ w (range_find_traces (V := V) (BH := BH) G m q)) as (r & w' & c & H1 & H2 & H3).
    exists r, w', c. split; auto. split; auto. split; auto.
    assert (Hin : forall i, r = Ok (Some i) -> exists e, nth_error (rg_entries m) i = Some e).
    { intros i ->. destruct (searched_sane _ _ _ _ _ _ H3) as [(o & [= <-] & Hi)|(pn & Hp & _)]; [|discriminate].
      specialize (Hi i eq_refl). destruct (nth_error (rg_entries m) i) eqn:He; eauto. apply nth_error_None in He. unfold zlen in Hi. lia. }
    assert (Hget : rg_get G m q w = (over (fun o => option_map snd (entry_at (rg_entries m) o)) r, w')).
    { unfold rg_get, mbind. rewrite H2. destruct r as [[i|]|p|u|]; try reflexivity.
      destruct (Hin i eq_refl) as (e & He). cbn. now rewrite He. }
    split; auto. split; [|split; [|split]].
    + unfold rg_get_key_value, mbind. rewrite H2. now destruct r.
    + unfold rg_contains_key, mbind. rewrite Hget. destruct r as [[i|]|p|u|]; try reflexivity.
      destruct (Hin i eq_refl) as (e & He). cbn. now rewrite He.
    + unfold rg_index, mbind. rewrite Hget. now destruct r as [[i|]|p|u|].
    + unfold rg_index_mut, mbind. rewrite H2. now destruct r as [[i|]|p|u|].
  - intros qs w. destruct (traces_run _ _ _ w (range_many_traces (V := V) (BH := BH) G m qs)) as (r & w' & c & H1 & H2 & H3). eauto 8.
Qed.

Lemma range_equality :
  forall (W K V BH : Type) (G : integers W K K) (veq : V -> V -> W -> option bool * W) (self m : range_map K V) (w : W),
  exists r w' log,
    rg_eq (overhear (BH := BH) G) (witness_values veq) self m (w, []) = (r, (w', log)) /\
    rg_eq G veq self m w = (r, w') /\
    (zlen (rg_entries self) <> zlen (rg_entries m) -> r = Ok false /\ log = []) /\
    (zlen (rg_entries self) = zlen (rg_entries m) ->
     entries_asked (range_searched (rg_min m) (rg_max m) (zlen (rg_entries m))) (rg_entries m) (rg_entries self) r log).
Proof.
  intros W K V BH G veq self m w.
  destruct (traces_run _ _ _ w (range_eq_traces (BH := BH) G m self veq)) as (r & w' & c & H1 & H2 & H3). eauto 8.
Qed.

Lemma range_history_never_goes_wrong :
  forall (W K Q V : Type) (G : integers W K Q) (srt : sorter) (p : profile) (payload : list (K * V)) (m : range_map K V)
         (history : list (op Q V)) (w w' w1 : W),
  sorter_ok srt -> zlen payload < 2 ^ 64 -> rg_from_vec G srt payload w = (Ok m, w') ->
  Permutation payload (rg_entries m) /\ sane_run_caught payload [] history (rg_run G p m history w1).
Proof.
  intros W K Q V G srt p payload m history w w' w1 Hs Hz Hm. pose proof (rg_built G srt payload w m w' Hs Hm) as HP.
  split; auto. apply rg_run_sane; auto. split; [apply Permutation_sym; now apply Permutation_map|].
  rewrite app_nil_r. intros v Hv. apply (Permutation_in _ (Permutation_sym (Permutation_map snd HP))). exact Hv.
Qed.

(** ** Lawful integers *)

Section Gives.
Context {W : Type}.

(** Every run succeeds with a result that has the property [P]. *)
Definition gives {A} (x : M W A) (P : A -> Prop) : Prop := forall w, exists a, fst (x w) = Ok a /\ P a.

Lemma gives_call {A} (f : W -> option A * W) P : answering f P -> gives (call f) P.
Proof.
  intros H w. destruct (H w) as (a & Ha & Hp). exists a. split; auto. unfold call. destruct (f w) as [o w']. cbn [fst] in Ha. now subst o.
Qed.
Lemma gives_always {A} (f : W -> option A * W) a : always f a -> gives (call f) (fun x => x = a).
Proof. intros H. apply gives_call. intros w. exists a. split; auto. Qed.
Lemma same_after {A B} (x : M W A) P (f : A -> M W B) r : gives x P -> (forall a, P a -> same (f a) r) -> same (mbind x f) r.
Proof.
  intros H1 H2 w. unfold mbind. destruct (H1 w) as (a & Ha & Hp). destruct (x w) as [r' w']. cbn [fst] in Ha. subst r'. now apply H2.
Qed.
Lemma same_then {A B} (x : M W A) a (f : A -> M W B) r : same x (Ok a) -> same (f a) r -> same (mbind x f) r.
Proof. intros H1 H2. apply (same_after _ (fun b => b = a)); [intros w; exists a; split; auto|]. now intros b ->. Qed.
Lemma same_sort {A} (less : A -> A -> M W bool) p (s : sorting A) : (forall a b, same (less a b) (Ok (p a b))) ->
  same (v_sort less s) (match ends_as p s with Some l => Ok l | None => Panic PForeign end).
Proof.
  intros H. induction s as [[l|]|a b next IH]; cbn [v_sort ends_as]; [apply same_lift..|].
  eapply same_eq; [apply (same_bind _ _ _ (fun r => match ends_as p (next r) with Some l => Ok l | None => Panic PForeign end) (H a b)); apply IH|reflexivity].
Qed.
End Gives.

Lemma ends_may_end {A} (p : A -> A -> bool) (s : sorting A) : may_end s (ends_as p s).
Proof. induction s as [r|a b next IH]; cbn [ends_as]; [constructor|]. econstructor. apply IH. Qed.

Lemma sorted_first a l : StronglySorted Z.le (a :: l) -> forall x, In x (a :: l) -> a <= x.
Proof. intros H x [<-|Hx]; [lia|]. apply StronglySorted_inv in H. destruct H as (_ & H). rewrite Forall_forall in H. auto. Qed.
Lemma sorted_final l b : StronglySorted Z.le (l ++ [b]) -> forall x, In x (l ++ [b]) -> x <= b.
Proof.
  induction l as [|a l IH]; cbn [app]; intros H x Hx.
  - destruct Hx as [<-|[]]. lia.
  - apply StronglySorted_inv in H. destruct H as (H1 & H2). destruct Hx as [<-|Hx]; auto.
    rewrite Forall_forall in H2. apply H2. apply in_or_app. right. now left.
Qed.

Lemma value_distinct {A} (f : A -> Z) l : NoDup (map f l) -> distinct (fun a b => f a =? f b) l.
Proof.
  induction l as [|a l IH]; cbn [map distinct]; auto. intros H. apply NoDup_cons_iff in H. destruct H as (H1 & H2). split; auto.
  intros b Hb. apply Z.eqb_neq. intros Heq. apply H1. rewrite Heq. now apply in_map.
Qed.
Lemma interval_NoDup a n : NoDup (interval a n).
Proof. apply FinFun.Injective_map_NoDup; [intros x y; lia|apply seq_NoDup]. Qed.
Lemma consecutive_NoDup l : consecutive l -> NoDup l.
Proof. intros (a & H). apply (Permutation_NoDup (Permutation_sym H)), interval_NoDup. Qed.

Section Lawful.
Context {W K Q V : Type}.
Variable G : integers W K Q.
Variables lo hi : Z.
Variable kv : K -> Z.
Variable value : Q -> Z.
Hypothesis HG : lawful_integers G lo hi kv value.
Variable borrow : K -> Q.
Hypothesis Hb : forall k, value (borrow k) = kv k.
Notation eqv := (fun a b : Q => value a =? value b).
Notation nm := (@names K V Q eqv borrow).
Implicit Types (m : range_map K V) (w : W).

Lemma has_zero w : lo <= 0 <= hi.
Proof. destruct (li_zero _ _ _ _ _ HG w) as (k & _ & H). pose proof (li_key _ _ _ _ _ HG k). lia. Qed.

Lemma value_equivalence : equivalence eqv.
Proof. split; intros; rewrite ?Z.eqb_eq in *; congruence. Qed.

Lemma lawful_range_find m q : kv (rg_max m) - kv (rg_min m) <= hi ->
  same (rg_find G m q)
    (if (kv (rg_min m) <=? value q) && (value q <=? kv (rg_max m))
     then match to_usize (value q - kv (rg_min m)) with
          | None => Ok None
          | Some i => bind (index_checked (rg_entries m) i) (fun _ => Ok (Some (Z.to_nat i)))
          end
     else Ok None).
Proof.
  intros Hsp w0. pose proof (has_zero w0) as Hz. revert w0. unfold rg_find.
  apply (same_after _ _ _ _ (gives_call _ _ (li_borrow _ _ _ _ _ HG _))). intros b1 E1.
  apply (same_after _ _ _ _ (gives_always _ _ (li_ge _ _ _ _ _ HG q b1))). intros above ->. rewrite E1.
  destruct (Z.leb_spec (kv (rg_min m)) (value q)); cbn [andb]; [|apply same_lift].
  apply (same_after _ _ _ _ (gives_call _ _ (li_borrow _ _ _ _ _ HG _))). intros b2 E2.
  apply (same_after _ _ _ _ (gives_always _ _ (li_le _ _ _ _ _ HG q b2))). intros below ->. rewrite E2.
  destruct (Z.leb_spec (value q) (kv (rg_max m))); [|apply same_lift].
  apply (same_after _ _ _ _ (gives_call _ _ (li_borrow _ _ _ _ _ HG _))). intros b3 E3.
  apply (same_after _ (fun d => value d = value q - kv (rg_min m))).
  { rewrite <- E3. apply gives_call, (li_minus _ _ _ _ _ HG). lia. }
  intros d Ed. apply (same_after _ _ _ _ (gives_always _ _ (li_usize _ _ _ _ _ HG d))). intros o ->. rewrite Ed.
  destruct (to_usize _) as [i|]; [|apply same_lift].
  apply same_bind; [apply same_lift|]. intros e. apply same_lift.
Qed.

(** The keys of the entries are min, min + 1, ..., max. *)
Definition rg_ordered m : Prop :=
  rg_entries m <> [] /\ zlen (rg_entries m) < 2 ^ 64 /\ zlen (rg_entries m) - 1 <= hi /\
  map (fun e => kv (fst e)) (rg_entries m) = interval (kv (rg_min m)) (length (rg_entries m)) /\
  kv (rg_max m) = kv (rg_min m) + zlen (rg_entries m) - 1.

Lemma ordered_find m q : rg_ordered m -> same (rg_find G m q) (Ok (find_pos (nm q) (rg_entries m))).
Proof.
  intros (Hne & H64 & Hhi & Hk & Hmx).
  eapply same_eq; [apply lawful_range_find; lia|].
  assert (Hp : find_pos (nm q) (rg_entries m) = find_pos (Z.eqb (value q)) (map (fun e => kv (fst e)) (rg_entries m))).
  { rewrite find_pos_map. apply find_pos_ext. intros e. unfold names. now rewrite Hb. }
  rewrite Hp, Hk, find_pos_interval, Hmx. fold (zlen (rg_entries m)).
  destruct (_ && _) eqn:Ea; auto. rewrite to_usize_ok by lia.
  destruct (index_checked_in (rg_entries m) (value q - kv (rg_min m))) as (e & -> & _); [lia|]. reflexivity.
Qed.

Definition rg_object : map_object (range_map K V) K V Q :=
  {| mo_entries := rg_entries;
     mo_len := fun m => zlen (rg_entries m);
     mo_get_at := fun m q => Ok (find_pos (nm q) (rg_entries m));
     mo_get := fun m q => Ok (option_map snd (find (nm q) (rg_entries m)));
     mo_get_mut := fun m q => Ok (find_pos (nm q) (rg_entries m));
     mo_get_key_value := fun m q => Ok (find (nm q) (rg_entries m));
     mo_write := rg_write |}.

Lemma ordered_write i v m : rg_ordered m -> rg_ordered (rg_write i v m).
Proof.
  intros (Hne & H64 & Hhi & Hk & Hmx). unfold rg_ordered, rg_write. cbn [rg_entries rg_min rg_max].
  assert (Hl : zlen (write_entry i v (rg_entries m)) = zlen (rg_entries m)) by (unfold zlen; now rewrite write_entry_length).
  rewrite Hl, write_entry_length. split; [|split; [auto|split; [auto|split; auto]]].
  - intros H. apply Hne. rewrite H in Hl. destruct (rg_entries m); auto. unfold zlen in Hl. cbn in Hl. lia.
  - rewrite <- (map_map fst kv), write_entry_keys, map_map. exact Hk.
Qed.

Lemma rg_searches : searches eqv borrow rg_object (fun _ => True) rg_ordered.
Proof. split; [|split; [|split]]; auto. intros m i w. apply ordered_write. Qed.

Lemma ordered_get m q : rg_ordered m -> same (rg_get G m q) (Ok (option_map snd (find (nm q) (rg_entries m)))).
Proof.
  intros H. eapply same_eq; [apply (same_bind _ _ _ (deref (rg_entries m)) (ordered_find m q H)); intros; apply same_lift|].
  cbn [bind]. apply deref_find_pos.
Qed.

Lemma ordered_many m qs : rg_ordered m ->
  same (rg_get_many_mut G m qs) (mo_get_many_mut eqv rg_object m qs).
Proof.
  intros H. unfold rg_get_many_mut, mo_get_many_mut, get_many_mut.
  assert (Hd : forall keys seen, same (rg_has_duplicate_key G seen keys) (Ok (has_duplicate_key eqv seen keys))).
  { induction keys as [|k keys IH]; intros seen; cbn [rg_has_duplicate_key has_duplicate_key]; [apply same_lift|].
    eapply same_eq; [apply (same_bind _ (Ok (find_pos (fun j => value j =? value k) seen)) _ (fun r => match r with
      | Some _ => Ok true | None => Ok (has_duplicate_key eqv (seen ++ [k]) keys) end))|].
    - apply same_find_pos. intros j. apply same_call, HG.
    - intros [i|]; [apply same_lift|apply IH].
    - rewrite find_pos_existsb. cbn [bind]. now destruct (find_pos _ seen). }
  eapply same_eq; [apply (same_bind _ _ _ (fun d => if d : bool then Ok None else get_each (mo_get_at rg_object m) qs) (Hd qs []))|reflexivity].
  intros []; [apply same_lift|]. clear Hd.
  induction qs as [|k keys IH]; cbn [rg_get_each get_each]; [apply same_lift|].
  apply same_bind; [now apply ordered_find|]. intros [i|]; [|apply same_lift]. apply same_bind; auto. intros rs. apply same_lift.
Qed.

Lemma rg_step_same pr m (o : op Q V) w : rg_ordered m ->
  exists w', rg_step G pr m o w = (Some (fst (mo_step pr eqv rg_object m o)), snd (mo_step pr eqv rg_object m o), w').
Proof.
  intros H.
  assert (Hsee : forall A (x : M W A) r (f : A -> obs K V), same x (Ok r) ->
    exists w', (let (r0, w'0) := x w in (rg_observe r0 f, m, w'0)) = (Some (f r), m, w')).
  { intros A x r f Hx. specialize (Hx w). destruct (x w) as [r0 w0]. cbn [fst] in Hx. subst r0. eexists. reflexivity. }
  destruct o as [k|k|k|k| | | |k v|k v|kws]; cbn [rg_step mo_step rg_object mo_get mo_get_key_value mo_get_mut mo_len mo_entries mo_write];
    try (eexists; reflexivity).
  - apply Hsee. now apply ordered_get.
  - apply Hsee. eapply same_eq;
      [apply (same_bind _ _ _ (fun r => Ok (match r with Some i => nth_error (rg_entries m) i | None => None end)) (ordered_find m k H)); intros; apply same_lift|].
    cbn [bind]. now rewrite find_find_pos.
  - apply Hsee. eapply same_eq;
      [apply (same_bind _ _ _ (fun r => Ok (match r with Some _ => true | None => false end)) (ordered_get m k H)); intros; apply same_lift|reflexivity].
  - assert (Hx : same (rg_index G m k) (unwrap (option_map snd (find (nm k) (rg_entries m))))).
    { eapply same_eq; [apply (same_bind _ _ _ unwrap (ordered_get m k H)); intros; apply same_lift|reflexivity]. }
    unfold mo_index, index_of. cbn [mo_get rg_object bind]. specialize (Hx w). destruct (rg_index G m k w) as [r0 w0]. cbn [fst] in Hx. subst r0.
    destruct (option_map snd _); eexists; reflexivity.
  - exists w. pose proof (fun it b l => it_at_cons pr (rg_entries m) it b l (proj1 (proj2 H))) as Hcons.
    rewrite (R_fold (it_next pr) (it_at (rg_entries m)) (it_at_nil pr (rg_entries m)) Hcons _ (rg_entries m));
      [reflexivity|apply it_at_new|lia].
  - pose proof (ordered_find m k H w) as Hf.
    destruct (rg_find G m k w) as [r0 w0]. cbn [fst] in Hf. subst r0. destruct (find_pos _ _); eexists; reflexivity.
  - assert (Hx : same (rg_index_mut G m k) (unwrap (find_pos (nm k) (rg_entries m)))).
    { eapply same_eq; [apply (same_bind _ _ _ unwrap (ordered_find m k H)); intros; apply same_lift|reflexivity]. }
    unfold mo_index_mut, index_of. cbn [mo_get_mut rg_object bind]. specialize (Hx w). destruct (rg_index_mut G m k w) as [r0 w0].
    cbn [fst] in Hx. subst r0. destruct (find_pos _ _); eexists; reflexivity.
  - pose proof (ordered_many m (map fst kws) H w) as Hf.
    assert (Hr : exists r, mo_get_many_mut eqv rg_object m (map fst kws) = Ok r).
    { unfold mo_get_many_mut, get_many_mut. destruct (has_duplicate_key _ _ _); [eauto|].
      destruct (get_each_spec (mo_get_at rg_object m) (fun q => find_pos (nm q) (rg_entries m)) (map fst kws))
        as [(ps & -> & _)|(-> & _)]; eauto. }
    destruct Hr as (r & Hr). rewrite Hr in *. destruct (rg_get_many_mut G m (map fst kws) w) as [r0 w0]. cbn [fst] in Hf. subst r0.
    destruct r; eexists; reflexivity.
Qed.

Lemma rg_step_kept pr m o : rg_ordered m -> rg_ordered (snd (mo_step pr eqv rg_object m o)).
Proof.
  intros H. pose proof ordered_write as Hw.
  destruct o as [k|k|k|k| | | |k v|k v|kws]; cbn [mo_step snd]; auto.
  - cbn [mo_get_mut rg_object]. destruct (find_pos _ _); cbn [snd]; [now apply Hw|auto].
  - unfold mo_index_mut, index_of. cbn [mo_get_mut rg_object bind]. destruct (find_pos _ _); cbn [unwrap snd]; [now apply Hw|auto].
  - destruct (mo_get_many_mut _ _ _ _) as [[ps|]| | |]; cbn [snd]; auto. unfold mo_write_all. cbn [rg_object mo_write].
    generalize (combine ps (map snd kws)). intros l. clear - H Hw. revert m H.
    induction l as [|[i v] l IH]; intros m H; cbn [fold_left]; auto.
Qed.

Lemma rg_run_same pr : forall os m w, rg_ordered m -> rg_run G pr m os w = map Some (mo_run pr eqv rg_object m os).
Proof.
  induction os as [|o os IH]; intros m w H; [reflexivity|]. cbn [rg_run mo_run map].
  destruct (rg_step_same pr m o w H) as (w' & ->). pose proof (rg_step_kept pr m o H) as H1.
  destruct (mo_step _ _ _ m o) as [b m']. cbn [fst snd map] in *. f_equal. now apply IH.
Qed.

(** Construction: the entries in order, and the check. *)
Lemma lawful_range_sorts srt (payload : list (K * V)) : sorter_ok srt -> payload <> [] ->
  exists sorted first final, Permutation payload sorted /\
    is_min (kv first) (map (fun e => kv (fst e)) payload) /\ is_max (kv final) (map (fun e => kv (fst e)) payload) /\
    StronglySorted Z.le (map (fun e => kv (fst e)) sorted) /\
    (kv final - kv first <= hi ->
     same (rg_from_vec G srt payload)
       (bind (unwrap (to_usize (kv final - kv first))) (fun n =>
        if n =? zlen payload - 1 then Ok {| rg_min := first; rg_max := final; rg_entries := sorted |} else Panic PAssert))).
Proof.
  intros Hs Hne. set (key := fun e : K * V => kv (fst e)).
  destruct (so_sorts _ Hs _ key payload) as (sorted & He & Hso).
  assert (HP : Permutation payload sorted).
  { apply (so_permutes _ Hs). rewrite <- He. apply ends_may_end. }
  assert (Hl0 : sorted <> []). { intros ->. apply Permutation_sym, Permutation_nil in HP. auto. }
  destruct (index_first sorted Hl0) as (x & Hx & Hx'). destruct (index_last sorted Hl0) as (y & Hy & Hy').
  assert (HPk : Permutation (map key payload) (map key sorted)) by now apply Permutation_map.
  assert (Hmin : is_min (key x) (map key payload)).
  { destruct sorted as [|x0 sorted']; [congruence|]. injection Hx' as ->. cbn [map] in Hso, HPk.
    split; [apply (Permutation_in _ (Permutation_sym HPk)); now left|].
    intros z Hz. apply (sorted_first _ _ Hso). now apply (Permutation_in _ HPk). }
  assert (Hmax : is_max (key y) (map key payload)).
  { destruct (@exists_last _ sorted Hl0) as (l' & y0 & E0). rewrite E0, rev_app_distr in Hy'. injection Hy' as ->.
    rewrite E0, map_app in Hso, HPk. cbn [map] in Hso, HPk.
    split; [apply (Permutation_in _ (Permutation_sym HPk)), in_or_app; right; now left|].
    intros z Hz. apply (sorted_final _ _ Hso). now apply (Permutation_in _ HPk). }
  exists sorted, (fst x), (fst y). do 4 (split; [assumption|]). intros Hsp w0. pose proof (has_zero w0) as Hz. revert w0.
  unfold rg_from_vec. destruct payload as [|e0 p0] eqn:Ep; [congruence|]. rewrite <- Ep in *. clear Ep e0 p0.
  assert (Hrun : same (v_sort (fun a b => call (g_less G (fst a) (fst b))) (srt _ payload)) (Ok sorted)).
  { eapply same_eq; [apply (same_sort _ (fun a b => key a <? key b)); intros a b; apply same_call, HG|]. now rewrite He. }
  apply (same_then _ _ _ _ Hrun). rewrite Hx, Hy, <- (zlen_perm _ _ HP).
  apply (same_then _ _ _ _ (same_lift (Ok x))), (same_then _ _ _ _ (same_lift (Ok y))).
  assert (Hle : key x <= key y) by (apply Hmax; apply Hmin).
  apply (same_after _ _ _ _ (gives_call _ _ (li_minus_key _ _ _ _ _ HG (fst y) (fst x) ltac:(unfold key in Hle; lia)))). intros d Ed.
  apply (same_after _ _ _ _ (gives_always _ _ (li_usize_key _ _ _ _ _ HG d))). intros o ->. rewrite Ed.
  apply same_bind; [apply same_lift|]. intros n. destruct (n =? _); apply same_lift.
Qed.
End Lawful.

Section Built.
Context {W K Q V : Type}.
Variable G : integers W K Q.
Variables lo hi : Z.
Variable kv : K -> Z.
Variable value : Q -> Z.
Hypothesis HG : lawful_integers G lo hi kv value.
Variable srt : sorter.
Hypothesis Hs : sorter_ok srt.

Lemma lawful_range_build (payload : list (K * V)) : payload <> [] -> zlen payload < 2 ^ 64 -> zlen payload - 1 <= hi ->
  consecutive (map (fun e => kv (fst e)) payload) ->
  exists m, same (rg_from_vec G srt payload) (Ok m) /\ Permutation payload (rg_entries m) /\ rg_ordered hi kv m.
Proof.
  intros Hne H64 Hhi Hc.
  destruct (lawful_range_sorts G lo hi kv value HG srt payload Hs Hne) as (sorted & first & final & HP & Hmn & Hmx & Hso & Hrun).
  set (key := fun e : K * V => kv (fst e)) in *.
  assert (Hsp : kv final - kv first = zlen payload - 1).
  { rewrite <- (zlen_map key payload). apply (consecutive_iff (map key payload)); auto; [|now apply consecutive_NoDup].
    intros H. apply map_eq_nil in H. auto. }
  exists {| rg_min := first; rg_max := final; rg_entries := sorted |}.
  assert (Hlen : (1 <= length payload)%nat) by (destruct payload; [congruence|cbn; lia]).
  split; [|split; [exact HP|]].
  - eapply same_eq; [apply Hrun; lia|]. rewrite to_usize_ok by (unfold zlen in *; lia). cbn [unwrap bind].
    destruct (Z.eqb_spec (kv final - kv first) (zlen payload - 1)); [reflexivity|lia].
  - unfold rg_ordered. cbn [rg_entries rg_min rg_max]. rewrite <- (zlen_perm _ _ HP), <- (Permutation_length HP).
    split. { intros ->. apply Permutation_sym, Permutation_nil in HP. auto. }
    do 2 (split; [assumption|]). split; [|lia].
    destruct Hc as (a & Ha). rewrite map_length in Ha.
    assert (He : map key sorted = interval a (length payload)).
    { apply sorted_perm_eq; auto; [apply interval_sorted|]. rewrite <- Ha. apply Permutation_sym. now apply Permutation_map. }
    unfold key in He |- *. rewrite He. f_equal.
    apply (is_min_unique _ _ _ (is_min_perm _ _ _ Ha (conj (Permutation_in _ (Permutation_sym Ha) (proj2 (interval_In a (length payload) a) ltac:(lia)))
      (fun x Hx => proj1 (proj1 (interval_In _ _ _) (Permutation_in _ Ha Hx)))))).
    apply (is_min_perm _ _ _ Ha). exact Hmn.
Qed.
End Built.

Lemma lawful_range_history :
  forall (W K Q V : Type) (G : integers W K Q) (lo hi : Z) (key_value : K -> Z) (value : Q -> Z) (borrow : K -> Q)
         (srt : sorter) (p : profile) (payload : list (K * V)) (w : W),
  lawful_integers G lo hi key_value value -> (forall k, value (borrow k) = key_value k) -> sorter_ok srt ->
  payload <> [] -> zlen payload < 2 ^ 64 -> zlen payload - 1 <= hi ->
  consecutive (map (fun e => key_value (fst e)) payload) ->
  exists m w' a, rg_from_vec G srt payload w = (Ok m, w') /\
  map (fun e => key_value (fst e)) (rg_entries m) = interval a (length payload) /\
  forall (history : list (op Q V)) (w1 : W),
  Forall2 (fun seen expected => exists b, seen = Some b /\ same_obs b expected)
    (rg_run G p m history w1) (object_run (fun a b => value a =? value b) borrow payload history).
Proof.
  intros W K Q V G lo hi kv value borrow srt p payload w HG Hb Hs Hne H64 Hhi Hc.
  destruct (lawful_range_build G lo hi kv value HG srt Hs payload Hne H64 Hhi Hc) as (m & Hm & HP & Ho).
  specialize (Hm w). destruct (rg_from_vec G srt payload w) as [r w']. cbn [fst] in Hm. subst r. exists m, w', (kv (rg_min m)).
  split; auto. split. { rewrite (Permutation_length HP). apply Ho. }
  intros history w1. rewrite (rg_run_same G lo hi kv value HG borrow Hb p history m w1 Ho).
  assert (Hsim : Forall2 same_obs (mo_run p (fun a b => value a =? value b) (rg_object value borrow) m history)
    (object_run (fun a b => value a =? value b) borrow payload history)).
  { apply (mo_run_simulates p _ borrow _ _ _ (value_equivalence value) (rg_searches hi kv value borrow)).
    - split; [exact HP|]. split; auto. split; auto.
      apply consecutive_NoDup in Hc.
      assert (Hd : NoDup (map value (map (fun e => borrow (fst e)) payload))).
      { rewrite map_map. erewrite map_ext; [exact Hc|]. intros e. apply Hb. }
      now apply value_distinct.
    - intros o q _ _. exact I. }
  clear - Hsim. induction Hsim as [|x y l1 l2 Hxy _ IH]; cbn [map]; constructor; eauto.
Qed.

Lemma lawful_range_rejects :
  forall (W K Q V : Type) (G : integers W K Q) (lo hi : Z) (key_value : K -> Z) (value : Q -> Z)
         (srt : sorter) (payload : list (K * V)) (w : W),
  let values := map (fun e => key_value (fst e)) payload in
  lawful_integers G lo hi key_value value -> sorter_ok srt -> payload <> [] ->
  (forall a b, In a values -> In b values -> a - b <= hi) -> NoDup values -> ~ consecutive values ->
  fst (rg_from_vec G srt payload w) = Panic PAssert /\ (forall a b, In a values -> In b values -> a - b < 2 ^ 64) \/
  fst (rg_from_vec G srt payload w) = Panic PUnwrapNone /\ (exists a b, In a values /\ In b values /\ 2 ^ 64 <= a - b).
Proof.
  intros W K Q V G lo hi kv value srt payload w values HG Hs Hne Hsp Hnd Hc.
  destruct (lawful_range_sorts G lo hi kv value HG srt payload Hs Hne) as (sorted & first & final & HP & Hmn & Hmx & _ & Hrun).
  fold values in Hmn, Hmx. assert (Hd : kv final - kv first <= hi) by (apply Hsp; [apply Hmx|apply Hmn]).
  rewrite (Hrun Hd w). assert (Hle : kv first <= kv final) by (apply Hmx; apply Hmn).
  assert (Hn : kv final - kv first <> zlen payload - 1).
  { intros H. apply Hc. apply (consecutive_iff values (kv first) (kv final)); auto.
    - intros H0. apply map_eq_nil in H0. auto.
    - unfold values. rewrite zlen_map. exact H. }
  destruct (Z_lt_le_dec (kv final - kv first) (2 ^ 64)) as [Hlt|Hge].
  - left. rewrite to_usize_ok by lia. cbn [unwrap bind].
    destruct (Z.eqb_spec (kv final - kv first) (zlen payload - 1)); [lia|]. split; auto.
    intros a b Ha Hb. pose proof (proj2 Hmx a Ha). pose proof (proj2 Hmn b Hb). lia.
  - right. split; [|exists (kv final), (kv first); split; [apply Hmx|split; [apply Hmn|exact Hge]]].
    unfold to_usize. destruct (in_type usize (kv final - kv first)) eqn:Ei; [|reflexivity]. exfalso.
    unfold in_type in Ei. apply andb_true_iff in Ei. destruct Ei as (_ & Ei). apply Z.leb_le in Ei.
    assert (imax usize = 2 ^ 64 - 1) as Hu by reflexivity. lia.
Qed.

Lemma lawful_empty_range :
  forall (W K Q V : Type) (G : integers W K Q) (lo hi : Z) (key_value : K -> Z) (value : Q -> Z) (srt : sorter) (w : W),
  lawful_integers G lo hi key_value value ->
  exists m w', rg_from_vec (V := V) G srt [] w = (Ok m, w') /\ rg_entries m = [] /\
  forall (q : Q) (w1 : W),
  (value q = 0 -> fst (rg_get G m q w1) = Panic PIndexOutOfBounds /\ fst (rg_get_key_value G m q w1) = Panic PIndexOutOfBounds /\
     fst (rg_contains_key G m q w1) = Panic PIndexOutOfBounds) /\
  (value q <> 0 -> fst (rg_get G m q w1) = Ok None /\ fst (rg_get_key_value G m q w1) = Ok None /\
     fst (rg_contains_key G m q w1) = Ok false).
Proof.
  intros W K Q V G lo hi kv value srt w HG. cbn [rg_from_vec]. unfold mbind, call.
  destruct (li_zero _ _ _ _ _ HG w) as (a & Ha & Hza). destruct (g_zero G w) as [o w1]. cbn [fst] in Ha. subst o.
  destruct (li_zero _ _ _ _ _ HG w1) as (b & Hb & Hzb). destruct (g_zero G w1) as [o w2]. cbn [fst] in Hb. subst o.
  exists {| rg_min := a; rg_max := b; rg_entries := [] |}, w2. split; [reflexivity|]. split; [reflexivity|]. intros q w3.
  set (m := {| rg_min := a; rg_max := b; rg_entries := [] |}).
  pose proof (has_zero G lo hi kv value HG w) as Hz.
  pose proof (lawful_range_find G lo hi kv value HG m q ltac:(cbn; lia) w3) as Hf.
  cbn [m rg_min rg_max rg_entries] in Hf. rewrite Hza, Hzb in Hf.
  unfold rg_contains_key, rg_get, rg_get_key_value, mbind. destruct (rg_find G m q w3) as [r w4]. cbn [fst] in Hf.
  split; intros Hq.
  - rewrite Hq in Hf. change (to_usize (0 - 0)) with (Some 0) in Hf. cbn in Hf. rewrite Hf. auto.
  - replace ((0 <=? value q) && (value q <=? 0)) with false in Hf by lia. rewrite Hf. cbn. auto.
Qed.

Lemma lawful_range_equality :
  forall (W K V : Type) (G : integers W K K) (lo hi : Z) (value : K -> Z) (srt : sorter)
         (veq : V -> V -> W -> option bool * W) (veqb : V -> V -> bool) (p1 p2 : list (K * V)) (m1 m2 : range_map K V)
         (w1 w1' w2 w2' w : W),
  lawful_integers G lo hi value value -> sorter_ok srt -> (forall x y, always (veq x y) (veqb x y)) ->
  (forall p, p = p1 \/ p = p2 ->
     zlen p < 2 ^ 64 /\ zlen p - 1 <= hi /\ (p <> [] -> consecutive (map (fun e => value (fst e)) p))) ->
  rg_from_vec G srt p1 w1 = (Ok m1, w1') -> rg_from_vec G srt p2 w2 = (Ok m2, w2') ->
  exists b, fst (rg_eq G veq m1 m2 w) = Ok b /\ (b = true <-> same_map (fun a b => value a =? value b) veqb p1 p2).
Proof.
  intros W K V G lo hi value srt veq veqb p1 p2 m1 m2 w1 w1' w2 w2' w HG Hs Hv Hp H1 H2.
  pose proof (rg_built G srt p1 w1 m1 w1' Hs H1) as P1. pose proof (rg_built G srt p2 w2 m2 w2' Hs H2) as P2.
  set (eqv := fun a b : K => value a =? value b).
  assert (Hsup : forall e (p : list (K * V)), In e p -> supplied eqv p (fst e) (snd e)).
  { intros [k v] p Hin. exists k. split; auto. apply Z.eqb_refl. }
  destruct p2 as [|e2 p2].
  { apply Permutation_nil in P2. unfold rg_eq. rewrite P2. destruct p1 as [|e1 p1].
    - apply Permutation_nil in P1. rewrite P1. exists true. split; auto. split; auto. intros _.
      split; intros k v (k' & [] & _).
    - pose proof (zlen_perm _ _ P1) as Hl. rewrite <- Hl. change (zlen (@nil (K * V))) with 0.
      destruct (Z.eqb_spec (zlen (e1 :: p1)) 0) as [H0|_]; [unfold zlen in H0; cbn [length] in H0; lia|]. exists false. split; [reflexivity|]. split; [discriminate|].
      intros (Ha & _). destruct (Ha (fst e1) (snd e1) (Hsup e1 (e1 :: p1) (or_introl eq_refl))) as (v2 & (k' & [] & _) & _). }
  set (q2 := e2 :: p2) in *. assert (Hq2 : q2 <> []) by discriminate.
  destruct (Hp q2 (or_intror eq_refl)) as (Z2 & T2 & C2). specialize (C2 Hq2).
  destruct (lawful_range_build G lo hi value value HG srt Hs q2 Hq2 Z2 T2 C2) as (m & Hm & _ & O2).
  specialize (Hm w2). rewrite H2 in Hm. injection Hm as <-.
  assert (Hsame : same (rg_eq G veq m1 m2) (mo_eq veqb (rg_object value (fun k => k)) m1 m2)).
  { unfold rg_eq, mo_eq, map_eq. cbn [mo_entries rg_object]. destruct (negb _); [apply same_lift|]. apply same_all. intros e.
    apply same_bind; [now apply (ordered_get G lo hi value value HG)|]. intros [v|]; [apply same_call, Hv|apply same_lift]. }
  rewrite (Hsame w).
  assert (Hdist : forall p, p = p1 \/ p = q2 -> distinct eqv (map fst p)).
  { intros p Hpp. destruct p as [|e p]; [exact I|]. destruct (Hp _ Hpp) as (_ & _ & Hc).
    apply value_distinct. rewrite map_map. apply consecutive_NoDup, Hc. discriminate. }
  apply (mo_eq_ok eqv veqb (value_equivalence value) _ _ _ p1 q2 _ _ (rg_searches hi value value (fun k => k))); auto.
Qed.

(** ** Sets *)

Lemma rs_perm {T} (payload : list T) (s : range_map T unit) : Permutation (with_unit payload) (rg_entries s) ->
  Permutation payload (rs_items s) /\ zlen (rg_entries s) = zlen payload.
Proof.
  intros H. split.
  - unfold rs_items. rewrite <- (with_unit_keys payload) at 1. now apply Permutation_map.
  - apply zlen_perm in H. now rewrite <- H, with_unit_len.
Qed.

Lemma rs_runs {W T} p (G : integers W T T) (payload : list T) (s : range_map T unit) :
  zlen payload < 2 ^ 64 -> Permutation payload (rs_items s) ->
  runs_through (vs_next (rs_running p G s)) (vs_iter (rs_running p G s)) (rs_items s).
Proof. intros Hz HP. apply library_iterators. apply zlen_perm in HP. lia. Qed.

Lemma rs_contains_get {W T Q} (G : integers W T Q) s q w :
  rs_contains G s q w =
    let (r, w') := rs_get G s q w in (over (fun o => match o with Some _ => true | None => false end) r, w').
Proof. unfold rs_contains, mbind. destruct (rs_get G s q w) as [[]]; reflexivity. Qed.

Lemma range_set_use :
  forall (W T Q : Type) (G : integers W T Q) (srt : sorter) (p : profile) (payload : list T) (s : range_map T unit) (w w' : W),
  sorter_ok srt -> zlen payload < 2 ^ 64 -> rs_from_vec G srt payload w = (Ok s, w') ->
  Permutation payload (rs_items s) /\
  (forall W' (G' : integers W' T T), vs_len (rs_running p G' s) = zlen payload /\
     runs_through (vs_next (rs_running p G' s)) (vs_iter (rs_running p G' s)) (rs_items s)) /\
  forall W' (G' : integers W' T Q) (q : Q) (w1 : W'),
    (exists e, (e = PForeign \/ e = PIndexOutOfBounds) /\ fst (rs_get G' s q w1) = Panic e /\ fst (rs_contains G' s q w1) = Panic e) \/
    exists o, fst (rs_get G' s q w1) = Ok o /\ (forall y, o = Some y -> In y payload) /\
      fst (rs_contains G' s q w1) = Ok (match o with Some _ => true | None => false end).
Proof.
  intros W T Q G srt p payload s w w' Hs Hz Hb. pose proof (rg_built G srt (with_unit payload) w s w' Hs Hb) as HP.
  destruct (rs_perm payload s HP) as (HP' & Hl).
  split; auto. split; [intros W' G'; split; [exact Hl|now apply (rs_runs p G' payload)]|].
  intros W' G' q w1. rewrite rs_contains_get. unfold rs_get, rg_get_key_value, mbind.
  destruct (rg_find_cases G' s q w1) as [(e & w2 & -> & He)|[(w2 & ->)|(i & e & w2 & -> & He)]]; cbn [lift fst over].
  - left. exists e. auto.
  - right. exists None. split; auto. split; auto. discriminate.
  - right. rewrite He. exists (Some (fst e)). split; auto. split; auto. intros y [= <-].
    apply (Permutation_in _ (Permutation_sym HP')). apply in_map. eapply nth_error_In; eauto.
Qed.

Lemma range_set_operand :
  forall (W W' T Q BH : Type) (G : integers W T Q) (G' : integers W' T T) (srt : sorter) (p : profile) (payload : list T)
         (s : range_map T unit) (w w' : W),
  sorter_ok srt -> zlen payload < 2 ^ 64 -> rs_from_vec G srt payload w = (Ok s, w') ->
  Permutation payload (rs_items s) /\
  operand (rs_running p (overhear (BH := BH) G') s) (rs_items s) (range_set_asked (rg_min s) (rg_max s) (zlen payload)).
Proof.
  intros W W' T Q BH G G' srt p payload s w w' Hs Hz Hb. pose proof (rg_built G srt (with_unit payload) w s w' Hs Hb) as HP.
  destruct (rs_perm payload s HP) as (HP' & Hl). split; auto. split.
  - cbn [rs_running vs_len]. rewrite Hl. now apply zlen_perm.
  - now apply (rs_runs p _ payload).
  - intros x w0 l. cbn [rs_running vs_contains].
    destruct (range_find_traces (V := unit) (BH := BH) G' s x w0 l) as (r & w1 & c & Hf & _ & Ha).
    rewrite Hl in Ha. rewrite rs_contains_get. unfold rs_get, rg_get_key_value, mbind. rewrite Hf.
    destruct (searched_sane _ _ _ _ _ _ Ha) as [([i|] & -> & Hi)|(pn & -> & _)].
    + specialize (Hi i eq_refl). destruct (nth_error (rg_entries s) i) as [e|] eqn:He.
      2:{ apply nth_error_None in He. unfold zlen in *. lia. }
      cbn [lift]. cbn [option_map over].
      do 3 eexists. split; [reflexivity|]. split; [exists (Ok (Some i)); split; [exact Ha|exact I]|eauto].
    + cbn [lift option_map over]. do 3 eexists. split; [reflexivity|]. split; [exists (Ok None); split; [exact Ha|exact I]|eauto].
    + cbn [over]. do 3 eexists. split; [reflexivity|]. split; [exists (Panic pn); split; [exact Ha|reflexivity]|eauto].
Qed.

Lemma special_set_operand :
  forall (W T BH : Type) (F : foreign W T T BH) (E : env) (S_ty : int_type) (sh : shape BH) (payload : list T)
         (s : special T unit BH) (w w' : W),
  env_ok E -> fits S_ty (zlen payload) -> st_from_vec E F S_ty sh payload w = (Ok s, w') ->
  exists n placed, placement F E S_ty sh payload w n placed /\ st_items s = map snd placed /\
  operand (st_running E (witness F) s) (st_items s) (set_asked (prof E) sh n placed).
Proof.
  intros W T BH F E S_ty sh payload s w w' HE Hf Hs.
  destruct (st_placed F E S_ty sh payload w s w' HE Hf Hs) as (n & placed & Hp & Hi & Hst).
  destruct (st_perm payload s) as (P & Z). { apply (sp_built F E S_ty sh (with_unit payload) w s w'); auto. apply Hf. }
  exists n, placed. do 2 (split; auto). split.
  - cbn [st_running vs_len]. rewrite Z. now apply zlen_perm.
  - apply (st_runs E _ payload); auto. apply (fits_small _ _ Hf).
  - intros x w0 l. cbn [st_running vs_contains].
    destruct (st_contains_asked F E sh n placed s x Hst w0 l) as (r & w1 & c & H & Ha & Hr). eauto 8.
Qed.

Lemma operand_operations :
  forall (W T St1 St2 Ev : Type) (v1 : vol_set (W * list Ev) T St1) (v2 : vol_set (W * list Ev) T St2) (i1 i2 : list T)
         (asked1 asked2 : T -> bool + panic -> list Ev -> Prop) (fuel : nat),
  operand v1 i1 asked1 -> operand v2 i2 asked2 -> (length i1 < fuel)%nat -> (length i2 < fuel)%nat ->
  let start := v_op_new v1 v2 in
  let asks2 := ask Second i1 in
  let asks1 := ask First i2 in
  let per := answered asked1 asked2 in
  (if zlen i2 <? zlen i1 then sifting_with (v_union fuel v1 v2) start i1 asks1 false per
   else sifting_with (v_union fuel v1 v2) start i2 asks2 false per) /\
  (if zlen i1 <? zlen i2 then sifting_with (v_intersection fuel v1 v2) start [] asks2 true per
   else sifting_with (v_intersection fuel v1 v2) start [] asks1 true per) /\
  sifting_with (v_difference fuel v1 v2) start [] asks2 false per /\
  sifting_with (v_symmetric_difference fuel v1 v2) start [] (asks2 ++ asks1) false per /\
  checking_with (v_is_disjoint fuel v1 v2) asks2 false per /\
  (if zlen i1 <=? zlen i2 then checking_with (v_is_subset fuel v1 v2) asks2 true per
   else forall w, v_is_subset fuel v1 v2 w = (Ok false, w)) /\
  (if zlen i2 <=? zlen i1 then checking_with (v_is_superset fuel v1 v2) asks1 true per
   else forall w, v_is_superset fuel v1 v2 w = (Ok false, w)) /\
  (if zlen i1 =? zlen i2 then checking_with (v_set_eq fuel v1 v2) asks2 true per
   else forall w, v_set_eq fuel v1 v2 w = (Ok false, w)).
Proof.
  intros W T St1 St2 Ev v1 v2 i1 i2 asked1 asked2 fuel O1 O2 L1 L2 start asks2 asks1. cbv zeta.
  rewrite <- (od_len _ _ _ O1), <- (od_len _ _ _ O2).
  apply (joint_operations v1 v2 (fun _ => True)); auto.
  - intros a _ w l. destruct (od_contains _ _ _ O1 a w l) as (r & w' & c & H & Ha & _). eauto.
  - intros a _ w l. destruct (od_contains _ _ _ O2 a w l) as (r & w' & c & H & Ha & _). eauto.
  - apply O1.
  - apply O2.
  - intros x [w l] _. destruct (od_contains _ _ _ O1 x w l) as (r & w' & c & -> & _ & Hr). exact Hr.
  - intros x [w l] _. destruct (od_contains _ _ _ O2 x w l) as (r & w' & c & -> & _ & Hr). exact Hr.
Qed.

Lemma lawful_range_serves :
  forall (W T : Type) (G : integers W T T) (lo hi : Z) (value : T -> Z) (srt : sorter) (p : profile) (payload : list T) (w : W),
  lawful_integers G lo hi value value -> sorter_ok srt ->
  payload <> [] -> zlen payload < 2 ^ 64 -> zlen payload - 1 <= hi -> consecutive (map value payload) ->
  exists s w', rs_from_vec G srt payload w = (Ok s, w') /\ Permutation payload (rs_items s) /\
  StronglySorted Z.le (map value (rs_items s)) /\
  serves (fun a b => value a =? value b) (fun _ => True) (rs_running p G s) (rs_items s).
Proof.
  intros W T G lo hi value srt p payload w HG Hs Hne H64 Hhi Hc.
  assert (Hk : map (fun e : T * unit => value (fst e)) (with_unit payload) = map value payload).
  { rewrite <- (map_map fst value), with_unit_keys. reflexivity. }
  destruct (lawful_range_build G lo hi value value HG srt Hs (with_unit payload)) as (s & Hm & HP & Ho);
    [destruct payload; [congruence|discriminate]|now rewrite with_unit_len|now rewrite with_unit_len|now rewrite Hk|].
  unfold rs_from_vec. specialize (Hm w). destruct (rg_from_vec G srt (with_unit payload) w) as [r w']. cbn [fst] in Hm. subst r.
  destruct (rs_perm payload s HP) as (HP' & Hl).
  exists s, w'. split; [reflexivity|]. split; [exact HP'|]. split.
  { unfold rs_items. rewrite map_map. destruct Ho as (_ & _ & _ & -> & _). apply interval_sorted. }
  split; auto.
  - cbn [rs_running vs_len]. unfold rs_items. now rewrite zlen_map.
  - now apply (rs_runs p G payload).
  - intros x w1 _. cbn [rs_running vs_contains]. rewrite rs_contains_get.
    unfold rs_get, rg_get_key_value, mbind.
    pose proof (ordered_find G lo hi value value HG (fun k => k) (fun k => eq_refl) s x Ho w1) as Hf.
    destruct (rg_find G s x w1) as [r w2]. cbn [fst] in Hf. subst r. cbn [lift].
    rewrite <- find_find_pos. eexists. split; [cbn [fst over option_map]; reflexivity|].
    unfold member, rs_items. destruct (find _ (rg_entries s)) as [e|] eqn:Ef; cbn [option_map].
    + apply find_some in Ef. split; auto. intros _. exists (fst e). split; [now apply in_map|apply Ef].
    + split; [discriminate|]. intros (y & Hy & Hxy). apply in_map_iff in Hy. destruct Hy as (e & <- & He).
      pose proof (find_none _ _ Ef e He) as Hn. unfold names in Hn. congruence.
Qed.
