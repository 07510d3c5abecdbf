(** Proofs about Volatile.v. *)
From Coq Require Import List ZArith Bool Arith Lia Permutation.
From Verif Require Import Spec MapSpec Base BaseLemmas HashCodeAnalyzer HashCodeAnalyzerProofs IntKeyAnalyzer
  SliceKeyAnalyzer SliceKeyAnalyzerProofs HashTable HashTableProofs Maps MapsProofs FrozenMap
  FrozenMapProofs FrozenMapFacts CapacityProofs BuildSound Iterators IterSpec IteratorProofs
  HistorySpec History HistorySafety Volatile.
Import ListNotations.
Open Scope Z_scope.

(** ** Computations over a state *)

Lemma mbind_ok {W A B} (x : M W A) (f : A -> M W B) w b w' :
  mbind x f w = (Ok b, w') -> exists a w1, x w = (Ok a, w1) /\ f a w1 = (Ok b, w').
Proof.
  unfold mbind. destruct (x w) as [[a|p|u|] w1]; intros H; try discriminate. eauto.
Qed.

Lemma lift_ok {W A} (r : res A) (w : W) a w' : lift r w = (Ok a, w') -> r = Ok a /\ w = w'.
Proof. unfold lift. intros H. injection H as -> ->. auto. Qed.

(** The computation ends, and without undefined behaviour. *)
Definition fine {A} (r : res A) : Prop :=
  match r with Ok _ | Panic _ => True | UB _ | OutOfFuel => False end.
Definition all_fine {W A} (x : M W A) : Prop := forall w, fine (fst (x w)).

Lemma fine_bind {A B} (x : res A) (f : A -> res B) :
  fine x -> (forall a, x = Ok a -> fine (f a)) -> fine (bind x f).
Proof. destruct x; cbn; auto. Qed.
Lemma fine_unwrap {A} (o : option A) : fine (unwrap o).
Proof. now destruct o. Qed.
Lemma fine_arith pr t z : fine (arith pr t z).
Proof. unfold arith. destruct (in_type t z); [exact I|]. now destruct pr. Qed.
Lemma lift_fine {W A} (r : res A) : fine r -> all_fine (W := W) (lift r).
Proof. intros H w. exact H. Qed.
Lemma call_fine {W A} (f : W -> option A * W) : all_fine (call f).
Proof. intros w. unfold call. destruct (f w) as [[a|] w']; exact I. Qed.
Lemma mbind_fine {W A B} (x : M W A) (f : A -> M W B) :
  all_fine x -> (forall a w w', x w = (Ok a, w') -> all_fine (f a)) -> all_fine (mbind x f).
Proof.
  intros Hx Hf w. unfold mbind. specialize (Hx w). destruct (x w) as [[a|p|u|] w'] eqn:Ex; cbn in *; auto.
  apply (Hf a w w' Ex).
Qed.

Lemma v_map_fine {W A B} (f : A -> M W B) l : (forall a, In a l -> all_fine (f a)) -> all_fine (v_map f l).
Proof.
  induction l as [|a l IH]; intros H; cbn [v_map]; [now apply lift_fine|].
  apply mbind_fine; [apply H; now left|]. intros b _ _ _.
  apply mbind_fine; [apply IH; intros; apply H; now right|]. intros bs _ _ _. now apply lift_fine.
Qed.

Lemma v_map_length {W A B} (f : A -> M W B) : forall l w bs w',
  v_map f l w = (Ok bs, w') -> length bs = length l.
Proof.
  induction l as [|a l IH]; cbn [v_map]; intros w bs w' H.
  - apply lift_ok in H. destruct H as (H & _). injection H as <-. reflexivity.
  - apply mbind_ok in H. destruct H as (b & w1 & _ & H). apply mbind_ok in H. destruct H as (bs' & w2 & H1 & H).
    apply lift_ok in H. destruct H as (H & _). injection H as <-. cbn. f_equal. eauto.
Qed.

(** ** The hash table *)

Section Table.
Context {W K V : Type}.
Notation item := (Z * (K * V))%type.

Lemma v_prepare_ok (hash : K -> M W Z) n (payload : list (K * V)) : forall w items w',
  1 <= n -> v_prepare hash n payload w = (Ok items, w') ->
  map snd items = payload /\ forall x, In x items -> 0 <= fst x < n.
Proof.
  induction payload as [|e p IH]; cbn [v_prepare]; intros w items w' Hn H.
  - apply lift_ok in H. destruct H as (H & _). injection H as <-. split; [reflexivity|]. intros x [].
  - apply mbind_ok in H. destruct H as (c & w1 & _ & H). destruct (Z.eqb_spec n 0); [lia|].
    apply mbind_ok in H. destruct H as (rest & w2 & Hr & H).
    apply lift_ok in H. destruct H as (H & _). injection H as <-.
    destruct (IH _ _ _ Hn Hr) as (H1 & H2). split; [cbn; now rewrite H1|].
    intros x [<-|Hx]; auto. cbn [fst]. apply Z.mod_pos_bound. lia.
Qed.

Lemma ht_finish_ok E S_ty n (items : list item) t :
  env_ok E -> imin S_ty = 0 -> imax S_ty < 2 ^ 64 -> zlen items <= imax S_ty -> 1 <= n ->
  (forall x, In x items -> 0 <= fst x < n) ->
  ht_finish E S_ty n items = Ok t ->
  table_safe t /\ Permutation (map snd items) (entries t).
Proof.
  intros HE Hmin H64 Hcap Hn Hrange H. unfold ht_finish in H. cbv zeta in H.
  destruct (HE item fst items) as (Hperm & _).
  set (sorted := usort E item fst items) in *.
  apply bind_ok in H. destruct H as ([ss es] & Hfill & H).
  pose proof (fill_perm _ _ _ _ _ _ _ _ _ Hfill) as Hes. cbn [app] in Hes.
  assert (Hl : zlen (rev sorted) = zlen items).
  { rewrite zlen_rev, <- (zlen_perm _ _ Hperm). reflexivity. }
  change 0 with (wrap i32 0) in Hfill.
  apply (fill_safe _ _ _ _ _ _ n) in Hfill; auto; try lia.
  - destruct Hfill as (Hss & Hok). destruct (Z.eqb_spec (zlen ss) 0); [discriminate|]. injection H as <-.
    split.
    + intros code. unfold ht_get_hash_info. cbn [num_slots slots entries]. rewrite Hss.
      assert (Hidx : 0 <= code mod n < n) by (apply Z.mod_pos_bound; lia).
      destruct (nth_error ss (Z.to_nat (code mod n))) as [s|] eqn:Hs.
      2:{ apply nth_error_None in Hs. unfold zlen in Hss. lia. }
      rewrite Forall_forall in Hok. apply nth_error_In, Hok in Hs. destruct Hs as (Ha & Hb).
      exists (min_index s), (max_index s). rewrite !to_usize_ok by lia. cbn [unwrap bind]. split; auto.
      apply range_ok_iff. subst es. rewrite zlen_map. lia.
    + cbn [entries]. subst es. apply Permutation_map. rewrite <- Permutation_rev. exact Hperm.
  - rewrite zlen_repeat. lia.
  - intros x Hx. apply Hrange. apply in_rev in Hx. now apply (Permutation_in _ (Permutation_sym Hperm)).
  - apply Forall_forall. intros s Hs. apply repeat_spec in Hs. subst s. split; cbn; lia.
Qed.

Lemma v_ht_new_ok E S_ty (payload : list (K * V)) n (hash : K -> M W Z) w t w' :
  env_ok E -> imin S_ty = 0 -> (payload <> [] -> 1 <= n) ->
  v_ht_new E S_ty payload n hash w = (Ok t, w') -> table_safe t /\ Permutation payload (entries t).
Proof.
  intros HE Hmin Hn H. unfold v_ht_new in H. destruct payload as [|e0 p0] eqn:Hp.
  { apply lift_ok in H. destruct H as (H & _). injection H as <-. split; [|constructor].
    intros code. exists 0, 0. unfold ht_get_hash_info. cbn [num_slots slots].
    rewrite Z.mod_1_r. cbn. auto. }
  rewrite <- Hp in *. specialize (Hn ltac:(subst; discriminate)). clear Hp.
  apply mbind_ok in H. destruct H as (cap & w1 & Hcap & H). apply lift_ok in Hcap. destruct Hcap as (Hcap & _).
  assert (Hcap' : cap = imax S_ty /\ imax S_ty < 2 ^ 64).
  { destruct (to_usize (imax S_ty)) eqn:Ht; [|discriminate]. apply to_usize_some in Ht. cbn in Hcap.
    injection Hcap as <-. lia. }
  destruct Hcap' as (-> & H64).
  destruct (Z.ltb_spec (imax S_ty) (zlen payload)); [discriminate|].
  apply mbind_ok in H. destruct H as (items & w2 & Hi & H). apply lift_ok in H. destruct H as (H & _).
  destruct (v_prepare_ok _ _ _ _ _ _ Hn Hi) as (Hs & Hrange).
  assert (Hl : zlen items = zlen payload) by (rewrite <- Hs; symmetry; apply zlen_map).
  apply ht_finish_ok in H; auto; try lia. now rewrite Hs in H.
Qed.

Lemma collect_run_fine pr h : forall stack (it : item) num es,
  fine (collect_run pr h it stack num es) /\
  forall stack' num' es', collect_run pr h it stack num es = Ok (stack', num', es') ->
    (length stack' <= length stack)%nat.
Proof.
  induction stack as [|it' stack IH]; intros it num es; cbn [collect_run];
    (pose proof (fine_arith pr i32 (num + 1)) as Hf);
    destruct (arith pr i32 (num + 1)) as [a|p|u|] eqn:Ea; cbn [bind fine] in *; try contradiction;
    try (split; [exact I|intros; discriminate]).
  - split; [exact I|]. intros s' n' es' H. injection H as <- _ _. auto.
  - destruct (fst it' =? h).
    + destruct (IH it' a (es ++ [snd it])) as (H1 & H2). split; auto.
      intros s' n' es' H. apply H2 in H. cbn. lia.
    + split; [exact I|]. intros s' n' es' H. injection H as <- _ _. auto.
Qed.

Lemma fill_fine pr S_ty : forall fuel (stack : list item) ei ss es,
  (length stack <= fuel)%nat -> fine (fill pr S_ty fuel stack ei ss es).
Proof.
  induction fuel as [|fuel IH]; intros stack ei ss es Hf; destruct stack as [|it stack]; cbn [fill];
    try exact I; [cbn in Hf; lia|].
  destruct (collect_run_fine pr (fst it) stack it 0 es) as (H1 & H2).
  apply fine_bind; [exact H1|]. intros [[stack' num] es'] Hc. cbn in Hf. apply H2 in Hc.
  repeat (apply fine_bind; [try apply fine_unwrap; try apply fine_arith|intros ? _]).
  - unfold store_slot. destruct (_ <? _); exact I.
  - apply IH. lia.
Qed.

Lemma ht_finish_fine E S_ty n (items : list item) : fine (ht_finish E S_ty n items).
Proof.
  unfold ht_finish. cbv zeta. apply fine_bind; [apply fill_fine; rewrite rev_length; lia|].
  intros [ss es] _. destruct (_ =? 0); exact I.
Qed.

Lemma v_ht_new_fine E S_ty (payload : list (K * V)) n (hash : K -> M W Z) :
  (forall e, In e payload -> all_fine (hash (fst e))) -> all_fine (v_ht_new E S_ty payload n hash).
Proof.
  intros Hh. unfold v_ht_new. destruct payload as [|e p] eqn:Hp; [now apply lift_fine|]. rewrite <- Hp in *.
  apply mbind_fine; [apply lift_fine, fine_unwrap|]. intros cap _ _ _. destruct (_ <? _); [now apply lift_fine|].
  apply mbind_fine; [|intros; apply lift_fine, ht_finish_fine].
  clear Hp. revert Hh. induction payload as [|x payload IH]; intros Hh; cbn [v_prepare]; [now apply lift_fine|].
  apply mbind_fine; [apply Hh; now left|]. intros c _ _ _. destruct (_ =? 0); [now apply lift_fine|].
  apply mbind_fine; [apply IH; intros; apply Hh; now right|]. intros. now apply lift_fine.
Qed.

(** Which panics a computation may end in. *)
Definition only_panics (P : panic -> Prop) {A} (x : M W A) : Prop :=
  forall w, match fst (x w) with Panic p => P p | _ => True end.

Lemma only_bind (P : panic -> Prop) {A B} (x : M W A) (f : A -> M W B) :
  only_panics P x -> (forall a w w', x w = (Ok a, w') -> only_panics P (f a)) -> only_panics P (mbind x f).
Proof.
  intros Hx Hf w. unfold mbind. specialize (Hx w). destruct (x w) as [[a|p|u|] w'] eqn:Ex; cbn in *; auto.
  apply (Hf a w w' Ex).
Qed.
Lemma only_lift (P : panic -> Prop) {A} (r : res A) : (forall p, r <> Panic p) -> only_panics P (lift r).
Proof. intros H w. cbn. destruct r; auto. now elim (H p). Qed.
Lemma only_call (P : panic -> Prop) {A} (f : W -> option A * W) : P PForeign -> only_panics P (call f).
Proof. intros H w. unfold call. destruct (f w) as [[a|] w']; cbn; auto. Qed.
Lemma only_map (P : panic -> Prop) {A B} (f : A -> M W B) l : (forall a, In a l -> only_panics P (f a)) -> only_panics P (v_map f l).
Proof.
  induction l as [|a l IH]; intros H; cbn [v_map]; [apply only_lift; discriminate|].
  apply only_bind; [apply H; now left|]. intros b _ _ _.
  apply only_bind; [apply IH; intros; apply H; now right|]. intros bs _ _ _. apply only_lift. discriminate.
Qed.

Lemma ht_finish_total E S_ty n (items : list item) :
  env_ok E -> fits S_ty (zlen items) -> 1 <= n -> (forall x, In x items -> 0 <= fst x < n) ->
  exists t, ht_finish E S_ty n items = Ok t.
Proof.
  intros HE (Hmin & H64 & Hcap & H31) Hn Hrange. unfold ht_finish. cbv zeta.
  destruct (HE item fst items) as (Hperm & Hsorted).
  set (sorted := usort E item fst items) in *.
  assert (Hlen : zlen (rev sorted) = zlen items) by (rewrite zlen_rev, <- (zlen_perm _ _ Hperm); reflexivity).
  destruct (fill_ok (prof E) S_ty (length sorted) (rev sorted) [] (repeat empty_slot (Z.to_nat n)) n)
    as (ss & Hfill & Hss & Hok); auto.
  - cbn. lia.
  - cbn. lia.
  - rewrite rev_length. lia.
  - rewrite zlen_repeat. lia.
  - apply StronglySorted_rev in Hsorted. exact Hsorted.
  - intros x Hx. apply Hrange. apply in_rev in Hx. now apply (Permutation_in _ (Permutation_sym Hperm)).
  - intros i s Hs. apply nth_error_In, repeat_spec in Hs. subst s.
    unfold slot_ok, zlen. cbn. repeat split; lia.
  - cbn in Hfill. change (zlen []) with 0 in Hfill. rewrite Hfill. cbn [bind].
    rewrite Hss. destruct (Z.eqb_spec n 0); [lia|]. eauto.
Qed.

Lemma only_ht_new (P : panic -> Prop) E S_ty (payload : list (K * V)) n (hash : K -> M W Z) :
  env_ok E -> fits S_ty (zlen payload) -> (payload <> [] -> 1 <= n) ->
  (forall e, In e payload -> only_panics P (hash (fst e))) -> only_panics P (v_ht_new E S_ty payload n hash).
Proof.
  intros HE Hfits Hn Hh. unfold v_ht_new. destruct payload as [|e p] eqn:Hp; [apply only_lift; discriminate|].
  rewrite <- Hp in *. specialize (Hn ltac:(subst; discriminate)). clear Hp.
  pose proof Hfits as (Hmin & H64 & Hcap & H31). pose proof (zlen_nonneg payload).
  rewrite to_usize_ok by lia. apply only_bind; [apply only_lift; discriminate|].
  intros cap w w' Hc. apply lift_ok in Hc. destruct Hc as (Hc & _). injection Hc as <-.
  destruct (Z.ltb_spec (imax S_ty) (zlen payload)); [lia|].
  apply only_bind.
  - clear - Hh Hn. induction payload as [|x payload IH]; cbn [v_prepare]; [apply only_lift; discriminate|].
    apply only_bind; [apply Hh; now left|]. intros c _ _ _. destruct (Z.eqb_spec n 0); [lia|].
    apply only_bind; [apply IH; intros; apply Hh; now right|]. intros rest _ _ _. apply only_lift. discriminate.
  - intros items w1 w2 Hi. destruct (v_prepare_ok _ _ _ _ _ _ Hn Hi) as (Hs & Hrange).
    assert (Hl : zlen items = zlen payload) by (rewrite <- Hs; symmetry; apply zlen_map).
    destruct (ht_finish_total E S_ty n items HE ltac:(rewrite Hl; exact Hfits) Hn Hrange) as (t & ->).
    apply only_lift. discriminate.
Qed.

Lemma ht_new_fine E S_ty (payload : list (K * V)) n (hash : K -> res Z) :
  (forall e, In e payload -> fine (hash (fst e))) -> fine (ht_new E S_ty payload n hash).
Proof.
  intros Hh. unfold ht_new. destruct payload as [|e p] eqn:Hp; [exact I|]. rewrite <- Hp in *.
  apply fine_bind; [apply fine_unwrap|]. intros cap _. destruct (_ <? _); [exact I|].
  apply fine_bind; [|intros items _; apply ht_finish_fine].
  clear Hp. revert Hh. induction payload as [|x payload IH]; intros Hh; cbn [prepare]; [exact I|].
  apply fine_bind; [apply Hh; now left|]. intros c _. destruct (_ =? 0); [exact I|].
  apply fine_bind; [apply IH; intros; apply Hh; now right|]. intros. exact I.
Qed.

(** Probing: the loop ends with an answer or with a panic of the foreign code. *)
Definition found_in {A} (l : list A) (r : res (option nat)) : Prop :=
  r = Panic PForeign \/
  exists o, r = Ok o /\ forall i, o = Some i -> exists e, nth_error l i = Some e.

(** A computation that only foreign code can make panic. *)
Definition answers {A} (x : M W A) : Prop :=
  forall w, fst (x w) = Panic PForeign \/ exists a, fst (x w) = Ok a.

Lemma v_find_pos_found {A} (p : A -> M W bool) l : (forall a, answers (p a)) ->
  forall w, found_in l (fst (v_find_pos p l w)).
Proof.
  intros Hp. induction l as [|a l IH]; intros w; cbn [v_find_pos].
  - right. exists None. split; [reflexivity|]. discriminate.
  - unfold mbind. destruct (Hp a w) as [H|(b & H)]; destruct (p a w) as [r w1]; cbn [fst] in H; subst r.
    { now left. }
    destruct b; [right; exists (Some O); split; [reflexivity|]; intros i Hi; injection Hi as <-; cbn; eauto|].
    destruct (IH w1) as [H|(o & H & Ho)]; destruct (v_find_pos p l w1) as [r w2]; cbn [fst] in H; subst r.
    { now left. }
    right. exists (option_map S o). split; [reflexivity|]. intros i Hi. destruct o as [j|]; [|discriminate].
    injection Hi as <-. cbn. auto.
Qed.

Lemma v_probe_found (t : hash_table K V) code (matches : K -> M W bool) :
  table_safe t -> (forall k, answers (matches k)) ->
  forall w, found_in (entries t)
    (fst (mbind (lift (ht_get_hash_info t code)) (fun range => v_probe t range matches) w)).
Proof.
  intros Hs Hm w. destruct (Hs code) as (a & b & Hi & Hr).
  unfold mbind at 1. unfold lift at 1. rewrite Hi. unfold v_probe, slice_unchecked. cbn [fst snd]. rewrite Hr.
  unfold mbind at 1. unfold lift at 1. apply range_ok_iff in Hr. destruct Hr as (Ha & Hb).
  destruct (sub_split a b (entries t) Ha Hb) as (pre & post & He & Hpre & Hlen).
  set (seg := sub a b (entries t)) in *. unfold mbind.
  destruct (v_find_pos_found (fun e => matches (fst e)) seg (fun e => Hm (fst e)) w) as [H|(o & H & Ho)];
    destruct (v_find_pos _ seg w) as [r w2]; cbn [fst] in H; subst r; [now left|].
  right. eexists. split; [reflexivity|]. intros i Hi'. destruct o as [j|]; [|discriminate].
  injection Hi' as <-. destruct (Ho j eq_refl) as (e & Hj). exists e. rewrite He.
  rewrite nth_error_app2 by (unfold zlen in *; lia).
  replace (Z.to_nat a + j - length pre)%nat with j by (unfold zlen in *; lia).
  rewrite nth_error_app1; auto. apply nth_error_Some. congruence.
Qed.
End Table.

(** ** Windows *)

Section Windows.
Context {W : Type}.
Variable h : list Z -> M W Z.
Implicit Types keys : list (list Z).

Lemma v_find_index_range keys l lj acc : forall remaining i w j w',
  v_find_index h keys l lj acc remaining i w = (Ok (Some j), w') -> i <= j < i + Z.of_nat remaining.
Proof.
  induction remaining as [|n IH]; intros i w j w' H; cbn [v_find_index] in H.
  - apply lift_ok in H. destruct H. discriminate.
  - apply mbind_ok in H. destruct H as ([] & w1 & _ & H).
    + apply lift_ok in H. destruct H as (H & _). injection H as <-. lia.
    + apply IH in H. lia.
Qed.

Lemma v_find_subslice_range keys mn mx acc : forall remaining l w r w',
  v_find_subslice h keys mn mx acc remaining l w = (Ok r, w') ->
  match r with
  | LeftHandSubslice i l' | RightHandSubslice i l' =>
      0 <= i /\ l <= l' < l + Z.of_nat remaining /\ i + l' <= mn
  | SliceNormal => True
  | SliceLength => False
  end.
Proof.
  induction remaining as [|n IH]; intros l w r w' H; cbn [v_find_subslice] in H.
  - apply lift_ok in H. destruct H as (H & _). injection H as <-. exact I.
  - apply mbind_ok in H. destruct H as (o & w1 & H1 & H). destruct o as [i|].
    + apply lift_ok in H. destruct H as (H & _). injection H as <-. destruct (l =? mx); [exact I|].
      apply v_find_index_range in H1. lia.
    + apply mbind_ok in H. destruct H as (o & w2 & H2 & H). destruct o as [i|].
      * apply lift_ok in H. destruct H as (H & _). injection H as <-.
        destruct (mn =? mx); [apply lift_ok in H2; destruct H2; discriminate|]. apply v_find_index_range in H2. lia.
      * apply IH in H. destruct r; auto; lia.
Qed.

Lemma v_analyze_range keys w r w' :
  v_analyze_slice_keys h keys w = (Ok r, w') ->
  match r with
  | LeftHandSubslice i l | RightHandSubslice i l =>
      0 <= i /\ 1 <= l <= 16 /\ i + l < 2 ^ 64 /\ forall s, In s keys -> i + l <= zlen s
  | SliceNormal | SliceLength => True
  end.
Proof.
  unfold v_analyze_slice_keys. destruct (analyze_lengths keys) as [|i l|i l|] eqn:El.
  - intros H. apply v_find_subslice_range in H.
    destruct (fold_min_le keys (imax usize)) as (H1 & H2).
    change (imax usize) with (2 ^ 64 - 1) in *.
    set (mn := fold_left _ keys _) in *.
    destruct r; auto; (split; [lia|]); (split; [lia|]); (split; [lia|]); intros s Hs; specialize (H2 s Hs); lia.
  - exfalso. destruct (analyze_lengths_spec keys) as [(E1 & _)|(E1 & _)]; rewrite E1 in El; discriminate.
  - exfalso. destruct (analyze_lengths_spec keys) as [(E1 & _)|(E1 & _)]; rewrite E1 in El; discriminate.
  - intros H. apply lift_ok in H. destruct H as (H & _). injection H as <-. exact I.
Qed.

Lemma take_subslice_fine lj i l (s : list Z) : fine (take_subslice lj i l s).
Proof.
  unfold take_subslice, slice_checked. destruct lj; [destruct (range_ok _ _ _); exact I|].
  cbv zeta. destruct (_ <? 0); [exact I|]. destruct (range_ok _ _ _); exact I.
Qed.

Hypothesis Hh : forall s, all_fine (h s).

Lemma v_find_index_fine keys l lj acc : forall remaining i,
  all_fine (v_find_index h keys l lj acc remaining i).
Proof.
  induction remaining as [|n IH]; intros i; cbn [v_find_index]; [now apply lift_fine|].
  apply mbind_fine.
  - clear IH. generalize ([] : list Z). generalize acc. induction keys as [|s ks IHk]; intros a set; cbn [v_uniqueness_loop];
      [now apply lift_fine|].
    apply mbind_fine; [apply lift_fine, take_subslice_fine|]. intros x _ _ _. apply mbind_fine; [apply Hh|].
    intros c _ _ _. destruct (existsb _ _); [destruct (a =? 0); [now apply lift_fine|]|]; apply IHk.
  - intros [] _ _ _; [now apply lift_fine|]. apply IH.
Qed.

Lemma v_analyze_fine keys : all_fine (v_analyze_slice_keys h keys).
Proof.
  unfold v_analyze_slice_keys. destruct (analyze_lengths keys); try now apply lift_fine.
  cbv zeta. generalize 1. generalize (Z.to_nat (Z.min (fold_left (fun m s => Z.min m (zlen s)) keys (imax usize)) 16)).
  induction n as [|n IH]; intros l; cbn [v_find_subslice]; [now apply lift_fine|].
  apply mbind_fine; [apply v_find_index_fine|]. intros [i|] _ _ _; [now apply lift_fine|].
  apply mbind_fine; [destruct (_ =? _); [now apply lift_fine|apply v_find_index_fine]|].
  intros [i|] _ _ _; [now apply lift_fine|]. apply IH.
Qed.
End Windows.

(** ** Construction *)

Section Facade.
Context {W O V : Type}.
Variable F : conduct W O.
Variable E : env.
Hypothesis HE : env_ok E.
Notation key := (key O).
Notation hasher := (hasher O).
Implicit Types (payload : list (key * V)) (m : map_types O V) (k : key) (bh : hasher).

Lemma codes_positive {A} (p : list A) (codes : list Z) a : length codes = length p -> analyze_hash_codes codes = Ok a ->
  p <> [] -> 1 <= fst a.
Proof.
  intros Hl Ha Hne. destruct (analyze_hash_codes_pos codes) as (s & c & Ha' & Hs).
  rewrite Ha in Ha'. injection Ha' as ->. apply Hs. destruct p, codes; cbn in *; congruence.
Qed.

Lemma v_cm_built S_ty payload bh w cm w' : imin S_ty = 0 ->
  v_cm_from_vec F E S_ty payload bh w = (Ok cm, w') ->
  table_safe (cm_table cm) /\ Permutation payload (entries (cm_table cm)).
Proof.
  intros HS H. unfold v_cm_from_vec in H. apply mbind_ok in H. destruct H as (codes & w1 & Hc & H).
  apply v_map_length in Hc. apply mbind_ok in H. destruct H as (a & w2 & Ha & H). apply lift_ok in Ha.
  apply mbind_ok in H. destruct H as (t & w3 & Ht & H). apply lift_ok in H. destruct H as (H & _).
  injection H as <-. cbn [cm_table]. apply v_ht_new_ok in Ht; auto. eapply codes_positive; eauto. apply Ha.
Qed.

Lemma v_lsm_built S_ty (p : list (list Z * V)) a b bh w sm w' : imin S_ty = 0 -> 0 <= a <= b ->
  v_lsm_from_vec F E S_ty p a b bh w = (Ok sm, w') ->
  (table_safe (slm_table sm) /\ 0 <= slm_start sm <= slm_end sm) /\ Permutation p (entries (slm_table sm)).
Proof.
  intros HS Hab H. unfold v_lsm_from_vec in H. apply mbind_ok in H. destruct H as (codes & w1 & Hc & H).
  apply v_map_length in Hc. apply mbind_ok in H. destruct H as (an & w2 & Ha & H). apply lift_ok in Ha.
  apply mbind_ok in H. destruct H as (t & w3 & Ht & H). apply lift_ok in H. destruct H as (H & _).
  injection H as <-. cbn [slm_table slm_start slm_end]. apply v_ht_new_ok in Ht; auto; [tauto|].
  eapply codes_positive; eauto. apply Ha.
Qed.

Lemma v_rsm_not_built S_ty (p : list (list Z * V)) a b bh w sm w' :
  p <> [] -> 0 <= a < b -> b < 2 ^ 64 -> (forall e, In e p -> zlen (fst e) < 2 ^ 64) ->
  v_rsm_from_vec F E S_ty p a b bh w <> (Ok sm, w').
Proof.
  intros Hne Hab Hb Hk H. unfold v_rsm_from_vec in H. apply mbind_ok in H. destruct H as (codes & w1 & _ & H).
  apply mbind_ok in H. destruct H as (an & w2 & _ & H). apply mbind_ok in H. destruct H as (t & w3 & H & _).
  unfold v_ht_new in H. destruct p as [|e p]; [congruence|].
  apply mbind_ok in H. destruct H as (cap & w4 & _ & H). destruct (cap <? _); [discriminate|].
  apply mbind_ok in H. destruct H as (items & w5 & H & _). cbn [v_prepare] in H.
  apply mbind_ok in H. destruct H as (c & w6 & H & _). unfold v_right_hash in H.
  apply mbind_ok in H. destruct H as (x & w7 & H1 & H). apply lift_ok in H1. destruct H1 as (H1 & _).
  apply mbind_ok in H. destruct H as (y & w8 & H2 & H). apply lift_ok in H2. destruct H2 as (H2 & _).
  unfold v_slice_hash in H. apply mbind_ok in H. destruct H as (s & w9 & H3 & _).
  apply lift_ok in H3. destruct H3 as (H3 & _).
  assert (Hr : right_hash hash_write (prof E) bh (fst e) a b = Ok (hash_write bh s)).
  { unfold right_hash, slice_hash. rewrite H1, H2. cbn [bind]. rewrite H3. reflexivity. }
  destruct (right_hash_forward_fails hash_write (prof E) bh (fst e) a b) as [H'|H'];
    auto; try congruence. apply Hk. now left.
Qed.

Lemma v_built kd payload bh w m w' :
  typed kd payload -> v_new F E kd payload bh w = (Ok m, w') ->
  Permutation payload (fm_iter m) /\ fm_safe kd m.
Proof.
  intros Ht H. unfold v_new in H. destruct (Z.ltb_spec (zlen payload) 4) as [Hl|Hl].
  { apply lift_ok in H. destruct H as (H & _). injection H as <-. cbn. auto. }
  assert (Hne : payload <> []) by (intros ->; change (zlen []) with 0 in *; lia).
  destruct kd.
  - apply lift_ok in H. destruct H as (H & _).
    destruct (built_safe (fun _ _ => true) E HE KindU32 payload bh m Ht) as (H1 & H2 & _); [|auto].
    unfold fm_new. destruct (Z.ltb_spec (zlen payload) 4); [lia|]. exact H.
  - destruct (as_string_payload payload Ht) as (p & Hp & Hm & Hr).
    assert (Hpne : p <> []) by (intros ->; cbn in Hm; congruence).
    unfold v_new_string_map in H. apply mbind_ok in H. destruct H as (p' & w1 & Hp' & H).
    apply lift_ok in Hp'. destruct Hp' as (Hp' & _). rewrite Hp in Hp'. injection Hp' as <-.
    apply mbind_ok in H. destruct H as (an & w2 & Han & H). apply v_analyze_range in Han.
    destruct (_ <=? _); destruct an as [|i l|i l|]; apply mbind_ok in H; destruct H as (x & w3 & Hx & H);
      apply lift_ok in H; destruct H as (H & _); injection H as <-; cbn [fm_safe fm_iter].
    + apply v_cm_built in Hx; [tauto|reflexivity].
    + apply v_lsm_built in Hx; [|reflexivity|lia]. rewrite <- Hm at 1.
      split; [apply Permutation_map; tauto|tauto].
    + exfalso. eapply (v_rsm_not_built u8 p i (i + l)); eauto; lia.
    + apply lift_ok in Hx. destruct Hx as (Hx & _). pose proof (lm_safe E HE u8 eq_refl zlen p x Hx).
      split; [|auto]. rewrite <- Hm at 1. apply Permutation_map.
      unfold lm_from_vec in Hx. apply bind_ok in Hx. destruct Hx as (a & _ & Hx).
      apply bind_ok in Hx. destruct Hx as (t & Ht' & Hx). injection Hx as <-. eapply ht_new_perm; eauto.
    + apply v_cm_built in Hx; [tauto|reflexivity].
    + apply v_lsm_built in Hx; [|reflexivity|lia]. rewrite <- Hm at 1.
      split; [apply Permutation_map; tauto|tauto].
    + exfalso. eapply (v_rsm_not_built usize p i (i + l)); eauto; lia.
    + apply v_cm_built in Hx; [tauto|reflexivity].
  - unfold v_new_common_map in H.
    destruct (_ <=? _); apply mbind_ok in H; destruct H as (x & w3 & Hx & H);
      apply lift_ok in H; destruct H as (H & _); injection H as <-; cbn [fm_safe fm_iter];
      (apply v_cm_built in Hx; [tauto|reflexivity]).
Qed.

Lemma analyze_codes_fine codes : fine (analyze_hash_codes codes).
Proof. destruct (analyze_hash_codes_pos codes) as (s & c & -> & _). exact I. Qed.

Lemma v_cm_fine S_ty payload bh : all_fine (v_cm_from_vec F E S_ty payload bh).
Proof.
  unfold v_cm_from_vec. apply mbind_fine; [apply v_map_fine; intros; apply call_fine|]. intros codes _ _ _.
  apply mbind_fine; [apply lift_fine, analyze_codes_fine|]. intros a _ _ _.
  apply mbind_fine; [apply v_ht_new_fine; intros; apply call_fine|]. intros t _ _ _. now apply lift_fine.
Qed.

Lemma v_slice_hash_fine bh s a b : 0 <= a <= b -> b <= zlen s -> all_fine (v_slice_hash F bh s a b).
Proof.
  intros Hab Hb. unfold v_slice_hash. apply mbind_fine; [|intros; apply call_fine].
  apply lift_fine. unfold slice_unchecked. rewrite (proj2 (range_ok_iff _ _ _)) by auto. exact I.
Qed.

Lemma v_lsm_fine S_ty (p : list (list Z * V)) a b bh : 0 <= a <= b ->
  (forall e, In e p -> b <= zlen (fst e)) -> all_fine (v_lsm_from_vec F E S_ty p a b bh).
Proof.
  intros Hab Hk. unfold v_lsm_from_vec. apply mbind_fine.
  { apply v_map_fine. intros e He. cbv zeta. destruct (_ <=? _); [|now apply lift_fine].
    apply v_slice_hash_fine; auto. }
  intros codes _ _ _. apply mbind_fine; [apply lift_fine, analyze_codes_fine|]. intros an _ _ _.
  apply mbind_fine; [apply v_ht_new_fine; intros; apply v_slice_hash_fine; auto|]. intros t _ _ _. now apply lift_fine.
Qed.

Lemma u32_map_fine payload : typed KindU32 payload -> fine (fm_new_u32_map E payload).
Proof.
  intros Ht. destruct (as_u32_payload payload Ht) as (p & Hp & _ & _).
  unfold fm_new_u32_map. rewrite Hp. cbn [bind]. apply fine_bind.
  - unfold analyze_int_keys. apply fine_bind.
    + generalize (imax u32) (imin u32) 0. induction (map fst p) as [|n l IH]; intros a b c; cbn [scan_int_keys]; [exact I|].
      apply fine_bind; [apply fine_arith|]. intros c' _. apply IH.
    + intros [[mn mx] count] _. destruct (count =? 0); [exact I|].
      apply fine_bind; [apply fine_arith|]. intros x _. apply fine_bind; [apply fine_arith|]. intros y _. exact I.
  - intros an _. destruct an.
    + assert (Him : forall S_ty, fine (im_from_vec E S_ty p)).
      { intros S_ty. unfold im_from_vec. apply fine_bind; [apply analyze_codes_fine|]. intros a _.
        apply fine_bind; [apply ht_new_fine; intros; exact I|]. intros t _. exact I. }
      destruct (_ <=? _); (apply fine_bind; [apply Him|intros; exact I]).
    + apply fine_bind; [|intros; exact I]. unfold irm_from_vec. destruct p; [exact I|]. cbv zeta.
      apply fine_bind; [unfold index_checked; destruct (if _ : bool then _ else _); exact I|]. intros a _.
      apply fine_bind; [unfold index_checked; destruct (if _ : bool then _ else _); exact I|]. intros b _.
      apply fine_bind; [apply fine_arith|]. intros c _. apply fine_bind; [apply fine_unwrap|]. intros d _.
      destruct (_ =? _); exact I.
Qed.

(** The only way into undefined behaviour is a window counted from the right. *)
Definition right_window_chosen_as (payload : list (key * V)) bh (w : W) i l : Prop :=
  exists w1, v_analyze_slice_keys (fun s => call (on_hash_slice F bh s)) (str_keys payload) w =
    (Ok (RightHandSubslice i l), w1).
Definition right_window_chosen (payload : list (key * V)) bh (w : W) : Prop :=
  exists i l, right_window_chosen_as payload bh w i l.

Lemma v_new_fine kd payload bh w :
  typed kd payload -> (kd = KindString -> ~ right_window_chosen payload bh w) ->
  fine (fst (v_new F E kd payload bh w)).
Proof.
  intros Ht Hno. unfold v_new. destruct (Z.ltb_spec (zlen payload) 4); [exact I|]. destruct kd.
  - now apply u32_map_fine.
  - specialize (Hno eq_refl). destruct (as_string_payload payload Ht) as (p & Hp & Hm & Hr).
    unfold v_new_string_map. rewrite Hp. unfold mbind at 1. unfold lift at 1. unfold mbind at 1.
    assert (Hkeys : map fst p = str_keys payload).
    { unfold str_keys. rewrite <- Hm, map_map. apply map_ext. intros []. reflexivity. }
    pose proof (v_analyze_fine (fun s => call (on_hash_slice F bh s)) (fun s => call_fine _) (map fst p) w) as Hf.
    pose proof (v_analyze_range (fun s => call (on_hash_slice F bh s)) (map fst p) w) as Hrange.
    unfold right_window_chosen, right_window_chosen_as in Hno. rewrite <- Hkeys in Hno.
    destruct (v_analyze_slice_keys _ (map fst p) w) as [[an|pn|u|] w1] eqn:Ean; cbn [fst fine] in *; auto.
    specialize (Hrange an w1 eq_refl).
    destruct an as [|i l|i l|].
    + destruct (_ <=? _); (apply mbind_fine; [apply v_cm_fine|intros; now apply lift_fine]).
    + assert (Hk : forall e, In e p -> i + l <= zlen (fst e)) by (intros e He; apply Hrange; now apply in_map).
      destruct (_ <=? _); (apply mbind_fine; [apply v_lsm_fine; auto; lia|intros; now apply lift_fine]).
    + exfalso. apply Hno. eauto.
    + destruct (_ <=? _).
      * apply mbind_fine; [|intros; now apply lift_fine]. apply lift_fine. unfold lm_from_vec.
        apply fine_bind; [apply analyze_codes_fine|]. intros a _.
        apply fine_bind; [apply ht_new_fine; intros; exact I|]. intros t _. exact I.
      * apply mbind_fine; [apply v_cm_fine|intros; now apply lift_fine].
  - unfold v_new_common_map. destruct (_ <=? _); (apply mbind_fine; [apply v_cm_fine|intros; now apply lift_fine]).
Qed.

(** Construction always ends. *)
Lemma v_new_ends kd payload bh w : typed kd payload -> fst (v_new F E kd payload bh w) <> OutOfFuel.
Proof.
  intros Ht.
  set (ends := fun (A : Type) (x : M W A) => forall w, fst (x w) <> OutOfFuel).
  assert (Hfine : forall A (x : M W A), all_fine x -> ends A x).
  { intros A x H w0. specialize (H w0). destruct (fst (x w0)); cbn in H; try discriminate; contradiction. }
  assert (Hbind : forall A B (x : M W A) (f : A -> M W B), ends A x -> (forall a, ends B (f a)) -> ends B (mbind x f)).
  { intros A B x f Hx Hf w0. unfold mbind. specialize (Hx w0). destruct (x w0) as [[a|p|u|] w1]; cbn in *; try discriminate; auto.
    apply Hf. }
  assert (Hlift : forall A (r : res A), r <> OutOfFuel -> ends A (lift r)) by (intros A r Hr w0; exact Hr).
  assert (Hr : forall s i l, ends Z (v_right_hash F E bh s i l)).
  { intros s i l. assert (Ha : forall z, arith (prof E) usize z <> OutOfFuel).
    { intros z. pose proof (fine_arith (prof E) usize z). destruct (arith _ _ _); try discriminate; contradiction. }
    apply Hbind; [apply Hlift, Ha|]. intros a. apply Hbind; [apply Hlift, Ha|]. intros b.
    apply Hbind; [|intros x; apply Hfine, call_fine]. apply Hlift. unfold slice_unchecked. destruct (range_ok _ _ _); discriminate. }
  assert (Hrsm : forall S_ty p i l, ends _ (v_rsm_from_vec (V := V) F E S_ty p i l bh)).
  { intros S_ty p i l. apply Hbind.
    { induction p as [|e p IH]; cbn [v_map]; [apply Hlift; discriminate|]. apply Hbind.
      - destruct (_ <=? _); [apply Hr|apply Hlift; discriminate].
      - intros b. apply Hbind; auto. intros bs. apply Hlift. discriminate. }
    intros codes. apply Hbind; [apply Hfine, lift_fine, analyze_codes_fine|]. intros an.
    apply Hbind; [|intros t; apply Hlift; discriminate].
    unfold v_ht_new. destruct p as [|e0 q] eqn:Hp; [apply Hlift; discriminate|]. rewrite <- Hp. clear Hp.
    apply Hbind; [apply Hfine, lift_fine, fine_unwrap|]. intros cap. destruct (_ <? _); [apply Hlift; discriminate|].
    apply Hbind; [|intros items; apply Hfine, lift_fine, ht_finish_fine].
    induction p as [|x p IH]; cbn [v_prepare]; [apply Hlift; discriminate|].
    apply Hbind; [apply Hr|]. intros c. destruct (_ =? 0); [apply Hlift; discriminate|].
    apply Hbind; auto. intros rest. apply Hlift. discriminate. }
  assert (Hcases : (exists i l, right_window_chosen_as payload bh w i l) \/ ~ right_window_chosen payload bh w).
  { unfold right_window_chosen, right_window_chosen_as.
    destruct (v_analyze_slice_keys _ (str_keys payload) w) as [[[|i l|i l|]|p|u|] w1];
      try (right; intros (i' & l' & w2 & H); discriminate). left. eauto. }
  destruct Hcases as [(i & l & w1 & Hc)|Hc].
  - destruct kd; try (pose proof (v_new_fine _ payload bh w Ht ltac:(discriminate)) as Hf;
      destruct (fst (v_new F E _ payload bh w)); try discriminate; contradiction).
    unfold v_new. destruct (_ <? 4); [discriminate|].
    destruct (as_string_payload payload Ht) as (p & Hp & Hm & _).
    assert (Hkeys : map fst p = str_keys payload).
    { unfold str_keys. rewrite <- Hm, map_map. apply map_ext. intros []. reflexivity. }
    unfold v_new_string_map. rewrite Hp. unfold mbind at 1. unfold lift at 1. rewrite Hkeys. unfold mbind at 1.
    rewrite Hc. destruct (_ <=? _); (apply Hbind; [apply Hrsm|intros x; apply Hlift; discriminate]).
  - pose proof (v_new_fine kd payload bh w Ht (fun _ => Hc)) as Hf.
    destruct (fst (v_new F E kd payload bh w)); try discriminate. contradiction.
Qed.

(** ** Lookups *)

Lemma v_key_eq_answers a b : answers (v_key_eq F a b).
Proof.
  intros w. destruct a, b; cbn; eauto. unfold call. destruct (on_eq F o o0 w) as [[]]; cbn; eauto.
Qed.

Lemma call_answers {A} (f : W -> option A * W) : answers (call f).
Proof. intros w. unfold call. destruct (f w) as [[]]; cbn; eauto. Qed.

Lemma code_then {A} (l : list A) (c : M W Z) (f : Z -> M W (option nat)) :
  answers c -> (forall code w, found_in l (fst (f code w))) -> forall w, found_in l (fst (mbind c f w)).
Proof.
  intros Hc Hf w. unfold mbind. destruct (Hc w) as [H|(a & H)]; destruct (c w) as [r w1]; cbn [fst] in H; subst r.
  - now left.
  - apply Hf.
Qed.

Lemma found_map {A B} (f : A -> B) l r : found_in l r -> found_in (map f l) r.
Proof.
  intros [H|(o & H & Ho)]; [now left|]. right. exists o. split; auto. intros i Hi.
  destruct (Ho i Hi) as (e & He). rewrite nth_error_map, He. cbn. eauto.
Qed.

Lemma pure_probe_found (t : hash_table (list Z) V) code s : table_safe t ->
  forall w, found_in (entries t)
    (fst (mbind (lift (ht_get_hash_info t code)) (fun range => lift (ht_probe t range (fun x => bytes_eqb s x))) w : _ * W)).
Proof.
  intros Ht w. destruct (probe_weak t code (fun x => bytes_eqb s x) Ht) as (r & H1 & _ & H3).
  unfold mbind, lift. destruct (Ht code) as (a & b & Hi & _). rewrite Hi in H1 |- *. cbn [bind fst] in *.
  rewrite H1. right. exists r. split; auto. intros i Hr. destruct (H3 i Hr) as (e & He & _). eauto.
Qed.

Lemma v_find_found kd m k w : fm_safe kd m -> has_kind kd k -> found_in (fm_iter m) (fst (v_find F E m k w)).
Proof.
  intros Hs Hk.
  assert (Hcm : forall cm : common_map key V hasher, table_safe (cm_table cm) ->
    found_in (entries (cm_table cm)) (fst (v_cm_find F cm k w))).
  { intros cm Ht. apply code_then; [apply call_answers|]. intros code w1.
    apply v_probe_found; auto. intros k'. apply v_key_eq_answers. }
  assert (Hleft : forall (sm : slice_map V hasher) s, table_safe (slm_table sm) /\ 0 <= slm_start sm <= slm_end sm ->
    found_in (entries (slm_table sm)) (fst (v_lsm_find F sm s w))).
  { intros sm s (Ht & Hab). apply code_then.
    - destruct (Z.leb_spec (slm_end sm) (zlen s)); [|intros w1; cbn; eauto].
      unfold v_slice_hash, slice_unchecked. rewrite (proj2 (range_ok_iff _ _ _)) by auto. apply call_answers.
    - intros code w1. now apply pure_probe_found. }
  assert (Hright : forall (sm : slice_map V hasher) s, zlen s < 2 ^ 64 ->
    table_safe (slm_table sm) /\ 0 <= slm_end sm <= slm_start sm ->
    found_in (entries (slm_table sm)) (fst (v_rsm_find F E sm s w))).
  { intros sm s Hz (Ht & Hab). apply code_then.
    - destruct (Z.leb_spec (slm_start sm) (zlen s)); [|intros w1; cbn; eauto].
      unfold v_right_hash. rewrite !arith_ok by (change (imin usize) with 0; change (imax usize) with (2 ^ 64 - 1); lia).
      enough (H0 : answers (v_slice_hash F (slm_bh sm) s (zlen s - slm_start sm) (zlen s - slm_end sm))) by exact H0.
      unfold v_slice_hash, slice_unchecked. rewrite (proj2 (range_ok_iff _ _ _)) by lia. apply call_answers.
    - intros code w1. now apply pure_probe_found. }
  (* the maps in which no foreign code runs *)
  assert (Hpure : (forall w, v_find F E m k w = (fm_get_at (fun _ _ => true) E m k, w)) ->
    found_in (fm_iter m) (fst (v_find F E m k w))).
  { intros H. rewrite H. cbn [fst]. destruct (fm_lookup_safe (fun _ _ => true) E kd m k Hs Hk) as (r & -> & _ & _ & _ & Hr).
    right. exists r. split; auto. intros i Hi. destruct (Hr i Hi) as (e & He & _). eauto. }
  destruct m as [sm|cm|cm|im|im|rm|lm|lm|rm|rm|lem]; cbn [fm_safe] in Hs.
  - apply v_find_pos_found. intros e. apply v_key_eq_answers.
  - now apply Hcm.
  - now apply Hcm.
  - apply Hpure. intros w1. destruct k; reflexivity.
  - apply Hpure. intros w1. destruct k; reflexivity.
  - apply Hpure. intros w1. destruct k; reflexivity.
  - destruct Hs as (-> & Hs). destruct (has_kind_string k Hk) as (s & -> & Hz). apply found_map. now apply Hleft.
  - destruct Hs as (-> & Hs). destruct (has_kind_string k Hk) as (s & -> & Hz). apply found_map. now apply Hleft.
  - destruct Hs as (-> & Hs). destruct (has_kind_string k Hk) as (s & -> & Hz). apply found_map. now apply Hright.
  - destruct Hs as (-> & Hs). destruct (has_kind_string k Hk) as (s & -> & Hz). apply found_map. now apply Hright.
  - apply Hpure. intros w1. destruct k; reflexivity.
Qed.
End Facade.
