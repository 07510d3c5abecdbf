(** Lawful code of the caller may have side effects: maps behave as if it had none. *)
From Coq Require Import List ZArith Bool Arith Lia Permutation.
From Verif Require Import VolatileSafety VolatileMapProofs VolatileSetTheorems.
From Verif Require Import Spec MapSpec Base BaseLemmas HashCodeAnalyzer HashTable HashTableProofs Maps MapsProofs FrozenMap
  FrozenMapFacts Iterators IterSpec IteratorProofs HistorySpec ObjectSpec History HistoryProofs MapObjects MapObjectProofs MapObjectEq
  MapTheorems SetTheorems FrozenSet Volatile VolatileSets VolatileProofs VolatileMaps EffectSpec.
Import ListNotations.
Open Scope Z_scope.

Section Lawful.
Context {W K Q V BH : Type}.
Variable F : foreign W K Q BH.
Variable a : oracle K Q BH.
Variable E : env.
Hypothesis HF : regular_foreign F a.
Notation nm := (@names K V Q (a_eq a) (a_borrow a)).
Implicit Types (m : special K V BH) (sh : shape BH) (w : W).

(** The codes as values. *)
Definition key_code sh (k : K) : Z :=
  match sh with
  | Scanning => 0
  | Common bh => a_hash_key a bh k
  | Length => a_len_key a k
  | Integer => a_as_key a k
  | LeftSlice bh x y => a_slice_hash_key a bh k x y
  | RightSlice bh x y => a_slice_hash_key a bh k (a_len_key a k - x) (a_len_key a k - y)
  end.
Definition query_code sh (q : Q) : Z :=
  match sh with
  | Scanning => 0
  | Common bh => a_hash_query a bh q
  | Length => a_len_query a q
  | Integer => a_as_query a q
  | LeftSlice bh x y => if y <=? a_len_query a q then a_slice_hash_query a bh q x y else 0
  | RightSlice bh x y =>
      if x <=? a_len_query a q then a_slice_hash_query a bh q (a_len_query a q - x) (a_len_query a q - y) else 0
  end.

Lemma from_right_same (len : M W Z) n x y (hash : Z -> Z -> M W Z) h :
  same len (Ok n) -> (forall i j, same (hash i j) (Ok (h i j))) -> 0 <= y <= x -> x <= n < 2 ^ 64 ->
  same (sp_from_right E len x y hash) (Ok (h (n - x) (n - y))).
Proof.
  intros Hl Hh Hxy Hn.
  assert (Ha : forall d, 0 <= d <= n -> arith (prof E) usize (n - d) = Ok (n - d)).
  { intros d Hd. apply arith_ok. cbn. lia. }
  unfold sp_from_right. eapply same_eq.
  - apply (same_bind _ _ _ (fun l1 => i <- arith (prof E) usize (l1 - x) ;; j <- arith (prof E) usize (n - y) ;; Ok (h i j)) Hl).
    intros l1. apply same_bind; [apply same_lift|]. intros i.
    eapply same_eq; [apply (same_bind _ _ _ (fun l2 => j <- arith (prof E) usize (l2 - y) ;; Ok (h i j)) Hl)|reflexivity].
    intros l2. apply same_bind; [apply same_lift|]. intros j. apply Hh.
  - cbn [bind]. rewrite !Ha by lia. reflexivity.
Qed.

Lemma guard_same (len : M W Z) n c (x : M W Z) z : same len (Ok n) -> (c <= n -> same x (Ok z)) ->
  same (mbind len (fun l => if c <=? l then x else lift (Ok 0))) (Ok (if c <=? n then z else 0)).
Proof.
  intros Hl Hx w. unfold mbind. specialize (Hl w). destruct (len w) as [r w']. cbn [fst] in Hl. subst r.
  destruct (Z.leb_spec c n); [now apply Hx|reflexivity].
Qed.

Lemma query_code_same sh keys q : fitting a sh keys -> same (sp_query_code F E sh q) (Ok (query_code sh q)).
Proof.
  intros Hfit. destruct sh as [|bh| | |bh x y|bh x y]; cbn [sp_query_code query_code fitting] in *;
    try (apply same_lift); try (apply same_call, HF).
  - apply guard_same; [apply same_call, HF|]. intros _. apply same_call, HF.
  - destruct Hfit as (_ & _ & _ & _ & Hxy & Hmax & _). apply guard_same; [apply same_call, HF|]. intros Hx.
    apply (from_right_same _ (a_len_query a q) x y _ (a_slice_hash_query a bh q)); auto;
      [apply same_call, HF|intros; apply same_call, HF].
Qed.

Lemma fitting_code sh keys k q : fitting a sh keys -> equivalence (a_eq a) -> In k keys -> a_eq a q (a_borrow a k) = true ->
  key_code sh k = query_code sh q.
Proof.
  intros Hfit He Hk Hq. destruct sh as [|bh| | |bh x y|bh x y]; cbn [key_code query_code fitting] in *.
  - reflexivity.
  - destruct Hfit as (H1 & H2). now rewrite H1, (H2 _ _ Hq).
  - destruct Hfit as (H1 & H2). now rewrite H1, (H2 _ _ Hq).
  - destruct Hfit as (H1 & H2). now rewrite H1, (H2 _ _ Hq).
  - destruct Hfit as (L1 & L2 & H1 & H2 & Hend). specialize (Hend k Hk). rewrite L1, <- (L2 _ _ Hq) in Hend.
    rewrite (proj2 (Z.leb_le _ _) Hend), H1. symmetry. now apply H2.
  - destruct Hfit as (L1 & L2 & H1 & H2 & Hxy & Hmax & Hend). specialize (Hend k Hk). rewrite L1, <- (L2 _ _ Hq) in *.
    rewrite (proj2 (Z.leb_le _ _) Hend), H1. symmetry. now apply H2.
Qed.

Lemma lawful_build S_ty sh (payload : list (K * V)) w :
  env_ok E -> fits S_ty (zlen payload) -> sh <> Scanning -> fitting a sh (map fst payload) ->
  exists t, fst (sp_from_vec F E S_ty sh payload w) = Ok (InTable sh t) /\
    Permutation payload (entries t) /\ table_ok (key_code sh) t.
Proof.
  intros HE HS Hsh Hfit.
  assert (Hc : exists h1 h2, (forall k, same (sp_analysis_code F E sh k) (h1 k)) /\ (forall k, same (sp_table_code F E sh k) (h2 k)) /\
    forall k, In k (map fst payload) -> h1 k = Ok (key_code sh k) /\ h2 k = Ok (key_code sh k)).
  { destruct sh as [|bh| | |bh x y|bh x y]; [congruence|..]; cbn [sp_analysis_code sp_table_code key_code fitting] in *.
    - exists (fun k => Ok (a_hash_key a bh k)), (fun k => Ok (a_hash_key a bh k)).
      split; [|split; [|auto]]; intros k; apply same_call, HF.
    - exists (fun k => Ok (a_len_key a k)), (fun k => Ok (a_len_key a k)).
      split; [|split; [|auto]]; intros k; apply same_call, HF.
    - exists (fun k => Ok (a_as_key a k)), (fun k => Ok (a_as_key a k)).
      split; [|split; [|auto]]; intros k; apply same_call, HF.
    - exists (fun k => Ok (if y <=? a_len_key a k then a_slice_hash_key a bh k x y else 0)), (fun k => Ok (a_slice_hash_key a bh k x y)).
      split; [|split].
      + intros k. apply guard_same; [apply same_call, HF|]. intros _. apply same_call, HF.
      + intros k. apply same_call, HF.
      + intros k Hk. destruct Hfit as (_ & _ & _ & _ & Hend). now rewrite (proj2 (Z.leb_le _ _) (Hend k Hk)).
    - set (h := fun k => i <- arith (prof E) usize (a_len_key a k - x) ;; j <- arith (prof E) usize (a_len_key a k - y) ;;
                         Ok (a_slice_hash_key a bh k i j)).
      assert (Hh : forall k, same (sp_from_right E (call (f_len_key F k)) x y (fun i j => call (f_slice_hash_key F bh k i j))) (h k)).
      { intros k. pose proof (same_call (f_len_key F k) (a_len_key a k) (proj1 (proj2 (proj2 (proj2 (proj2 HF)))) k)) as Hl.
        unfold sp_from_right. eapply same_eq; [apply (same_bind _ _ _ (fun l1 => i <- arith (prof E) usize (l1 - x) ;;
          j <- arith (prof E) usize (a_len_key a k - y) ;; Ok (a_slice_hash_key a bh k i j)) Hl)|reflexivity].
        intros l1. apply same_bind; [apply same_lift|]. intros i.
        eapply same_eq; [apply (same_bind _ _ _ (fun l2 => j <- arith (prof E) usize (l2 - y) ;; Ok (a_slice_hash_key a bh k i j)) Hl)|reflexivity].
        intros l2. apply same_bind; [apply same_lift|]. intros j. apply same_call, HF. }
      destruct Hfit as (L1 & _ & _ & _ & Hxy & Hmax & Hend).
      assert (Hk : forall k, In k (map fst payload) -> h k = Ok (a_slice_hash_key a bh k (a_len_key a k - x) (a_len_key a k - y))).
      { intros k Hk. unfold h. specialize (Hend k Hk). specialize (Hmax (a_borrow a k)). rewrite <- L1 in Hmax.
        rewrite !arith_ok by (cbn; lia). reflexivity. }
      exists (fun k => if y <=? a_len_key a k then h k else Ok 0), h. split; [|split; [exact Hh|]].
      + intros k w0. pose proof (same_call (f_len_key F k) (a_len_key a k) (proj1 (proj2 (proj2 (proj2 (proj2 HF)))) k) w0) as Hl.
        unfold mbind. destruct (call (f_len_key F k) w0) as [r w1]. cbn [fst] in Hl. subst r.
        destruct (_ <=? _); [apply Hh|reflexivity].
      + intros k Hkin. rewrite (Hk k Hkin). specialize (Hend k Hkin). rewrite (proj2 (Z.leb_le y _)) by lia. auto. }
  destruct Hc as (h1 & h2 & H1 & H2 & Hh).
  rewrite (agrees_strict _ _ (agrees_from_vec false F E S_ty sh payload h1 h2 Hsh (fun k => or_intror (H1 k)) (fun k => or_intror (H2 k))) w).
  rewrite (mapM_ok _ (fun e => key_code sh (fst e))).
  2:{ intros e He. apply Hh. now apply in_map. }
  cbn [bind].
  destruct (build_table E S_ty payload (map (fun e => key_code sh (fst e)) payload) h2 (key_code sh)) as (an & t & Ha & Ht & HP & Hok); auto.
  { destruct payload; [congruence|discriminate]. }
  { intros e He. apply Hh. now apply in_map. }
  rewrite Ha. cbn [bind]. rewrite Ht. cbn [bind]. eauto.
Qed.

(** A map in which lookups find the first entry with the key. *)
Definition in_order sh m : Prop :=
  match m with
  | Entries _ => True
  | InTable sh' t => sh' = sh /\ table_ok (key_code sh) t /\ fitting a sh (map fst (entries t))
  end.

Lemma lawful_find sh m q : equivalence (a_eq a) -> in_order sh m ->
  same (sp_find F E m q) (Ok (find_pos (nm q) (sp_entries m))).
Proof.
  intros He. destruct m as [es|sh' t]; cbn [in_order sp_find sp_entries].
  - intros _. apply same_find_pos. intros e. now apply matches_answer.
  - intros (-> & Hok & Hfit).
    eapply same_eq; [apply agrees_strict, (find_answer F a E HF false sh t q _ (or_intror (query_code_same sh _ q Hfit)))|].
    cbn [bind].
    destruct (probe_ok (key_code sh) t (query_code sh q) (fun k => a_eq a q (a_borrow a k)) Hok) as (-> & _); [|reflexivity].
    intros e Hin Hq. apply (fitting_code sh (map fst (entries t))); auto. now apply in_map.
Qed.

Definition sp_object : map_object (special K V BH) K V Q :=
  {| mo_entries := sp_entries;
     mo_len := fun m => zlen (sp_entries m);
     mo_get_at := fun m q => Ok (find_pos (nm q) (sp_entries m));
     mo_get := fun m q => Ok (option_map snd (find (nm q) (sp_entries m)));
     mo_get_mut := fun m q => Ok (find_pos (nm q) (sp_entries m));
     mo_get_key_value := fun m q => Ok (find (nm q) (sp_entries m));
     mo_write := sp_write |}.

Lemma sp_write_entries i v m : sp_entries (sp_write i v m) = write_entry i v (sp_entries m).
Proof. now destruct m. Qed.

Lemma in_order_write sh i v m : in_order sh m -> in_order sh (sp_write i v m).
Proof.
  destruct m as [es|sh' t]; cbn [in_order sp_write]; auto. intros (Hs & Hok & Hfit). split; auto.
  cbn [write_table entries]. rewrite write_entry_keys. split; auto.
  apply (table_ok_write (key_code sh) t); auto. apply write_entry_keys.
Qed.

Lemma sp_searches sh : searches (a_eq a) (a_borrow a) sp_object (fun _ => True) (in_order sh).
Proof.
  split; [|split; [|split]]; auto.
  - intros m i w. apply sp_write_entries.
  - intros m i w. apply in_order_write.
Qed.

Lemma lawful_get sh m q : equivalence (a_eq a) -> in_order sh m ->
  same (sp_get F E m q) (Ok (option_map snd (find (nm q) (sp_entries m)))).
Proof.
  intros He H. eapply same_eq; [apply (same_bind _ _ _ (deref (sp_entries m)) (lawful_find sh m q He H)); intros; apply same_lift|].
  cbn [bind]. apply deref_find_pos.
Qed.

Lemma lawful_many sh m qs : equivalence (a_eq a) -> in_order sh m ->
  same (sp_get_many_mut F E m qs) (mo_get_many_mut (a_eq a) sp_object m qs).
Proof.
  intros He H. unfold sp_get_many_mut, mo_get_many_mut, get_many_mut.
  assert (Hd : forall keys seen, same (sp_has_duplicate_key F seen keys) (Ok (has_duplicate_key (a_eq a) seen keys))).
  { induction keys as [|k keys IH]; intros seen; cbn [sp_has_duplicate_key has_duplicate_key]; [apply same_lift|].
    eapply same_eq; [apply (same_bind _ (Ok (find_pos (fun j => a_eq a j k) seen)) _ (fun r => match r with
      | Some _ => Ok true | None => Ok (has_duplicate_key (a_eq a) (seen ++ [k]) keys) end))|].
    - apply same_find_pos. intros j. apply same_call, HF.
    - intros [i|]; [apply same_lift|apply IH].
    - rewrite find_pos_existsb. cbn [bind]. now destruct (find_pos _ seen). }
  eapply same_eq; [apply (same_bind _ _ _ (fun d => if d : bool then Ok None else get_each (mo_get_at sp_object m) qs) (Hd qs []))|reflexivity].
  intros []; [apply same_lift|]. clear Hd.
  induction qs as [|k keys IH]; cbn [sp_get_each get_each]; [apply same_lift|].
  apply same_bind; [now apply (lawful_find sh)|]. intros [i|]; [|apply same_lift]. apply same_bind; auto. intros rs. apply same_lift.
Qed.

Lemma sp_step_same sh m (o : op Q V) w : equivalence (a_eq a) -> in_order sh m -> zlen (sp_entries m) < 2 ^ 64 ->
  exists w', sp_step F E m o w =
    (Some (fst (mo_step (prof E) (a_eq a) sp_object m o)), snd (mo_step (prof E) (a_eq a) sp_object m o), w').
Proof.
  intros He H Hz.
  assert (Hsee : forall A (x : M W A) r (f : A -> obs K V), same x (Ok r) ->
    exists w', (let (r0, w'0) := x w in (sp_observe m r0 f, m, w'0)) = (Some (f r), m, w')).
  { intros A x r f Hx. specialize (Hx w). destruct (x w) as [r0 w0]. cbn [fst] in Hx. subst r0. eexists. reflexivity. }
  destruct o as [k|k|k|k| | | |k v|k v|kws]; cbn [sp_step mo_step sp_object mo_get mo_get_key_value mo_get_mut mo_len mo_entries mo_write];
    try (eexists; reflexivity).
  - apply Hsee. now apply (lawful_get sh).
  - apply Hsee. eapply same_eq;
      [apply (same_bind _ _ _ (fun r => Ok (match r with Some i => nth_error (sp_entries m) i | None => None end)) (lawful_find sh m k He H)); intros; apply same_lift|].
    cbn [bind]. now rewrite find_find_pos.
  - apply Hsee. eapply same_eq;
      [apply (same_bind _ _ _ (fun r => Ok (match r with Some _ => true | None => false end)) (lawful_get sh m k He H)); intros; apply same_lift|reflexivity].
  - assert (Hx : same (sp_index F E m k) (unwrap (option_map snd (find (nm k) (sp_entries m))))).
    { eapply same_eq; [apply (same_bind _ _ _ unwrap (lawful_get sh m k He H)); intros; apply same_lift|reflexivity]. }
    unfold mo_index, index_of. cbn [mo_get sp_object bind]. specialize (Hx w). destruct (sp_index F E m k w) as [r0 w0]. cbn [fst] in Hx. subst r0.
    destruct (option_map snd _); eexists; reflexivity.
  - exists w. pose proof (fun it b l => it_at_cons (prof E) (sp_entries m) it b l Hz) as Hcons.
    rewrite (R_fold (it_next (prof E)) (it_at (sp_entries m)) (it_at_nil (prof E) (sp_entries m)) Hcons _ (sp_entries m));
      [reflexivity|apply it_at_new|lia].
  - pose proof (lawful_find sh m k He H w) as Hf.
    destruct (sp_find F E m k w) as [r0 w0]. cbn [fst] in Hf. subst r0. destruct (find_pos _ _); eexists; reflexivity.
  - assert (Hx : same (sp_index_mut F E m k) (unwrap (find_pos (nm k) (sp_entries m)))).
    { eapply same_eq; [apply (same_bind _ _ _ unwrap (lawful_find sh m k He H)); intros; apply same_lift|reflexivity]. }
    unfold mo_index_mut, index_of. cbn [mo_get_mut sp_object bind]. specialize (Hx w). destruct (sp_index_mut F E m k w) as [r0 w0].
    cbn [fst] in Hx. subst r0. destruct (find_pos _ _); eexists; reflexivity.
  - pose proof (lawful_many sh m (map fst kws) He H w) as Hf.
    assert (Hr : exists r, mo_get_many_mut (a_eq a) sp_object m (map fst kws) = Ok r).
    { unfold mo_get_many_mut, get_many_mut. destruct (has_duplicate_key _ _ _); [eauto|].
      destruct (get_each_spec (mo_get_at sp_object m) (fun q => find_pos (nm q) (sp_entries m)) (map fst kws))
        as [(ps & -> & _)|(-> & _)]; eauto. }
    destruct Hr as (r & Hr). rewrite Hr in *. destruct (sp_get_many_mut F E m (map fst kws) w) as [r0 w0]. cbn [fst] in Hf. subst r0.
    destruct r; eexists; reflexivity.
Qed.

Lemma write_all_same ps (vs : list V) m : mo_write_all sp_object ps vs m = sp_write_all ps vs m.
Proof. reflexivity. Qed.

Lemma mo_step_kept sh m o : in_order sh m ->
  in_order sh (snd (mo_step (prof E) (a_eq a) sp_object m o)) /\
  zlen (sp_entries (snd (mo_step (prof E) (a_eq a) sp_object m o))) = zlen (sp_entries m).
Proof.
  intros H.
  assert (Hw : forall i v m, in_order sh m -> in_order sh (sp_write i v m) /\ zlen (sp_entries (sp_write i v m)) = zlen (sp_entries m)).
  { intros i v m0 H0. split; [now apply in_order_write|]. rewrite sp_write_entries. unfold zlen. now rewrite write_entry_length. }
  assert (Hws : forall ps vs m, in_order sh m -> in_order sh (sp_write_all ps vs m) /\ zlen (sp_entries (sp_write_all ps vs m)) = zlen (sp_entries m)).
  { intros ps vs. unfold sp_write_all. induction (combine ps vs) as [|[i v] l IH]; intros m0 H0; cbn [fold_left fst snd]; auto.
    destruct (Hw i v m0 H0) as (H1 & <-). now apply IH. }
  destruct o as [k|k|k|k| | | |k v|k v|kws]; cbn [mo_step snd]; auto.
  - cbn [mo_get_mut sp_object]. destruct (find_pos _ _); cbn [snd]; [now apply Hw|auto].
  - unfold mo_index_mut, index_of. cbn [mo_get_mut sp_object bind]. destruct (find_pos _ _); cbn [unwrap snd]; [now apply Hw|auto].
  - destruct (mo_get_many_mut _ _ _ _) as [[ps|]| | |]; cbn [snd]; auto. rewrite write_all_same. now apply Hws.
Qed.

Lemma sp_run_same sh : forall os m w, equivalence (a_eq a) -> in_order sh m -> zlen (sp_entries m) < 2 ^ 64 ->
  sp_run F E m os w = map Some (mo_run (prof E) (a_eq a) sp_object m os).
Proof.
  induction os as [|o os IH]; intros m w He H Hz; [reflexivity|]. cbn [sp_run mo_run map].
  destruct (sp_step_same sh m o w He H Hz) as (w' & ->). destruct (mo_step_kept sh m o H) as (H1 & H2).
  destruct (mo_step _ _ _ m o) as [b m']. cbn [fst snd map] in *. f_equal. apply IH; auto. lia.
Qed.

Lemma lawful_special S_ty sh (payload : list (K * V)) w :
  env_ok E -> fits S_ty (zlen payload) -> fitting a sh (map fst payload) ->
  exists m, fst (sp_from_vec F E S_ty sh payload w) = Ok m /\ Permutation payload (sp_entries m) /\ in_order sh m.
Proof.
  intros HE HS Hfit.
  assert (Hd : sh = Scanning \/ sh <> Scanning) by (destruct sh; auto; right; discriminate).
  destruct Hd as [->|Hsh].
  - exists (Entries payload). split; [reflexivity|]. split; [apply Permutation_refl|exact I].
  - destruct (lawful_build S_ty sh payload w HE HS Hsh Hfit) as (t & Ht & HP & Hok). exists (InTable sh t).
    split; auto. split; auto. split; auto. split; auto.
    clear - Hfit HP. destruct sh; cbn [fitting] in *; intuition.
    + apply H4. eapply Permutation_in; [apply Permutation_map, Permutation_sym, HP|]. assumption.
    + apply H7. eapply Permutation_in; [apply Permutation_map, Permutation_sym, HP|]. assumption.
Qed.
End Lawful.

Lemma lawful_special_history :
  forall (W K Q V BH : Type) (F : foreign W K Q BH) (a : oracle K Q BH) (E : env) (S_ty : int_type) (sh : shape BH)
         (payload : list (K * V)) (w : W),
  regular_foreign F a -> env_ok E -> fits S_ty (zlen payload) -> equivalence (a_eq a) -> fitting a sh (map fst payload) ->
  distinct (a_eq a) (map (fun e => a_borrow a (fst e)) payload) ->
  exists m w', sp_from_vec F E S_ty sh payload w = (Ok m, w') /\
  forall (history : list (op Q V)) (w1 : W),
  Forall2 (fun seen expected => exists b, seen = Some b /\ same_obs b expected)
    (sp_run F E m history w1) (object_run (a_eq a) (a_borrow a) payload history).
Proof.
  intros W K Q V BH F a E S_ty sh payload w HF HE HS He Hfit Hd.
  destruct (lawful_special F a E HF S_ty sh payload w HE HS Hfit) as (m & Hm & HP & Ho).
  destruct (sp_from_vec F E S_ty sh payload w) as [r w']. cbn [fst] in Hm. subst r. exists m, w'. split; auto. intros history w1.
  pose proof (fits_small _ _ HS) as Hz.
  assert (Hz' : zlen (sp_entries m) < 2 ^ 64) by (rewrite <- (zlen_perm _ _ HP); exact Hz).
  rewrite (sp_run_same F a E HF sh history m w1 He Ho Hz').
  assert (Hsim : Forall2 same_obs (mo_run (prof E) (a_eq a) (sp_object a) m history) (object_run (a_eq a) (a_borrow a) payload history)).
  { apply (mo_run_simulates (prof E) (a_eq a) (a_borrow a) _ _ _ He (sp_searches a sh)).
    - split; [exact HP|]. split; auto.
    - intros o q _ _. exact I. }
  clear - Hsim. induction Hsim as [|x y l1 l2 Hxy _ IH]; cbn [map]; constructor; eauto.
Qed.

Lemma lawful_special_equality :
  forall (W K V BH : Type) (F : foreign W K K BH) (a : oracle K K BH) (veq : V -> V -> W -> option bool * W) (veqb : V -> V -> bool)
         (E : env) (S1 S2 : int_type) (sh1 sh2 : shape BH) (p1 p2 : list (K * V)) (m1 m2 : special K V BH) (w1 w1' w2 w2' w : W),
  regular_foreign F a -> (forall x y, always (veq x y) (veqb x y)) -> (forall k, a_borrow a k = k) ->
  env_ok E -> fits S1 (zlen p1) -> fits S2 (zlen p2) -> equivalence (a_eq a) ->
  fitting a sh1 (map fst p1) -> fitting a sh2 (map fst p2) ->
  distinct (a_eq a) (map fst p1) -> distinct (a_eq a) (map fst p2) ->
  sp_from_vec F E S1 sh1 p1 w1 = (Ok m1, w1') -> sp_from_vec F E S2 sh2 p2 w2 = (Ok m2, w2') ->
  exists b, fst (sp_eq F E veq m1 m2 w) = Ok b /\ (b = true <-> same_map (a_eq a) veqb p1 p2).
Proof.
  intros W K V BH F a veq veqb E S1 S2 sh1 sh2 p1 p2 m1 m2 w1 w1' w2 w2' w HF Hv Hbo HE F1 F2 He Hf1 Hf2 Hd1 Hd2 H1 H2.
  destruct (lawful_special F a E HF S1 sh1 p1 w1 HE F1 Hf1) as (m & Hm & P1 & O1). rewrite H1 in Hm. cbn [fst] in Hm. injection Hm as <-.
  destruct (lawful_special F a E HF S2 sh2 p2 w2 HE F2 Hf2) as (m & Hm & P2 & O2). rewrite H2 in Hm. cbn [fst] in Hm. injection Hm as <-.
  assert (Hsame : same (sp_eq F E veq m1 m2) (mo_eq veqb (sp_object a) m1 m2)).
  { unfold sp_eq, mo_eq, map_eq. cbn [mo_entries sp_object]. destruct (negb _); [apply same_lift|]. apply same_all. intros e.
    apply same_bind; [now apply (lawful_get F a E HF sh2)|]. intros [v|]; [apply same_call, Hv|apply same_lift]. }
  rewrite (Hsame w).
  assert (Hs : searches (a_eq a) (fun k => k) (sp_object a) (fun _ => True) (in_order (V := V) a sh2)).
  { destruct (sp_searches (V := V) a sh2) as (G1 & G2). split; auto. intros m q Hin _. destruct (G1 m q Hin I) as (A1 & A2 & A3 & A4).
    assert (Hn : forall q (e : K * V), names (a_eq a) (a_borrow a) q e = names (a_eq a) (fun k => k) q e) by (intros; unfold names; now rewrite Hbo).
    assert (Hp : find_pos (names (a_eq a) (a_borrow a) q) (sp_entries m) = find_pos (names (a_eq a) (fun k => k) q) (sp_entries m)) by (apply find_pos_ext; auto).
    cbn [mo_get_at mo_get mo_get_mut mo_get_key_value mo_entries sp_object]. rewrite !find_find_pos, !Hp. auto. }
  apply (mo_eq_ok (a_eq a) veqb He _ _ _ p1 p2 _ _ Hs); auto.
Qed.

Lemma lawful_map_history :
  forall (W O V : Type) (F : conduct W O) (eqbO : O -> O -> bool) (E : env) (kd : kind) (bh : hasher O)
         (payload : list (key O * V)) (m : map_types O V) (history : list (op (key O) V)) (w w' w1 : W),
  regular F eqbO -> env_ok E -> equivalence eqbO -> lawful_hash eqbO bh ->
  countable (prof E) (zlen payload) -> zlen payload < 2 ^ 64 -> typed kd payload ->
  distinct (key_eqb eqbO) (map fst payload) ->
  v_new F E kd payload bh w = (Ok m, w') ->
  (forall o k, In o history -> In k (op_keys o) -> has_kind kd k) ->
  Forall2 (fun seen expected => exists b, seen = Some b /\ same_obs b expected)
    (v_run F E m history w1) (abstract_run (key_eqb eqbO) payload history).
Proof.
  intros W O V F eqbO E kd bh payload m history w w' w1 HF HE He Hl Hc Hz Ht Hd Hm Hk.
  destruct (regular_agrees W O V F eqbO E kd bh payload history w w1 HF HE Hz Ht Hk) as (Hnew & Hrun).
  rewrite Hm in Hnew. cbn [fst] in Hnew. symmetry in Hnew. rewrite (Hrun m Hnew).
  pose proof (history_refinement O V eqbO E kd bh payload m history HE He Hl Hc Hz Ht Hd Hnew Hk) as Hsim.
  clear - Hsim. induction Hsim as [|x y l1 l2 Hxy _ IH]; cbn [map]; constructor; eauto.
Qed.

Lemma lawful_map_equality :
  forall (W O V : Type) (F : conduct W O) (eqbO : O -> O -> bool) (veq : V -> V -> W -> option bool * W) (veqb : V -> V -> bool)
         (E : env) (kd : kind) (bh1 bh2 : hasher O) (p1 p2 : list (key O * V)) (m1 m2 : map_types O V) (w1 w1' w2 w2' w : W),
  regular F eqbO -> (forall a b, always (veq a b) (veqb a b)) ->
  env_ok E -> equivalence eqbO -> lawful_hash eqbO bh1 -> lawful_hash eqbO bh2 ->
  countable (prof E) (zlen p1) -> countable (prof E) (zlen p2) -> zlen p1 < 2 ^ 64 -> zlen p2 < 2 ^ 64 ->
  typed kd p1 -> typed kd p2 ->
  distinct (key_eqb eqbO) (map fst p1) -> distinct (key_eqb eqbO) (map fst p2) ->
  v_new F E kd p1 bh1 w1 = (Ok m1, w1') -> v_new F E kd p2 bh2 w2 = (Ok m2, w2') ->
  exists b, fst (v_eq F E veq m1 m2 w) = Ok b /\ (b = true <-> same_map (key_eqb eqbO) veqb p1 p2).
Proof.
  intros W O V F eqbO veq veqb E kd bh1 bh2 p1 p2 m1 m2 w1 w1' w2 w2' w HF Hv HE He Hl1 Hl2 Hc1 Hc2 Hz1 Hz2 Ht1 Ht2 Hd1 Hd2 Hm1 Hm2.
  destruct (regular_agrees W O V F eqbO E kd bh1 p1 [] w1 w1 HF HE Hz1 Ht1 ltac:(intros ? ? [])) as (N1 & _).
  destruct (regular_agrees W O V F eqbO E kd bh2 p2 [] w2 w2 HF HE Hz2 Ht2 ltac:(intros ? ? [])) as (N2 & _).
  rewrite Hm1 in N1. rewrite Hm2 in N2. cbn [fst] in N1, N2. symmetry in N1, N2.
  rewrite (regular_equality W O V F eqbO veq veqb E kd bh1 bh2 p1 p2 m1 m2 w HF Hv HE Ht1 Ht2 N1 N2).
  now apply (map_eq_extensional O V eqbO veqb E kd bh1 bh2).
Qed.

Lemma lawful_set_items :
  forall (W O : Type) (F : conduct W O) (eqbO : O -> O -> bool) (E : env) (kd : kind) (bh : hasher O)
         (items : list (key O)) (s : set_types O) (w w' w1 : W) (x : key O),
  regular F eqbO -> env_ok E -> equivalence eqbO -> lawful_hash eqbO bh ->
  countable (prof E) (zlen items) -> zlen items < 2 ^ 64 -> (forall y, In y items -> has_kind kd y) ->
  (kd = KindU32 -> distinct (key_eqb eqbO) items) ->
  v_fs_new F E kd items bh w = (Ok s, w') -> has_kind kd x ->
  (member (key_eqb eqbO) items x /\ fst (v_fs_contains F E s x w1) = Ok true /\
   exists y, fst (v_fs_get F E s x w1) = Ok (Some y) /\ In y items /\ key_eqb eqbO x y = true) \/
  (~ member (key_eqb eqbO) items x /\ fst (v_fs_contains F E s x w1) = Ok false /\
   fst (v_fs_get F E s x w1) = Ok None).
Proof.
  intros W O F eqbO E kd bh items s w w' w1 x HF HE He Hl Hc Hz Ht Hd Hs Hx.
  destruct (regular_set_agrees W O F eqbO E kd bh items w HF HE Ht) as (Hnew & _).
  rewrite Hs in Hnew. cbn [fst] in Hnew. symmetry in Hnew.
  destruct (regular_set_agrees W O F eqbO E kd bh items w1 HF HE Ht) as (_ & Hg).
  destruct (Hg s Hnew x Hx) as (-> & ->).
  destruct (frozen_set_exact O eqbO E kd bh items s HE He Hl Hc Hz Ht Hd Hnew) as (_ & _ & _ & _ & H). now apply H.
Qed.
