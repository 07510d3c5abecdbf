(** The calls that a FrozenMap makes of the caller's code: final statements. *)
From Coq Require Import List ZArith Bool Arith Lia Permutation.
From Verif Require Import Spec MapSpec CostSpec Base BaseLemmas HashCodeAnalyzer IntKeyAnalyzer
  SliceKeyAnalyzer HashTable HashTableProofs Maps FrozenMap FrozenMapProofs LookupCost Volatile VolatileProofs VolatileSafety
  EffectSpec CallSpec CallProofs.
Import ListNotations.
Open Scope Z_scope.

(** ** Recording changes nothing *)

Section Echo.
Context {W O V : Type}.
Variable F : conduct W O.
Variable E : env.
Notation R := (recording F).
Notation W' := (W * list (event O))%type.

Definition echo {A} (x : M W' A) (y : M W A) : Prop :=
  forall w l, fst (x (w, l)) = fst (y w) /\ fst (snd (x (w, l))) = snd (y w).

Lemma echo_lift {A} (r : res A) : echo (lift r) (lift r).
Proof. intros w l. auto. Qed.
Lemma echo_call {A} e (f : W -> option A * W) : echo (call (noting e f)) (call f).
Proof. intros w l. unfold call, noting. cbn [fst snd]. now destruct (f w). Qed.
Lemma echo_quiet {A} (f : W -> option A * W) : echo (call (quietly f)) (call f).
Proof. intros w l. unfold call, quietly. cbn [fst snd]. now destruct (f w). Qed.
Lemma echo_bind {A B} (x : M W' A) (y : M W A) (f : A -> M W' B) g :
  echo x y -> (forall a, echo (f a) (g a)) -> echo (mbind x f) (mbind y g).
Proof.
  intros Hx Hf w l. destruct (Hx w l) as (H1 & H2). unfold mbind.
  destruct (x (w, l)) as [r [w1 l1]], (y w) as [r' w1']. cbn [fst snd] in H1, H2. subst r' w1'.
  destruct r; cbn; auto. apply Hf.
Qed.
Lemma echo_map {A B} (f : A -> M W' B) g l : (forall a, echo (f a) (g a)) -> echo (v_map f l) (v_map g l).
Proof.
  intros H. induction l as [|a l IH]; cbn [v_map]; [apply echo_lift|].
  apply echo_bind; auto. intros b. apply echo_bind; auto. intros bs. apply echo_lift.
Qed.
Lemma echo_find_pos {A} (f : A -> M W' bool) g l : (forall a, echo (f a) (g a)) -> echo (v_find_pos f l) (v_find_pos g l).
Proof.
  intros H. induction l as [|a l IH]; cbn [v_find_pos]; [apply echo_lift|].
  apply echo_bind; auto. intros []; [apply echo_lift|]. apply echo_bind; auto. intros r. apply echo_lift.
Qed.
Lemma echo_all {A} (f : A -> M W' bool) g l : (forall a, echo (f a) (g a)) -> echo (v_all f l) (v_all g l).
Proof.
  intros H. induction l as [|a l IH]; cbn [v_all]; [apply echo_lift|].
  apply echo_bind; auto. intros []; [auto|apply echo_lift].
Qed.
Lemma echo_ht_new {K} S_ty (payload : list (K * V)) n (hash : K -> M W' Z) hash' :
  (forall k, echo (hash k) (hash' k)) -> echo (v_ht_new E S_ty payload n hash) (v_ht_new E S_ty payload n hash').
Proof.
  intros H. unfold v_ht_new. destruct payload as [|x p]; [apply echo_lift|].
  apply echo_bind; [apply echo_lift|]. intros cap. destruct (cap <? _); [apply echo_lift|].
  apply echo_bind; [|intros items; apply echo_lift]. generalize (x :: p). intros l.
  induction l as [|e l IH]; cbn [v_prepare]; [apply echo_lift|]. apply echo_bind; auto. intros code.
  destruct (n =? 0); [apply echo_lift|]. apply echo_bind; auto. intros rest. apply echo_lift.
Qed.
Lemma echo_slice bh s a b : echo (v_slice_hash R bh s a b) (v_slice_hash F bh s a b).
Proof. apply echo_bind; [apply echo_lift|]. intros s'. apply echo_call. Qed.
Lemma echo_right bh s a b : echo (v_right_hash R E bh s a b) (v_right_hash F E bh s a b).
Proof. apply echo_bind; [apply echo_lift|]. intros x. apply echo_bind; [apply echo_lift|]. intros y. apply echo_slice. Qed.
Lemma echo_cm S_ty (payload : list (key O * V)) bh : echo (v_cm_from_vec R E S_ty payload bh) (v_cm_from_vec F E S_ty payload bh).
Proof.
  apply echo_bind; [apply echo_map; intros e; apply echo_call|]. intros codes. apply echo_bind; [apply echo_lift|].
  intros an. apply echo_bind; [apply echo_ht_new; intros k; apply echo_call|]. intros t. apply echo_lift.
Qed.
Lemma echo_lsm S_ty (p : list (list Z * V)) a b bh : echo (v_lsm_from_vec R E S_ty p a b bh) (v_lsm_from_vec F E S_ty p a b bh).
Proof.
  apply echo_bind; [apply echo_map; intros e; cbv zeta; destruct (_ <=? _); [apply echo_slice|apply echo_lift]|].
  intros codes. apply echo_bind; [apply echo_lift|].
  intros an. apply echo_bind; [apply echo_ht_new; intros k; apply echo_slice|]. intros t. apply echo_lift.
Qed.
Lemma echo_rsm S_ty (p : list (list Z * V)) a b bh : echo (v_rsm_from_vec R E S_ty p a b bh) (v_rsm_from_vec F E S_ty p a b bh).
Proof.
  apply echo_bind; [apply echo_map; intros e; cbv zeta; destruct (_ <=? _); [apply echo_right|apply echo_lift]|].
  intros codes. apply echo_bind; [apply echo_lift|].
  intros an. apply echo_bind; [apply echo_ht_new; intros k; apply echo_right|]. intros t. apply echo_lift.
Qed.
Lemma echo_analyze (h : list Z -> M W' Z) h' keys : (forall s, echo (h s) (h' s)) ->
  echo (v_analyze_slice_keys h keys) (v_analyze_slice_keys h' keys).
Proof.
  intros H.
  assert (Hu : forall lj i l ks set acc, echo (v_uniqueness_loop h lj i l ks set acc) (v_uniqueness_loop h' lj i l ks set acc)).
  { intros lj i l. induction ks as [|s ks IH]; intros set acc; cbn [v_uniqueness_loop]; [apply echo_lift|].
    apply echo_bind; [apply echo_lift|]. intros x. apply echo_bind; auto. intros code.
    destruct (existsb _ _); [destruct (_ =? _); [apply echo_lift|]|]; apply IH. }
  assert (Hi : forall l lj acc n i, echo (v_find_index h keys l lj acc n i) (v_find_index h' keys l lj acc n i)).
  { intros l lj acc. induction n as [|n IH]; intros i; cbn [v_find_index]; [apply echo_lift|].
    apply echo_bind; [apply Hu|]. intros []; [apply echo_lift|apply IH]. }
  unfold v_analyze_slice_keys. destruct (analyze_lengths keys); try apply echo_lift. cbv zeta. generalize 1.
  generalize (Z.to_nat (Z.min (fold_left (fun m s => Z.min m (zlen s)) keys (imax usize)) 16)).
  induction n as [|n IH]; intros l; cbn [v_find_subslice]; [apply echo_lift|].
  apply echo_bind; [apply Hi|]. intros [i|]; [apply echo_lift|].
  apply echo_bind; [destruct (_ =? _); [apply echo_lift|apply Hi]|]. intros [i|]; [apply echo_lift|apply IH].
Qed.
Lemma echo_new kd (payload : list (key O * V)) bh : echo (v_new R E kd payload bh) (v_new F E kd payload bh).
Proof.
  unfold v_new. destruct (_ <? 4); [apply echo_lift|]. destruct kd; [apply echo_lift| |].
  - unfold v_new_string_map. apply echo_bind; [apply echo_lift|]. intros p.
    apply echo_bind; [apply echo_analyze; intros s; apply echo_call|]. intros an.
    destruct (_ <=? _); destruct an; apply echo_bind;
      solve [apply echo_lift|apply echo_cm|apply echo_lsm|apply echo_rsm|intros x; apply echo_lift].
  - unfold v_new_common_map.
    destruct (_ <=? _); (apply echo_bind; [apply echo_cm|intros x; apply echo_lift]).
Qed.
Lemma echo_key_eq a b : echo (v_key_eq R a b) (v_key_eq F a b).
Proof. destruct a, b; try apply echo_lift. apply echo_call. Qed.
Lemma echo_find (m : map_types O V) k : echo (v_find R E m k) (v_find F E m k).
Proof.
  assert (Hcm : forall cm : common_map (key O) V (hasher O), echo (v_cm_find R cm k) (v_cm_find F cm k)).
  { intros cm. apply echo_bind; [apply echo_call|]. intros code. apply echo_bind; [apply echo_lift|]. intros range.
    apply echo_bind; [apply echo_lift|]. intros es. apply echo_bind; [|intros r; apply echo_lift].
    apply echo_find_pos. intros e. apply echo_key_eq. }
  assert (Hl : forall sm s, echo (v_lsm_find (V := V) R sm s) (v_lsm_find F sm s)).
  { intros sm s. apply echo_bind; [destruct (_ <=? _); [apply echo_slice|apply echo_lift]|]. intros code.
    apply echo_bind; [apply echo_lift|]. intros range. apply echo_lift. }
  assert (Hr : forall sm s, echo (v_rsm_find (V := V) R E sm s) (v_rsm_find F E sm s)).
  { intros sm s. apply echo_bind; [destruct (_ <=? _); [apply echo_right|apply echo_lift]|]. intros code.
    apply echo_bind; [apply echo_lift|]. intros range. apply echo_lift. }
  destruct m; cbn [v_find]; auto.
  - apply echo_find_pos. intros e. apply echo_key_eq.
  - apply echo_bind; [apply echo_lift|]. intros n. apply echo_lift.
  - apply echo_bind; [apply echo_lift|]. intros n. apply echo_lift.
  - apply echo_bind; [apply echo_lift|]. intros n. apply echo_lift.
  - apply echo_bind; [apply echo_lift|]. intros s. apply Hl.
  - apply echo_bind; [apply echo_lift|]. intros s. apply Hl.
  - apply echo_bind; [apply echo_lift|]. intros s. apply Hr.
  - apply echo_bind; [apply echo_lift|]. intros s. apply Hr.
  - apply echo_bind; [apply echo_lift|]. intros s. apply echo_lift.
Qed.
Lemma echo_get_many_mut (m : map_types O V) keys : echo (v_get_many_mut R E m keys) (v_get_many_mut F E m keys).
Proof.
  apply echo_bind.
  - generalize (@nil (key O)). induction keys as [|k keys IH]; intros seen; cbn [v_has_duplicate_key]; [apply echo_lift|].
    apply echo_bind; [apply echo_find_pos; intros j; apply echo_key_eq|]. intros [i|]; [apply echo_lift|apply IH].
  - intros []; [apply echo_lift|]. induction keys as [|k keys IH]; cbn [v_get_each]; [apply echo_lift|].
    apply echo_bind; [apply echo_find|]. intros [i|]; [|apply echo_lift]. apply echo_bind; auto. intros rs. apply echo_lift.
Qed.
Lemma echo_eq veq (m1 m2 : map_types O V) :
  echo (v_eq R E (fun a b => quietly (veq a b)) m1 m2) (v_eq F E veq m1 m2).
Proof.
  unfold v_eq. destruct (negb _); [apply echo_lift|]. apply echo_all. intros e.
  apply echo_bind; [apply echo_bind; [apply echo_find|intros r; apply echo_lift]|].
  intros [v|]; [apply echo_quiet|apply echo_lift].
Qed.
End Echo.

(** ** Counting *)

Lemma comparisons_app {O} (l1 l2 : list (event O)) : comparisons_in (l1 ++ l2) = comparisons_in l1 + comparisons_in l2.
Proof. unfold comparisons_in. rewrite filter_app, app_length. lia. Qed.
Lemma hashes_app {O} (l1 l2 : list (event O)) : hashes_in (l1 ++ l2) = hashes_in l1 + hashes_in l2.
Proof. unfold hashes_in. rewrite filter_app, app_length. lia. Qed.
Lemma no_comparison {O} (l : list (event O)) : (forall e, In e l -> is_comparison e = false) -> comparisons_in l = 0.
Proof.
  unfold comparisons_in. induction l as [|e l IH]; intros H; [reflexivity|]. cbn [filter].
  rewrite (H e (or_introl eq_refl)). apply IH. intros x Hx. apply H. now right.
Qed.

Section Counts.
Context {W O V : Type}.
Variable F : conduct W O.
Variable E : env.
Notation R := (recording F).
Notation W' := (W * list (event O))%type.

Definition within {A} (n h : Z) (r : res A) (c : list (event O)) : Prop := comparisons_in c <= n /\ hashes_in c <= h.

Lemma within_lift {A} (r : res A) n h : 0 <= n -> 0 <= h -> logs (W := W) (lift r) (within n h).
Proof. intros Hn Hh. apply logs_lift. split; assumption. Qed.
Lemma within_bind {A B} (x : M W' A) (f : A -> M W' B) n1 h1 n2 h2 : 0 <= n2 -> 0 <= h2 ->
  logs x (within n1 h1) -> (forall a, logs (f a) (within n2 h2)) -> logs (mbind x f) (within (n1 + n2) (h1 + h2)).
Proof.
  intros Hn Hh Hx Hf. eapply logs_bind; [exact Hx|exact Hf| |]; cbv beta; unfold within.
  - intros a c1 r c2 (H1 & H2) (H3 & H4). rewrite comparisons_app, hashes_app. lia.
  - intros r r' c _ _ (H1 & H2). lia.
Qed.
Lemma within_more {A} (x : M W' A) n h n' h' : logs x (within n h) -> n <= n' -> h <= h' -> logs x (within n' h').
Proof. intros H Hn Hh. eapply logs_weaken; [exact H|]. intros r c (H1 & H2). unfold within. lia. Qed.

Lemma comparing_within k (es : list (key O * V)) :
  0 <= comparisons_in (flat_map (comparing k) es) <= zlen es /\ hashes_in (flat_map (comparing k) es) = 0.
Proof.
  induction es as [|e es IH]; cbn [flat_map]; [split; [split|]; reflexivity || discriminate|].
  rewrite comparisons_app, hashes_app, zlen_cons. destruct IH as (H1 & H2). rewrite H2.
  assert (H3 : 0 <= comparisons_in (comparing k e) <= 1 /\ hashes_in (comparing k e) = 0)
    by (unfold comparing; destruct k, (fst e); (split; [split|]); reflexivity || discriminate).
  lia.
Qed.

Lemma asks_within kd bh k (es : list (key O * V)) r c : lookup_asks kd bh k es r c -> within (zlen es) 1 r c.
Proof.
  intros (code & start & n & -> & Hn & _ & Hcode). unfold within. rewrite comparisons_app, hashes_app.
  destruct (comparing_within k (firstn n (skipn start es))) as (H1 & H2). rewrite H2.
  assert (H3 : zlen (firstn n (skipn start es)) <= zlen es) by (unfold zlen; rewrite firstn_length, skipn_length; lia).
  assert (H4 : comparisons_in code = 0 /\ hashes_in code <= 1).
  { unfold code_asked in Hcode. destruct (_ <? 4); [subst; split; [reflexivity|discriminate]|].
    destruct kd; [subst; split; [reflexivity|discriminate]| |subst; split; [reflexivity|discriminate]].
    destruct Hcode as [->|[->|(s & i & l & _ & _ & ->)]]; split; reflexivity || discriminate. }
  lia.
Qed.

Lemma within_key_eq a b : logs (v_key_eq R a b) (within 1 0).
Proof.
  destruct a, b; cbn [v_key_eq]; try (now apply within_lift).
  change (on_eq R o o0) with (noting (Compared o o0) (on_eq F o o0)). apply logs_call. intros r. split; discriminate.
Qed.

Lemma within_duplicate : forall keys seen,
  logs (v_has_duplicate_key R seen keys) (within (zlen seen * zlen keys + zlen keys * (zlen keys - 1) / 2) 0).
Proof.
  assert (Hfp : forall k l, logs (v_find_pos (fun j => v_key_eq R j k) l) (within (zlen l) 0)).
  { intros k. induction l as [|j l IH]; cbn [v_find_pos]; [now apply within_lift|]. rewrite zlen_cons.
    pose proof (zlen_nonneg l). apply (within_more _ (1 + zlen l) (0 + 0)); [|lia|lia].
    apply within_bind; try lia; [apply within_key_eq|]. intros []; [now apply within_lift|].
    apply (within_more _ (zlen l + 0) (0 + 0)); [|lia|lia].
    apply within_bind; try lia; [apply IH|]. intros r. apply within_lift; lia. }
  induction keys as [|k keys IH]; intros seen; cbn [v_has_duplicate_key].
  { apply within_lift; change (zlen []) with 0; [rewrite Z.mul_0_r; cbn|]; lia. }
  pose proof (zlen_nonneg seen) as Hs. pose proof (zlen_nonneg keys) as Hk.
  assert (Hdiv : forall z, 0 <= z -> 0 <= z * (z - 1) / 2).
  { intros z Hz. apply Z.div_pos; [|lia]. destruct (Z.eq_dec z 0) as [->|]; nia. }
  specialize (IH (seen ++ [k])). pose proof (Hdiv (zlen keys) Hk) as Hd.
  rewrite zlen_app, zlen_cons in *. change (zlen [k]) with 1 in IH.
  assert (Hgo : (zlen keys + 1) * (zlen keys + 1 - 1) / 2 = zlen keys + zlen keys * (zlen keys - 1) / 2).
  { replace ((zlen keys + 1) * (zlen keys + 1 - 1)) with (zlen keys * (zlen keys - 1) + zlen keys * 2) by nia.
    rewrite Z.div_add by lia. lia. }
  rewrite Hgo. eapply within_more;
    [apply (within_bind _ _ (zlen seen) 0 ((zlen seen + 1) * zlen keys + zlen keys * (zlen keys - 1) / 2) 0); [nia|lia|apply Hfp|]
    |nia|lia].
  intros [i|]; [apply within_lift; nia|exact IH].
Qed.

Variables (kd : kind) (bh : hasher O) (m : map_types O V).
Hypothesis Hs : fm_safe kd m.
Hypothesis Hw : hashes_with kd (zlen (fm_iter m)) bh m.

Lemma within_find k : has_kind kd k -> logs (v_find R E m k) (within (zlen (fm_iter m)) 1).
Proof.
  intros Hk. eapply logs_weaken; [exact (lookup_logs F E kd m k bh Hs Hk Hw)|].
  intros r c. apply asks_within.
Qed.

Lemma within_many keys : (forall k, In k keys -> has_kind kd k) ->
  logs (v_get_many_mut R E m keys)
    (within (zlen keys * (zlen keys - 1) / 2 + zlen keys * zlen (fm_iter m)) (zlen keys)).
Proof.
  intros Hk. pose proof (zlen_nonneg (fm_iter m)) as Hn.
  assert (He : logs (v_get_each R E m keys) (within (zlen keys * zlen (fm_iter m)) (zlen keys))).
  { revert Hk. induction keys as [|k keys IH]; intros Hk; cbn [v_get_each]; [now apply within_lift|].
    rewrite zlen_cons. pose proof (zlen_nonneg keys) as Hn2. eapply within_more;
      [apply (within_bind _ _ (zlen (fm_iter m)) 1 (zlen keys * zlen (fm_iter m)) (zlen keys)); [nia|lia| |]|nia|lia].
    - apply within_find, Hk. now left.
    - intros [i|]; [|apply within_lift; nia].
      eapply within_more; [apply (within_bind _ _ (zlen keys * zlen (fm_iter m)) (zlen keys) 0 0); [lia|lia| |]|lia|lia].
      + apply IH. intros x Hx. apply Hk. now right.
      + intros rs. apply within_lift; lia. }
  unfold v_get_many_mut. pose proof (zlen_nonneg keys) as Hz.
  eapply within_more; [apply (within_bind _ _ (zlen keys * (zlen keys - 1) / 2) 0 (zlen keys * zlen (fm_iter m)) (zlen keys)); [nia|lia| |]|lia|lia].
  - pose proof (within_duplicate keys []) as H. change (zlen []) with 0 in H. rewrite Z.mul_0_l, Z.add_0_l in H. exact H.
  - intros []; [apply within_lift; nia|exact He].
Qed.

Lemma within_eq veq (self : map_types O V) : (forall e, In e (fm_iter self) -> has_kind kd (fst e)) ->
  logs (v_eq R E (fun a b => quietly (veq a b)) self m)
    (within (zlen (fm_iter self) * zlen (fm_iter m)) (zlen (fm_iter self))).
Proof.
  intros Hk. unfold v_eq. pose proof (zlen_nonneg (fm_iter m)) as Hn. pose proof (zlen_nonneg (fm_iter self)) as Hn1.
  destruct (negb _); [apply within_lift; nia|].
  revert Hk. generalize (fm_iter self). clear Hn1. induction l as [|e l IH]; intros Hk; cbn [v_all]; [now apply within_lift|].
  rewrite zlen_cons. pose proof (zlen_nonneg l) as Hl. eapply within_more;
    [apply (within_bind _ _ (zlen (fm_iter m) + 0) (1 + 0) (zlen l * zlen (fm_iter m)) (zlen l)); [nia|lia| |]|nia|lia].
  - apply within_bind; try lia.
    + unfold v_get. eapply within_more; [apply (within_bind _ _ (zlen (fm_iter m)) 1 0 0); try lia|lia|lia].
      * apply within_find, Hk. now left.
      * intros r. apply within_lift; lia.
    + intros [v|]; [|apply within_lift; lia].
      intros w c. unfold call, quietly. cbn [fst snd]. destruct (veq (snd e) v w) as [[b|] w'];
        eexists _, w', []; rewrite app_nil_r; (split; [reflexivity|]); split; discriminate.
  - intros []; [apply IH; intros x Hx; apply Hk; now right|apply within_lift; nia].
Qed.

Lemma no_value_failed {A} (r : res A) : no_value r -> failed r.
Proof. intros H a ->. exact H. Qed.

Lemma pairs_step seen (k : key O) keys :
  flat_map (fun i => flat_map (fun a => flat_map (compared a) (firstn 1 (skipn i (k :: keys)))) (seen ++ firstn i (k :: keys)))
    (seq 0 (length (k :: keys))) =
  flat_map (fun a => compared a k) seen ++
  flat_map (fun i => flat_map (fun a => flat_map (compared a) (firstn 1 (skipn i keys))) ((seen ++ [k]) ++ firstn i keys))
    (seq 0 (length keys)).
Proof.
  change (seq 0 (length (k :: keys))) with (0%nat :: seq 1 (length keys)). rewrite <- seq_shift.
  cbn [flat_map]. f_equal.
  - cbn [firstn skipn]. rewrite app_nil_r. apply flat_map_ext. intros a. cbn [flat_map]. apply app_nil_r.
  - rewrite flat_map_concat_map, map_map, <- flat_map_concat_map. apply flat_map_ext. intros i.
    cbn [skipn]. rewrite <- app_assoc. reflexivity.
Qed.

Lemma duplicate_logs : forall keys seen,
  logs (v_has_duplicate_key R seen keys) (fun r c =>
    let full := flat_map (fun i => flat_map (fun a => flat_map (compared a) (firstn 1 (skipn i keys))) (seen ++ firstn i keys))
                  (seq 0 (length keys)) in
    prefix c full /\ (r = Ok false -> c = full)).
Proof.
  assert (Hfp : forall k l, logs (v_find_pos (fun j => v_key_eq R j k) l)
    (fun r c => prefix c (flat_map (fun a => compared a k) l) /\ (r = Ok None -> c = flat_map (fun a => compared a k) l))).
  { intros k. induction l as [|j l IH]; cbn [v_find_pos flat_map].
    { apply logs_lift. split; [apply prefix_refl|auto]. }
    eapply (logs_bind _ _ (through (compared j k))).
    - destruct j, k; cbn [v_key_eq compared]; try apply through_lift. apply through_call.
    - intros b. instantiate (1 := fun b r c => if b : bool then r = Ok (Some 0%nat) /\ c = [] else
        prefix c (flat_map (fun a => compared a k) l) /\ (r = Ok None -> c = flat_map (fun a => compared a k) l)).
      destruct b; [apply logs_lift; auto|].
      eapply (logs_bind _ _ _ (fun o r c => r = Ok (option_map S o) /\ c = [])); [exact IH| | |].
      + intros o. apply logs_lift. auto.
      + cbv beta. intros o c1 r c2 H (-> & ->). rewrite app_nil_r. cbv iota.
        split; [apply H|]. intros Hr. apply H. destruct o; [discriminate|reflexivity].
      + cbv beta iota. intros r r' c _ Hr' H. split; [apply H|]. intros ->. elim Hr'.
    - cbv beta. intros b c1 r c2 (_ & H1) H2. rewrite (H1 b eq_refl). destruct b.
      + destruct H2 as (-> & ->). rewrite app_nil_r. split; [|discriminate]. eexists. reflexivity.
      + destruct H2 as ((rest & H2) & H3). split; [exists rest; rewrite H2; now rewrite app_assoc|].
        intros Hr. now rewrite (H3 Hr).
    - cbv beta. intros r r' c _ Hr' ((rest & H) & _). split; [|intros ->; elim Hr'].
      eexists. rewrite H, <- app_assoc. reflexivity. }
  induction keys as [|k keys IH]; intros seen; cbv zeta; cbn [v_has_duplicate_key].
  { apply logs_lift. split; [apply prefix_refl|auto]. }
  rewrite pairs_step.
  eapply logs_bind; [apply (Hfp k seen)| | |].
  - intros o. instantiate (1 := fun o r c => match o with Some _ => r = Ok true /\ c = [] | None =>
      let full := flat_map (fun i => flat_map (fun a => flat_map (compared a) (firstn 1 (skipn i keys))) ((seen ++ [k]) ++ firstn i keys)) (seq 0 (length keys)) in
      prefix c full /\ (r = Ok false -> c = full) end).
    destruct o; [apply logs_lift; auto|]. apply (IH (seen ++ [k])).
  - cbv beta. intros [i|] c1 r c2 (H1 & H2) H3.
    + destruct H3 as (-> & ->). rewrite app_nil_r. split; [|discriminate]. destruct H1 as (rest & ->). eexists. rewrite <- app_assoc. reflexivity.
    + rewrite (H2 eq_refl). destruct H3 as ((rest & H3) & H4). split; [exists rest; rewrite H3; now rewrite app_assoc|].
      intros Hr. now rewrite (H4 Hr).
  - cbv beta. intros r r' c _ Hr' ((rest & H) & _). split; [|intros ->; elim Hr']. eexists. rewrite H, <- app_assoc. reflexivity.
Qed.

Lemma each_logs keys : (forall k, In k keys -> has_kind kd k) ->
  logs (v_get_each R E m keys) (lookups_ask kd bh (fm_iter m) keys).
Proof.
  induction keys as [|k keys IH]; intros Hk; cbn [v_get_each]; [apply logs_lift; constructor|].
  eapply logs_bind; [exact (lookup_logs F E kd m k bh Hs (Hk k (or_introl eq_refl)) Hw)| | |].
  - intros o. instantiate (1 := fun o r c => match o with None => r = Ok None /\ c = [] | Some i =>
      (exists r0, r = Ok (option_map (cons i) r0) /\ lookups_ask kd bh (fm_iter m) keys (Ok r0) c) \/
      (failed r /\ exists r0, failed r0 /\ lookups_ask kd bh (fm_iter m) keys r0 c) end).
    destruct o as [i|]; [|apply logs_lift; auto].
    eapply (logs_bind _ _ _ (fun o r c => r = Ok (option_map (cons i) o) /\ c = [])); [apply IH; intros x Hx; apply Hk; now right| | |].
    + intros o. apply logs_lift. auto.
    + cbv beta. intros o c1 r c2 H (-> & ->). rewrite app_nil_r. left. eauto.
    + cbv beta. intros r r' c Hr Hr' H. right. apply no_value_failed in Hr, Hr'. eauto.
  - cbv beta. intros [i|] c1 r c2 H1 H2.
    + destruct H2 as [(r0 & -> & H2)|(Hr & r0 & Hr0 & H2)]; [now constructor|]. eapply asked_then_failed; eauto.
    + destruct H2 as (-> & ->). rewrite app_nil_r. now constructor.
  - cbv beta. intros r r' c Hr Hr' H. apply no_value_failed in Hr, Hr'. eapply asked_failed; eauto.
Qed.

Lemma many_logs keys : (forall k, In k keys -> has_kind kd k) ->
  logs (v_get_many_mut R E m keys) (many_asked kd bh (fm_iter m) keys).
Proof.
  intros Hk. unfold v_get_many_mut. eapply logs_bind; [apply (duplicate_logs keys [])| | |].
  - intros d. instantiate (1 := fun d r c => if d : bool then r = Ok None /\ c = [] else lookups_ask kd bh (fm_iter m) keys r c).
    destruct d; [apply logs_lift; auto|now apply each_logs].
  - cbv beta zeta. intros [] c1 r c2 (H1 & H2) H3.
    + destruct H3 as (-> & ->). rewrite app_nil_r. left. split; [exact H1|discriminate].
    + right. exists c2. rewrite (H2 eq_refl). auto.
  - cbv beta zeta. intros r r' c _ Hr' (H & _). left. split; [exact H|]. intros ps ->. elim Hr'.
Qed.

Lemma eq_logs veq (self : map_types O V) : (forall e, In e (fm_iter self) -> has_kind kd (fst e)) ->
  zlen (fm_iter self) = zlen (fm_iter m) ->
  logs (v_eq R E (fun a b => quietly (veq a b)) self m) (entries_ask kd bh (fm_iter m) (fm_iter self)).
Proof.
  intros Hk Hz. unfold v_eq. rewrite <- !fm_len_iter in Hz. rewrite Hz, Z.eqb_refl. cbn [negb].
  revert Hk. generalize (fm_iter self). induction l as [|e l IH]; intros Hk; cbn [v_all]; [apply logs_lift; constructor|].
  set (asked := fun (r : res bool) c => exists r0, lookup_asks kd bh (fst e) (fm_iter m) r0 c /\
    (r = Ok true -> exists i, r0 = Ok (Some i))).
  eapply (logs_bind _ _ asked).
  - eapply (logs_bind _ _ (fun r c => exists r0, lookup_asks kd bh (fst e) (fm_iter m) r0 c /\
      (forall v, r = Ok (Some v) -> exists i, r0 = Ok (Some i)))
      (fun o r c => c = [] /\ (o = None -> r = Ok false))).
    + unfold v_get. eapply (logs_bind _ _ _ (fun o r c => c = [] /\ (o = None -> r = Ok None)));
        [exact (lookup_logs F E kd m (fst e) bh Hs (Hk e (or_introl eq_refl)) Hw)| | |].
      * intros o. apply logs_lift. split; auto. now intros ->.
      * cbv beta. intros o c1 r c2 H (-> & H2). rewrite app_nil_r. exists (Ok o). split; auto. intros v Hv.
        destruct o as [i|]; [eauto|]. rewrite (H2 eq_refl) in Hv. discriminate.
      * cbv beta. intros r r' c _ Hr' H. exists r. split; auto. intros v ->. elim Hr'.
    + intros [v|]; [|apply logs_lift; auto]. intros w c. unfold call, quietly. cbn [fst snd].
      destruct (veq (snd e) v w) as [[b|] w']; eexists _, w', []; rewrite app_nil_r; (split; [reflexivity|]); split; auto; discriminate.
    + cbv beta. intros o c1 r c2 (r0 & H1 & H2) (-> & H3). rewrite app_nil_r. exists r0. split; auto. intros ->.
      destruct o as [v|]; [eauto|]. discriminate (H3 eq_refl).
    + cbv beta. intros r r' c _ Hr' (r0 & H1 & H2). exists r0. split; auto. intros ->. elim Hr'.
  - intros b. instantiate (1 := fun b r c => if b : bool then entries_ask kd bh (fm_iter m) l r c else r = Ok false /\ c = []).
    destruct b; [apply IH; intros x Hx; apply Hk; now right|apply logs_lift; auto].
  - cbv beta. intros b c1 r c2 (r0 & H1 & H2) H3. destruct b.
    + destruct (H2 eq_refl) as (i & ->). econstructor; eauto.
    + destruct H3 as (-> & ->). rewrite app_nil_r. eapply asked_other; eauto. discriminate.
  - cbv beta. intros r r' c _ Hr' (r0 & H1 & H2). eapply asked_other; eauto. intros ->. elim Hr'.
Qed.
End Counts.

(** ** C72 *)

Lemma construction_calls :
  forall (W O V : Type) (F : conduct W O) (E : env) (kd : kind) (bh : hasher O)
         (payload : list (key O * V)) (w w' : W) (r : res (map_types O V)) (calls : list (event O)),
  typed kd payload ->
  v_new (recording F) E kd payload bh (w, []) = (r, (w', calls)) ->
  v_new F E kd payload bh w = (r, w') /\
  comparisons_in calls = 0 /\
  (zlen payload < 4 \/ kd = KindU32 -> calls = []) /\
  (4 <= zlen payload -> kd = KindOther ->
     let twice := hash_all bh payload ++ hash_all bh payload in
     prefix calls twice /\ (forall m, r = Ok m -> calls = twice)) /\
  (4 <= zlen payload -> kd = KindString ->
     exists looked rest full, calls = looked ++ rest /\
       (forall shortest longest,
          is_min shortest (map zlen (str_keys payload)) -> is_max longest (map zlen (str_keys payload)) ->
          zlen looked <= zlen payload *
            (if shortest =? longest then windows_within shortest else 3 * shortest)) /\
       Forall (fun e => exists s x, In s (str_keys payload) /\ window_of s x /\ e = HashedSlice bh x) looked /\
       string_calls bh payload full /\ prefix rest full /\ (forall m, r = Ok m -> rest = full)).
Proof.
  intros W O V F E kd bh payload w w' r calls Ht H.
  destruct (construction_logs F E kd payload bh Ht w []) as (r' & w1 & c & H' & H1 & H2 & H3).
  rewrite H in H'. cbn [app] in H'. injection H' as <- <- <-.
  destruct (echo_new F E kd payload bh w []) as (He1 & He2). rewrite H in He1, He2. cbn [fst snd] in He1, He2.
  split; [destruct (v_new F E kd payload bh w); cbn in *; congruence|].
  split; [|split; [exact H1|split; [exact H2|exact H3]]].
  assert (Hpre : forall l full : list (event O), prefix l full -> (forall e, In e full -> is_comparison e = false) ->
    forall e, In e l -> is_comparison e = false).
  { intros l full (rest & ->) Hf e He. apply Hf, in_or_app. now left. }
  assert (Hall : forall e, In e (hash_all bh payload ++ hash_all bh payload) -> is_comparison e = false).
  { intros e He. apply in_app_or in He. unfold hash_all in He.
    destruct He as [He|He]; apply in_map_iff in He; destruct He as (x & <- & _); reflexivity. }
  apply no_comparison. destruct (Z_lt_le_dec (zlen payload) 4) as [Hl|Hl].
  { rewrite (H1 (or_introl Hl)). intros e []. }
  destruct kd.
  - rewrite (H1 (or_intror eq_refl)). intros e [].
  - destruct (H3 Hl eq_refl) as (looked & rest & full & -> & _ & Hf & Hs & Hp & _). rewrite Forall_forall in Hf.
    intros e He. apply in_app_or in He. destruct He as [He|He].
    + destruct (Hf e He) as (s & x & _ & _ & ->). reflexivity.
    + revert e He. eapply Hpre; [exact Hp|]. destruct Hs as [->|[->|(i & l & _ & _ & ->)]]; [intros e []|exact Hall|].
      intros e He. apply in_app_or in He. destruct He as [He|He]; apply in_map_iff in He; destruct He as (x & <- & _); reflexivity.
  - eapply Hpre; [apply (H2 Hl eq_refl)|exact Hall].
Qed.

Lemma lookup_calls :
  forall (W O V : Type) (F : conduct W O) (E : env) (kd : kind) (bh : hasher O)
         (payload : list (key O * V)) (m : map_types O V) (w0 w1 : W),
  env_ok E -> typed kd payload -> v_new F E kd payload bh w0 = (Ok m, w1) ->
  forall (k : key O) (w w' : W) (r : res (option nat)) (calls : list (event O)), has_kind kd k ->
  v_find (recording F) E m k (w, []) = (r, (w', calls)) ->
  v_find F E m k w = (r, w') /\
  lookup_asks kd bh k (fm_iter m) r calls /\
  comparisons_in calls <= zlen payload /\ hashes_in calls <= 1 /\
  snd (v_get (recording F) E m k (w, [])) = (w', calls) /\
  snd (v_get_key_value (recording F) E m k (w, [])) = (w', calls) /\
  snd (v_contains_key (recording F) E m k (w, [])) = (w', calls) /\
  snd (v_index (recording F) E m k (w, [])) = (w', calls) /\
  snd (v_index_mut (recording F) E m k (w, [])) = (w', calls).
Proof.
  intros W O V F E kd bh payload m w0 w1 HE Ht Hm k w w' r calls Hk H.
  destruct (v_built F E HE kd payload bh w0 m w1 Ht Hm) as (HP & Hs).
  assert (Hlen : zlen (fm_iter m) = zlen payload) by (unfold zlen; now rewrite (Permutation_length HP)).
  pose proof (built_hashes_with F E kd payload bh w0 m w1 Ht Hm) as Hw. rewrite <- Hlen in Hw.
  destruct (echo_find F E m k w []) as (He1 & He2). rewrite H in He1, He2. cbn [fst snd] in He1, He2.
  destruct (lookup_logs F E kd m k bh Hs Hk Hw w []) as (r' & w2 & c & H' & Ha).
  rewrite H in H'. cbn [app] in H'. injection H' as <- <- <-.
  split; [destruct (v_find F E m k w); cbn in *; congruence|].
  split; [exact Ha|]. apply asks_within in Ha. destruct Ha as (Hc & Hh). rewrite Hlen in Hc.
  split; [exact Hc|]. split; [exact Hh|].
  unfold v_index, v_index_mut, v_contains_key, v_get_key_value, v_get, mbind, lift. rewrite H.
  destruct r as [o|p|u|]; try (repeat split; reflexivity).
  destruct o as [i|]; cbn [deref unwrap]; [|repeat split; reflexivity].
  destruct (nth_error (fm_iter m) i); repeat split; reflexivity.
Qed.

Lemma many_calls :
  forall (W O V : Type) (F : conduct W O) (E : env) (kd : kind) (bh : hasher O)
         (payload : list (key O * V)) (m : map_types O V) (w0 w1 : W),
  env_ok E -> typed kd payload -> v_new F E kd payload bh w0 = (Ok m, w1) ->
  (forall keys w w' r calls, (forall k, In k keys -> has_kind kd k) ->
     v_get_many_mut (recording F) E m keys (w, []) = (r, (w', calls)) ->
     v_get_many_mut F E m keys w = (r, w') /\
     many_asked kd bh (fm_iter m) keys r calls /\
     comparisons_in calls <= zlen keys * (zlen keys - 1) / 2 + zlen keys * zlen payload /\
     hashes_in calls <= zlen keys) /\
  (forall bh2 payload2 m2 w2 w3 veq w w' r calls,
     typed kd payload2 -> v_new F E kd payload2 bh2 w2 = (Ok m2, w3) ->
     v_eq (recording F) E (fun a b => quietly (veq a b)) m m2 (w, []) = (r, (w', calls)) ->
     v_eq F E veq m m2 w = (r, w') /\
     (zlen payload <> zlen payload2 -> r = Ok false /\ calls = []) /\
     (zlen payload = zlen payload2 -> entries_ask kd bh2 (fm_iter m2) (fm_iter m) r calls) /\
     comparisons_in calls <= zlen payload * zlen payload2 /\ hashes_in calls <= zlen payload).
Proof.
  intros W O V F E kd bh payload m w0 w1 HE Ht Hm.
  assert (Hgood : forall bh (payload : list (key O * V)) m w0 w1, typed kd payload -> v_new F E kd payload bh w0 = (Ok m, w1) ->
    fm_safe kd m /\ hashes_with kd (zlen (fm_iter m)) bh m /\ zlen (fm_iter m) = zlen payload /\
    (forall e, In e (fm_iter m) -> has_kind kd (fst e))).
  { clear - HE. intros bh payload m w0 w1 Ht Hm. destruct (v_built F E HE kd payload bh w0 m w1 Ht Hm) as (HP & Hs).
    assert (Hlen : zlen (fm_iter m) = zlen payload) by (unfold zlen; now rewrite (Permutation_length HP)).
    split; [exact Hs|]. rewrite Hlen. split; [eapply built_hashes_with; eauto|]. split; [reflexivity|].
    intros e He. apply Ht. eapply Permutation_in; [symmetry; exact HP|exact He]. }
  destruct (Hgood bh payload m w0 w1 Ht Hm) as (Hs & Hw & Hlen & Hk1). split.
  - intros keys w w' r calls Hk H.
    destruct (echo_get_many_mut F E m keys w []) as (He1 & He2). rewrite H in He1, He2. cbn [fst snd] in He1, He2.
    destruct (within_many F E kd bh m Hs Hw keys Hk w []) as (r' & w2 & c & H' & Hc & Hh).
    rewrite H in H'. cbn [app] in H'. injection H' as <- <- <-. rewrite Hlen in Hc.
    split; [destruct (v_get_many_mut F E m keys w); cbn in *; congruence|]. split; [|auto].
    destruct (many_logs F E kd bh m Hs Hw keys Hk w []) as (r' & w2 & c & H' & Ha).
    rewrite H in H'. cbn [app] in H'. now injection H' as <- <- <-.
  - intros bh2 p2 m2 w2 w3 veq w w' r calls Ht2 Hm2 H.
    destruct (Hgood bh2 p2 m2 w2 w3 Ht2 Hm2) as (Hs2 & Hw2 & Hlen2 & _).
    destruct (echo_eq F E veq m m2 w []) as (He1 & He2). rewrite H in He1, He2. cbn [fst snd] in He1, He2.
    destruct (within_eq F E kd bh2 m2 Hs2 Hw2 veq m Hk1 w []) as (r' & w4 & c & H' & Hc & Hh).
    rewrite H in H'. cbn [app] in H'. injection H' as <- <- <-. rewrite Hlen, Hlen2 in Hc. rewrite Hlen in Hh.
    split; [destruct (v_eq F E veq m m2 w); cbn in *; congruence|]. split; [|split; [|auto]].
    + intros Hne. unfold v_eq in H. rewrite !fm_len_iter, Hlen, Hlen2 in H.
      rewrite (proj2 (Z.eqb_neq _ _) Hne) in H. cbn [negb lift] in H. now injection H as <- _ <-.
    + intros Heq. destruct (eq_logs F E kd bh2 m2 Hs2 Hw2 veq m Hk1 ltac:(lia) w []) as (r' & w4 & c & H' & Ha).
      rewrite H in H'. cbn [app] in H'. now injection H' as <- <- <-.
Qed.

Lemma recording_regular {W O} (F : conduct W O) (eqbO : O -> O -> bool) : regular F eqbO -> regular (recording F) eqbO.
Proof.
  intros (H1 & H2 & H3 & H4). split; [|split; [|split]]; intros a b (w, c); cbn [recording on_eq on_hash on_hash_slice on_hash_write];
    unfold noting; cbn [fst snd];
    [specialize (H1 a b w)|specialize (H2 a b w)|specialize (H3 a b w)|specialize (H4 a b w)];
    [destruct (on_eq _ _ _ _)|destruct (on_hash _ _ _ _)|destruct (on_hash_slice _ _ _ _)|destruct (on_hash_write _ _ _ _)]; auto.
Qed.

(** The counts of LookupCost.v are those of the calls of [==]. *)
Lemma comparisons_counted :
  forall (W O V : Type) (F : conduct W O) (eqbO : O -> O -> bool) (E : env) (bh : hasher O)
         (payload : list (key O * V)) (m : map_types O V) (k : key O) (w : W),
  regular F eqbO -> env_ok E -> typed KindOther payload -> has_kind KindOther k ->
  fm_new E KindOther payload bh = Ok m ->
  exists r w' calls, v_find (recording F) E m k (w, []) = (Ok r, (w', calls)) /\
    fm_get_at eqbO E m k = Ok r /\ fm_get_cost eqbO E m k = Ok (comparisons_in calls).
Proof.
  intros W O V F eqbO E bh payload m k w HF HE Ht Hk Hm.
  assert (Hv : v_new (steady (W := unit) eqbO) E KindOther payload bh tt = (Ok m, tt)).
  { pose proof (same_new eqbO E (steady (W := unit) eqbO) (steady_regular eqbO) KindOther payload bh tt) as Hn. rewrite Hm in Hn.
    destruct (v_new _ _ _ _ _ _) as [r []]. cbn [fst] in Hn. now subst r. }
  destruct (v_built (steady eqbO) E HE KindOther payload bh tt m tt Ht Hv) as (HP & Hs).
  pose proof (built_hashes_with (steady eqbO) E KindOther payload bh tt m tt Ht Hv) as Hw.
  destruct k as [n|s|x]; try (now elim Hk).
  assert (Hr : forall r w' calls, v_find (recording F) E m (KOther x) (w, []) = (Ok r, (w', calls)) -> fm_get_at eqbO E m (KOther x) = Ok r).
  { intros r w' calls Hf. rewrite <- (same_find eqbO E (recording F) (recording_regular F eqbO HF) m (KOther x) (w, [])), Hf.
    reflexivity. }
  assert (Hq : forall y w1 c0, exists w2, v_key_eq (recording F) (KOther x) (KOther y) (w1, c0) = (Ok (eqbO x y), (w2, c0 ++ [Compared x y]))).
  { intros y w1 c0. cbn [v_key_eq]. unfold call. cbn [on_eq recording]. unfold noting. cbn [fst snd].
    pose proof (proj1 HF x y w1) as Ha. destruct (on_eq F x y w1) as (o, w2). cbn [fst snd] in *. subst o. now exists w2. }
  assert (Hp : forall (l : list (key O * V)) w1 c0, (forall e, In e l -> has_kind KindOther (fst e)) ->
    exists r w2 c, v_find_pos (fun e => v_key_eq (recording F) (KOther x) (fst e)) l (w1, c0) = (Ok r, (w2, c0 ++ c)) /\
      comparisons (fun e => key_eqb eqbO (KOther x) (fst e)) l = comparisons_in c).
  { induction l as [|e l IH]; intros w1 c0 Hl; cbn [v_find_pos comparisons].
    - exists None, w1, []. rewrite app_nil_r. auto.
    - assert (He := Hl e (or_introl eq_refl)). destruct e as [[n|s|y] v]; try (now elim He).
      change (key_eqb eqbO (KOther x) (fst (KOther y, v))) with (eqbO x y). cbn [fst].
      destruct (Hq y w1 c0) as (w2 & Ey). unfold mbind at 1. rewrite Ey. destruct (eqbO x y).
      + exists (Some 0%nat), w2, [Compared x y]. auto.
      + destruct (IH w2 (c0 ++ [Compared x y])) as (r & w3 & c & Ex & Hc); [intros a Ha; apply Hl; now right|].
        unfold mbind. rewrite Ex. exists (option_map S r), w3, (Compared x y :: c). rewrite <- app_assoc. split; [reflexivity|].
        rewrite Hc. unfold comparisons_in. cbn [filter is_comparison length]. lia. }
  assert (Hall : forall e, In e (fm_iter m) -> has_kind KindOther (fst e)).
  { intros e He. apply Ht. eapply Permutation_in; [symmetry; exact HP|exact He]. }
  assert (Hcm : forall cm : common_map (key O) V (hasher O), table_safe (cm_table cm) ->
    (forall e, In e (entries (cm_table cm)) -> has_kind KindOther (fst e)) ->
    exists r w' calls, v_cm_find (recording F) cm (KOther x) (w, []) = (Ok r, (w', calls)) /\
      cm_get_cost (key_eqb eqbO) id_key hash_one cm (KOther x) = Ok (comparisons_in calls)).
  { intros cm Hts Hin. unfold v_cm_find, cm_get_cost, cm_get_hash_info.
    assert (Hh : exists w1, v_hash (recording F) (cm_bh cm) (KOther x) (w, []) =
      (Ok (hash_one (cm_bh cm) (KOther x)), (w1, [Hashed (cm_bh cm) (KOther x)]))).
    { unfold v_hash, call. cbn [on_hash recording]. unfold noting. cbn [fst snd].
      pose proof (proj1 (proj2 HF) (cm_bh cm) (KOther x) w) as Ha. destruct (on_hash F _ _ w) as (o, w1). cbn [fst snd] in *. subst o.
      now exists w1. }
    destruct Hh as (w1 & Hh). unfold mbind at 1. rewrite Hh.
    destruct (Hts (hash_one (cm_bh cm) (KOther x))) as (a & b & Hi & Hab).
    unfold mbind at 1, lift at 1. rewrite Hi. cbn [bind]. unfold v_probe, ht_probe_cost, slice_unchecked. cbn [fst snd].
    rewrite Hab. unfold mbind at 1, lift at 1. cbn [bind].
    destruct (Hp (sub a b (entries (cm_table cm))) w1 [Hashed (cm_bh cm) (KOther x)]) as (r & w2 & c & Ex & Hc).
    { intros e He. apply Hin. unfold sub in He. rewrite <- (firstn_skipn (Z.to_nat a)). apply in_or_app. right.
      rewrite <- (firstn_skipn (Z.to_nat (b - a))). apply in_or_app. now left. }
    unfold mbind. rewrite Ex. eexists _, _, _. split; [reflexivity|]. unfold id_key. rewrite Hc. reflexivity. }
  assert (G : exists r w' calls, v_find (recording F) E m (KOther x) (w, []) = (Ok r, (w', calls)) /\
    fm_get_cost eqbO E m (KOther x) = Ok (comparisons_in calls)).
  { destruct m as [sm|cm|cm|im|im|rm|lm|lm|rm|rm|lem]; cbn [hashes_with] in Hw; try (now destruct Hw as (_ & Hw)); try (now elim Hw);
      cbn [v_find fm_get_cost fm_safe fm_iter] in *; auto.
    destruct (Hp (sm_entries sm) w [] Hall) as (r & w' & c & Ex & Hc). rewrite Ex. eexists _, _, _. split; [reflexivity|].
    unfold sm_get_cost, id_key. now rewrite Hc. }
  destruct G as (r & w' & calls & Hf & Hc). exists r, w', calls. split; auto. split; [now apply (Hr r w' calls)|auto].
Qed.
