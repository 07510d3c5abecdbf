(** The calls that a FrozenMap makes of the caller's code. *)
From Coq Require Import List ZArith Bool Arith Lia Permutation.
From Verif Require Import Spec MapSpec CostSpec Base BaseLemmas HashCodeAnalyzer HashCodeAnalyzerProofs IntKeyAnalyzer
  IntProofs SliceKeyAnalyzer SliceKeyAnalyzerProofs HashTable HashTableProofs Maps MapsProofs FrozenMap
  FrozenMapProofs FrozenMapFacts CapacityProofs BuildSound SliceCostProofs Volatile VolatileProofs CallSpec.
Import ListNotations.
Open Scope Z_scope.

Section Logs.
Context {W O : Type}.
Notation W' := (W * list (event O))%type.

(** Whatever the state, the computation adds to the record a list of events that fits its outcome. *)
Definition logs {A} (x : M W' A) (Q : res A -> list (event O) -> Prop) : Prop :=
  forall w l, exists r w' c, x (w, l) = (r, (w', l ++ c)) /\ Q r c.

Lemma logs_lift {A} (r : res A) (Q : res A -> list (event O) -> Prop) : Q r [] -> logs (lift r) Q.
Proof. intros H w l. exists r, w, []. rewrite app_nil_r. auto. Qed.

Lemma logs_call {A} e (f : W -> option A * W) (Q : res A -> list (event O) -> Prop) :
  (forall r, Q r [e]) -> logs (call (noting e f)) Q.
Proof.
  intros H w l. unfold call, noting. cbn [fst snd]. destruct (f w) as [[a|] w'];
    eexists _, w', [e]; (split; [reflexivity|]); apply H.
Qed.

(** An outcome that is not a value. *)
Definition no_value {A} (r : res A) : Prop := match r with Ok _ => False | _ => True end.

Lemma logs_bind {A B} (x : M W' A) (f : A -> M W' B) Q1 Q2 (Q : res B -> list (event O) -> Prop) :
  logs x Q1 -> (forall a, logs (f a) (Q2 a)) ->
  (forall a c1 r c2, Q1 (Ok a) c1 -> Q2 a r c2 -> Q r (c1 ++ c2)) ->
  (forall (r : res A) (r' : res B) c, no_value r -> no_value r' -> Q1 r c -> Q r' c) ->
  logs (mbind x f) Q.
Proof.
  intros Hx Hf H1 H2 w l. destruct (Hx w l) as (r & w1 & c1 & Ex & Hq). unfold mbind. rewrite Ex.
  destruct r as [a|p|u|].
  - destruct (Hf a w1 (l ++ c1)) as (r & w2 & c2 & -> & Hq2). exists r, w2, (c1 ++ c2).
    rewrite app_assoc. split; auto. eapply H1; eauto.
  - exists (Panic p), w1, c1. split; auto. eapply H2; [| |exact Hq]; exact I.
  - exists (UB u), w1, c1. split; auto. eapply H2; [| |exact Hq]; exact I.
  - exists OutOfFuel, w1, c1. split; auto. eapply H2; [| |exact Hq]; exact I.
Qed.

Lemma logs_weaken {A} (x : M W' A) (Q Q' : res A -> list (event O) -> Prop) :
  logs x Q -> (forall r c, Q r c -> Q' r c) -> logs x Q'.
Proof. intros H HQ w l. destruct (H w l) as (r & w' & c & E & Hq). eauto 6. Qed.

(** The events are [full], or the beginning of it if the computation does not deliver. *)
Definition through {A} (full : list (event O)) (r : res A) (c : list (event O)) : Prop :=
  prefix c full /\ (forall a, r = Ok a -> c = full).

Lemma prefix_refl {A} (l : list A) : prefix l l.
Proof. exists []. now rewrite app_nil_r. Qed.
Lemma prefix_nil {A} (l : list A) : prefix [] l.
Proof. now exists l. Qed.

Lemma through_lift {A} (r : res A) : logs (lift r) (through []).
Proof. apply logs_lift. split; auto. apply prefix_refl. Qed.
Lemma through_call {A} e (f : W -> option A * W) : logs (call (noting e f)) (through [e]).
Proof. apply logs_call. intros r. split; auto. apply prefix_refl. Qed.
Lemma through_fails {A} (r : res A) full : no_value r -> logs (lift r) (through full).
Proof. intros H. apply logs_lift. split; [apply prefix_nil|]. intros a ->. now elim H. Qed.

Lemma logs_live {A B} (a : A) (f : A -> M W' B) Q : logs (f a) Q -> logs (mbind (lift (Ok a)) f) Q.
Proof. intros H. exact H. Qed.
Lemma logs_dead {A B} (r : res A) (f : A -> M W' B) full : no_value r -> logs (mbind (lift r) f) (through full).
Proof.
  intros H w l. destruct r as [a|p|u|]; [now elim H| | |]; eexists _, w, []; rewrite app_nil_r;
    (split; [reflexivity|]); (split; [apply prefix_nil|discriminate]).
Qed.

Lemma through_bind {A B} (x : M W' A) (f : A -> M W' B) c1 c2 :
  logs x (through c1) -> (forall a, logs (f a) (through c2)) -> logs (mbind x f) (through (c1 ++ c2)).
Proof.
  intros Hx Hf. eapply logs_bind; [exact Hx|intros a; apply (Hf a)| |]; cbv beta.
  - intros a d1 r d2 (_ & H1) (P2 & H2). rewrite (H1 a eq_refl). split.
    + destruct P2 as (rest & ->). exists rest. now rewrite app_assoc.
    + intros b Hb. now rewrite (H2 b Hb).
  - intros r r' c Hr Hr' ((rest & ->) & _). split.
    + exists (rest ++ c2). now rewrite app_assoc.
    + intros b ->. now elim Hr'.
Qed.
Lemma through_bind_nil {A B} (x : M W' A) (f : A -> M W' B) c :
  logs x (through c) -> (forall a, logs (f a) (through [])) -> logs (mbind x f) (through c).
Proof. intros H1 H2. rewrite <- (app_nil_r c). now apply through_bind. Qed.
Lemma through_nil_bind {A B} (x : M W' A) (f : A -> M W' B) c :
  logs x (through []) -> (forall a, logs (f a) (through c)) -> logs (mbind x f) (through c).
Proof. intros H1 H2. apply (through_bind x f [] c); auto. Qed.

Lemma through_map {A B} (f : A -> M W' B) (e : A -> list (event O)) l :
  (forall a, In a l -> logs (f a) (through (e a))) -> logs (v_map f l) (through (flat_map e l)).
Proof.
  induction l as [|a l IH]; intros H; cbn [v_map flat_map]; [apply through_lift|].
  apply through_bind; [apply H; now left|]. intros b. apply through_bind_nil; [apply IH; intros; apply H; now right|].
  intros bs. apply through_lift.
Qed.

(** ** hash_table.rs *)

Lemma through_prepare {K V} (hash : K -> M W' Z) (e : K -> list (event O)) n (payload : list (K * V)) :
  (forall x, In x payload -> logs (hash (fst x)) (through (e (fst x)))) ->
  logs (v_prepare hash n payload) (through (flat_map (fun x => e (fst x)) payload)).
Proof.
  induction payload as [|x p IH]; intros H; cbn [v_prepare flat_map]; [apply through_lift|].
  apply through_bind; [apply H; now left|]. intros code. destruct (n =? 0); [now apply through_fails|].
  apply through_bind_nil; [apply IH; intros; apply H; now right|]. intros rest. apply through_lift.
Qed.

Lemma through_ht_new {K V} E S_ty (payload : list (K * V)) n (hash : K -> M W' Z) (e : K -> list (event O)) :
  (forall x, In x payload -> logs (hash (fst x)) (through (e (fst x)))) ->
  logs (v_ht_new E S_ty payload n hash) (through (flat_map (fun x => e (fst x)) payload)).
Proof.
  intros H. unfold v_ht_new. destruct payload as [|x p]; [apply through_lift|].
  apply through_nil_bind; [apply through_lift|]. intros cap. destruct (cap <? _); [now apply through_fails|].
  apply through_bind_nil; [now apply through_prepare|]. intros items. apply through_lift.
Qed.
End Logs.

Lemma flat_map_single {A B} (f : A -> B) l : flat_map (fun a => [f a]) l = map f l.
Proof. induction l as [|a l IH]; cbn; congruence. Qed.
Lemma flat_map_nil {A B} (l : list A) : flat_map (fun _ => []) l = @nil B.
Proof. induction l as [|a l IH]; cbn; congruence. Qed.

(** ** Windows *)

Section Windows.
Context {W O : Type}.
Notation W' := (W * list (event O))%type.
Variable h : list Z -> M W' Z.
Variable bh : hasher O.
Hypothesis Hh : forall s, logs (h s) (through [HashedSlice bh s]).

(** At most [n] events, each a hash of a window of a key. *)
Definition looked {A} (keys : list (list Z)) (n : Z) (r : res A) (c : list (event O)) : Prop :=
  zlen c <= n /\ Forall (fun e => exists s x, In s keys /\ window_of s x /\ e = HashedSlice bh x) c.

Lemma looked_bind {A B} keys (x : M W' A) (f : A -> M W' B) n1 n2 :
  0 <= n2 -> logs x (looked keys n1) -> (forall a, logs (f a) (looked keys n2)) -> logs (mbind x f) (looked keys (n1 + n2)).
Proof.
  intros H0 Hx Hf. eapply logs_bind; [exact Hx|exact Hf| |]; cbv beta.
  - intros a c1 r c2 (H1 & F1) (H2 & F2). split; [rewrite zlen_app; lia|]. apply Forall_app. auto.
  - intros r r' c _ _ (H & F). split; auto. lia.
Qed.
Lemma looked_nothing {A} keys n (r : res A) : 0 <= n -> logs (W := W) (lift r) (looked keys n).
Proof. intros H. apply logs_lift. split; [exact H|constructor]. Qed.
Lemma looked_more {A} keys n n' (x : M W' A) : logs x (looked keys n) -> n <= n' -> logs x (looked keys n').
Proof. intros H Hn. eapply logs_weaken; [exact H|]. intros r c (H1 & H2). split; auto. lia. Qed.

Lemma take_window lj i l (s x : list Z) : 1 <= l <= 16 -> take_subslice lj i l s = Ok x -> window_of s x.
Proof.
  intros Hl H. assert (Hs : forall a, slice_checked a (a + l) s = Ok x -> window_of s x).
  { intros a Ha. unfold slice_checked in Ha. destruct (range_ok a (a + l) s) eqn:Er; [|discriminate].
    injection Ha as <-. apply range_ok_iff in Er. unfold sub. replace (a + l - a) with l by lia. unfold zlen in Er. split.
    - rewrite firstn_length, skipn_length. lia.
    - exists (firstn (Z.to_nat a) s), (skipn (Z.to_nat l) (skipn (Z.to_nat a) s)).
      now rewrite firstn_skipn, firstn_skipn. }
  unfold take_subslice in H. destruct lj; [eauto|]. cbv zeta in H. destruct (_ <? 0); [discriminate|]. eauto.
Qed.

Lemma looked_uniqueness all lj i l : 1 <= l <= 16 -> forall keys set acc, incl keys all ->
  logs (v_uniqueness_loop h lj i l keys set acc) (looked all (zlen keys)).
Proof.
  intros Hl. induction keys as [|s keys IH]; intros set acc Hin; cbn [v_uniqueness_loop]; [now apply looked_nothing|].
  rewrite zlen_cons, Z.add_comm. pose proof (zlen_nonneg keys) as Hn.
  destruct (take_subslice lj i l s) as [x| | |] eqn:Et.
  2,3,4: apply (looked_more _ 0); [|lia]; now apply looked_nothing.
  assert (Hw := take_window _ _ _ _ _ Hl Et).
  enough (H0 : logs (code <~ h x ;; (if existsb (Z.eqb code) set then
        if acc =? 0 then lift (Ok false) else v_uniqueness_loop h lj i l keys set (acc - 1)
        else v_uniqueness_loop h lj i l keys (code :: set) acc)) (looked all (1 + zlen keys))) by exact H0.
  apply looked_bind; auto.
  - eapply logs_weaken; [apply Hh|]. intros r c ((rest & Hp) & _).
    destruct c as [|e [|e' c]]; [split; [now unfold zlen|constructor]| |discriminate].
    injection Hp as <- _. split; [reflexivity|]. constructor; [|constructor]. exists s, x. split; [apply Hin; now left|auto].
  - intros code. assert (Hin' : incl keys all) by (intros y Hy; apply Hin; now right).
    destruct (existsb _ _); [destruct (acc =? 0); [now apply looked_nothing|]|]; now apply IH.
Qed.

Lemma looked_index keys l lj acc : 1 <= l <= 16 -> forall remaining i,
  logs (v_find_index h keys l lj acc remaining i) (looked keys (Z.of_nat remaining * zlen keys)).
Proof.
  intros Hl. pose proof (zlen_nonneg keys) as Hn.
  induction remaining as [|n IH]; intros i; cbn [v_find_index]; [now apply looked_nothing|].
  apply (looked_more _ (zlen keys + Z.of_nat n * zlen keys)); [|nia]. apply looked_bind; [nia| |].
  - apply looked_uniqueness; auto. apply incl_refl.
  - intros []; [apply looked_nothing; nia|apply IH].
Qed.

(** Keys of one length. *)
Lemma looked_equal keys mn acc : forall r l, 1 <= l -> l + Z.of_nat r <= mn + 1 -> l + Z.of_nat r <= 17 ->
  logs (v_find_subslice h keys mn mn acc r l) (looked keys (zlen keys * side mn r l)).
Proof.
  pose proof (zlen_nonneg keys) as Hn.
  induction r as [|r IH]; intros l Hl Hr H17; cbn [v_find_subslice side]; [apply looked_nothing; nia|]. cbv zeta.
  pose proof (side_nonneg mn r (l + 1) ltac:(lia)) as Hs.
  apply (looked_more _ (Z.of_nat (Z.to_nat (mn - l + 1)) * zlen keys + zlen keys * side mn r (l + 1)));
    [|rewrite Z2Nat.id by lia; nia].
  apply looked_bind; [nia|apply looked_index; lia|]. intros [i|]; [apply looked_nothing; nia|].
  rewrite Z.eqb_refl.
  enough (H0 : logs (v_find_subslice h keys mn mn acc r (l + 1)) (looked keys (zlen keys * side mn r (l + 1)))) by exact H0.
  apply IH; lia.
Qed.

(** Keys of different lengths. *)
Lemma looked_unequal keys mn mx acc r : keys <> [] -> (forall s, In s keys -> mn <= zlen s) ->
  1 <= mn -> mn <> mx -> r = Z.to_nat (Z.min mn 16) ->
  logs (v_find_subslice h keys mn mx acc r 1) (looked keys (3 * mn * zlen keys)).
Proof.
  intros Hne Hlen H1 Hmx Hr. pose proof (zlen_nonneg keys) as Hn.
  destruct r as [|r]; [lia|]. cbn [v_find_subslice]. cbv zeta.
  assert (Hi : Z.of_nat (Z.to_nat (mn - 1 + 1)) = mn) by lia. set (indices := Z.to_nat (mn - 1 + 1)) in *.
  replace (3 * mn * zlen keys) with (Z.of_nat indices * zlen keys + 2 * mn * zlen keys) by (rewrite Hi; nia).
  apply looked_bind; [nia|apply looked_index; lia|]. intros [i|]; [apply looked_nothing; nia|].
  destruct (Z.eqb_spec mn mx); [lia|].
  replace (2 * mn * zlen keys) with (Z.of_nat indices * zlen keys + mn * zlen keys) by (rewrite Hi; nia).
  apply looked_bind; [nia|apply looked_index; lia|]. intros [i|]; [apply looked_nothing; nia|].
  change (1 + 1) with 2. destruct r as [|r]; cbn [v_find_subslice]; [apply looked_nothing; nia|]. cbv zeta.
  assert (Hi2 : Z.of_nat (Z.to_nat (mn - 2 + 1)) = mn - 1) by lia. set (indices2 := Z.to_nat (mn - 2 + 1)) in *.
  replace (mn * zlen keys) with (Z.of_nat indices2 * zlen keys + zlen keys) by (rewrite Hi2; nia).
  apply looked_bind; [nia|apply looked_index; lia|]. intros [i|]; [apply looked_nothing; nia|].
  destruct (Z.eqb_spec mn mx); [lia|]. destruct indices2 as [|n2]; [lia|]. cbn [v_find_index].
  destruct keys as [|s keys]; [congruence|]. cbn [v_uniqueness_loop].
  assert (Et : take_subslice false 0 2 s = Panic PIndexOutOfBounds).
  { specialize (Hlen s (or_introl eq_refl)). unfold take_subslice.
    destruct (Z.ltb_spec (zlen s - 0 - 1) 0); [lia|].
    unfold slice_checked. destruct (range_ok _ _ s) eqn:E; [|reflexivity]. apply range_ok_iff in E. lia. }
  rewrite Et. exact (looked_nothing (s :: keys) (zlen (s :: keys)) (@Panic slice_key_analysis PIndexOutOfBounds) Hn).
Qed.

Lemma looked_analysis keys mn mx : (forall s, In s keys -> zlen s < 2 ^ 64) ->
  is_min mn (map zlen keys) -> is_max mx (map zlen keys) ->
  logs (v_analyze_slice_keys h keys)
    (looked keys (zlen keys * (if mn =? mx then windows_within mn else 3 * mn))).
Proof.
  intros H64 Hmn Hmx. pose proof (zlen_nonneg keys) as Hn.
  assert (Hne : map zlen keys <> []) by (intros E; rewrite E in Hmn; destruct Hmn as ([] & _)).
  assert (Hmn' : fold_left (fun m s => Z.min m (zlen s)) keys (imax usize) = mn).
  { rewrite <- (fold_left_map_zlen Z.min).
    eapply is_min_unique; [apply fold_min_is_min; auto|exact Hmn].
    intros x Hx. apply in_map_iff in Hx. destruct Hx as (s & <- & Hs). specialize (H64 s Hs).
    change (imax usize) with (2 ^ 64 - 1). lia. }
  assert (Hmx' : fold_left (fun m s => Z.max m (zlen s)) keys 0 = mx).
  { rewrite <- (fold_left_map_zlen Z.max).
    eapply is_max_unique; [apply fold_max_is_max; auto|exact Hmx].
    intros x Hx. apply in_map_iff in Hx. destruct Hx as (s & <- & Hs). apply zlen_nonneg. }
  assert (H0 : 0 <= mn).
  { destruct Hmn as (Hin & _). apply in_map_iff in Hin. destruct Hin as (s & <- & _). apply zlen_nonneg. }
  assert (Hb : 0 <= windows_within mn).
  { rewrite <- side_within by auto. apply side_nonneg. lia. }
  unfold v_analyze_slice_keys. destruct (analyze_lengths keys); try (apply looked_nothing; destruct (mn =? mx); nia).
  cbv zeta. rewrite Hmn', Hmx'. destruct (Z.eqb_spec mn mx) as [<-|Em].
  - rewrite <- side_within by auto. apply looked_equal; lia.
  - destruct (Z.eq_dec mn 0) as [E0|E0].
    { rewrite E0 in *. change (Z.to_nat (Z.min 0 16)) with 0%nat. apply looked_nothing. nia. }
    apply (looked_more _ (3 * mn * zlen keys)); [|nia]. apply looked_unequal; auto; try lia.
    + intros ->. now apply Hne.
    + intros s Hs. apply Hmn. now apply in_map.
Qed.
End Windows.

(** ** Construction *)

Section Facade.
Context {W O V : Type}.
Variable F : conduct W O.
Variable E : env.
Hypothesis HE : env_ok E.
Notation key := (key O).
Notation hasher := (hasher O).
Notation R := (recording F).
Notation W' := (W * list (event O))%type.
Implicit Types (payload : list (key * V)) (m : map_types O V) (k : key) (bh : hasher).

Lemma through_cm S_ty payload bh :
  logs (v_cm_from_vec R E S_ty payload bh) (through (hash_all bh payload ++ hash_all bh payload)).
Proof.
  unfold v_cm_from_vec, hash_all.
  assert (Hh : forall x : key * V, In x payload -> logs (v_hash R bh (fst x)) (through [Hashed bh (fst x)]))
    by (intros x _; apply through_call).
  apply through_bind.
  - rewrite <- flat_map_single. apply through_map. exact Hh.
  - intros codes. apply through_nil_bind; [apply through_lift|]. intros an.
    apply through_bind_nil; [|intros t; apply through_lift].
    rewrite <- (flat_map_single (fun e : key * V => Hashed bh (fst e))).
    apply (through_ht_new E S_ty payload _ (v_hash R bh) (fun k => [Hashed bh k])). exact Hh.
Qed.

Lemma slice_ok bh s a b : 0 <= a <= b -> b <= zlen s ->
  v_slice_hash R bh s a b = call (noting (HashedPart bh (sub a b s)) (on_hash_write F bh (sub a b s))).
Proof.
  intros Hab Hb. unfold v_slice_hash, slice_unchecked. rewrite (proj2 (range_ok_iff _ _ _)) by auto. reflexivity.
Qed.

Lemma through_lsm S_ty (p : list (list Z * V)) a b bh :
  0 <= a <= b -> (forall e, In e p -> b <= zlen (fst e)) ->
  let parts := map (fun e : list Z * V => HashedPart bh (sub a b (fst e))) p in
  logs (v_lsm_from_vec R E S_ty p a b bh) (through (parts ++ parts)).
Proof.
  intros Hab Hb parts. unfold v_lsm_from_vec, parts.
  assert (Hh : forall x, In x p -> logs (v_slice_hash R bh (fst x) a b) (through [HashedPart bh (sub a b (fst x))]))
    by (intros x Hx; rewrite slice_ok by auto; apply through_call).
  apply through_bind.
  - rewrite <- flat_map_single. apply through_map. intros x Hx. cbv zeta.
    rewrite (proj2 (Z.leb_le _ _)) by auto. now apply Hh.
  - intros codes. apply through_nil_bind; [apply through_lift|]. intros an.
    apply through_bind_nil; [|intros t; apply through_lift].
    rewrite <- (flat_map_single (fun e : list Z * V => HashedPart bh (sub a b (fst e)))).
    apply (through_ht_new E S_ty p _ (fun x => v_slice_hash R bh x a b) (fun x => [HashedPart bh (sub a b x)])). exact Hh.
Qed.

Lemma through_rsm S_ty (p : list (list Z * V)) a b bh :
  0 <= a < b -> b < 2 ^ 64 -> (forall e, In e p -> zlen (fst e) < 2 ^ 64) ->
  logs (v_rsm_from_vec R E S_ty p a b bh) (through []).
Proof.
  intros Hab Hb Hk. unfold v_rsm_from_vec.
  assert (Hh : forall x, In x p -> logs (v_right_hash R E bh (fst x) a b) (through [])).
  { intros x Hx. specialize (Hk x Hx). pose proof (right_hash_forward_fails hash_write (prof E) bh (fst x) a b Hab Hb Hk) as Hr.
    unfold v_right_hash. unfold right_hash, slice_hash in Hr.
    destruct (arith (prof E) usize (zlen (fst x) - a)) as [c| | |]; cbn [bind] in Hr; try (apply logs_dead; exact I).
    apply logs_live. destruct (arith (prof E) usize (zlen (fst x) - b)) as [d| | |]; cbn [bind] in Hr; try (apply logs_dead; exact I).
    apply logs_live. unfold v_slice_hash.
    destruct (slice_unchecked c d (fst x)); cbn [bind] in Hr; try (apply logs_dead; exact I). destruct Hr; discriminate. }
  apply through_nil_bind.
  - rewrite <- (flat_map_nil p). apply through_map. intros x Hx. cbv zeta.
    destruct (_ <=? _); [now apply Hh|apply through_lift].
  - intros codes. apply through_nil_bind; [apply through_lift|]. intros an.
    apply through_bind_nil; [|intros t; apply through_lift].
    rewrite <- (flat_map_nil p). apply (through_ht_new E S_ty p _ (fun x => v_right_hash R E bh x a b) (fun x => [])). exact Hh.
Qed.


Lemma str_payload payload p : map from_string_entry p = payload -> map fst p = str_keys payload.
Proof. intros <-. unfold str_keys. rewrite map_map. apply map_ext. intros []. reflexivity. Qed.

Lemma construction_logs kd payload bh : typed kd payload ->
  logs (v_new R E kd payload bh) (fun r c =>
    (zlen payload < 4 \/ kd = KindU32 -> c = []) /\
    (4 <= zlen payload -> kd = KindOther -> through (hash_all bh payload ++ hash_all bh payload) r c) /\
    (4 <= zlen payload -> kd = KindString -> exists looked rest full, c = looked ++ rest /\
       (forall mn mx, is_min mn (map zlen (str_keys payload)) -> is_max mx (map zlen (str_keys payload)) ->
          zlen looked <= zlen payload * (if mn =? mx then windows_within mn else 3 * mn)) /\
       Forall (fun e => exists s x, In s (str_keys payload) /\ window_of s x /\ e = HashedSlice bh x) looked /\
       string_calls bh payload full /\ through full r rest)).
Proof.
  intros Ht. unfold v_new. destruct (Z.ltb_spec (zlen payload) 4) as [Hl|Hl].
  { apply logs_lift. split; [auto|]. split; intros; lia. }
  destruct kd.
  - apply logs_lift. split; [auto|]. split; intros; discriminate.
  - assert (Hs : logs (v_new_string_map R E payload bh) (fun r c => exists looked rest full, c = looked ++ rest /\
       (forall mn mx, is_min mn (map zlen (str_keys payload)) -> is_max mx (map zlen (str_keys payload)) ->
          zlen looked <= zlen payload * (if mn =? mx then windows_within mn else 3 * mn)) /\
       Forall (fun e => exists s x, In s (str_keys payload) /\ window_of s x /\ e = HashedSlice bh x) looked /\
       string_calls bh payload full /\ through full r rest)).
    2:{ eapply logs_weaken; [exact Hs|]. cbv beta. intros r c H. split; [intros [?|?]; [lia|discriminate]|].
        split; [discriminate|]. intros _ _. exact H. }
    destruct (as_string_payload payload Ht) as (p & Hp & Hm & Hr). pose proof (str_payload payload p Hm) as Hkeys.
    assert (Hlen : zlen (str_keys payload) = zlen payload).
    { rewrite <- Hkeys. rewrite <- Hm. unfold zlen. now rewrite !map_length. }
    unfold v_new_string_map. rewrite Hp. apply logs_live. rewrite Hkeys.
    assert (Hne : map zlen (str_keys payload) <> []).
    { intros H. apply (f_equal zlen) in H. unfold zlen in H, Hl, Hlen. rewrite map_length in H. cbn in H. lia. }
    assert (H64 : forall s, In s (str_keys payload) -> zlen s < 2 ^ 64).
    { rewrite <- Hkeys. intros s Hs. apply in_map_iff in Hs. destruct Hs as (e & <- & He). now apply Hr. }
    assert (Hmn : exists mn, is_min mn (map zlen (str_keys payload))).
    { exists (fold_left Z.min (map zlen (str_keys payload)) (2 ^ 64)). apply fold_min_is_min; auto.
      intros x Hx. apply in_map_iff in Hx. destruct Hx as (s & <- & Hs). specialize (H64 s Hs). lia. }
    assert (Hmx : exists mx, is_max mx (map zlen (str_keys payload))).
    { exists (fold_left Z.max (map zlen (str_keys payload)) 0). apply fold_max_is_max; auto.
      intros x Hx. apply in_map_iff in Hx. destruct Hx as (s & <- & Hs). apply zlen_nonneg. }
    destruct Hmn as (mn & Hmn), Hmx as (mx & Hmx). intros w l.
    destruct (looked_analysis (fun s => call (on_hash_slice R bh s)) bh (fun s => through_call _ _) (str_keys payload) mn mx
      H64 Hmn Hmx w l) as (r & w1 & c1 & Ex & Hn & Hw).
    assert (Hbound : forall mn mx, is_min mn (map zlen (str_keys payload)) -> is_max mx (map zlen (str_keys payload)) ->
          zlen c1 <= zlen payload * (if mn =? mx then windows_within mn else 3 * mn)).
    { intros mn' mx' H1 H2. rewrite (is_min_unique mn' mn _ H1 Hmn), (is_max_unique mx' mx _ H2 Hmx), <- Hlen. exact Hn. }
    unfold mbind at 1. rewrite Ex. destruct r as [an|pc|u|].
    2,3,4: eexists _, w1, c1; (split; [reflexivity|]); exists c1, [], []; rewrite app_nil_r; (split; [reflexivity|]);
      (split; [exact Hbound|]); (split; [exact Hw|]); (split; [now left|]); (split; [apply prefix_nil|discriminate]).
    apply v_analyze_range in Ex.
    match goal with |- exists r w' c, ?x (w1, l ++ c1) = _ /\ _ =>
      enough (Hrest : exists full, string_calls bh payload full /\ logs x (through full)) end.
    { destruct Hrest as (full & Hfull & Hrest). destruct (Hrest w1 (l ++ c1)) as (r & w2 & c2 & -> & Hq).
      exists r, w2, (c1 ++ c2). rewrite app_assoc. split; [reflexivity|]. exists c1, c2, full. auto. }
    assert (Hcommon : forall (f : _ -> map_types O V) S_ty, logs (m <~ v_cm_from_vec R E S_ty payload bh ;; lift (Ok (f m)))
      (through (hash_all bh payload ++ hash_all bh payload)))
      by (intros f S_ty; apply through_bind_nil; [apply through_cm|intros; apply through_lift]).
    assert (Hleft : forall (f : _ -> map_types O V) S_ty i n, an = LeftHandSubslice i n ->
      exists full, string_calls bh payload full /\
        logs (m <~ v_lsm_from_vec R E S_ty p i (i + n) bh ;; lift (Ok (f m))) (through full)).
    { intros f S_ty i n ->. destruct Ex as (Hi & Hn16 & _ & Hin).
      eexists. split; [right; right; exists (Z.to_nat i), (Z.to_nat n); split; [lia|]; split; [|reflexivity]|].
      - intros s Hs. specialize (Hin s Hs). unfold zlen in Hin. lia.
      - apply through_bind_nil; [|intros; apply through_lift]. rewrite <- Hkeys, map_map.
        erewrite map_ext; [apply through_lsm; [lia|]|].
        + intros e He. apply Hin. rewrite <- Hkeys. now apply in_map.
        + intros e. cbv beta. unfold sub, left_win. do 3 f_equal. lia. }
    assert (Hright : forall (f : _ -> map_types O V) S_ty i n, an = RightHandSubslice i n ->
      logs (m <~ v_rsm_from_vec R E S_ty p i (i + n) bh ;; lift (Ok (f m))) (through [])).
    { intros f S_ty i n ->. apply through_bind_nil; [|intros; apply through_lift]. apply through_rsm; auto; lia. }
    destruct (_ <=? _), an as [|i n|i n|].
    all: try (eexists; split; [right; left; reflexivity|apply Hcommon]).
    all: try (now apply Hleft).
    all: try (exists []; split; [now left|now eapply Hright]).
    exists []. split; [now left|]. apply through_bind_nil; [apply through_lift|]. intros x. apply through_lift.
  - eapply logs_weaken with (Q := through (hash_all bh payload ++ hash_all bh payload)).
    + unfold v_new_common_map. destruct (_ <=? _); (apply through_bind_nil; [apply through_cm|intros; apply through_lift]).
    + intros r c H. split; [intros [?|?]; [lia|discriminate]|]. split; [auto|discriminate].
Qed.

(** ** Lookups *)

(** The hasher of the map is the one given at construction; only scanning maps have fewer than four
    entries, only common maps hold other keys than u32 and String. *)
Definition hashes_with kd (n : Z) bh m : Prop :=
  match m with
  | MScanning _ => n < 4
  | MCommonSmall m | MCommonLarge m => 4 <= n /\ kd <> KindU32 /\ cm_bh m = bh
  | MLeftStringSliceSmall m | MLeftStringSliceLarge m => 4 <= n /\ kd = KindString /\ slm_bh m = bh
  | MRightStringSliceSmall _ | MRightStringSliceLarge _ => False
  | MU32Small _ | MU32Large _ | MU32Range _ => 4 <= n /\ kd = KindU32
  | MStringLengthSmall _ => 4 <= n /\ kd = KindString
  end.

Lemma cm_bh_built (F' : conduct W O) S_ty payload bh w x w' : v_cm_from_vec F' E S_ty payload bh w = (Ok x, w') -> cm_bh x = bh.
Proof.
  intros H. unfold v_cm_from_vec in H. apply mbind_ok in H. destruct H as (c & w1 & _ & H).
  apply mbind_ok in H. destruct H as (a & w2 & _ & H). apply mbind_ok in H. destruct H as (t & w3 & _ & H).
  apply lift_ok in H. destruct H as (H & _). injection H as <-. reflexivity.
Qed.
Lemma lsm_bh_built (F' : conduct W O) S_ty (p : list (list Z * V)) a b bh w x w' :
  v_lsm_from_vec F' E S_ty p a b bh w = (Ok x, w') -> slm_bh x = bh.
Proof.
  intros H. unfold v_lsm_from_vec in H. apply mbind_ok in H. destruct H as (c & w1 & _ & H).
  apply mbind_ok in H. destruct H as (an & w2 & _ & H). apply mbind_ok in H. destruct H as (t & w3 & _ & H).
  apply lift_ok in H. destruct H as (H & _). injection H as <-. reflexivity.
Qed.

Lemma built_hashes_with kd payload bh w m w' :
  typed kd payload -> v_new F E kd payload bh w = (Ok m, w') -> hashes_with kd (zlen payload) bh m.
Proof.
  intros Ht H. unfold v_new in H. destruct (Z.ltb_spec (zlen payload) 4) as [Hl|Hl].
  { apply lift_ok in H. destruct H as (H & _). injection H as <-. exact Hl. }
  destruct kd.
  - apply lift_ok in H. destruct H as (H & _).
    unfold fm_new_u32_map in H. apply bind_ok in H. destruct H as (p & _ & H).
    apply bind_ok in H. destruct H as (x & _ & H).
    destruct x; [destruct (_ <=? _)|]; apply bind_ok in H; destruct H as (x & _ & H); injection H as <-; cbn; auto.
  - destruct (as_string_payload payload Ht) as (p & Hp & Hm & Hr).
    assert (Hpne : p <> []) by (intros ->; cbn in Hm; subst payload; change (zlen []) with 0 in Hl; lia).
    unfold v_new_string_map in H. apply mbind_ok in H. destruct H as (p' & w1 & Hp' & H).
    apply lift_ok in Hp'. destruct Hp' as (Hp' & _). rewrite Hp in Hp'. injection Hp' as <-.
    apply mbind_ok in H. destruct H as (an & w2 & Han & H). apply v_analyze_range in Han.
    destruct (_ <=? _); destruct an as [|i l|i l|]; apply mbind_ok in H; destruct H as (x & w3 & Hx & H);
      apply lift_ok in H; destruct H as (H & _); injection H as <-; cbn [hashes_with].
    1,5,8: split; [exact Hl|]; split; [discriminate|]; eapply cm_bh_built; eauto.
    1,4: split; [exact Hl|]; split; [reflexivity|]; eapply lsm_bh_built; eauto.
    + eapply (v_rsm_not_built F E u8 p i (i + l)); eauto; lia.
    + auto.
    + eapply (v_rsm_not_built F E usize p i (i + l)); eauto; lia.
  - unfold v_new_common_map in H.
    destruct (_ <=? _); apply mbind_ok in H; destruct H as (x & w3 & Hx & H);
      apply lift_ok in H; destruct H as (H & _); injection H as <-;
      (split; [exact Hl|]; split; [discriminate|]; eapply cm_bh_built; eauto).
Qed.

Lemma logs_key_eq k (e : key * V) : logs (v_key_eq R k (fst e)) (fun r c => c = comparing k e).
Proof.
  unfold v_key_eq, comparing. destruct k, (fst e); try (apply logs_lift; reflexivity). now apply logs_call.
Qed.

Lemma logs_find_pos k (l : list (key * V)) :
  logs (v_find_pos (fun e => v_key_eq R k (fst e)) l) (fun r c => exists n, c = flat_map (comparing k) (firstn n l) /\
    (n <= length l)%nat /\ (forall i, r = Ok (Some i) -> n = S i) /\ (r = Ok None -> n = length l)).
Proof.
  induction l as [|e l IH]; cbn [v_find_pos].
  - apply logs_lift. exists 0%nat. split; [reflexivity|]. split; [lia|]. split; [discriminate|reflexivity].
  - intros w0 c0. destruct (logs_key_eq k e w0 c0) as (r & w1 & c1 & Ex & Hc). unfold mbind at 1. rewrite Ex. subst c1.
    assert (Hone : comparing k e = flat_map (comparing k) (firstn 1 (e :: l))) by (cbn; now rewrite app_nil_r).
    assert (Hdead : forall (r : res (option nat)), no_value r ->
      exists n, comparing k e = flat_map (comparing k) (firstn n (e :: l)) /\ (n <= length (e :: l))%nat /\
        (forall i, r = Ok (Some i) -> n = S i) /\ (r = Ok None -> n = length (e :: l))).
    { intros r0 Hr0. exists 1%nat. split; [exact Hone|]. split; [cbn; lia|]. split; [intros i ->|intros ->]; now elim Hr0. }
    destruct r as [[]|p|u|].
    + exists (Ok (Some 0%nat)), w1, (comparing k e). split; [reflexivity|]. exists 1%nat. split; [exact Hone|].
      split; [cbn; lia|]. split; [intros i [= <-]; reflexivity|discriminate].
    + destruct (IH w1 (c0 ++ comparing k e)) as (r & w2 & c2 & Ex2 & n & -> & Hn & H1 & H2).
      unfold mbind. rewrite Ex2.
      destruct r as [o|p|u|].
      * exists (Ok (option_map S o)), w2, (comparing k e ++ flat_map (comparing k) (firstn n l)).
        rewrite app_assoc. split; [reflexivity|]. exists (S n). split; [reflexivity|]. split; [cbn; lia|]. split.
        -- intros i Hi. destruct o as [j|]; [|discriminate]. injection Hi as <-. f_equal. now apply H1.
        -- intros Hi. destruct o as [j|]; [discriminate|]. cbn. f_equal. now apply H2.
      * eexists _, w2, _. split; [rewrite <- app_assoc; reflexivity|]. exists (S n). split; [reflexivity|]. split; [cbn; lia|]. split; discriminate.
      * eexists _, w2, _. split; [rewrite <- app_assoc; reflexivity|]. exists (S n). split; [reflexivity|]. split; [cbn; lia|]. split; discriminate.
      * eexists _, w2, _. split; [rewrite <- app_assoc; reflexivity|]. exists (S n). split; [reflexivity|]. split; [cbn; lia|]. split; discriminate.
    + eexists _, w1, _. split; [reflexivity|]. apply Hdead. exact I.
    + eexists _, w1, _. split; [reflexivity|]. apply Hdead. exact I.
    + eexists _, w1, _. split; [reflexivity|]. apply Hdead. exact I.
Qed.

Lemma firstn_sub {A} a b (l : list A) n : firstn n (sub a b l) = firstn (Nat.min n (Z.to_nat (b - a))) (skipn (Z.to_nat a) l).
Proof. unfold sub. now rewrite firstn_firstn. Qed.

Lemma lookup_logs kd m k bh : fm_safe kd m -> has_kind kd k -> hashes_with kd (zlen (fm_iter m)) bh m ->
  logs (v_find R E m k) (lookup_asks kd bh k (fm_iter m)).
Proof.
  intros Hs Hk Hw.
  (* maps in which no comparison is recorded *)
  assert (Hquiet : forall code (es : list (key * V)), code_asked kd (zlen es) bh k code ->
    (forall e : key * V, comparing k e = []) -> forall r : res (option nat),
    (forall i, r = Ok (Some i) -> (i < length es)%nat) -> lookup_asks kd bh k es r code).
  { intros code es Hcode Hnone r Hr.
    assert (Hnil : forall l : list (key * V), flat_map (comparing k) l = @nil (event O))
      by (induction l as [|e l IH]; cbn; [|rewrite Hnone, IH]; reflexivity).
    destruct r as [[i|]|p|u|];
      [exists code, i, 1%nat|exists code, 0%nat, 0%nat|exists code, 0%nat, 0%nat|exists code, 0%nat, 0%nat|exists code, 0%nat, 0%nat];
      rewrite Hnil, app_nil_r; (split; [reflexivity|]).
    - specialize (Hr i eq_refl). split; [lia|]. split; [|exact Hcode]. intros j [= <-]. lia.
    - split; [lia|]. split; [discriminate|exact Hcode].
    - split; [lia|]. split; [discriminate|exact Hcode].
    - split; [lia|]. split; [discriminate|exact Hcode].
    - split; [lia|]. split; [discriminate|exact Hcode]. }
  assert (Hcm : forall cm : common_map key V hasher, table_safe (cm_table cm) -> cm_bh cm = bh ->
    code_asked kd (zlen (entries (cm_table cm))) bh k [Hashed bh k] ->
    logs (v_cm_find R cm k) (lookup_asks kd bh k (entries (cm_table cm)))).
  { intros cm Ht <- Hcode. unfold v_cm_find.
    eapply logs_bind with (Q1 := fun _ c => c = [Hashed (cm_bh cm) k])
      (Q2 := fun _ r c => exists start n, c = flat_map (comparing k) (firstn n (skipn start (entries (cm_table cm)))) /\
        (start + n <= length (entries (cm_table cm)))%nat /\ (forall i, r = Ok (Some i) -> (i + 1 = start + n /\ 1 <= n)%nat)).
    - now apply logs_call.
    - intros code. destruct (Ht code) as (a & b & Hi & Hab). rewrite Hi. apply logs_live. unfold v_probe, slice_unchecked.
      cbn [fst snd]. rewrite Hab. apply range_ok_iff in Hab. apply logs_live.
      eapply logs_bind; [apply logs_find_pos|intros o; exact (logs_lift _ (fun r c => r = Ok (option_map (fun i => (Z.to_nat a + i)%nat) o) /\ c = []) (conj eq_refl eq_refl))| |]; cbv beta.
      + intros o c1 r c2 (n & -> & Hn & H1 & H2) (-> & ->). rewrite app_nil_r.
        assert (Hlen : length (sub a b (entries (cm_table cm))) = Z.to_nat (b - a)).
        { unfold sub. rewrite firstn_length, skipn_length. unfold zlen in Hab. lia. }
        exists (Z.to_nat a), n. rewrite firstn_sub, Nat.min_l by lia. split; [reflexivity|].
        unfold zlen in Hab. split; [lia|]. intros i Hi'. destruct o as [j|]; [|discriminate]. injection Hi' as <-.
        specialize (H1 j eq_refl). lia.
      + intros r r' c _ Hr' (n & -> & Hn & _).
        assert (Hlen : length (sub a b (entries (cm_table cm))) = Z.to_nat (b - a)).
        { unfold sub. rewrite firstn_length, skipn_length. unfold zlen in Hab. lia. }
        exists (Z.to_nat a), n. rewrite firstn_sub, Nat.min_l by lia. split; [reflexivity|].
        unfold zlen in Hab. split; [lia|]. intros i ->. now elim Hr'.
    - intros a c1 r c2 -> (start & n & -> & Hn & Hi). exists [Hashed (cm_bh cm) k], start, n. auto.
    - intros r r' c _ Hr' ->. exists [Hashed (cm_bh cm) k], 0%nat, 0%nat. cbn [firstn flat_map]. rewrite app_nil_r.
      split; [reflexivity|]. split; [lia|]. split; [|exact Hcode]. intros i ->. now elim Hr'. }
  assert (Hpure : (forall w, v_find R E m k w = (fm_get_at (fun _ _ => true) E m k, w)) ->
    code_asked kd (zlen (fm_iter m)) bh k [] -> (forall e : key * V, comparing k e = []) ->
    logs (v_find R E m k) (lookup_asks kd bh k (fm_iter m))).
  { intros H Hcode Hnone w l. destruct (fm_lookup_safe (fun _ _ => true) E kd m k Hs Hk) as (r & Hg & _ & _ & _ & Hr).
    exists (Ok r), w, []. rewrite H, Hg, app_nil_r. split; [reflexivity|]. apply Hquiet; auto.
    intros i [= ->]. destruct (Hr i eq_refl) as (e & He & _). apply nth_error_Some. congruence. }
  assert (Hleft : forall (sm : slice_map V hasher) s, k = KStr s -> kd = KindString ->
    table_safe (slm_table sm) /\ 0 <= slm_start sm <= slm_end sm -> slm_bh sm = bh ->
    4 <= zlen (map (from_string_entry (O := O)) (entries (slm_table sm))) ->
    logs (v_lsm_find R sm s) (lookup_asks kd bh k (map from_string_entry (entries (slm_table sm))))).
  { intros sm s -> -> (Ht & Hab) <- H4. unfold v_lsm_find.
    assert (Hca : forall code, code = [] \/ (exists s0 i l, KStr (O := O) s = KStr s0 /\ (i + l <= length s0)%nat /\
        code = [HashedPart (slm_bh sm) (left_win i l s0)]) ->
      code_asked KindString (zlen (map (from_string_entry (O := O)) (entries (slm_table sm)))) (slm_bh sm) (KStr s) code).
    { intros code Hc. unfold code_asked. destruct (Z.ltb_spec (zlen (map (from_string_entry (O := O)) (entries (slm_table sm)))) 4); [lia|].
      destruct Hc; auto. }
    eapply logs_bind with (Q1 := fun _ c => c = [] \/ (exists s0 i l, KStr (O := O) s = KStr s0 /\ (i + l <= length s0)%nat /\
        c = [HashedPart (slm_bh sm) (left_win i l s0)]))
      (Q2 := fun _ r c => c = [] /\ forall i, r = Ok (Some i) -> (i < length (entries (slm_table sm)))%nat).
    - destruct (Z.leb_spec (slm_end sm) (zlen s)).
      + rewrite slice_ok by lia. apply logs_call. intros _. right.
        exists s, (Z.to_nat (slm_start sm)), (Z.to_nat (slm_end sm - slm_start sm)). split; [reflexivity|].
        unfold zlen in H. split; [lia|reflexivity].
      + apply logs_lift. now left.
    - intros code w l. pose proof (pure_probe_found (W := W * list (event O)) (slm_table sm) code s Ht (w, l)) as Hf.
      destruct (Ht code) as (a & b & Hi & _). rewrite Hi in *. unfold mbind, lift in *. cbn [fst] in Hf.
      eexists _, w, []. rewrite app_nil_r. split; [reflexivity|]. split; [reflexivity|]. intros i Hri.
      destruct Hf as [Hf|(o & Hf & Ho)]; [congruence|]. rewrite Hf in Hri. injection Hri as ->.
      destruct (Ho i eq_refl) as (e & He). apply nth_error_Some. congruence.
    - intros a c1 r c2 Hc1 (-> & Hi). rewrite app_nil_r. apply Hquiet; [now apply Hca|reflexivity|].
      intros i Hr. rewrite map_length. now apply Hi.
    - intros r r' c _ Hr' Hc. apply Hquiet; [now apply Hca|reflexivity|]. intros i ->. now elim Hr'. }
  destruct m as [sm|cm|cm|im|im|rm|lm|lm|rm|rm|lem]; cbn [fm_safe fm_iter] in *; cbn [hashes_with] in Hw.
  - eapply logs_weaken; [apply logs_find_pos|]. intros r c (n & -> & Hn & H1 & H2). exists [], 0%nat, n.
    split; [reflexivity|]. split; [lia|]. split; [intros i Hi; specialize (H1 i Hi); lia|].
    unfold code_asked. destruct (Z.ltb_spec (zlen (sm_entries sm)) 4); [reflexivity|lia].
  - apply Hcm; [tauto|tauto|]. unfold code_asked. destruct (Z.ltb_spec (zlen (entries (cm_table cm))) 4); [lia|]. destruct kd; tauto.
  - apply Hcm; [tauto|tauto|]. unfold code_asked. destruct (Z.ltb_spec (zlen (entries (cm_table cm))) 4); [lia|]. destruct kd; tauto.
  - destruct Hw as (_ & ->). apply Hpure; [intros w1; destruct k; reflexivity|unfold code_asked; now destruct (_ <? 4)|].
    destruct k; now elim Hk.
  - destruct Hw as (_ & ->). apply Hpure; [intros w1; destruct k; reflexivity|unfold code_asked; now destruct (_ <? 4)|].
    destruct k; now elim Hk.
  - destruct Hw as (_ & ->). apply Hpure; [intros w1; destruct k; reflexivity|unfold code_asked; now destruct (_ <? 4)|].
    destruct k; now elim Hk.
  - destruct Hs as (-> & Hs). destruct (has_kind_string k Hk) as (s & -> & Hz). apply logs_live. apply Hleft; tauto.
  - destruct Hs as (-> & Hs). destruct (has_kind_string k Hk) as (s & -> & Hz). apply logs_live. apply Hleft; tauto.
  - contradiction.
  - contradiction.
  - destruct Hs as (-> & Hs). destruct (has_kind_string k Hk) as (s & -> & Hz).
    apply Hpure; [reflexivity|unfold code_asked; destruct (_ <? 4); auto|reflexivity].
Qed.
End Facade.
