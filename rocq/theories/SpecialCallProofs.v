(** The calls that the specialized maps make of the caller's code. *)
From Coq Require Import List ZArith Bool Arith Lia Permutation Sorting.
From Verif Require Import Spec MapSpec Base BaseLemmas HashCodeAnalyzer HashCodeAnalyzerProofs HashTable HashTableProofs
  Maps FrozenMap Volatile VolatileProofs VolatileMaps VolatileMapProofs SpecialCallSpec.
Import ListNotations.
Open Scope Z_scope.

(** ** Computations that are recorded *)

Section Traces.
Context {W R : Type}.
Notation W' := (W * list R)%type.

(** The computation [x] is [y], and adds to the record a list that fits the outcome. *)
Definition traces {A} (x : M W' A) (y : M W A) (P : res A -> list R -> Prop) : Prop :=
  forall w l, exists r w' c, x (w, l) = (r, (w', l ++ c)) /\ y w = (r, w') /\ P r c.

Lemma traces_lift {A} (r : res A) (P : res A -> list R -> Prop) : P r [] -> traces (lift r) (lift r) P.
Proof. intros H w l. exists r, w, []. rewrite app_nil_r. auto. Qed.

Lemma traces_call {A} (e : option A -> R) (f : W -> option A * W) (P : res A -> list R -> Prop) :
  (forall o, P (answer o) [e o]) -> traces (call (witnessed e f)) (call f) P.
Proof.
  intros H w l. unfold call, witnessed. cbn [fst snd].
  destruct (f w) as [o w'] eqn:Ef. specialize (H o). destruct o; eexists _, w', _; auto.
Qed.

Lemma traces_weaken {A} (x : M W' A) y (P P' : res A -> list R -> Prop) :
  traces x y P -> (forall r c, P r c -> P' r c) -> traces x y P'.
Proof. intros H HP w l. destruct (H w l) as (r & w' & c & E1 & E2 & Hq). eauto 8. Qed.

Lemma traces_bind {A B} (x : M W' A) y (f : A -> M W' B) g (P : res B -> list R -> Prop) :
  traces x y (fun r c =>
    match r with
    | Ok a => traces (f a) (g a) (fun r' c' => P r' (c ++ c'))
    | Panic p => P (Panic p) c
    | UB u => P (UB u) c
    | OutOfFuel => P OutOfFuel c
    end) -> traces (mbind x f) (mbind y g) P.
Proof.
  intros H w l. destruct (H w l) as (r & w1 & c & E1 & E2 & Hq). unfold mbind. rewrite E1, E2.
  destruct r as [a|p|u|]; [|eauto 8..].
  destruct (Hq w1 (l ++ c)) as (r & w2 & c2 & -> & -> & Hq2). exists r, w2, (c ++ c2). rewrite app_assoc. auto.
Qed.

Lemma traces_run {A} (x : M W' A) y P w : traces x y P -> exists r w' c, x (w, []) = (r, (w', c)) /\ y w = (r, w') /\ P r c.
Proof. intros H. destruct (H w []) as (r & w' & c & H1 & H2 & H3). eauto 8. Qed.
End Traces.

Lemma arith_cases p t z : (exists x, arith p t z = Ok x) \/ exists pn, arith p t z = Panic pn.
Proof. unfold arith. destruct (in_type t z); [left; eauto|]. destruct p; eauto. Qed.

Section Calls.
Context {W K Q V BH : Type}.
Variable F : foreign W K Q BH.
Variable E : env.
Notation R := (request K Q V BH).
Notation X := (witness (V := V) F).

(** ** Codes *)

Lemma from_right_traces (x : K + Q) bh a b (f : W -> option Z * W) (h : Z -> Z -> W -> option Z * W)
    (P : res Z -> list R -> Prop) :
  (forall r c, hash_asks (prof E) x (RightSlice bh a b) r c -> P r c) ->
  traces (sp_from_right E (call (witnessed (AskLen x) f)) a b (fun s e => call (witnessed (AskSliceHash bh x s e) (h s e))))
         (sp_from_right E (call f) a b (fun s e => call (h s e))) P.
Proof.
  intros HP. unfold sp_from_right. apply traces_bind, traces_call. intros [l|]; cbn [answer]; [|apply HP; constructor].
  apply traces_bind. apply traces_lift.
  destruct (arith_cases (prof E) usize (l - a)) as [(s & Hs)|(pn & Hs)]; rewrite Hs; [|apply HP; now constructor].
  apply traces_bind, traces_call. intros [l'|]; cbn [answer]; [|apply HP; econstructor; eauto].
  apply traces_bind. apply traces_lift.
  destruct (arith_cases (prof E) usize (l' - b)) as [(e & He)|(pn & He)]; rewrite He; [|apply HP; econstructor; eauto].
  apply traces_call. intros o. apply HP. cbn [app]. econstructor; eauto.
Qed.

Lemma table_code_traces sh k : sh <> Scanning ->
  traces (sp_table_code X E sh k) (sp_table_code F E sh k) (hash_asks (prof E) (inl k) sh).
Proof.
  intros Hsh. destruct sh; cbn [sp_table_code]; [congruence|apply traces_call; constructor..|].
  apply (from_right_traces (inl k) bh start end_); auto.
Qed.

Lemma analysis_code_traces sh k : sh <> Scanning ->
  traces (sp_analysis_code X E sh k) (sp_analysis_code F E sh k) (guarded_asks (prof E) sh (inl k) (least_key sh)).
Proof.
  intros Hsh. destruct sh; cbn [sp_analysis_code least_key]; [congruence|apply traces_call; repeat constructor..| |].
  - apply traces_bind, traces_call. intros [l|]; cbn [answer]; [|constructor].
    destruct (Z.leb_spec end_ l).
    + apply traces_call. intros o. cbn [app]. constructor; auto. constructor.
    + apply traces_lift. now constructor.
  - apply traces_bind, traces_call. intros [l|]; cbn [answer]; [|constructor].
    destruct (Z.leb_spec end_ l).
    + apply (from_right_traces (inl k) bh start end_). intros r c H1. cbn [app]. constructor; auto.
    + apply traces_lift. now constructor.
Qed.

Lemma query_code_traces sh q : sh <> Scanning ->
  traces (sp_query_code X E sh q) (sp_query_code F E sh q) (guarded_asks (prof E) sh (inr q) (least_query sh)).
Proof.
  intros Hsh. destruct sh; cbn [sp_query_code least_query]; [congruence|apply traces_call; repeat constructor..| |].
  - apply traces_bind, traces_call. intros [l|]; cbn [answer]; [|constructor].
    destruct (Z.leb_spec end_ l).
    + apply traces_call. intros o. cbn [app]. constructor; auto. constructor.
    + apply traces_lift. now constructor.
  - apply traces_bind, traces_call. intros [l|]; cbn [answer]; [|constructor].
    destruct (Z.leb_spec start l).
    + apply (from_right_traces (inr q) bh start end_). intros r c H1. cbn [app]. constructor; auto.
    + apply traces_lift. now constructor.
Qed.

Lemma guarded_sane p sh x least r (c : list R) : guarded_asks p sh x least r c ->
  (exists z, r = Ok z) \/ exists pn, r = Panic pn.
Proof.
  intros H. destruct H as [r c H| | |least l r c _ H]; eauto; destruct H; eauto; destruct r; cbn; eauto.
Qed.
Lemma hash_sane p sh x r (c : list R) : hash_asks p x sh r c -> (exists z, r = Ok z) \/ exists pn, r = Panic pn.
Proof. intros H. destruct H; eauto; destruct r; cbn; eauto. Qed.

(** ** Construction *)

Lemma map_traces (f : K -> M (W * list R) Z) g asks (payload : list (K * V)) :
  (forall k, traces (f k) (g k) (asks k)) ->
  (forall k r c, asks k r c -> (exists z, r = Ok z) \/ exists pn, r = Panic pn) ->
  traces (v_map (fun e => f (fst e)) payload) (v_map (fun e => g (fst e)) payload)
    (every_asked asks (map fst payload)).
Proof.
  intros Hf Hs. induction payload as [|[k v] l IH]; cbn [v_map map fst]; [apply traces_lift; constructor|].
  apply traces_bind. eapply traces_weaken; [apply Hf|]. intros r c H.
  destruct (Hs k r c H) as [(z & ->)|(pn & ->)]; [|now constructor].
  apply traces_bind. eapply traces_weaken; [apply IH|]. intros r c' H'.
  assert (Hn := all_next asks k (map fst l) z c r c' H H'). destruct r; auto.
  apply traces_lift. now rewrite app_nil_r.
Qed.

Definition prepared (n : Z) (codes : list Z) (payload : list (K * V)) : list (Z * (K * V)) :=
  map (fun x => (fst x mod n, snd x)) (combine codes payload).

Lemma prepare_traces (f : K -> M (W * list R) Z) g asks n (payload : list (K * V)) : n <> 0 ->
  (forall k, traces (f k) (g k) (asks k)) ->
  (forall k r c, asks k r c -> (exists z, r = Ok z) \/ exists pn, r = Panic pn) ->
  traces (v_prepare f n payload) (v_prepare g n payload)
    (fun r c => exists rc, every_asked asks (map fst payload) rc c /\
       r = over (fun codes => prepared n codes payload) rc /\ (forall codes, rc = Ok codes -> length codes = length payload)).
Proof.
  intros Hn Hf Hs. induction payload as [|[k v] l IH]; cbn [v_prepare map fst].
  { apply traces_lift. exists (Ok []). split; [constructor|]. split; auto. intros codes Hc. now injection Hc as <-. }
  apply traces_bind. eapply traces_weaken; [apply Hf|]. intros r c H.
  destruct (Hs k r c H) as [(z & ->)|(pn & ->)].
  2:{ exists (Panic pn). split; [now constructor|]. split; [reflexivity|discriminate]. }
  rewrite (proj2 (Z.eqb_neq n 0) Hn).
  apply traces_bind. eapply traces_weaken; [apply IH|]. intros r c' (rc & H' & -> & Hl).
  assert (Hx := all_next asks k (map fst l) z c rc c' H H').
  destruct rc as [codes|p|u|]; cbn [over] in *.
  - apply traces_lift. rewrite app_nil_r. exists (Ok (z :: codes)). split; auto. split; [reflexivity|].
    intros cs Hc. injection Hc as <-. cbn. now rewrite (Hl codes eq_refl).
  - eexists. split; [exact Hx|]. split; [reflexivity|discriminate].
  - eexists. split; [exact Hx|]. split; [reflexivity|discriminate].
  - eexists. split; [exact Hx|]. split; [reflexivity|discriminate].
Qed.
End Calls.

(** ** What is stored *)

Section Stored.
Context {K V BH : Type}.

Definition keyed (x : Z * (K * V)) : Z * K := (fst x, fst (snd x)).

Lemma block_parts {A} (q : A -> bool) pre seg post : (forall x, In x seg -> q x = true) ->
  length (filter q (pre ++ seg ++ post)) = length seg -> filter q pre = [] /\ filter q seg = seg /\ filter q post = [].
Proof.
  intros Hs Hl. assert (Hseg : filter q seg = seg) by (now apply filter_all).
  rewrite !filter_app, !app_length, Hseg in Hl.
  repeat split; auto; apply length_zero_iff_nil; lia.
Qed.

Lemma block_map {A B} (f : A -> B) (q : B -> bool) a b (l : list A) :
  0 <= a <= b -> b <= zlen l -> sub a b (map f l) = filter q (map f l) -> sub a b l = filter (fun x => q (f x)) l.
Proof.
  intros Ha Hb H. rewrite sub_map, filter_map_comm in H.
  destruct (sub_split a b l Ha Hb) as (pre & post & Hes & _ & _). set (seg := sub a b l) in *.
  destruct (block_parts (fun x => q (f x)) pre seg post) as (H1 & H2 & H3).
  - intros x Hx. apply (in_map f) in Hx. rewrite H in Hx. apply in_map_iff in Hx.
    destruct Hx as (y & Hy & Hx). apply filter_In in Hx. now rewrite <- Hy.
  - rewrite <- Hes. apply (f_equal (@length _)) in H. rewrite !map_length in H. congruence.
  - rewrite Hes at 1. now rewrite !filter_app, H1, H2, H3, app_nil_r.
Qed.

(** A table with [n] slots holding the keys [placed] with their codes. *)
Definition table_holds (n : Z) (placed : list (Z * K)) (t : hash_table K V) : Prop :=
  map fst (entries t) = map snd placed /\
  forall c, exists a b, ht_get_hash_info t c = Ok (a, b) /\ range_ok a b (entries t) = true /\
    sub a b placed = filter (fun x => fst x mod n =? c mod n) placed.

Lemma finish_holds E S_ty n (codes : list Z) (payload : list (K * V)) :
  env_ok E -> fits S_ty (zlen payload) -> 1 <= n -> length codes = length payload ->
  exists t placed, ht_finish E S_ty n (prepared n codes payload) = Ok t /\
    Permutation (combine codes payload) placed /\ entries t = map snd placed /\ table_holds n (map keyed placed) t.
Proof.
  intros HE (Hmin & H64 & Hcap & H31) Hn Hl. unfold ht_finish.
  set (items := prepared n codes payload).
  destruct (HE (Z * (K * V))%type fst items) as (Hperm & Hsorted).
  set (sorted := usort E (Z * (K * V)) fst items) in *. cbv zeta.
  assert (Hlen : zlen (rev sorted) = zlen payload).
  { rewrite zlen_rev, <- (zlen_perm _ _ Hperm). unfold items, prepared. rewrite zlen_map. unfold zlen. rewrite combine_length. lia. }
  assert (Hp2 : Permutation (rev sorted) items) by (rewrite <- Permutation_rev; now apply Permutation_sym).
  destruct (Permutation_map_inv _ _ Hp2) as (placed & Hpl & Hpp).
  assert (Hin : forall x, In x (rev sorted) -> 0 <= fst x < n).
  { intros x Hx. rewrite Hpl in Hx. apply in_map_iff in Hx. destruct Hx as (y & <- & _). cbn. apply Z.mod_pos_bound. lia. }
  destruct (fill_ok (prof E) S_ty (length sorted) (rev sorted) [] (repeat empty_slot (Z.to_nat n)) n)
    as (ss & Hfill & Hss & Hok); auto.
  - cbn. lia.
  - cbn. lia.
  - rewrite rev_length. lia.
  - rewrite zlen_repeat. lia.
  - apply StronglySorted_rev in Hsorted. exact Hsorted.
  - intros i s Hs. apply nth_error_In, repeat_spec in Hs. subst s. unfold slot_ok, zlen. cbn. repeat split; lia.
  - cbn [map app] in Hfill. change (zlen []) with 0 in Hfill. rewrite Hfill. cbn [bind]. rewrite Hss.
    destruct (Z.eqb_spec n 0); [lia|]. cbn [app] in *. rewrite Hpl in *. clear Hpl Hp2.
    eexists. exists placed. split; [reflexivity|]. split; [exact Hpp|].
    assert (Hent : map snd (map (fun x : Z * (K * V) => (fst x mod n, snd x)) placed) = map snd placed) by now rewrite map_map.
    split; [exact Hent|]. split; cbn [entries].
    + rewrite Hent, !map_map. reflexivity.
    + intros c. assert (Hidx : 0 <= c mod n < n) by (apply Z.mod_pos_bound; lia).
      destruct (nth_error ss (Z.to_nat (c mod n))) as [s|] eqn:Hs.
      2:{ apply nth_error_None in Hs. unfold zlen in Hss. lia. }
      destruct (Hok _ _ Hs) as (Ha & Hb & Hc).
      exists (min_index s), (max_index s). unfold ht_get_hash_info. cbn [num_slots slots]. rewrite Hs.
      rewrite zlen_map in *. rewrite !to_usize_ok by lia. cbn [unwrap bind]. split; auto. split.
      * apply range_ok_iff. rewrite !zlen_map. lia.
      * rewrite sub_map, filter_map_comm. f_equal.
        rewrite (block_map _ _ (min_index s) (max_index s) placed Ha Hb Hc).
        apply filter_ext. intros x. cbn [fst keyed]. f_equal. lia.
Qed.
End Stored.

(** ** Lookups *)

Section Lookups.
Context {W K Q V BH : Type}.
Variable F : foreign W K Q BH.
Variable E : env.
Notation R := (request K Q V BH).
Notation X := (witness (V := V) F).

Definition stored (sh : shape BH) (n : Z) (placed : list (Z * K)) (m : special K V BH) : Prop :=
  match m with
  | Entries es => sh = Scanning /\ map fst es = map snd placed
  | InTable sh' t => sh' = sh /\ sh <> Scanning /\ table_holds n placed t
  end.

Lemma matches_traces q : forall (es : list (K * V)) off,
  traces (v_find_pos (fun e => sp_matches X q (fst e)) es) (v_find_pos (fun e => sp_matches F q (fst e)) es)
    (fun r c => compared_with (V := V) (BH := BH) q (combine (seq off (length es)) (map fst es))
       (over (option_map (fun i => (off + i)%nat)) r) c).
Proof.
  induction es as [|[k v] es IH]; intros off; cbn [v_find_pos length seq map combine fst].
  { apply traces_lift. constructor. }
  apply traces_bind. unfold sp_matches at 1 2. apply traces_bind, traces_call. intros [b|]; cbn [answer over]; [|constructor].
  apply traces_call. intros [[]|]; cbn [answer over app]; [| |constructor].
  - apply traces_lift. cbn [over option_map app]. rewrite Nat.add_0_r. constructor.
  - apply traces_bind. eapply traces_weaken; [apply (IH (S off))|]. intros r c H.
    destruct r as [o|p|u|]; cbn [over app] in *; try now constructor.
    apply traces_lift. rewrite app_nil_r. cbn [over]. constructor.
    replace (option_map (fun i => (off + i)%nat) (option_map S o)) with (option_map (fun i => (S off + i)%nat) o); auto.
    destruct o; cbn; auto.
Qed.

Lemma filter_combine_none {A B} (q : B -> bool) (s : list A) l : filter q l = [] ->
  filter (fun x => q (snd x)) (combine s l) = [].
Proof.
  rewrite filter_nil_iff. intros H. apply filter_nil_iff. intros [x y] Hx. apply H. now apply in_combine_r in Hx.
Qed.
Lemma filter_combine_all {A B} (q : B -> bool) (s : list A) l : (forall x, In x l -> q x = true) ->
  filter (fun x => q (snd x)) (combine s l) = combine s l.
Proof. intros H. apply filter_all. intros [x y] Hx. apply H. now apply in_combine_r in Hx. Qed.
Lemma combine_app {A B} (s s' : list A) (l l' : list B) : length s = length l ->
  combine (s ++ s') (l ++ l') = combine s l ++ combine s' l'.
Proof.
  revert l. induction s as [|x s IH]; intros [|y l] H; cbn in *; try discriminate; auto. f_equal. apply IH. lia.
Qed.
Lemma map_combine_snd {A B C} (f : B -> C) (s : list A) l :
  map (fun x => (fst x, f (snd x))) (combine s l) = combine s (map f l).
Proof. revert l. induction s as [|x s IH]; intros [|y l]; cbn; congruence. Qed.

Lemma candidates_block n c (placed : list (Z * K)) a b : 0 <= a <= b -> b <= zlen placed ->
  sub a b placed = filter (fun x => fst x mod n =? c mod n) placed ->
  candidates n c placed = combine (seq (Z.to_nat a) (length (sub a b placed))) (map snd (sub a b placed)).
Proof.
  intros Ha Hb H. destruct (sub_split a b placed Ha Hb) as (pre & post & Hes & Hpre & Hlen).
  set (seg := sub a b placed) in *. unfold candidates. set (q := fun x : Z * K => fst x mod n =? c mod n) in *.
  assert (Hq : forall x, In x seg -> q x = true) by (intros x Hx; rewrite H in Hx; now apply filter_In in Hx).
  destruct (block_parts q pre seg post Hq) as (H1 & _ & H3).
  { rewrite <- Hes. congruence. }
  rewrite Hes. rewrite !app_length, !seq_app. rewrite combine_app by apply seq_length.
  rewrite combine_app by apply seq_length. rewrite !filter_app.
  change (fun x : nat * (Z * K) => fst (snd x) mod n =? c mod n) with (fun x : nat * (Z * K) => q (snd x)).
  rewrite (filter_combine_none q _ pre) by exact H1.
  rewrite (filter_combine_none q _ post) by exact H3. rewrite (filter_combine_all q) by exact Hq. cbn [app].
  rewrite app_nil_r, map_combine_snd. do 2 f_equal. unfold zlen in *. lia.
Qed.

Lemma find_traces sh n placed (m : special K V BH) q : stored sh n placed m ->
  traces (sp_find X E m q) (sp_find F E m q) (search_asked (prof E) sh n placed q).
Proof.
  destruct m as [es|sh' t]; cbn [stored sp_find].
  - intros (-> & Hes).
    eapply traces_weaken; [apply (matches_traces q es 0)|]. intros r c H. cbn [search_asked]. rewrite <- Hes.
    replace (length placed) with (length es) by (rewrite <- (map_length fst es), Hes; apply map_length).
    destruct r as [[i|]|p|u|]; exact H.
  - intros (-> & Hsh & Hk & Ht). apply traces_bind. eapply traces_weaken; [now apply query_code_traces|].
    intros r c Hc.
    assert (Hone : forall r' (c' : list R), (exists pn, r' = Panic pn /\ guarded_asks (prof E) sh (inr q) (least_query sh) (Panic pn) c') \/
      (exists z log1 log2, c' = log1 ++ log2 /\ guarded_asks (prof E) sh (inr q) (least_query sh) (Ok z) log1 /\
         compared_with q (candidates n z placed) r' log2) -> search_asked (prof E) sh n placed q r' c').
    { intros r' c' H. destruct sh; [congruence|exact H..]. }
    destruct (guarded_sane _ _ _ _ _ _ Hc) as [(z & ->)|(pn & ->)]; [|apply Hone; eauto].
    destruct (Ht z) as (a & b & Hi & Hr & Hsub). apply traces_bind, traces_lift. rewrite Hi.
    unfold v_probe, slice_unchecked. cbn [fst snd]. rewrite Hr. apply traces_bind, traces_lift.
    apply traces_bind. eapply traces_weaken; [apply (matches_traces q (sub a b (entries t)) (Z.to_nat a))|].
    intros r c2 H2. apply range_ok_iff in Hr. destruct Hr as (Ha & Hb).
    assert (Hz : zlen (entries t) = zlen placed) by (rewrite <- (zlen_map fst), Hk; apply zlen_map).
    rewrite Hz in Hb. assert (Hcand := candidates_block n z placed a b Ha Hb Hsub).
    replace (map fst (sub a b (entries t))) with (map snd (sub a b placed)) in H2 by (rewrite <- !sub_map; congruence).
    replace (length (sub a b (entries t))) with (length (sub a b placed)) in H2
      by (rewrite <- (map_length snd (sub a b placed)), <- (map_length fst (sub a b (entries t))), <- !sub_map; congruence).
    rewrite <- Hcand in H2. cbn [app].
    assert (Hend : search_asked (prof E) sh n placed q (over (option_map (fun i => (Z.to_nat a + i)%nat)) r) (c ++ c2)).
    { apply Hone. right. exists z, c, c2. auto. }
    destruct r as [o|p|u|]; auto. apply traces_lift. now rewrite !app_nil_r.
Qed.

Lemma lookup_sane sh n (placed : list (Z * K)) q r (c : list R) : search_asked (prof E) sh n placed q r c ->
  (exists o, r = Ok o) \/ exists pn, r = Panic pn.
Proof.
  assert (Hc : forall l r (c : list R), compared_with q l r c -> (exists o, r = Ok o) \/ exists pn, r = Panic pn).
  { intros l r' c' H. induction H; eauto. }
  destruct sh; cbn [search_asked]; [apply Hc|..]; intros [(pn & -> & _)|(z & c1 & c2 & _ & _ & H)]; eauto.
Qed.

(** ** get_many_mut *)

Lemma pairs_next {A} seen (k : A) keys :
  flat_map (fun i => flat_map (fun a => map (pair a) (firstn 1 (skipn i (k :: keys)))) (seen ++ firstn i (k :: keys)))
    (seq 0 (length (k :: keys))) =
  map (fun a => (a, k)) seen ++
  flat_map (fun i => flat_map (fun a => map (pair a) (firstn 1 (skipn i keys))) ((seen ++ [k]) ++ firstn i keys))
    (seq 0 (length keys)).
Proof.
  change (seq 0 (length (k :: keys))) with (0%nat :: seq 1 (length keys)). rewrite <- seq_shift.
  cbn [flat_map]. f_equal.
  - cbn [firstn skipn map]. rewrite app_nil_r. induction seen as [|x seen IH]; cbn; congruence.
  - rewrite flat_map_concat_map, map_map, <- flat_map_concat_map. apply flat_map_ext. intros i.
    cbn [skipn]. rewrite <- app_assoc. reflexivity.
Qed.

(** The comparisons of pairs, up to an equal one. *)
Definition pairs_done (pairs : list (Q * Q)) (r : res bool) (c : list R) : Prop :=
  let unequal := map (fun p => AskEq (fst p) (snd p) (Some false)) in
  r = Ok false /\ c = unequal pairs \/
  exists before a b after,
    pairs = before ++ (a, b) :: after /\
    (r = Ok true /\ c = unequal before ++ [AskEq a b (Some true)] \/
     r = Panic PForeign /\ c = unequal before ++ [AskEq a b None]).

Lemma pairs_done_stop p1 p2 r c : r <> Ok false -> pairs_done p1 r c -> pairs_done (p1 ++ p2) r c.
Proof.
  intros Hr [(-> & _)|(be & a & b & af & -> & H)]; [congruence|]. right. exists be, a, b, (af ++ p2).
  rewrite <- app_assoc. auto.
Qed.
Lemma pairs_done_more p1 p2 c1 r c : pairs_done p1 (Ok false) c1 -> pairs_done p2 r c -> pairs_done (p1 ++ p2) r (c1 ++ c).
Proof.
  intros [(_ & ->)|(be & a & b & af & _ & [(H & _)|(H & _)])] H2; try discriminate.
  destruct H2 as [(-> & ->)|(be & a & b & af & -> & H)].
  - left. split; auto. now rewrite map_app.
  - right. exists (p1 ++ be), a, b, af. rewrite <- app_assoc. split; auto.
    destruct H as [(-> & ->)|(-> & ->)]; [left|right]; rewrite map_app, <- app_assoc; auto.
Qed.

Lemma duplicate_traces : forall keys seen,
  traces (sp_has_duplicate_key X seen keys) (sp_has_duplicate_key F seen keys)
    (pairs_done (flat_map (fun i => flat_map (fun a => map (pair a) (firstn 1 (skipn i keys))) (seen ++ firstn i keys))
       (seq 0 (length keys)))).
Proof.
  assert (Hfp : forall k l, traces (v_find_pos (fun j => call (f_eq X j k)) l) (v_find_pos (fun j => call (f_eq F j k)) l)
    (fun r c => pairs_done (map (fun a => (a, k)) l) (over (fun o => match o with Some _ => true | None => false end) r) c)).
  { intros k. induction l as [|j l IH]; cbn [v_find_pos map].
    { apply traces_lift. left. auto. }
    change ((j, k) :: map (fun a => (a, k)) l) with ([(j, k)] ++ map (fun a => (a, k)) l).
    apply traces_bind, traces_call. intros [[]|]; cbn [answer].
    - apply traces_lift. rewrite app_nil_r. apply pairs_done_stop; [discriminate|].
      right. exists [], j, k, []. split; auto.
    - apply traces_bind. eapply traces_weaken; [exact IH|]. intros r c H.
      assert (H' : pairs_done ([(j, k)] ++ map (fun a => (a, k)) l)
        (over (fun o : option nat => match o with Some _ => true | None => false end) r) ([AskEq j k (Some false)] ++ c)).
      { apply pairs_done_more; [left; auto|exact H]. }
      destruct r as [o|p|u|]; cbn [over] in *; auto. apply traces_lift. rewrite app_nil_r.
      destruct o; exact H'.
    - apply pairs_done_stop; [discriminate|]. right. exists [], j, k, []. split; auto. }
  induction keys as [|k keys IH]; intros seen; cbn [sp_has_duplicate_key].
  { apply traces_lift. left. auto. }
  rewrite pairs_next. apply traces_bind. eapply traces_weaken; [apply Hfp|]. intros r c H.
  destruct r as [[i|]|p|u|]; cbn [over] in H.
  - apply traces_lift. rewrite app_nil_r. apply pairs_done_stop; [discriminate|exact H].
  - eapply traces_weaken; [apply IH|]. intros r c' H'. now apply pairs_done_more.
  - apply pairs_done_stop; [discriminate|exact H].
  - apply pairs_done_stop; [discriminate|exact H].
  - apply pairs_done_stop; [discriminate|exact H].
Qed.

Lemma each_traces sh n placed (m : special K V BH) qs : stored sh n placed m ->
  traces (sp_get_each X E m qs) (sp_get_each F E m qs) (lookups_asked (search_asked (prof E) sh n placed) qs).
Proof.
  intros Hs. induction qs as [|q qs IH]; cbn [sp_get_each]; [apply traces_lift; constructor|].
  apply traces_bind. eapply traces_weaken; [apply (find_traces sh n placed m q Hs)|]. intros r c H.
  destruct (lookup_sane _ _ _ _ _ _ H) as [([i|] & ->)|(pn & ->)].
  - apply traces_bind. eapply traces_weaken; [exact IH|]. intros r c' H'.
    assert (Hx := lookup_found (search_asked (prof E) sh n placed) q qs i c r c' H H').
    destruct r; cbn [over] in *; auto. apply traces_lift. now rewrite app_nil_r.
  - apply traces_lift. rewrite app_nil_r. now constructor.
  - now constructor.
Qed.

Lemma many_traces sh n placed (m : special K V BH) qs : stored sh n placed m ->
  traces (sp_get_many_mut X E m qs) (sp_get_many_mut F E m qs) (many_looked_up (search_asked (prof E) sh n placed) qs).
Proof.
  intros Hs. unfold sp_get_many_mut. apply traces_bind. eapply traces_weaken; [apply (duplicate_traces qs [])|].
  intros r c H. assert (Hd : pairs_asked qs r c) by exact H. clear H.
  destruct r as [[]|p|u|].
  - apply traces_lift. rewrite app_nil_r. left. auto.
  - eapply traces_weaken; [apply (each_traces sh n placed m qs Hs)|]. intros r c' H'. right. right. eauto.
  - right. left. assert (p = PForeign) as ->.
    { destruct Hd as [(H & _)|(be & a & b & af & _ & [(H & _)|(H & _)])]; congruence. }
    auto.
  - destruct Hd as [(H & _)|(be & a & b & af & _ & [(H & _)|(H & _)])]; discriminate.
  - destruct Hd as [(H & _)|(be & a & b & af & _ & [(H & _)|(H & _)])]; discriminate.
Qed.
End Lookups.

(** ** Positions *)

Section Positions.
Context {K Q V BH : Type}.

Lemma compared_in q l i (c : list (request K Q V BH)) : compared_with q l (Ok (Some i)) c -> In i (map fst l).
Proof.
  remember (Ok (Some i)) as r. intros H. revert Heqr. induction H; intros Hr; try discriminate; cbn; auto.
  injection Hr as ->. auto.
Qed.

Lemma lookup_in p sh n (placed : list (Z * K)) q i (c : list (request K Q V BH)) :
  search_asked p sh n placed q (Ok (Some i)) c -> (i < length placed)%nat.
Proof.
  assert (Hs : forall B (l : list B), In i (map fst (combine (seq 0 (length placed)) l)) -> (i < length placed)%nat).
  { intros B l Hi. apply in_map_iff in Hi. destruct Hi as ([j x] & <- & Hi). apply in_combine_l, in_seq in Hi. cbn. lia. }
  assert (Hc : forall z, In i (map fst (candidates n z placed)) -> (i < length placed)%nat).
  { intros z Hi. unfold candidates in Hi. rewrite map_map in Hi. cbn [fst] in Hi. apply in_map_iff in Hi.
    destruct Hi as (x & <- & Hx). apply filter_In in Hx. destruct Hx as (Hx & _).
    apply (Hs _ placed). apply in_map_iff in Hx || idtac. destruct x as [j x]. apply in_combine_l in Hx as Hj. apply in_seq in Hj.
    apply in_map_iff. exists (j, x). auto. }
  destruct sh; cbn [search_asked]; [intros H; apply compared_in in H; eapply Hs; exact H|..];
    intros [(pn & Hp & _)|(z & c1 & c2 & _ & _ & H)]; try discriminate; apply compared_in in H; eapply Hc; exact H.
Qed.

Lemma stored_length sh n placed (m : special K V BH) : stored sh n placed m -> length (sp_entries m) = length placed.
Proof.
  intros H. rewrite <- (map_length fst), <- (map_length snd placed). f_equal.
  destruct m as [es|sh' t]; cbn in *; [apply H|]. destruct H as (_ & _ & H & _). exact H.
Qed.

Lemma stored_entry sh n placed (m : special K V BH) p q i (c : list (request K Q V BH)) : stored sh n placed m ->
  search_asked p sh n placed q (Ok (Some i)) c -> exists e, nth_error (sp_entries m) i = Some e.
Proof.
  intros Hs H. apply lookup_in in H. rewrite <- (stored_length _ _ _ _ Hs) in H.
  destruct (nth_error (sp_entries m) i) as [e|] eqn:He; [eauto|]. apply nth_error_None in He. lia.
Qed.

Lemma stored_writes sh n placed ws (m : special K V BH) : stored sh n placed m -> stored sh n placed (after_writes ws m).
Proof.
  unfold after_writes. revert m. induction ws as [|[i v] ws IH]; intros m H; cbn [fold_left]; auto. apply IH. clear IH ws.
  destruct m as [es|sh' t]; cbn [sp_write stored fst snd] in *.
  - destruct H as (H & He). split; auto. now rewrite write_entry_keys.
  - destruct H as (H1 & H2 & Hk & Ht). split; auto. split; auto. split.
    + unfold write_table. cbn [entries]. now rewrite write_entry_keys.
    + intros z. destruct (Ht z) as (a & b & Hi & Hr & Hsub). exists a, b. split; [exact Hi|]. split; auto.
      apply range_ok_iff in Hr. apply range_ok_iff. unfold write_table. cbn [entries].
      now rewrite <- (zlen_map fst), write_entry_keys, zlen_map.
Qed.
End Positions.

(** ** Equality *)

Lemma eq_traces {W K V BH} (F : foreign W K K BH) E sh n placed (m self : special K V BH) veq : stored sh n placed m ->
  traces (sp_eq (witness F) E (witness_values veq) self m) (sp_eq F E veq self m)
    (fun r log =>
       (zlen (sp_entries self) <> zlen (sp_entries m) -> r = Ok false /\ log = []) /\
       (zlen (sp_entries self) = zlen (sp_entries m) ->
        entries_asked (search_asked (prof E) sh n placed) (sp_entries m) (sp_entries self) r log)).
Proof.
  intros Hs. unfold sp_eq. destruct (Z.eqb_spec (zlen (sp_entries self)) (zlen (sp_entries m))) as [Hz|Hz]; cbn [negb].
  2:{ apply traces_lift. split; [auto|lia]. }
  eapply traces_weaken with (P := entries_asked (search_asked (prof E) sh n placed) (sp_entries m) (sp_entries self));
    [|intros r c H; split; [lia|auto]].
  generalize (sp_entries self). induction l as [|[k v] l IH]; cbn [v_all]; [apply traces_lift; constructor|].
  apply traces_bind, traces_bind. cbn [fst snd]. unfold sp_get. apply traces_bind.
  eapply traces_weaken; [apply (find_traces F E sh n placed m k Hs)|]. intros r c H.
  destruct (lookup_sane _ _ _ _ _ _ _ H) as [([i|] & ->)|(pn & ->)]; [| |now constructor].
  - destruct (stored_entry _ _ _ _ _ _ _ _ Hs H) as ([k' v'] & Hn). cbn [deref]. rewrite Hn. apply traces_lift. cbn [snd].
    apply traces_call. intros [[]|]; cbn [answer]; rewrite app_nil_r.
    + eapply traces_weaken; [exact IH|]. intros r c' H'. rewrite <- app_assoc. eapply entry_same; eauto.
    + apply traces_lift. rewrite app_nil_r. eapply value_differs; eauto.
    + eapply value_fails; eauto.
  - cbn [deref]. apply traces_lift. apply traces_lift. apply traces_lift. rewrite !app_nil_r. now constructor.
Qed.

(** ** C80 *)

Lemma stored_answers {K V BH} E sh n placed (m : special K V BH) : stored sh n placed m -> answers_as E sh n placed m.
Proof.
  intros Hs. split; [|split].
  - intros W Q F q w.
    destruct (traces_run _ _ _ w (find_traces (V := V) F E sh n placed m q Hs)) as (r & w' & c & H1 & H2 & H3).
    exists r, w', c. split; auto. split; auto. split; auto.
    assert (Hget : sp_get F E m q w = (over (fun o => option_map snd (entry_at (sp_entries m) o)) r, w')).
    { unfold sp_get, mbind. rewrite H2. destruct (lookup_sane _ _ _ _ _ _ _ H3) as [([i|] & ->)|(pn & ->)]; try reflexivity.
      destruct (stored_entry _ _ _ _ _ _ _ _ Hs H3) as (e & He). cbn. now rewrite He. }
    split; auto. split; [|split; [|split]].
    + unfold sp_get_key_value, mbind. rewrite H2. now destruct r.
    + unfold sp_contains_key, mbind. rewrite Hget.
      destruct (lookup_sane _ _ _ _ _ _ _ H3) as [([i|] & ->)|(pn & ->)]; try reflexivity.
      destruct (stored_entry _ _ _ _ _ _ _ _ Hs H3) as (e & He). cbn. now rewrite He.
    + unfold sp_index, mbind. rewrite Hget.
      destruct (lookup_sane _ _ _ _ _ _ _ H3) as [([i|] & ->)|(pn & ->)]; try reflexivity.
    + unfold sp_index_mut, mbind. rewrite H2. now destruct r as [[i|]|p|u|].
  - intros W Q F qs w.
    destruct (traces_run _ _ _ w (many_traces (V := V) F E sh n placed m qs Hs)) as (r & w' & c & H1 & H2 & H3). eauto 8.
  - intros W F veq self w.
    destruct (traces_run _ _ _ w (eq_traces F E sh n placed m self veq Hs)) as (r & w' & c & H1 & H2 & H3 & H4). eauto 10.
Qed.

Lemma all_length {K Q V BH} (asks : K -> res Z -> list (request K Q V BH) -> Prop) ks rc c : every_asked asks ks rc c ->
  (exists codes, rc = Ok codes /\ length codes = length ks) \/ exists pn, rc = Panic pn.
Proof.
  induction 1 as [|k ks z c r c' _ _ IH|]; eauto.
  destruct IH as [(codes & -> & Hl)|(pn & ->)]; cbn; eauto. left. eexists. split; [reflexivity|]. cbn. congruence.
Qed.

Lemma special_construction_stored :
  forall (W K Q V BH : Type) (F : foreign W K Q BH) (E : env) (S_ty : int_type) (sh : shape BH)
         (payload : list (K * V)) (w : W),
  env_ok E -> fits S_ty (zlen payload) ->
  exists r w' log,
    sp_from_vec (witness (V := V) F) E S_ty sh payload (w, []) = (r, (w', log)) /\
    sp_from_vec F E S_ty sh payload w = (r, w') /\
    match sh with
    | Scanning =>
        log = [] /\ r = Ok (Entries payload) /\
        stored sh 1 (map (fun e => (0, fst e)) payload) (Entries (BH := BH) payload)
    | _ =>
        exists rc, codes_asked (prof E) sh (map fst payload) rc log /\
        match rc with
        | Ok codes =>
            exists m n placed, r = Ok m /\ 1 <= n /\
              Permutation (combine codes payload) placed /\ sp_entries m = map snd placed /\
              stored sh n (map (fun x => (fst x, fst (snd x))) placed) m
        | Panic p => r = Panic p
        | UB _ | OutOfFuel => False
        end
    end.
Proof.
  intros W K Q V BH F E S_ty sh payload w HE Hfits.
  set (goal := fun r log => match sh with
    | Scanning =>
        log = [] /\ r = Ok (Entries payload) /\
        stored sh 1 (map (fun e => (0, fst e)) payload) (Entries (BH := BH) payload)
    | _ =>
        exists rc, codes_asked (Q := Q) (V := V) (prof E) sh (map fst payload) rc log /\
        match rc with
        | Ok codes =>
            exists m n placed, r = Ok m /\ 1 <= n /\
              Permutation (combine codes payload) placed /\ sp_entries m = map snd placed /\
              stored sh n (map (fun x => (fst x, fst (snd x))) placed) m
        | Panic p => r = Panic p
        | UB _ | OutOfFuel => False
        end
    end).
  cut (traces (sp_from_vec (witness (V := V) F) E S_ty sh payload) (sp_from_vec F E S_ty sh payload) goal).
  { intros H. apply (traces_run _ _ _ w H). }
  assert (Hcase : sh = Scanning \/ sh <> Scanning) by (destruct sh; auto; right; discriminate).
  destruct Hcase as [->|Hsh]; [apply traces_lift; split; [reflexivity|]; split; [reflexivity|];
    split; auto; now rewrite map_map|].
  assert (Hgoal : forall r log,
    (exists rc, codes_asked (prof E) sh (map fst payload) rc log /\
        match rc with
        | Ok codes =>
            exists m n placed, r = Ok m /\ 1 <= n /\
              Permutation (combine codes payload) placed /\ sp_entries m = map snd placed /\
              stored sh n (map (fun x => (fst x, fst (snd x))) placed) m
        | Panic p => r = Panic p
        | UB _ | OutOfFuel => False
        end) -> goal r log) by (intros r log H; unfold goal; destruct sh; [congruence|exact H..]).
  clearbody goal.
  assert (Hb : forall W' (G : foreign W' K Q BH), sp_from_vec G E S_ty sh payload =
    mbind (v_map (fun e => sp_analysis_code G E sh (fst e)) payload) (fun codes =>
     mbind (lift (analyze_hash_codes codes)) (fun analysis =>
     mbind (v_ht_new E S_ty payload (fst analysis) (sp_table_code G E sh)) (fun t => lift (Ok (InTable sh t))))))
    by (intros W' G; destruct sh; [congruence|reflexivity..]).
  rewrite !Hb. clear Hb. apply traces_bind.
  eapply traces_weaken; [apply (map_traces (sp_analysis_code (witness F) E sh) (sp_analysis_code F E sh)
    (fun k => guarded_asks (prof E) sh (inl k) (least_key sh))); [intros k; now apply analysis_code_traces|intros k r c; apply guarded_sane]|].
  cbv beta. intros r c Hc. destruct (all_length _ _ _ _ Hc) as [(codes & -> & Hl)|(pn & ->)].
  2:{ apply Hgoal. exists (Panic pn). split; auto. left. eauto. }
  rewrite map_length in Hl.
  destruct (analyze_hash_codes_pos codes) as (n & x & Ha & _). rewrite Ha. apply traces_bind, traces_lift. cbn [fst].
  assert (Hn : payload <> [] -> 1 <= n) by (apply (codes_positive payload codes (n, x)); auto).
  assert (Hfirst : forall r c2, every_asked (fun k => hash_asks (prof E) (inl k) sh) (map fst payload) r c2 ->
    codes_asked (prof E) sh (map fst payload) r (c ++ c2)) by (intros r c2 H; right; exists codes, c, c2; auto).
  assert (Hstored : forall n t placed, entries t = map snd placed -> table_holds n (map keyed placed) t ->
    stored sh n (map (fun x : Z * (K * V) => (fst x, fst (snd x))) placed) (InTable sh t)).
  { intros n' t placed _ Ht. cbn [stored]. split; auto. }
  apply traces_bind. unfold v_ht_new. destruct payload as [|e0 p0] eqn:Hp.
  - apply traces_lift. apply traces_lift. rewrite !app_nil_r. apply Hgoal. exists (Ok []).
    split; [rewrite <- (app_nil_r c); apply Hfirst; constructor|].
    exists (InTable sh {| num_slots := 1; slots := [empty_slot]; entries := [] |}), 1, [].
    split; [reflexivity|]. split; [lia|]. split; [constructor|]. split; [reflexivity|].
    apply Hstored; [reflexivity|]. split; [reflexivity|]. intros z. exists 0, 0.
    unfold ht_get_hash_info. cbn [num_slots slots]. rewrite Z.mod_1_r. cbn. auto.
  - rewrite <- Hp in *. specialize (Hn ltac:(subst; discriminate)). clear Hp e0 p0.
    pose proof Hfits as (_ & H64 & Hcap & _). pose proof (zlen_nonneg payload).
    rewrite to_usize_ok by lia. apply traces_bind, traces_lift. cbn [unwrap].
    destruct (Z.ltb_spec (imax S_ty) (zlen payload)); [lia|]. apply traces_bind.
    eapply traces_weaken; [apply (prepare_traces (sp_table_code (witness F) E sh) (sp_table_code F E sh)
      (fun k => hash_asks (prof E) (inl k) sh)); [lia|intros k; now apply table_code_traces|intros k r c'; apply hash_sane]|].
    cbv beta. intros r c2 (rc & Hrc & -> & Hl2). pose proof (all_length _ _ _ _ Hrc) as Hlen. apply Hfirst in Hrc.
    destruct Hlen as [(codes2 & -> & _)|(pn & ->)]; cbn [over].
    + destruct (finish_holds E S_ty n codes2 payload HE Hfits Hn (Hl2 codes2 eq_refl)) as (t & placed & Hf & Hperm & Hent & Ht).
      rewrite Hf. apply traces_lift. apply traces_lift. rewrite !app_nil_r. cbn [app]. apply Hgoal. exists (Ok codes2). split; [exact Hrc|].
      exists (InTable sh t), n, placed. split; [reflexivity|]. split; [lia|]. split; auto.
    + cbn [app]. apply Hgoal. exists (Panic pn). auto.
Qed.

Lemma special_construction_calls :
  forall (W K Q V BH : Type) (F : foreign W K Q BH) (E : env) (S_ty : int_type) (sh : shape BH)
         (payload : list (K * V)) (w : W),
  env_ok E -> fits S_ty (zlen payload) ->
  exists r w' log,
    sp_from_vec (witness (V := V) F) E S_ty sh payload (w, []) = (r, (w', log)) /\
    sp_from_vec F E S_ty sh payload w = (r, w') /\
    match sh with
    | Scanning =>
        log = [] /\ r = Ok (Entries payload) /\
        forall ws, answers_as E sh 1 (map (fun e => (0, fst e)) payload) (after_writes ws (Entries payload))
    | _ =>
        exists rc, codes_asked (prof E) sh (map fst payload) rc log /\
        match rc with
        | Ok codes =>
            exists m n placed, r = Ok m /\ 1 <= n /\
              Permutation (combine codes payload) placed /\ sp_entries m = map snd placed /\
              forall ws, answers_as E sh n (map (fun x => (fst x, fst (snd x))) placed) (after_writes ws m)
        | Panic p => r = Panic p
        | UB _ | OutOfFuel => False
        end
    end.
Proof.
  intros W K Q V BH F E S_ty sh payload w HE Hfits.
  destruct (special_construction_stored W K Q V BH F E S_ty sh payload w HE Hfits) as (r & w' & log & H1 & H2 & H).
  exists r, w', log. split; auto. split; auto. destruct sh.
  { destruct H as (-> & -> & H). split; auto. split; auto. intros ws. now apply stored_answers, stored_writes. }
  all: destruct H as (rc & Hrc & H); exists rc; split; [exact Hrc|];
    destruct rc as [codes|p|u|]; auto;
    destruct H as (m & n & placed & -> & Hn & HP & He & Hs); exists m, n, placed; do 4 (split; auto);
    intros ws; now apply stored_answers, stored_writes.
Qed.
