(** Limits on the number of entries, and which entries a lookup examines. *)
From Coq Require Import List ZArith Bool Arith Lia Permutation Sorted.
From Verif Require Import Spec FrozenMap MapSpec Base BaseLemmas HashCodeAnalyzer HashCodeAnalyzerProofs HashTable
  HashTableProofs Maps MapsProofs FrozenMapFacts.
Import ListNotations.
Open Scope Z_scope.

Section Fill.
Context {K V : Type}.
Notation item := (Z * (K * V))%type.

Lemma arith_checked t z z' : arith Checked t z = Ok z' -> z' = z /\ imin t <= z <= imax t.
Proof.
  unfold arith. destruct (in_type t z) eqn:E1; [|discriminate]. intros H. injection H as <-.
  unfold in_type in E1. lia.
Qed.

Lemma collect_run_checked h : forall (stack : list item) it num es stack' num' es',
  0 <= num ->
  collect_run Checked h it stack num es = Ok (stack', num', es') ->
  num < num' /\ num' + zlen stack' = num + 1 + zlen stack.
Proof.
  induction stack as [|it' stack IH]; intros it num es stack' num' es' Hn H; cbn [collect_run] in H;
    apply bind_ok in H; destruct H as (n' & Ha & H); apply arith_checked in Ha; destruct Ha as (-> & _).
  - injection H as <- <- <-. lia.
  - destruct (_ =? _).
    + apply IH in H; [|lia]. rewrite zlen_cons. lia.
    + injection H as <- <- <-. lia.
Qed.

Lemma fill_checked S_ty : forall fuel (stack : list item) ei ss es r,
  0 <= ei -> fill Checked S_ty fuel stack ei ss es = Ok r -> stack <> [] ->
  ei + zlen stack <= 2 ^ 31 - 1.
Proof.
  induction fuel as [|fuel IH]; intros [|it stack] ei ss es r Hei H Hne; try congruence;
    cbn [fill] in H; try discriminate.
  apply bind_ok in H. destruct H as ([[st n] es1] & Hc & H).
  apply bind_ok in H; destruct H as (lo & _ & H). apply bind_ok in H; destruct H as (lo' & _ & H).
  apply bind_ok in H; destruct H as (cnt & _ & H). apply bind_ok in H; destruct H as (hi & _ & H).
  apply bind_ok in H; destruct H as (ss' & _ & H). apply bind_ok in H; destruct H as (ei' & Ha & H).
  apply arith_checked in Ha. destruct Ha as (-> & _ & Hmax). change (imax i32) with (2 ^ 31 - 1) in Hmax.
  apply collect_run_checked in Hc; [|lia]. rewrite zlen_cons.
  destruct st as [|it' st].
  - change (zlen []) with 0 in Hc. lia.
  - apply IH in H; [|lia|discriminate]. lia.
Qed.

(** With overflow checks on, no table of 2^31 or more entries is ever built. *)
Lemma ht_new_checked_limit E S_ty (payload : list (K * V)) n hash t :
  env_ok E -> prof E = Checked -> ht_new E S_ty payload n hash = Ok t -> zlen payload < 2 ^ 31.
Proof.
  intros HE Hp H. unfold ht_new in H. destruct payload as [|e p] eqn:Hpl; [change (zlen []) with 0; lia|].
  rewrite <- Hpl in *. assert (Hne : payload <> []) by (subst; discriminate). clear Hpl.
  apply bind_ok in H. destruct H as (cap & _ & H). destruct (_ <? _); [discriminate|].
  apply bind_ok in H. destruct H as (items & Hi & H).
  apply bind_ok in H. destruct H as (r & Hf & _). rewrite Hp in Hf.
  assert (Hlen : zlen items = zlen payload).
  { clear - Hi. revert items Hi. induction payload as [|e' p' IH]; cbn [prepare]; intros items H.
    - injection H as <-. reflexivity.
    - apply bind_ok in H. destruct H as (c & _ & H). destruct (n =? 0); [discriminate|].
      apply bind_ok in H. destruct H as (rest & Hr & H). injection H as <-. rewrite !zlen_cons.
      now rewrite (IH rest Hr). }
  destruct (HE _ fst items) as (HP & _). apply zlen_perm in HP.
  apply fill_checked in Hf; [|lia|].
  - rewrite zlen_rev in Hf. lia.
  - intros Hnil. apply (f_equal zlen) in Hnil. rewrite zlen_rev in Hnil. change (zlen []) with 0 in Hnil.
    apply Hne. apply zlen_0. lia.
Qed.

Lemma ht_new_capacity_panic E S_ty (payload : list (K * V)) n hash :
  0 <= imax S_ty < 2 ^ 64 -> imax S_ty < zlen payload -> ht_new E S_ty payload n hash = Panic PCapacity.
Proof.
  intros Hm Hl. unfold ht_new. destruct payload as [|e p].
  { change (zlen []) with 0 in Hl. lia. }
  rewrite to_usize_ok by lia. cbn [unwrap bind]. destruct (Z.ltb_spec (imax S_ty) (zlen (e :: p))); [reflexivity|lia].
Qed.

Lemma ht_new_wide_panic E S_ty (payload : list (K * V)) n hash :
  2 ^ 64 <= imax S_ty -> payload <> [] -> ht_new E S_ty payload n hash = Panic PUnwrapNone.
Proof.
  intros Hm Hl. unfold ht_new. destruct payload as [|e p]; [congruence|].
  unfold to_usize, in_type. change (imax usize) with (2 ^ 64 - 1). change (imin usize) with 0.
  destruct (Z.leb_spec (imax S_ty) (2 ^ 64 - 1)); [lia|]. rewrite andb_false_r. reflexivity.
Qed.

(** The entries of the block examined for a code are exactly those whose hash is congruent
    to the code. *)
Lemma sub_filter_positions (q : K * V -> bool) a b es :
  0 <= a <= b -> b <= zlen es -> sub a b es = filter q es ->
  forall i e, nth_error es i = Some e -> (a <= Z.of_nat i < b <-> q e = true).
Proof.
  intros Ha Hb Hf i e Hi.
  destruct (sub_split a b es Ha Hb) as (pre & post & He & Hpre & Hlen).
  rewrite Hf in He. rewrite Hf in Hlen. set (seg := filter q es) in *.
  assert (Hsplit : filter q es = filter q pre ++ filter q seg ++ filter q post).
  { rewrite He at 1. now rewrite !filter_app. }
  assert (Hseg : filter q seg = seg).
  { apply filter_all. intros x Hx. unfold seg in Hx. now apply filter_In in Hx. }
  fold seg in Hsplit. rewrite Hseg in Hsplit.
  assert (Hnil : filter q pre = [] /\ filter q post = []).
  { apply (f_equal (@length _)) in Hsplit. rewrite !app_length in Hsplit.
    split; apply length_zero_iff_nil; lia. }
  destruct Hnil as (N1 & N2).
  rewrite He in Hi. destruct (Nat.lt_ge_cases i (length pre)) as [H1|H1].
  - rewrite nth_error_app1 in Hi by auto. apply nth_error_In in Hi.
    split; [unfold zlen in *; lia|]. intros Hq.
    assert (In e (filter q pre)) by (apply filter_In; auto). rewrite N1 in H. destruct H.
  - rewrite nth_error_app2 in Hi by auto.
    destruct (Nat.lt_ge_cases (i - length pre) (length seg)) as [H2|H2].
    + rewrite nth_error_app1 in Hi by auto. apply nth_error_In in Hi. unfold seg in Hi.
      apply filter_In in Hi. split; [intros _; apply Hi|]. intros _. unfold zlen in *. lia.
    + rewrite nth_error_app2 in Hi by auto. apply nth_error_In in Hi.
      split; [unfold zlen in *; lia|]. intros Hq.
      assert (In e (filter q post)) by (apply filter_In; auto). rewrite N2 in H. destruct H.
Qed.

Lemma table_positions h (t : hash_table K V) code a b :
  table_ok h t -> ht_get_hash_info t code = Ok (a, b) ->
  0 <= a <= b /\ b <= zlen (entries t) /\
  forall i e, nth_error (entries t) i = Some e ->
    (a <= Z.of_nat i < b <-> h (fst e) mod num_slots t = code mod num_slots t).
Proof.
  intros (_ & Hok) Hi. destruct (Hok code) as (a' & b' & Hi' & Hr & Hs).
  rewrite Hi in Hi'. injection Hi' as <- <-. apply range_ok_iff in Hr. destruct Hr as (Ha & Hb).
  split; auto. split; auto. intros i e He.
  rewrite (sub_filter_positions _ _ _ _ Ha Hb Hs i e He). apply Z.eqb_eq.
Qed.

(** ** Tables of any size: whenever construction returns, the table is right, provided no
    slot can receive 2^32 entries (the i32 counters wrap around only when overflow checks
    are off). *)

Lemma wrap_i32_small z : - 2 ^ 31 <= z < 2 ^ 31 -> wrap i32 z = z.
Proof.
  intros H. unfold wrap. cbn [bits signed i32 andb]. change (32 - 1) with 31.
  destruct (Z.neg_nonneg_cases z) as [Hz|Hz].
  - assert (Hm : z mod 2 ^ 32 = z + 2 ^ 32).
    { replace (z + 2 ^ 32) with ((z + 2 ^ 32) mod 2 ^ 32) by (apply Z.mod_small; lia).
      rewrite <- (Z.mod_add z 1 (2 ^ 32)) by lia. f_equal. }
    rewrite Hm. destruct (Z.leb_spec (2 ^ 31) (z + 2 ^ 32)); lia.
  - rewrite Z.mod_small by lia. destruct (Z.leb_spec (2 ^ 31) z); lia.
Qed.

Lemma wrap_i32_large z : 2 ^ 31 <= z < 2 ^ 32 -> wrap i32 z < 0.
Proof.
  intros H. unfold wrap. cbn [bits signed i32 andb]. change (32 - 1) with 31.
  rewrite Z.mod_small by lia. destruct (Z.leb_spec (2 ^ 31) z); lia.
Qed.

Lemma wrap_i32_range z : - 2 ^ 31 <= wrap i32 z < 2 ^ 31.
Proof.
  unfold wrap. cbn [bits signed i32 andb]. change (32 - 1) with 31.
  pose proof (Z.mod_pos_bound z (2 ^ 32) ltac:(lia)).
  destruct (Z.leb_spec (2 ^ 31) (z mod 2 ^ 32)); lia.
Qed.

Lemma wrap_i32_succ z : wrap i32 (wrap i32 z + 1) = wrap i32 (z + 1).
Proof.
  unfold wrap at 1 3. f_equal.
  assert (E1 : (wrap i32 z + 1) mod 2 ^ bits i32 = (z + 1) mod 2 ^ bits i32).
  { unfold wrap. cbn [bits signed i32 andb]. change (32 - 1) with 31.
    destruct (_ <=? _).
    - replace (z mod 2 ^ 32 - 2 ^ 32 + 1) with (z mod 2 ^ 32 + 1 + (-1) * 2 ^ 32) by lia.
      rewrite Z.mod_add by lia. now rewrite Zplus_mod_idemp_l.
    - now rewrite Zplus_mod_idemp_l. }
  rewrite E1. reflexivity.
Qed.

Lemma arith_i32_wrap pr z z' : arith pr i32 z = Ok z' -> z' = wrap i32 z.
Proof.
  unfold arith. destruct (in_type i32 z) eqn:E1.
  - intros H. injection H as <-. unfold in_type in E1. change (imin i32) with (- 2 ^ 31) in E1.
    change (imax i32) with (2 ^ 31 - 1) in E1. symmetry. apply wrap_i32_small. lia.
  - destruct pr; [discriminate|]. congruence.
Qed.

Lemma collect_run_wrap pr h : forall (stack : list item) it num0 es stack' num' es',
  fst it = h ->
  collect_run pr h it stack (wrap i32 num0) es = Ok (stack', num', es') ->
  exists run, it :: stack = run ++ stack' /\ es' = es ++ map snd run /\
    num' = wrap i32 (num0 + zlen run) /\
    (forall x, In x run -> fst x = h) /\
    (stack' = [] \/ exists y s, stack' = y :: s /\ fst y <> h) /\ run <> [].
Proof.
  induction stack as [|it' stack IH]; intros it num0 es stack' num' es' Hit H; cbn [collect_run] in H;
    apply bind_ok in H; destruct H as (n' & Ha & H); apply arith_i32_wrap in Ha;
    rewrite wrap_i32_succ in Ha; subst n'.
  - injection H as <- <- <-. exists [it]. split; auto. split; auto. split; auto.
    split; [intros x [<-|[]]; auto|]. split; auto. discriminate.
  - destruct (Z.eqb_spec (fst it') h) as [E1|E1].
    + apply IH in H; auto. destruct H as (run & H1 & H2 & H3 & H4 & H5 & H6).
      exists (it :: run). split; [cbn; congruence|]. split; [|split].
      * rewrite H2, <- app_assoc. reflexivity.
      * rewrite H3, zlen_cons. f_equal. lia.
      * split; [intros x [<-|Hx]; auto|]. split; auto. discriminate.
    + injection H as <- <- <-. exists [it]. split; auto. split; auto. split; auto.
      split; [intros x [<-|[]]; auto|]. split; [right; eauto|discriminate].
Qed.

Lemma num_cast_some t z z' : unwrap (num_cast t z) = Ok z' -> z' = z /\ imin t <= z <= imax t.
Proof.
  unfold num_cast. destruct (in_type t z) eqn:E1; [|discriminate]. cbn. intros H. injection H as <-.
  unfold in_type in E1. lia.
Qed.

Lemma fill_sound pr S_ty : forall fuel (stack : list item) Q ss n ei es ss' es',
  imin S_ty = 0 ->
  zlen (Q ++ stack) <= imax S_ty ->
  countable pr (zlen (Q ++ stack)) ->
  zlen ss = n ->
  StronglySorted (fun x y => fst y <= fst x) stack ->
  (forall x, In x stack -> 0 <= fst x < n) ->
  (forall x y, In x Q -> In y stack -> fst x <> fst y) ->
  (forall i s, nth_error ss i = Some s -> slot_ok Q (Z.of_nat i) s) ->
  (stack <> [] -> ei = zlen Q \/ ei < 0) ->
  fill pr S_ty fuel stack ei ss es = Ok (ss', es') ->
  zlen ss' = n /\
  (forall i s, nth_error ss' i = Some s -> slot_ok (Q ++ stack) (Z.of_nat i) s).
Proof.
  induction fuel as [|fuel IH]; intros stack Q ss n ei es ss' es' Hmin Hcap Hcnt Hss Hsort Hrange Hdisj Hslots Hei H.
  - destruct stack; [|discriminate]. cbn in H. injection H as <- <-. rewrite app_nil_r. auto.
  - destruct stack as [|it stack].
    { cbn in H. injection H as <- <-. rewrite app_nil_r. auto. }
    cbn [fill] in H. apply bind_ok in H. destruct H as ([[stack' num] es1] & Hc & H).
    apply bind_ok in H; destruct H as (lo & Hlo & H). apply bind_ok in H; destruct H as (lo' & Hlo' & H).
    apply bind_ok in H; destruct H as (cnt & Hcnt' & H). apply bind_ok in H; destruct H as (hi & Hhi & H).
    apply bind_ok in H; destruct H as (ss1 & Hst & H). apply bind_ok in H; destruct H as (ei' & Hei' & H).
    apply num_cast_some in Hlo, Hlo', Hcnt'. destruct Hlo as (-> & Hlo), Hlo' as (-> & _), Hcnt' as (-> & Hc0).
    rewrite Hmin in Hlo, Hc0.
    destruct (Hei ltac:(discriminate)) as [->|Hneg]; [|lia]. clear Hei.
    change 0 with (wrap i32 0) in Hc.
    pose proof Hc as Hck. apply collect_run_wrap in Hc; auto.
    destruct Hc as (run & Hsplit & -> & Hnum & Hall & Hhd & Hne).
    rewrite Z.add_0_l in Hnum.
    pose proof (zlen_nonneg Q) as HQ0. pose proof (zlen_nonneg run). pose proof (zlen_nonneg stack').
    rewrite Hsplit in *. rewrite !zlen_app in Hcap, Hcnt.
    (* the run length is exact *)
    assert (Hrunlen : zlen run < 2 ^ 31).
    { destruct Hcnt as [->|Hcnt].
      - change (wrap i32 0) with 0 in Hck. apply collect_run_checked in Hck; [|lia].
        assert (zlen (it :: stack) = zlen (run ++ stack')) by now rewrite Hsplit.
        rewrite zlen_cons, zlen_app in *. pose proof (wrap_i32_range (zlen run)). lia.
      - destruct (Z.lt_ge_cases (zlen run) (2 ^ 31)); auto.
        pose proof (wrap_i32_large (zlen run) ltac:(lia)). lia. }
    rewrite wrap_i32_small in Hnum by lia. subst num.
    rewrite arith_ok in Hhi by lia. injection Hhi as <-.
    assert (Hit : 0 <= fst it < n).
    { destruct run as [|r run']; [congruence|]. cbn in Hsplit. injection Hsplit as <- _.
      apply Hrange. now left. }
    unfold store_slot in Hst. rewrite Hss in Hst. destruct (Z.ltb_spec (fst it) n); [|lia].
    injection Hst as <-. set (ss1 := set_nth _ _ ss) in *.
    apply StronglySorted_app_inv in Hsort. destruct Hsort as (Hs1 & Hs2 & Hs12).
    assert (Hlt : forall y, In y stack' -> fst y < fst it).
    { intros y Hy. destruct Hhd as [->|(y0 & s0 & -> & Hy0)]; [destruct Hy|].
      destruct run as [|r run']; [congruence|]. cbn in Hsplit. injection Hsplit as <- _.
      assert (fst y0 <= fst it) by (apply Hs12; now left).
      assert (fst y <= fst y0).
      { inversion Hs2 as [|? ? _ HF]; subst. destruct Hy as [<-|Hy]; [lia|].
        rewrite Forall_forall in HF. now apply HF. }
      lia. }
    assert (Hei2 : stack' <> [] -> ei' = zlen (Q ++ run) \/ ei' < 0).
    { intros Hne'. rewrite zlen_app.
      destruct Hcnt as [->|Hcnt].
      - apply arith_checked in Hei'. left. apply Hei'.
      - apply arith_i32_wrap in Hei'. subst ei'.
        destruct (Z.lt_ge_cases (zlen Q + zlen run) (2 ^ 31)).
        + left. apply wrap_i32_small. lia.
        + right. apply wrap_i32_large. lia. }
    rewrite app_assoc.
    apply (IH stack' (Q ++ run) ss1 n ei' (es ++ map snd run) ss' es'); auto.
    + rewrite !zlen_app. lia.
    + rewrite !zlen_app. destruct Hcnt; [left; auto|right; lia].
    + unfold ss1, zlen in *. now rewrite set_nth_length.
    + intros x Hx. apply Hrange. apply in_or_app. now right.
    + intros x y Hx Hy. apply in_app_or in Hx. destruct Hx as [Hx|Hx].
      * apply Hdisj; auto. apply in_or_app. now right.
      * rewrite (Hall x Hx). specialize (Hlt y Hy). lia.
    + intros i s Hs. unfold ss1 in Hs. rewrite nth_error_set_nth in Hs.
      assert (Hfr : forall j, filter (fun x => fst x =? j) run = if fst it =? j then run else []).
      { intros j. destruct (Z.eqb_spec (fst it) j).
        - apply filter_all. intros x Hx. rewrite (Hall x Hx). lia.
        - apply filter_none. intros x Hx. rewrite (Hall x Hx). lia. }
      destruct (Nat.eqb_spec (Z.to_nat (fst it)) i).
      * destruct (nth_error ss i); [|discriminate]. injection Hs as <-.
        unfold slot_ok. cbn [min_index max_index]. rewrite zlen_app.
        split; [lia|]. split; [lia|].
        rewrite sub_app_r, filter_app, Hfr.
        destruct (Z.eqb_spec (fst it) (Z.of_nat i)); [|lia].
        rewrite filter_none; auto. intros x Hx.
        apply Z.eqb_neq. rewrite <- e0. apply Hdisj; auto.
        destruct run as [|r run']; [congruence|]. cbn in Hsplit. injection Hsplit as <- _. now left.
      * apply Hslots in Hs. destruct Hs as (Ha & Hb & Hc).
        unfold slot_ok. rewrite zlen_app. split; [lia|]. split; [lia|].
        rewrite sub_app_l by lia. rewrite Hc, filter_app, Hfr.
        destruct (Z.eqb_spec (fst it) (Z.of_nat i)); [lia|]. now rewrite app_nil_r.
Qed.

Lemma ht_new_sound (E : env) S_ty (payload : list (K * V)) n (hash : K -> res Z) (h : K -> Z) t :
  env_ok E -> imin S_ty = 0 -> 1 <= n -> countable (prof E) (zlen payload) ->
  (forall e, In e payload -> hash (fst e) = Ok (h (fst e))) ->
  ht_new E S_ty payload n hash = Ok t ->
  table_ok h t /\ (payload <> [] -> num_slots t = n).
Proof.
  intros HE Hmin Hn Hcnt Hhash H. unfold ht_new in H.
  destruct payload as [|e0 p0] eqn:Hp.
  { injection H as <-. split; [|congruence]. split; cbn; [lia|].
    intros code. exists 0, 0. unfold ht_get_hash_info. cbn [num_slots slots].
    rewrite Z.mod_1_r. cbn. auto. }
  rewrite <- Hp in *. assert (Hne : payload <> []) by (subst; discriminate). clear Hp.
  apply bind_ok in H. destruct H as (cap & Hcap & H).
  assert (Hcap' : cap = imax S_ty /\ imax S_ty < 2 ^ 64).
  { destruct (to_usize (imax S_ty)) eqn:Ht; [|discriminate]. apply to_usize_some in Ht. cbn in Hcap.
    injection Hcap as <-. lia. }
  destruct Hcap' as (-> & H64).
  destruct (Z.ltb_spec (imax S_ty) (zlen payload)); [discriminate|].
  rewrite (prepare_ok hash h) in H by (auto; lia). cbn [bind] in H. cbv zeta in H.
  set (items := map (fun e => (h (fst e) mod n, e)) payload) in *.
  destruct (HE item fst items) as (Hperm & Hsorted).
  set (sorted := usort E item fst items) in *.
  apply bind_ok in H. destruct H as ([ss es] & Hfill & H).
  assert (Hlen : zlen (rev sorted) = zlen payload).
  { rewrite zlen_rev, <- (zlen_perm _ _ Hperm). unfold items. apply zlen_map. }
  assert (Hin : forall x, In x (rev sorted) -> exists e, In e payload /\ x = (h (fst e) mod n, e)).
  { intros x Hx. apply in_rev in Hx. apply (Permutation_in _ (Permutation_sym Hperm)) in Hx.
    unfold items in Hx. apply in_map_iff in Hx. destruct Hx as (e & <- & He). eauto. }
  assert (Hes : es = map snd (rev sorted)).
  { apply fill_perm in Hfill. exact Hfill. }
  destruct (fill_sound (prof E) S_ty (length sorted) (rev sorted) [] (repeat empty_slot (Z.to_nat n)) n
    0 [] ss es) as (Hss & Hok); auto.
  - cbn [app]. lia.
  - cbn [app]. now rewrite Hlen.
  - rewrite zlen_repeat. lia.
  - apply StronglySorted_rev in Hsorted. exact Hsorted.
  - intros x Hx. destruct (Hin x Hx) as (e & _ & ->). cbn [fst]. apply Z.mod_pos_bound. lia.
  - intros i s Hs. apply nth_error_In, repeat_spec in Hs. subst s.
    unfold slot_ok, zlen. cbn. repeat split; lia.
  - rewrite Hss in H. destruct (Z.eqb_spec n 0); [lia|]. injection H as <-.
    split; auto. split; cbn [num_slots entries]; [lia|]. intros code.
    assert (Hidx : 0 <= code mod n < n) by (apply Z.mod_pos_bound; lia).
    destruct (nth_error ss (Z.to_nat (code mod n))) as [s|] eqn:Hs.
    2:{ apply nth_error_None in Hs. unfold zlen in Hss. lia. }
    destruct (Hok _ _ Hs) as (Ha & Hb & Hc). cbn [app] in *.
    exists (min_index s), (max_index s).
    unfold ht_get_hash_info. cbn [num_slots slots]. rewrite Hs.
    rewrite !to_usize_ok by lia. cbn. rewrite Hes. split; auto. split.
    * apply range_ok_iff. rewrite zlen_map. lia.
    * rewrite sub_map, Hc, filter_map_comm. f_equal. apply filter_ext_in. intros x Hx.
      destruct (Hin x Hx) as (e & _ & ->). cbn.
      f_equal. lia.
Qed.

(** ** Tables of any size are safe to look into: the slots of a built table never point
    outside its entries, even when the i32 counters have wrapped around. *)

Lemma wrap_i32_mod z : wrap i32 z mod 2 ^ 32 = z mod 2 ^ 32.
Proof.
  unfold wrap. cbn [bits signed i32 andb]. change (32 - 1) with 31. destruct (_ <=? _).
  - replace (z mod 2 ^ 32 - 2 ^ 32) with (z mod 2 ^ 32 + (-1) * 2 ^ 32) by lia.
    rewrite Z.mod_add by lia. now rewrite Z.mod_mod by lia.
  - now rewrite Z.mod_mod by lia.
Qed.

Lemma wrap_i32_congr a b : a mod 2 ^ 32 = b mod 2 ^ 32 -> wrap i32 a = wrap i32 b.
Proof. intros H. unfold wrap. cbn [bits signed i32]. now rewrite H. Qed.

Lemma wrap_i32_add a b : wrap i32 (wrap i32 a + wrap i32 b) = wrap i32 (a + b).
Proof.
  apply wrap_i32_congr.
  rewrite (Zplus_mod (wrap i32 a)), !wrap_i32_mod. symmetry. apply Zplus_mod.
Qed.

Lemma wrap_i32_le z : 0 <= z -> wrap i32 z <= z.
Proof.
  intros H. unfold wrap. cbn [bits signed i32 andb]. change (32 - 1) with 31.
  pose proof (Z.mod_le z (2 ^ 32) H ltac:(lia)). destruct (_ <=? _); lia.
Qed.

Definition slot_safe (q : Z) (s : slot) : Prop := 0 <= min_index s <= max_index s /\ max_index s <= q.

Lemma fill_safe pr S_ty : forall fuel (stack : list item) q ss n es ss' es',
  imin S_ty = 0 -> 0 <= q -> q + zlen stack <= imax S_ty -> zlen ss = n ->
  (forall x, In x stack -> 0 <= fst x < n) ->
  Forall (slot_safe q) ss ->
  fill pr S_ty fuel stack (wrap i32 q) ss es = Ok (ss', es') ->
  zlen ss' = n /\ Forall (slot_safe (q + zlen stack)) ss'.
Proof.
  assert (Hmono : forall q q' ss, q <= q' -> Forall (slot_safe q) ss -> Forall (slot_safe q') ss).
  { intros q q' ss Hq. apply Forall_impl. intros s (H1 & H2). split; lia. }
  induction fuel as [|fuel IH]; intros stack q ss n es ss' es' Hmin Hq Hcap Hss Hrange Hslots H.
  - destruct stack; [|discriminate]. cbn in H. injection H as <- <-. rewrite zlen_nil, Z.add_0_r. auto.
  - destruct stack as [|it stack].
    { cbn in H. injection H as <- <-. rewrite zlen_nil, Z.add_0_r. auto. }
    cbn [fill] in H. apply bind_ok in H. destruct H as ([[stack' num] es1] & Hc & H).
    apply bind_ok in H; destruct H as (lo & Hlo & H). apply bind_ok in H; destruct H as (lo' & Hlo' & H).
    apply bind_ok in H; destruct H as (cnt & Hcnt' & H). apply bind_ok in H; destruct H as (hi & Hhi & H).
    apply bind_ok in H; destruct H as (ss1 & Hst & H). apply bind_ok in H; destruct H as (ei' & Hei' & H).
    apply num_cast_some in Hlo, Hlo', Hcnt'. destruct Hlo as (-> & Hlo), Hlo' as (-> & _), Hcnt' as (-> & Hc0).
    rewrite Hmin in Hlo, Hc0.
    change 0 with (wrap i32 0) in Hc. apply collect_run_wrap in Hc; auto.
    destruct Hc as (run & Hsplit & -> & Hnum & _ & _ & Hne). rewrite Z.add_0_l in Hnum. subst num.
    pose proof (zlen_nonneg run). pose proof (zlen_nonneg stack').
    pose proof (wrap_i32_le q Hq). pose proof (wrap_i32_le (zlen run) ltac:(lia)).
    rewrite Hsplit in Hrange, Hcap |- *. rewrite zlen_app in *.
    rewrite arith_ok in Hhi by lia. injection Hhi as <-.
    apply arith_i32_wrap in Hei'. rewrite wrap_i32_add in Hei'. subst ei'.
    assert (Hit : 0 <= fst it < n).
    { destruct run as [|r run']; [congruence|]. cbn in Hsplit. injection Hsplit as <- _.
      apply Hrange. now left. }
    unfold store_slot in Hst. rewrite Hss in Hst. destruct (Z.ltb_spec (fst it) n); [|lia].
    injection Hst as <-.
    rewrite Z.add_assoc. refine (IH stack' (q + zlen run) _ n _ ss' es' Hmin _ _ _ _ _ H); try lia.
    + unfold zlen in *. now rewrite set_nth_length.
    + intros x Hx. apply Hrange. apply in_or_app. now right.
    + rewrite Forall_forall in Hslots. apply Forall_forall. intros s Hs.
      apply In_nth_error in Hs. destruct Hs as (i & Hs). rewrite nth_error_set_nth in Hs.
      destruct (Nat.eqb _ _).
      * destruct (nth_error ss i); [|discriminate]. injection Hs as <-. split; cbn [min_index max_index]; lia.
      * apply nth_error_In, Hslots in Hs. destruct Hs. split; lia.
Qed.

Lemma prepare_range (hash : K -> res Z) n (payload : list (K * V)) : forall items,
  1 <= n -> prepare hash n payload = Ok items ->
  zlen items = zlen payload /\ forall x, In x items -> 0 <= fst x < n.
Proof.
  intros items Hn. revert items. induction payload as [|e p IH]; cbn [prepare]; intros items H.
  - injection H as <-. split; [reflexivity|]. intros x [].
  - apply bind_ok in H. destruct H as (c & _ & H). destruct (n =? 0); [discriminate|].
    apply bind_ok in H. destruct H as (rest & Hr & H). injection H as <-.
    destruct (IH rest Hr) as (H1 & H2). rewrite !zlen_cons, H1. split; auto.
    intros x [<-|Hx]; auto. cbn [fst]. apply Z.mod_pos_bound. lia.
Qed.

Lemma ht_new_safe (E : env) S_ty (payload : list (K * V)) n (hash : K -> res Z) t :
  env_ok E -> imin S_ty = 0 -> (payload <> [] -> 1 <= n) ->
  ht_new E S_ty payload n hash = Ok t -> table_safe t.
Proof.
  intros HE Hmin Hn H. unfold ht_new in H.
  destruct payload as [|e0 p0] eqn:Hp.
  { injection H as <-. intros code. exists 0, 0. unfold ht_get_hash_info. cbn [num_slots slots].
    rewrite Z.mod_1_r. cbn. auto. }
  rewrite <- Hp in *. specialize (Hn ltac:(subst; discriminate)). clear Hp.
  apply bind_ok in H. destruct H as (cap & Hcap & H).
  assert (Hcap' : cap = imax S_ty /\ imax S_ty < 2 ^ 64).
  { destruct (to_usize (imax S_ty)) eqn:Ht; [|discriminate]. apply to_usize_some in Ht. cbn in Hcap.
    injection Hcap as <-. lia. }
  destruct Hcap' as (-> & H64).
  destruct (Z.ltb_spec (imax S_ty) (zlen payload)); [discriminate|].
  apply bind_ok in H. destruct H as (items & Hi & H). cbv zeta in H.
  destruct (prepare_range _ _ _ _ Hn Hi) as (Hlen & Hrange).
  destruct (HE item fst items) as (Hperm & _).
  set (sorted := usort E item fst items) in *.
  apply bind_ok in H. destruct H as ([ss es] & Hfill & H).
  pose proof (fill_perm _ _ _ _ _ _ _ _ _ Hfill) as Hes. cbn [app] in Hes.
  assert (Hl : zlen (rev sorted) = zlen payload).
  { rewrite zlen_rev, <- (zlen_perm _ _ Hperm). exact Hlen. }
  change 0 with (wrap i32 0) in Hfill.
  apply (fill_safe _ _ _ _ _ _ n) in Hfill; auto; try lia.
  - destruct Hfill as (Hss & Hok). destruct (Z.eqb_spec (zlen ss) 0); [discriminate|]. injection H as <-.
    intros code. unfold ht_get_hash_info. cbn [num_slots slots entries]. rewrite Hss.
    assert (Hidx : 0 <= code mod n < n) by (apply Z.mod_pos_bound; lia).
    destruct (nth_error ss (Z.to_nat (code mod n))) as [s|] eqn:Hs.
    2:{ apply nth_error_None in Hs. unfold zlen in Hss. lia. }
    rewrite Forall_forall in Hok. apply nth_error_In, Hok in Hs. destruct Hs as (Ha & Hb).
    exists (min_index s), (max_index s). rewrite !to_usize_ok by lia. cbn [unwrap bind]. split; auto.
    apply range_ok_iff. subst es. rewrite zlen_map. lia.
  - rewrite zlen_repeat. lia.
  - intros x Hx. apply Hrange. apply in_rev in Hx. now apply (Permutation_in _ (Permutation_sym Hperm)).
  - apply Forall_forall. intros s Hs. apply repeat_spec in Hs. subst s. split; cbn; lia.
Qed.

End Fill.

(** ** The same limits at the level of the specialized maps *)

Section Maps.
Context {K V Q BH : Type}.

Lemma from_vec_checked_limit_cm E S_ty (hash_key : BH -> K -> Z) (payload : list (K * V)) bh m :
  env_ok E -> prof E = Checked -> cm_from_vec hash_key E S_ty payload bh = Ok m -> zlen payload < 2 ^ 31.
Proof.
  intros HE Hp H. unfold cm_from_vec in H. apply bind_ok in H. destruct H as (a & _ & H).
  apply bind_ok in H. destruct H as (t & H & _). now apply ht_new_checked_limit in H.
Qed.
Lemma from_vec_checked_limit_im E S_ty (payload : list (Z * V)) m :
  env_ok E -> prof E = Checked -> im_from_vec E S_ty payload = Ok m -> zlen payload < 2 ^ 31.
Proof.
  intros HE Hp H. unfold im_from_vec in H. apply bind_ok in H. destruct H as (a & _ & H).
  apply bind_ok in H. destruct H as (t & H & _). now apply ht_new_checked_limit in H.
Qed.
Lemma from_vec_checked_limit_lm E S_ty (len : K -> Z) (payload : list (K * V)) m :
  env_ok E -> prof E = Checked -> lm_from_vec len E S_ty payload = Ok m -> zlen payload < 2 ^ 31.
Proof.
  intros HE Hp H. unfold lm_from_vec in H. apply bind_ok in H. destruct H as (a & _ & H).
  apply bind_ok in H. destruct H as (t & H & _). now apply ht_new_checked_limit in H.
Qed.
Lemma from_vec_checked_limit_lsm E S_ty (hw : BH -> list Z -> Z) (payload : list (list Z * V)) a b bh m :
  env_ok E -> prof E = Checked -> lsm_from_vec hw E S_ty payload a b bh = Ok m -> zlen payload < 2 ^ 31.
Proof.
  intros HE Hp H. unfold lsm_from_vec in H. apply bind_ok in H. destruct H as (c & _ & H).
  apply bind_ok in H. destruct H as (an & _ & H).
  apply bind_ok in H. destruct H as (t & H & _). now apply ht_new_checked_limit in H.
Qed.
Lemma from_vec_checked_limit_rsm E S_ty (hw : BH -> list Z -> Z) (payload : list (list Z * V)) a b bh m :
  env_ok E -> prof E = Checked -> rsm_from_vec hw E S_ty payload a b bh = Ok m -> zlen payload < 2 ^ 31.
Proof.
  intros HE Hp H. unfold rsm_from_vec in H. apply bind_ok in H. destruct H as (c & _ & H).
  apply bind_ok in H. destruct H as (an & _ & H).
  apply bind_ok in H. destruct H as (t & H & _). now apply ht_new_checked_limit in H.
Qed.

Lemma cm_from_vec_capacity_panic E S_ty (hash_key : BH -> K -> Z) (payload : list (K * V)) bh :
  0 <= imax S_ty < 2 ^ 64 -> imax S_ty < zlen payload ->
  cm_from_vec hash_key E S_ty payload bh = Panic PCapacity.
Proof.
  intros H1 H2. unfold cm_from_vec.
  destruct (analyze_hash_codes_pos (map (fun e => hash_key bh (fst e)) payload)) as (s & c & -> & _).
  cbn [bind]. now rewrite ht_new_capacity_panic.
Qed.
Lemma im_from_vec_capacity_panic E S_ty (payload : list (Z * V)) :
  0 <= imax S_ty < 2 ^ 64 -> imax S_ty < zlen payload ->
  im_from_vec E S_ty payload = Panic PCapacity.
Proof.
  intros H1 H2. unfold im_from_vec.
  destruct (analyze_hash_codes_pos (map (fun e => int_code (fst e)) payload)) as (s & c & -> & _).
  cbn [bind]. now rewrite ht_new_capacity_panic.
Qed.
Lemma lm_from_vec_capacity_panic E S_ty (len : K -> Z) (payload : list (K * V)) :
  0 <= imax S_ty < 2 ^ 64 -> imax S_ty < zlen payload ->
  lm_from_vec len E S_ty payload = Panic PCapacity.
Proof.
  intros H1 H2. unfold lm_from_vec.
  destruct (analyze_hash_codes_pos (map (fun e => len (fst e)) payload)) as (s & c & -> & _).
  cbn [bind]. now rewrite ht_new_capacity_panic.
Qed.

Lemma cm_from_vec_wide_panic E S_ty (hash_key : BH -> K -> Z) (payload : list (K * V)) bh :
  2 ^ 64 <= imax S_ty -> payload <> [] ->
  cm_from_vec hash_key E S_ty payload bh = Panic PUnwrapNone.
Proof.
  intros H1 H2. unfold cm_from_vec.
  destruct (analyze_hash_codes_pos (map (fun e => hash_key bh (fst e)) payload)) as (s & c & -> & _).
  cbn [bind]. now rewrite ht_new_wide_panic.
Qed.
Lemma im_from_vec_wide_panic E S_ty (payload : list (Z * V)) :
  2 ^ 64 <= imax S_ty -> payload <> [] ->
  im_from_vec E S_ty payload = Panic PUnwrapNone.
Proof.
  intros H1 H2. unfold im_from_vec.
  destruct (analyze_hash_codes_pos (map (fun e => int_code (fst e)) payload)) as (s & c & -> & _).
  cbn [bind]. now rewrite ht_new_wide_panic.
Qed.
Lemma lm_from_vec_wide_panic E S_ty (len : K -> Z) (payload : list (K * V)) :
  2 ^ 64 <= imax S_ty -> payload <> [] ->
  lm_from_vec len E S_ty payload = Panic PUnwrapNone.
Proof.
  intros H1 H2. unfold lm_from_vec.
  destruct (analyze_hash_codes_pos (map (fun e => len (fst e)) payload)) as (s & c & -> & _).
  cbn [bind]. now rewrite ht_new_wide_panic.
Qed.
End Maps.
