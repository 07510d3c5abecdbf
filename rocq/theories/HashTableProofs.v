(** Proofs about HashTable.v. *)
From Coq Require Import List ZArith Bool Lia Permutation Sorted.
From Verif Require Import Base BaseLemmas HashTable.
Import ListNotations.
Open Scope Z_scope.

Section Proofs.
Context {K V : Type}.
Implicit Types (t : hash_table K V) (e : K * V).
Notation item := (Z * (K * V))%type.

(** Every hash code designates an in-range block of entries which is exactly the set of
    entries hashing (by [h]) to the same residue. *)
Definition table_ok (h : K -> Z) t : Prop :=
  1 <= num_slots t /\
  forall code, exists a b,
    ht_get_hash_info t code = Ok (a, b) /\
    range_ok a b (entries t) = true /\
    sub a b (entries t) =
      filter (fun e => h (fst e) mod num_slots t =? code mod num_slots t) (entries t).

(** Every hash code designates an in-range block of entries. *)
Definition table_safe t : Prop :=
  forall code, exists a b,
    ht_get_hash_info t code = Ok (a, b) /\ range_ok a b (entries t) = true.

Lemma table_ok_safe h t : table_ok h t -> table_safe t.
Proof. intros (_ & H) code. destruct (H code) as (a & b & H1 & H2 & _). eauto. Qed.

Lemma prepare_ok (hash : K -> res Z) (h : K -> Z) n payload :
  n <> 0 ->
  (forall e, In e payload -> hash (fst e) = Ok (h (fst e))) ->
  prepare hash n payload = Ok (map (fun e => (h (fst e) mod n, e)) payload).
Proof.
  intros Hn. induction payload as [|e payload IH]; cbn; intros H; auto.
  rewrite (H e) by auto. cbn. destruct (Z.eqb_spec n 0); [lia|].
  rewrite IH by auto. reflexivity.
Qed.

Lemma collect_run_ok pr h (it : item) stack num es :
  fst it = h ->
  0 <= num -> num + zlen (it :: stack) < 2 ^ 31 ->
  exists run stack',
    it :: stack = run ++ stack' /\
    collect_run pr h it stack num es = Ok (stack', num + zlen run, es ++ map snd run) /\
    (forall x, In x run -> fst x = h) /\
    (stack' = [] \/ exists y s, stack' = y :: s /\ fst y <> h) /\ run <> [].
Proof.
  revert it num es. induction stack as [|it' stack IH]; intros it num es Hit Hnum Hlen.
  - exists [it], []. cbn. rewrite !zlen_cons, zlen_nil in *.
    rewrite arith_ok by (cbn; lia). cbn.
    repeat split; auto.
    + intros x [<-|[]]; auto.
    + discriminate.
  - cbn [collect_run]. rewrite !zlen_cons in Hlen. pose proof (zlen_nonneg stack).
    rewrite arith_ok by (cbn; lia). cbn [bind].
    destruct (Z.eqb_spec (fst it') h).
    + destruct (IH it' (num + 1) (es ++ [snd it])) as (run & stack' & H1 & H2 & H3 & H4 & H5);
        auto; try (rewrite ?zlen_cons; lia).
      exists (it :: run), stack'. cbn. rewrite H1, H2, zlen_cons, <- app_assoc. cbn.
      repeat split; auto.
      * f_equal. f_equal. f_equal. lia.
      * intros x [<-|Hx]; auto.
      * discriminate.
    + exists [it], (it' :: stack). cbn. rewrite zlen_cons, zlen_nil.
      repeat split; auto.
      * intros x [<-|[]]; auto.
      * right. eauto.
      * discriminate.
Qed.

Definition slot_ok (Q : list item) (i : Z) (s : slot) : Prop :=
  0 <= min_index s <= max_index s /\ max_index s <= zlen Q /\
  sub (min_index s) (max_index s) Q = filter (fun x => fst x =? i) Q.

Lemma fill_ok pr S_ty : forall fuel (stack : list item) Q ss n,
  imin S_ty = 0 ->
  zlen (Q ++ stack) <= imax S_ty ->
  zlen (Q ++ stack) < 2 ^ 31 ->
  (length stack <= fuel)%nat ->
  zlen ss = n ->
  StronglySorted (fun x y => fst y <= fst x) stack ->
  (forall x, In x stack -> 0 <= fst x < n) ->
  (forall x y, In x Q -> In y stack -> fst x <> fst y) ->
  (forall i s, nth_error ss i = Some s -> slot_ok Q (Z.of_nat i) s) ->
  exists ss',
    fill pr S_ty fuel stack (zlen Q) ss (map snd Q) = Ok (ss', map snd (Q ++ stack)) /\
    zlen ss' = n /\
    (forall i s, nth_error ss' i = Some s -> slot_ok (Q ++ stack) (Z.of_nat i) s).
Proof.
  induction fuel as [|fuel IH]; intros stack Q ss n Hmin Hcap Hi32 Hfuel Hss Hsort Hrange Hdisj Hslots.
  - destruct stack; [|cbn in Hfuel; lia]. cbn. rewrite app_nil_r.
    exists ss; auto.
  - destruct stack as [|it stack].
    { cbn. rewrite app_nil_r. exists ss; auto. }
    cbn [fill].
    pose proof (zlen_nonneg Q) as HQ0.
    rewrite zlen_app in Hcap, Hi32.
    destruct (collect_run_ok pr (fst it) it stack 0 (map snd Q)) as
      (run & stack' & Hsplit & Hrun & Hall & Hhd & Hne); auto; try lia.
    rewrite Hrun. cbn [bind].
    rewrite Hsplit in *. rewrite zlen_app in Hcap, Hi32.
    pose proof (zlen_nonneg run). pose proof (zlen_nonneg stack').
    rewrite !num_cast_ok by lia. cbn [unwrap bind].
    rewrite Z.add_0_l.
    rewrite arith_ok by lia. cbn [bind].
    assert (Hit : 0 <= fst it < n).
    { destruct run as [|r run']; [congruence|]. cbn in Hsplit. injection Hsplit as <- _.
      apply Hrange. now left. }
    unfold store_slot. rewrite Hss. destruct (Z.ltb_spec (fst it) n); [|lia].
    cbn [bind]. rewrite arith_ok by (cbn; lia). cbn [bind].
    set (ss1 := set_nth _ _ ss).
    apply StronglySorted_app_inv in Hsort. destruct Hsort as (Hs1 & Hs2 & Hs12).
    assert (Hlt : forall y, In y stack' -> fst y < fst it).
    { intros y Hy. destruct Hhd as [->|(y0 & s0 & -> & Hy0)]; [destruct Hy|].
      destruct run as [|r run']; [congruence|]. cbn in Hsplit. injection Hsplit as <- _.
      assert (fst y0 <= fst it) by (apply Hs12; now left).
      assert (fst y <= fst y0).
      { inversion Hs2 as [|? ? _ HF]; subst. destruct Hy as [<-|Hy]; [lia|].
        rewrite Forall_forall in HF. now apply HF. }
      lia. }
    destruct (IH stack' (Q ++ run) ss1 n) as (ss' & Hf & Hlen' & Hok'); auto.
    + rewrite !zlen_app. lia.
    + rewrite !zlen_app. lia.
    + rewrite app_length in Hfuel. destruct run; [congruence|]. cbn in Hfuel. lia.
    + unfold ss1, zlen in *. now rewrite set_nth_length.
    + intros x Hx. apply Hrange. apply in_or_app. now right.
    + intros x y Hx Hy. apply in_app_or in Hx. destruct Hx as [Hx|Hx].
      * apply Hdisj; auto. apply in_or_app. now right.
      * rewrite (Hall x Hx). specialize (Hlt y Hy). lia.
    + intros i s Hs. unfold ss1 in Hs. rewrite nth_error_set_nth in Hs.
      assert (Hfr : forall j, filter (fun x => fst x =? j) run = if fst it =? j then run else []).
      { intros j. destruct (Z.eqb_spec (fst it) j).
        - apply filter_all. intros x Hx. rewrite (Hall x Hx). lia.
        - apply filter_none. intros x Hx. rewrite (Hall x Hx). lia. }
      destruct (Nat.eqb_spec (Z.to_nat (fst it)) i).
      * destruct (nth_error ss i); [|discriminate]. injection Hs as <-.
        unfold slot_ok. cbn [min_index max_index]. rewrite zlen_app.
        split; [lia|]. split; [lia|].
        rewrite sub_app_r, filter_app, Hfr.
        destruct (Z.eqb_spec (fst it) (Z.of_nat i)); [|lia].
        rewrite filter_none; auto. intros x Hx.
        apply Z.eqb_neq. rewrite <- e0. apply Hdisj; auto.
        destruct run as [|r run']; [congruence|]. cbn in Hsplit. injection Hsplit as <- _. now left.
      * apply Hslots in Hs. destruct Hs as (Ha & Hb & Hc).
        unfold slot_ok. rewrite zlen_app. split; [lia|]. split; [lia|].
        rewrite sub_app_l by lia. rewrite Hc, filter_app, Hfr.
        destruct (Z.eqb_spec (fst it) (Z.of_nat i)); [lia|]. now rewrite app_nil_r.
    + exists ss'. rewrite zlen_app, map_app, <- app_assoc in Hf. rewrite <- app_assoc in Hok'.
      split; [exact Hf|]. auto.
Qed.

(** Construction succeeds and yields a correct table. *)
Lemma ht_new_ok (E : env) S_ty payload n (hash : K -> res Z) (h : K -> Z) :
  env_ok E -> imin S_ty = 0 ->
  1 <= n ->
  zlen payload <= imax S_ty -> imax S_ty < 2 ^ 64 -> zlen payload < 2 ^ 31 ->
  (forall e, In e payload -> hash (fst e) = Ok (h (fst e))) ->
  exists t, ht_new E S_ty payload n hash = Ok t /\
    Permutation payload (entries t) /\ table_ok h t /\ (payload <> [] -> num_slots t = n).
Proof.
  intros HE Hmin Hn Hcap Hcap64 Hi32 Hhash.
  destruct payload as [|e0 p0] eqn:Hp.
  { exists {| num_slots := 1; slots := [empty_slot]; entries := [] |}. cbn.
    repeat split; auto; try congruence. cbn. lia.
    intros code. exists 0, 0. unfold ht_get_hash_info. cbn [num_slots slots].
    rewrite Z.mod_1_r. cbn. auto. }
  rewrite <- Hp in *. assert (Hne : payload <> []) by (subst; discriminate).
  unfold ht_new. replace (match payload with [] => _ | _ => _ end) with
    (capacity <- unwrap (to_usize (imax S_ty)) ;;
      if capacity <? zlen payload then Panic PCapacity
      else
        prep_items <- prepare hash n payload ;;
        let sorted := usort E item fst prep_items in
        let ss0 := repeat empty_slot (Z.to_nat n) in
        filled <- fill (prof E) S_ty (length sorted) (rev sorted) 0 ss0 [] ;;
        let '(ss, es) := filled in
        if zlen ss =? 0 then Panic PUnwrapNone
        else Ok {| num_slots := zlen ss; slots := ss; entries := es |})
    by (subst payload; reflexivity).
  pose proof (zlen_nonneg payload).
  rewrite to_usize_ok by lia. cbn [unwrap bind].
  destruct (Z.ltb_spec (imax S_ty) (zlen payload)); [lia|].
  rewrite (prepare_ok hash h) by (auto; lia). cbn [bind]. cbv zeta.
  set (items := map (fun e => (h (fst e) mod n, e)) payload).
  destruct (HE item fst items) as (Hperm & Hsorted).
  set (sorted := usort E item fst items) in *.
  assert (Hlen : zlen (rev sorted) = zlen payload).
  { rewrite zlen_rev, <- (zlen_perm _ _ Hperm). unfold items. apply zlen_map. }
  assert (Hin : forall x, In x (rev sorted) -> exists e, In e payload /\ x = (h (fst e) mod n, e)).
  { intros x Hx. apply in_rev in Hx. apply (Permutation_in _ (Permutation_sym Hperm)) in Hx.
    unfold items in Hx. apply in_map_iff in Hx. destruct Hx as (e & <- & He). eauto. }
  destruct (fill_ok (prof E) S_ty (length sorted) (rev sorted) [] (repeat empty_slot (Z.to_nat n)) n)
    as (ss & Hfill & Hss & Hok); auto.
  - cbn. lia.
  - cbn. lia.
  - rewrite rev_length. lia.
  - rewrite zlen_repeat. lia.
  - apply StronglySorted_rev in Hsorted. exact Hsorted.
  - intros x Hx. destruct (Hin x Hx) as (e & _ & ->). cbn. apply Z.mod_pos_bound. lia.
  - intros i s Hs. apply nth_error_In, repeat_spec in Hs. subst s.
    unfold slot_ok, zlen. cbn. repeat split; lia.
  - cbn in Hfill. change (zlen []) with 0 in Hfill. rewrite Hfill. cbn [bind].
    rewrite Hss. destruct (Z.eqb_spec n 0); [lia|].
    eexists. split; [reflexivity|]. cbn [entries num_slots].
    split; [|split]; auto.
    + rewrite map_rev. rewrite <- Permutation_rev.
      rewrite <- (Permutation_map snd Hperm). unfold items. rewrite map_map. cbn.
      now rewrite map_id.
    + split; cbn [num_slots entries]; [lia|]. intros code.
      assert (Hidx : 0 <= code mod n < n) by (apply Z.mod_pos_bound; lia).
      destruct (nth_error ss (Z.to_nat (code mod n))) as [s|] eqn:Hs.
      2:{ apply nth_error_None in Hs. unfold zlen in Hss. lia. }
      destruct (Hok _ _ Hs) as (Ha & Hb & Hc). cbn [app] in *.
      exists (min_index s), (max_index s).
      unfold ht_get_hash_info. cbn [num_slots slots]. rewrite Hs.
      rewrite !to_usize_ok by lia. cbn. split; auto. split.
      * apply range_ok_iff. rewrite zlen_map. lia.
      * rewrite sub_map, Hc, filter_map_comm. f_equal. apply filter_ext_in. intros x Hx.
        destruct (Hin x Hx) as (e & _ & ->). cbn.
        f_equal. lia.
Qed.

(** ** Lookups *)

Lemma block_find_pos (q p : K * V -> bool) a b es :
  range_ok a b es = true -> sub a b es = filter q es ->
  (forall e, In e es -> p e = true -> q e = true) ->
  option_map (fun i => (Z.to_nat a + i)%nat) (find_pos p (sub a b es)) = find_pos p es /\
  find p (sub a b es) = find p es.
Proof.
  intros Hr Hs Hpq. apply range_ok_iff in Hr. destruct Hr as (Ha & Hb).
  destruct (sub_split a b es Ha Hb) as (pre & post & Hes & Hpre & Hlen).
  set (seg := sub a b es) in *.
  assert (Hseg : filter q seg = seg).
  { apply filter_all. rewrite Hs. intros x Hx. now apply filter_In in Hx. }
  assert (Hl : filter q es = filter q pre ++ seg ++ filter q post).
  { rewrite Hes, !filter_app, Hseg. reflexivity. }
  rewrite <- Hs in Hl. fold seg in Hl.
  apply (f_equal (@length _)) in Hl. rewrite !app_length in Hl.
  assert (Hp0 : filter q pre = []) by (apply length_zero_iff_nil; lia).
  assert (Hp1 : filter q post = []) by (apply length_zero_iff_nil; lia).
  rewrite filter_nil_iff in Hp0, Hp1.
  assert (Hnone : forall l, (forall x, In x l -> In x es) -> (forall x, In x l -> q x = false) ->
     forall x, In x l -> p x = false).
  { intros l Hl1 Hl2 x Hx. destruct (p x) eqn:E; auto.
    assert (q x = true) by auto. rewrite Hl2 in *; auto. }
  assert (Hpre0 : forall x, In x pre -> p x = false).
  { apply Hnone; auto. intros x Hx. rewrite Hes. apply in_or_app. auto. }
  assert (Hpost0 : forall x, In x post -> p x = false).
  { apply Hnone; auto. intros x Hx. rewrite Hes. apply in_or_app. right. apply in_or_app. auto. }
  split.
  - rewrite Hes, !find_pos_app. rewrite (proj2 (find_pos_none p pre)) by auto.
    rewrite (proj2 (find_pos_none p post)) by auto. cbn.
    replace (Z.to_nat a) with (length pre) by (unfold zlen in Hpre; lia).
    now destruct (find_pos p seg).
  - rewrite Hes, !find_app. rewrite (proj2 (find_none_iff p pre)) by auto.
    rewrite (proj2 (find_none_iff p post)) by auto. now destruct (find p seg).
Qed.

(** A probe finds the first matching entry of the whole table, provided matching
    entries have the hash code that is looked up. *)
Lemma probe_ok h t code (matches : K -> bool) :
  table_ok h t ->
  (forall e, In e (entries t) -> matches (fst e) = true -> h (fst e) = code) ->
  (range <- ht_get_hash_info t code ;; ht_probe t range matches) =
    Ok (find_pos (fun e => matches (fst e)) (entries t)) /\
  (range <- ht_get_hash_info t code ;; ht_probe_entry t range matches) =
    Ok (find (fun e => matches (fst e)) (entries t)).
Proof.
  intros (_ & Hok) Hm. destruct (Hok code) as (a & b & Hi & Hr & Hs).
  rewrite Hi. cbn [bind]. unfold ht_probe, ht_probe_entry, slice_unchecked. cbn [fst snd].
  rewrite Hr. cbn [bind].
  destruct (block_find_pos _ (fun e => matches (fst e)) _ _ _ Hr Hs) as (H1 & H2).
  - intros e He Hp. rewrite (Hm e He Hp). apply Z.eqb_refl.
  - now rewrite H1, H2.
Qed.

Lemma deref_find_pos (p : K * V -> bool) (es : list (K * V)) :
  deref es (find_pos p es) = Ok (option_map snd (find p es)).
Proof.
  rewrite find_find_pos. destruct (find_pos p es) eqn:E; cbn; auto.
  apply find_pos_some in E. destruct E as (x & -> & _). reflexivity.
Qed.

End Proofs.
