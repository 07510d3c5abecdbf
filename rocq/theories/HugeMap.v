(** A map of 2^32 entries whose keys all hash alike: with overflow checks off the i32
    counters of the hash table builder wrap around to zero and the map comes out empty. *)
From Coq Require Import List ZArith Bool Arith Lia Permutation.
From Verif Require Import Spec MapSpec Base BaseLemmas HashCodeAnalyzer HashCodeAnalyzerProofs HashTable
  HashTableProofs CapacityProofs Maps FrozenMap.
Import ListNotations.
Open Scope Z_scope.

Lemma set_nth_repeat {A} (x : A) n : forall i, set_nth i x (repeat x n) = repeat x n.
Proof. induction n as [|n IH]; intros [|i]; cbn; auto. now rewrite IH. Qed.

Section Collide.
Context {K V : Type}.
Notation item := (Z * (K * V))%type.

Lemma collect_run_total h : forall (stack : list item) it num es,
  (forall x, In x stack -> fst x = h) ->
  exists num', collect_run Wrapping h it stack num es = Ok ([], num', es ++ map snd (it :: stack)).
Proof.
  induction stack as [|it' stack IH]; intros it num es Hall; cbn [collect_run].
  - unfold arith. destruct (in_type i32 (num + 1)); cbn [bind]; eexists; reflexivity.
  - assert (H : exists z, arith Wrapping i32 (num + 1) = Ok z).
    { unfold arith. destruct (in_type i32 (num + 1)); eauto. }
    destruct H as (z & ->). cbn [bind]. rewrite (Hall it') by now left. rewrite Z.eqb_refl.
    destruct (IH it' z (es ++ [snd it])) as (num' & ->); [intros x Hx; apply Hall; now right|].
    exists num'. rewrite <- app_assoc. reflexivity.
Qed.

Lemma ht_new_empty E (payload : list (K * V)) n (c : Z) :
  env_ok E -> prof E = Wrapping -> zlen payload = 2 ^ 32 -> 0 < n ->
  exists t, ht_new E usize payload n (fun _ => Ok c) = Ok t /\
    num_slots t = n /\ slots t = repeat empty_slot (Z.to_nat n) /\ Permutation payload (entries t).
Proof.
  intros HE Hp Hlen Hn. unfold ht_new. destruct payload as [|e p] eqn:Hpl; [discriminate|].
  rewrite <- Hpl in *. clear Hpl e p.
  change (to_usize (imax usize)) with (Some (2 ^ 64 - 1)). cbn [unwrap bind].
  destruct (Z.ltb_spec (2 ^ 64 - 1) (zlen payload)); [lia|].
  rewrite (prepare_ok _ (fun _ => c)) by (auto; lia). cbn [bind].
  set (items := map (fun e => (c mod n, e)) payload).
  destruct (HE _ fst items) as (HP & _).
  set (sorted := usort E _ fst items) in *. set (stack := rev sorted).
  assert (Hfst : forall x, In x stack -> fst x = c mod n).
  { intros x Hx. unfold stack in Hx. rewrite <- in_rev in Hx.
    apply (Permutation_in _ (Permutation_sym HP)) in Hx. unfold items in Hx.
    apply in_map_iff in Hx. destruct Hx as (? & <- & _). reflexivity. }
  assert (Hsnd : Permutation payload (map snd stack)).
  { unfold stack. rewrite map_rev. rewrite <- Permutation_rev.
    rewrite <- (Permutation_map snd HP). unfold items. rewrite map_map. cbn [snd]. now rewrite map_id. }
  assert (Hsl : zlen stack = 2 ^ 32).
  { apply zlen_perm in Hsnd. rewrite zlen_map in Hsnd. lia. }
  assert (Hfuel : exists f, length sorted = S f).
  { destruct (length sorted) as [|f] eqn:El; [|eauto]. exfalso.
    assert (length stack = 0%nat) by (unfold stack; now rewrite rev_length). unfold zlen in Hsl. lia. }
  destruct Hfuel as (f & ->). clearbody stack. clear sorted HP items.
  destruct stack as [|it stack]; [discriminate|].
  cbn [fill]. rewrite Hp. set (h := fst it) in *.
  assert (Hh : h = c mod n) by (apply Hfst; now left).
  destruct (collect_run_total h stack it 0 []) as (num & Hr).
  { intros x Hx. rewrite Hh. apply Hfst. now right. }
  rewrite Hr. cbn [bind].
  change 0 with (wrap i32 0) in Hr. apply collect_run_wrap in Hr; auto.
  destruct Hr as (run & Hrun & _ & Hnum & _). rewrite app_nil_r in Hrun. subst run.
  rewrite Hsl in Hnum. change (wrap i32 (0 + 2 ^ 32)) with 0 in Hnum. subst num.
  cbn [num_cast in_type unwrap bind]. change (num_cast usize 0) with (Some 0). cbn [unwrap bind].
  change (arith Wrapping usize (0 + 0)) with (@Ok Z 0). cbn [bind].
  assert (Hrep : zlen (repeat empty_slot (Z.to_nat n)) = n) by (unfold zlen; rewrite repeat_length; lia).
  unfold store_slot. rewrite Hrep. pose proof (Z.mod_pos_bound c n Hn).
  destruct (Z.ltb_spec h n); [|lia]. cbn [bind].
  change {| min_index := 0; max_index := 0 |} with empty_slot. rewrite set_nth_repeat.
  change (arith Wrapping i32 (0 + 0)) with (@Ok Z 0). cbn [bind].
  assert (Hnil : fill Wrapping usize f (@nil item) 0 (repeat empty_slot (Z.to_nat n)) ([] ++ map snd (it :: stack))
     = Ok (repeat empty_slot (Z.to_nat n), map snd (it :: stack))) by (destruct f; reflexivity).
  rewrite Hnil. cbn [bind]. rewrite Hrep. destruct (Z.eqb_spec n 0); [lia|].
  eexists. split; [reflexivity|]. cbn [num_slots slots entries]. auto.
Qed.

Lemma empty_slots_probe (t : hash_table K V) n code matches :
  0 < n -> num_slots t = n -> slots t = repeat empty_slot (Z.to_nat n) ->
  (range <- ht_get_hash_info t code ;; ht_probe t range matches) = Ok None.
Proof.
  intros Hn H1 H2. unfold ht_get_hash_info. rewrite H1, H2.
  pose proof (Z.mod_pos_bound code n Hn).
  rewrite (nth_error_nth' _ empty_slot) by (rewrite repeat_length; lia). rewrite nth_repeat.
  cbn [min_index max_index empty_slot]. change (to_usize 0) with (Some 0). cbn [unwrap bind].
  unfold ht_probe, slice_unchecked. cbn [fst snd].
  assert (Hr : range_ok 0 0 (entries t) = true).
  { unfold range_ok. pose proof (zlen_nonneg (entries t)). lia. }
  rewrite Hr. reflexivity.
Qed.
End Collide.

(** [n] entries with ordinary keys 0, 1, 2, ... *)
Definition numbered (n : nat) : list (key Z * Z) := map (fun i => (KOther (Z.of_nat i), 7)) (seq 0 n).

(** A hasher under which all keys collide: slow, but lawful. *)
Definition constant_hasher : hasher Z :=
  {| hash_one := fun _ => 0; hash_one_slice := fun _ => 0; hash_write := fun _ => 0 |}.

Lemma numbered_distinct n : forall a,
  distinct (key_eqb Z.eqb) (map fst (map (fun i => (@KOther Z (Z.of_nat i), 7)) (seq a n))).
Proof.
  induction n as [|n IH]; intros a; cbn [seq map distinct]; auto. split; [|apply IH].
  intros k' Hk'. rewrite map_map in Hk'. apply in_map_iff in Hk'. destruct Hk' as (i & <- & Hi).
  apply in_seq in Hi. cbn. lia.
Qed.

Lemma huge_map_loses_entries_refuted :
  exists (payload : list (key Z * Z)) (bh : hasher Z),
    zlen payload = 2 ^ 32 /\ typed KindOther payload /\ distinct (key_eqb Z.eqb) (map fst payload) /\
    lawful_hash Z.eqb bh /\
    forall E, env_ok E -> prof E = Wrapping ->
    exists m, fm_new E KindOther payload bh = Ok m /\ fm_len m = 2 ^ 32 /\
      forall k, has_kind KindOther k -> fm_get Z.eqb E m k = Ok None.
Proof.
  assert (Hex : exists n : nat, Z.of_nat n = 2 ^ 32).
  { exists (Z.to_nat (2 ^ 32)). apply Z2Nat.id. lia. }
  destruct Hex as (n & Hn). exists (numbered n), constant_hasher.
  assert (Hlen : zlen (numbered n) = 2 ^ 32).
  { unfold numbered, zlen. rewrite map_length, seq_length. exact Hn. }
  split; auto. split; [|split; [|split]].
  - intros e He. apply in_map_iff in He. destruct He as (i & <- & _). exact I.
  - apply numbered_distinct.
  - intros a b _. reflexivity.
  - intros E HE Hp. unfold fm_new, fm_new_common_map. rewrite Hlen.
    change (2 ^ 32 <? 4) with false. change (2 ^ 32 <=? imax u8) with false. cbv iota.
    unfold cm_from_vec. cbn [hash_one constant_hasher].
    destruct (analyze_hash_codes_pos (map (fun _ => 0) (numbered n))) as (s & c & -> & Hs).
    cbn [bind fst].
    assert (Hs0 : 0 < s).
    { enough (1 <= s) by lia. apply Hs. intros H. apply (f_equal zlen) in H. rewrite zlen_map, Hlen in H. discriminate. }
    destruct (ht_new_empty E (numbered n) s 0 HE Hp Hlen Hs0) as (t & -> & H1 & H2 & H3).
    cbn [bind]. eexists. split; [reflexivity|]. split.
    + cbn [fm_len cm_table]. unfold ht_len. rewrite <- (zlen_perm _ _ H3). exact Hlen.
    + intros k _. cbn [fm_get]. unfold cm_get, cm_get_at, cm_get_hash_info. cbn [cm_table cm_bh].
      rewrite (empty_slots_probe t s) by auto. reflexivity.
Qed.
