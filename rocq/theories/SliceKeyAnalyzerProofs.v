(** Proofs about SliceKeyAnalyzer.v. *)
From Coq Require Import List ZArith Bool Lia Permutation.
From Verif Require Import Spec Base BaseLemmas HashCodeAnalyzerProofs IntProofs SliceKeyAnalyzer.
Import ListNotations.
Open Scope Z_scope.

(** Number of elements of a list that repeat an earlier one. *)
Definition repeats (codes : list Z) : Z := zlen codes - zlen (nodup Z.eq_dec codes).

Section Proofs.
Context {T : Type}.
Implicit Types (s : list T) (keys : list (list T)).

(** ** Lengths *)

(** Number of keys of length [L]. *)
Definition count_len (L : Z) keys : Z := zlen (filter (fun s => zlen s =? L) keys).

Lemma count_len_cons L s keys :
  count_len L (s :: keys) = count_len L keys + (if zlen s =? L then 1 else 0).
Proof.
  unfold count_len. cbn [filter]. destruct (zlen s =? L); rewrite ?zlen_cons; lia.
Qed.

Lemma count_len_nonneg L keys : 0 <= count_len L keys.
Proof. apply zlen_nonneg. Qed.

Lemma count_lengths_spec keys : forall seen lengths,
  (forall L, count_len L seen <= 3) ->
  (forall L, assoc_get L lengths = if count_len L seen =? 0 then None else Some (count_len L seen)) ->
  (count_lengths keys lengths = SliceLength /\
     forall L, count_len L seen + count_len L keys <= 3) \/
  (count_lengths keys lengths = SliceNormal /\
     exists L, 3 < count_len L seen + count_len L keys).
Proof.
  induction keys as [|s keys IH]; intros seen lengths H3 Hinv; cbn [count_lengths].
  - left. split; auto. intros L. change (count_len L []) with 0. specialize (H3 L). lia.
  - rewrite (Hinv (zlen s)).
    pose proof (count_len_nonneg (zlen s) seen) as Hnn. pose proof (H3 (zlen s)) as H3s.
    destruct (Z.eqb_spec (count_len (zlen s) seen) 3) as [E3|E3].
    + rewrite E3. cbn. right. split; auto. exists (zlen s). rewrite count_len_cons, Z.eqb_refl.
      pose proof (count_len_nonneg (zlen s) keys). lia.
    + assert (Hstep : forall c, c = count_len (zlen s) seen + 1 ->
        forall L, assoc_get L ((zlen s, c) :: lengths) =
          if count_len L (s :: seen) =? 0 then None else Some (count_len L (s :: seen))).
      { intros c -> L. cbn [assoc_get]. rewrite count_len_cons.
        destruct (Z.eqb_spec L (zlen s)) as [->|].
        - rewrite Z.eqb_refl. destruct (Z.eqb_spec (count_len (zlen s) seen + 1) 0); [lia|auto].
        - destruct (Z.eqb_spec (zlen s) L); [lia|]. rewrite Z.add_0_r. apply Hinv. }
      assert (H3' : forall L, count_len L (s :: seen) <= 3).
      { intros L. rewrite count_len_cons. destruct (Z.eqb_spec (zlen s) L) as [<-|].
        - lia. - specialize (H3 L). lia. }
      assert (Hfin : forall lengths', (forall L, assoc_get L lengths' =
            if count_len L (s :: seen) =? 0 then None else Some (count_len L (s :: seen))) ->
         (count_lengths keys lengths' = SliceLength /\
            forall L, count_len L seen + count_len L (s :: keys) <= 3) \/
         (count_lengths keys lengths' = SliceNormal /\
            exists L, 3 < count_len L seen + count_len L (s :: keys))).
      { intros lengths' Hl. destruct (IH (s :: seen) lengths' H3' Hl) as [(H & H')|(H & L & H')].
        - left. split; auto. intros L. specialize (H' L). rewrite count_len_cons in *. lia.
        - right. split; auto. exists L. rewrite count_len_cons in *. lia. }
      destruct (Z.eqb_spec (count_len (zlen s) seen) 0) as [E0|E0].
      * apply Hfin. apply Hstep. lia.
      * destruct (Z.eqb_spec (count_len (zlen s) seen) 3); [lia|]. apply Hfin. apply Hstep. lia.
Qed.

Lemma analyze_lengths_spec keys :
  (analyze_lengths keys = SliceLength /\ zlen keys <= 255 /\ forall L, count_len L keys <= 3) \/
  (analyze_lengths keys = SliceNormal /\ (255 < zlen keys \/ exists L, 3 < count_len L keys)).
Proof.
  unfold analyze_lengths. destruct (Z.ltb_spec 255 (zlen keys)); [right; auto|].
  destruct (count_lengths_spec keys [] []) as [(H1 & H2)|(H1 & H2)].
  - intros L. change (count_len L []) with 0. lia.
  - reflexivity.
  - left. auto.
  - right. auto.
Qed.

(** ** Windows *)

Variable hash_slice : list T -> Z.

Definition left_window (i l : Z) s : list T := sub i (i + l) s.
Definition right_window (i l : Z) s : list T := sub (zlen s - i - 1) (zlen s - i - 1 + l) s.

Definition window_repeats (w : list T -> list T) keys : Z :=
  repeats (map (fun s => hash_slice (w s)) keys).

Lemma uniqueness_loop_spec lj i l w keys : forall set acc,
  0 <= acc ->
  (forall s, In s keys -> take_subslice lj i l s = Ok (w s)) ->
  uniqueness_loop hash_slice lj i l keys set acc =
    Ok (zlen keys - zlen (nodup Z.eq_dec (fresh set (map (fun s => hash_slice (w s)) keys))) <=? acc).
Proof.
  induction keys as [|s keys IH]; intros set acc Hacc Hw; cbn [uniqueness_loop].
  - cbn. f_equal. symmetry. apply Z.leb_le. unfold zlen. cbn. lia.
  - rewrite (Hw s) by now left. cbn [bind map]. rewrite zlen_cons.
    set (c := hash_slice (w s)). set (cs := map _ keys).
    assert (Hle : zlen (nodup Z.eq_dec (fresh set cs)) <= zlen keys).
    { pose proof (fresh_nodup_le set cs) as L. unfold cs in L at 2. now rewrite zlen_map in L. }
    unfold fresh at 1. cbn [filter]. fold (fresh set cs).
    destruct (existsb (Z.eqb c) set); cbn [negb].
    + destruct (Z.eqb_spec acc 0).
      * f_equal. symmetry. apply Z.leb_gt. lia.
      * rewrite IH by (auto; try lia; intros; apply Hw; now right). fold cs. f_equal.
        apply Bool.eq_iff_eq_true. rewrite !Z.leb_le. lia.
    + rewrite IH by (auto; intros; apply Hw; now right). fold cs.
      rewrite nodup_cons_len, fresh_cons_used. f_equal.
      apply Bool.eq_iff_eq_true. rewrite !Z.leb_le. lia.
Qed.

Lemma is_sufficiently_unique_spec lj i l w keys acc :
  0 <= acc ->
  (forall s, In s keys -> take_subslice lj i l s = Ok (w s)) ->
  is_sufficiently_unique hash_slice keys i l lj acc = Ok (window_repeats w keys <=? acc).
Proof.
  intros H1 H2. unfold is_sufficiently_unique. rewrite (uniqueness_loop_spec _ _ _ w) by auto.
  rewrite fresh_nil. unfold window_repeats, repeats. now rewrite zlen_map.
Qed.

Lemma take_left i l s : 0 <= i -> 0 <= l -> i + l <= zlen s ->
  take_subslice true i l s = Ok (left_window i l s).
Proof.
  intros. unfold take_subslice, slice_checked. rewrite (proj2 (range_ok_iff _ _ _)) by lia.
  reflexivity.
Qed.

Lemma take_right1 i s : 0 <= i < zlen s ->
  take_subslice false i 1 s = Ok (right_window i 1 s).
Proof.
  intros. unfold take_subslice, slice_checked. destruct (Z.ltb_spec (zlen s - i - 1) 0); [lia|].
  rewrite (proj2 (range_ok_iff _ _ _)) by lia. reflexivity.
Qed.

Lemma take_right2 l s : 2 <= l -> 0 < zlen s ->
  take_subslice false 0 l s = Panic PIndexOutOfBounds.
Proof.
  intros. unfold take_subslice, slice_checked. destruct (Z.ltb_spec (zlen s - 0 - 1) 0); [lia|].
  destruct (range_ok _ _ s) eqn:E; auto. apply range_ok_iff in E. lia.
Qed.

(** ** The search loops *)

Lemma find_index_spec keys l lj acc (suff : Z -> bool) : forall remaining i,
  (forall j, i <= j < i + Z.of_nat remaining ->
     is_sufficiently_unique hash_slice keys j l lj acc = Ok (suff j)) ->
  exists r, find_index hash_slice keys l lj acc remaining i = Ok r /\
    match r with
    | Some j => i <= j < i + Z.of_nat remaining /\ suff j = true /\
                forall j', i <= j' < j -> suff j' = false
    | None => forall j, i <= j < i + Z.of_nat remaining -> suff j = false
    end.
Proof.
  induction remaining as [|n IH]; intros i H; cbn [find_index].
  - exists None. split; auto. intros; lia.
  - rewrite (H i) by lia. cbn [bind]. destruct (suff i) eqn:E.
    + exists (Some i). split; auto. split; [lia|]. split; auto. intros; lia.
    + destruct (IH (i + 1)) as (r & Hr & Hs). { intros; apply H; lia. }
      exists r. split; auto. destruct r as [j|].
      * destruct Hs as (H1 & H2 & H3). split; [lia|]. split; auto. intros j' Hj'.
        destruct (Z.eq_dec j' i) as [->|]; auto. apply H3; lia.
      * intros j Hj. destruct (Z.eq_dec j i) as [->|]; auto. apply Hs; lia.
Qed.

Definition left_suff keys acc l i : bool := window_repeats (left_window i l) keys <=? acc.
Definition right_suff keys acc l i : bool := window_repeats (right_window i l) keys <=? acc.

Lemma find_index_left keys l acc mn :
  0 <= acc -> 1 <= l <= mn -> (forall s, In s keys -> mn <= zlen s) ->
  exists r, find_index hash_slice keys l true acc (Z.to_nat (mn - l + 1)) 0 = Ok r /\
    match r with
    | Some j => 0 <= j <= mn - l /\ left_suff keys acc l j = true /\
                forall j', 0 <= j' < j -> left_suff keys acc l j' = false
    | None => forall j, 0 <= j <= mn - l -> left_suff keys acc l j = false
    end.
Proof.
  intros Hacc Hl Hmn.
  destruct (find_index_spec keys l true acc (left_suff keys acc l) (Z.to_nat (mn - l + 1)) 0)
    as (r & Hr & Hs).
  { intros j Hj. apply is_sufficiently_unique_spec; auto. intros s Hsi. specialize (Hmn s Hsi).
    apply take_left; lia. }
  exists r. split; auto. destruct r.
  - destruct Hs as (H1 & H2). split; [lia|]. auto.
  - intros j Hj. apply Hs. lia.
Qed.

Lemma find_index_right1 keys acc mn :
  0 <= acc -> 1 <= mn -> (forall s, In s keys -> mn <= zlen s) ->
  exists r, find_index hash_slice keys 1 false acc (Z.to_nat (mn - 1 + 1)) 0 = Ok r /\
    match r with
    | Some j => 0 <= j <= mn - 1 /\ right_suff keys acc 1 j = true /\
                forall j', 0 <= j' < j -> right_suff keys acc 1 j' = false
    | None => forall j, 0 <= j <= mn - 1 -> right_suff keys acc 1 j = false
    end.
Proof.
  intros Hacc Hl Hmn.
  destruct (find_index_spec keys 1 false acc (right_suff keys acc 1) (Z.to_nat (mn - 1 + 1)) 0)
    as (r & Hr & Hs).
  { intros j Hj. apply is_sufficiently_unique_spec; auto. intros s Hsi. specialize (Hmn s Hsi).
    apply take_right1; lia. }
  exists r. split; auto. destruct r.
  - destruct Hs as (H1 & H2). split; [lia|]. auto.
  - intros j Hj. apply Hs. lia.
Qed.

Lemma find_index_right2 keys l acc mn :
  keys <> [] -> 2 <= l <= mn -> (forall s, In s keys -> mn <= zlen s) ->
  find_index hash_slice keys l false acc (Z.to_nat (mn - l + 1)) 0 = Panic PIndexOutOfBounds.
Proof.
  intros Hne Hl Hmn. destruct (Z.to_nat (mn - l + 1)) eqn:E; [lia|]. cbn [find_index].
  destruct keys as [|s keys]; [congruence|]. unfold is_sufficiently_unique. cbn [uniqueness_loop].
  rewrite take_right2; [reflexivity|lia|]. specialize (Hmn s ltac:(now left)). lia.
Qed.

(** Keys of equal length: the shortest and then leftmost good window. *)
Lemma find_subslice_equal keys acc L : forall remaining l,
  0 <= acc -> 1 <= l -> l + Z.of_nat remaining = Z.min L 16 + 1 ->
  (forall s, In s keys -> L <= zlen s) ->
  exists r, find_subslice hash_slice keys L L acc remaining l = Ok r /\
    match r with
    | SliceNormal =>
        forall l' j, l <= l' <= Z.min L 16 -> l' < L -> 0 <= j <= L - l' -> left_suff keys acc l' j = false
    | LeftHandSubslice j l' =>
        l <= l' <= Z.min L 16 /\ l' < L /\ 0 <= j <= L - l' /\ left_suff keys acc l' j = true /\
        (forall j', 0 <= j' < j -> left_suff keys acc l' j' = false) /\
        (forall l'' j', l <= l'' < l' -> 0 <= j' <= L - l'' -> left_suff keys acc l'' j' = false)
    | _ => False
    end.
Proof.
  induction remaining as [|n IH]; intros l Hacc Hl Hrem Hk; cbn [find_subslice].
  - exists SliceNormal. split; auto. intros; lia.
  - cbv zeta. destruct (find_index_left keys l acc L) as (r & Hr & Hs); auto; try lia.
    rewrite Hr. cbn [bind]. destruct r as [j|].
    + destruct Hs as (H1 & H2 & H3). eexists. split; [reflexivity|].
      destruct (Z.eqb_spec l L).
      * intros; lia.
      * repeat split; auto; try lia.
    + rewrite Z.eqb_refl. cbn [bind].
      destruct (IH (l + 1)) as (r & Hr' & Hs'); auto; try lia.
      exists r. split; auto. destruct r as [|j l'|j l'|]; auto.
      * intros l' j Hl' Hlt Hj. destruct (Z.eq_dec l' l) as [->|]; auto. apply Hs'; lia.
      * destruct Hs' as (H1 & H2 & H3 & H4 & H5 & H6). repeat split; auto; try lia.
        intros l'' j' Hl'' Hj'. destruct (Z.eq_dec l'' l) as [->|]; auto. apply H6; lia.
Qed.

Definition is_first (p : Z -> bool) (bound i : Z) : Prop :=
  0 <= i <= bound /\ p i = true /\ forall j, 0 <= j < i -> p j = false.
Definition none_upto (p : Z -> bool) (bound : Z) : Prop := forall j, 0 <= j <= bound -> p j = false.

(** Keys of different lengths. *)
Lemma find_subslice_mixed keys acc mn mx :
  keys <> [] -> 0 <= acc -> 0 <= mn < mx -> (forall s, In s keys -> mn <= zlen s) ->
  let r := find_subslice hash_slice keys mn mx acc (Z.to_nat (Z.min mn 16)) 1 in
  (exists i, r = Ok (LeftHandSubslice i 1) /\ is_first (left_suff keys acc 1) (mn - 1) i) \/
  (none_upto (left_suff keys acc 1) (mn - 1) /\
   ((exists i, r = Ok (RightHandSubslice i 1) /\ is_first (right_suff keys acc 1) (mn - 1) i) \/
    (none_upto (right_suff keys acc 1) (mn - 1) /\
     ((mn <= 1 /\ r = Ok SliceNormal) \/
      (2 <= mn /\
       ((exists i, r = Ok (LeftHandSubslice i 2) /\ is_first (left_suff keys acc 2) (mn - 2) i) \/
        (none_upto (left_suff keys acc 2) (mn - 2) /\ r = Panic PIndexOutOfBounds))))))).
Proof.
  intros Hne Hacc Hmn Hk r.
  destruct (Z.eq_dec mn 0) as [->|Hmn0].
  { right. split; [intros j Hj; lia|]. right. split; [intros j Hj; lia|]. left. split; [lia|]. reflexivity. }
  unfold r. destruct (Z.to_nat (Z.min mn 16)) as [|n1] eqn:E1; [lia|]. cbn [find_subslice]. cbv zeta.
  destruct (find_index_left keys 1 acc mn) as (r1 & Hr1 & Hs1); auto; try lia.
  rewrite Hr1. cbn [bind]. destruct r1 as [j|].
  { left. exists j. destruct (Z.eqb_spec 1 mx); [lia|]. split; auto. }
  right. split; [exact Hs1|].
  destruct (Z.eqb_spec mn mx); [lia|].
  destruct (find_index_right1 keys acc mn) as (r2 & Hr2 & Hs2); auto; try lia.
  rewrite Hr2. cbn [bind]. destruct r2 as [j|].
  { left. exists j. split; auto. }
  right. split; [exact Hs2|].
  destruct (Z.le_gt_cases mn 1).
  { left. split; auto. destruct n1; [reflexivity|lia]. }
  right. split; [lia|]. destruct n1 as [|n2]; [lia|]. cbn [find_subslice]. cbv zeta.
  change (1 + 1) with 2.
  destruct (find_index_left keys 2 acc mn) as (r3 & Hr3 & Hs3); auto; try lia.
  rewrite Hr3. cbn [bind]. destruct r3 as [j|].
  { left. exists j. destruct (Z.eqb_spec 2 mx); [lia|]. split; auto. }
  right. split; [exact Hs3|]. destruct (Z.eqb_spec mn mx); [lia|].
  now rewrite find_index_right2 by (auto; lia).
Qed.

(** ** Analysis as a whole *)

Lemma fold_min_map keys : forall m,
  fold_left (fun m s => Z.min m (zlen s)) keys m = fold_left Z.min (map zlen keys) m.
Proof. induction keys; cbn; auto. Qed.
Lemma fold_max_map keys : forall m,
  fold_left (fun m s => Z.max m (zlen s)) keys m = fold_left Z.max (map zlen keys) m.
Proof. induction keys; cbn; auto. Qed.

Lemma analyze_subslices_unfold keys mn mx :
  keys <> [] -> zlen keys < 2 ^ 52 -> (forall s, In s keys -> zlen s < 2 ^ 64) ->
  is_min mn (map zlen keys) -> is_max mx (map zlen keys) ->
  analyze_subslices hash_slice keys =
    find_subslice hash_slice keys mn mx (zlen keys / 20) (Z.to_nat (Z.min mn 16)) 1.
Proof.
  intros Hne Hn Hs Hmn Hmx. unfold analyze_subslices. cbv zeta.
  pose proof (zlen_nonneg keys).
  rewrite f64_five_percent_spec by lia. rewrite fold_min_map, fold_max_map.
  assert (Hne' : map zlen keys <> []) by (destruct keys; [congruence|discriminate]).
  replace (fold_left Z.min (map zlen keys) (imax usize)) with mn; [|].
  replace (fold_left Z.max (map zlen keys) 0) with mx; [reflexivity|].
  - eapply is_max_unique; [exact Hmx|]. apply fold_max_is_max; auto.
    intros x Hx. apply in_map_iff in Hx. destruct Hx as (s & <- & _). apply zlen_nonneg.
  - eapply is_min_unique; [exact Hmn|]. apply fold_min_is_min; auto.
    intros x Hx. apply in_map_iff in Hx. destruct Hx as (s & <- & Hx).
    change (imax usize) with (2 ^ 64 - 1). specialize (Hs s Hx). lia.
Qed.

End Proofs.
