(** The macro [frozen_map!] (C36). *)
From Coq Require Import List ZArith Bool Arith Lia Permutation.
From Verif Require Import Spec MapSpec Base BaseLemmas EqbLists IntKeyAnalyzer SliceKeyAnalyzer HashTable Maps
  IntProofs IntWrapProofs SliceKeyAnalyzerProofs MapsProofs FrozenMapBuild BuildSound ComponentTheorems MacroModel.
Import ListNotations.
Open Scope Z_scope.

(** ** Outcome of the slice analysis *)

Lemma filter_short {A} (f : A -> bool) (l : list A) : (length (filter f l) <= length l)%nat.
Proof. induction l; cbn; auto. destruct (f a); cbn; lia. Qed.

Lemma analyze_slice_keys_outcome (h : list Z -> Z) (keys : list (list Z)) :
  (3 <= length keys)%nat -> zlen keys < 2 ^ 52 -> (forall s, In s keys -> zlen s < 2 ^ 64) ->
  (exists r, analyze_slice_keys h keys = Ok r /\
     match r with RightHandSubslice _ _ => False | _ => True end /\
     ~ string_ub h keys /\ ~ string_panic h keys) \/
  (string_ub h keys /\ exists i, analyze_slice_keys h keys = Ok (RightHandSubslice i 1)) \/
  (string_panic h keys /\ analyze_slice_keys h keys = Panic PIndexOutOfBounds).
Proof.
  intros Hge H52 Hk64. unfold analyze_slice_keys.
  assert (Hkne : keys <> []) by (intros ->; cbn in Hge; lia).
  destruct (analyze_lengths_spec keys) as [(-> & Hlen3)|(-> & Hlen3)].
  { left. exists SliceLength. split; auto. split; auto. apply few_equal_lengths_iff in Hlen3.
    split; intros (Ht' & _); destruct Ht' as (_ & Hno & _); contradiction. }
  assert (Hnofew : ~ few_equal_lengths keys).
  { rewrite few_equal_lengths_iff. intros (H1 & H2). destruct Hlen3 as [H3|(L & H3)]; [lia|].
    specialize (H2 L). lia. }
  assert (Hge' : (4 <= length keys)%nat).
  { destruct (Nat.le_gt_cases 4 (length keys)) as [|Hlt]; auto. exfalso. apply Hnofew. split; [lia|].
    intros L. pose proof (filter_short (fun s => Nat.eqb (length s) L) keys). lia. }
  destruct (min_max_exist (map zlen keys)) as (mn & mx & Hmn & Hmx).
  { destruct keys; [congruence|discriminate]. }
  rewrite (analyze_subslices_unfold _ _ mn mx) by auto.
  assert (Hmin : forall s, In s keys -> mn <= zlen s).
  { intros s Hs. apply Hmn. now apply in_map. }
  assert (Hmn0 : 0 <= mn).
  { destruct Hmn as (H1 & _). apply in_map_iff in H1. destruct H1 as (s & <- & _). apply zlen_nonneg. }
  assert (Hacc : 0 <= zlen keys / 20) by (apply Z.div_pos; [apply zlen_nonneg|lia]).
  assert (Hmnmx : mn <= mx) by (apply Hmx, Hmn).
  destruct (Z.eq_dec mn mx) as [Heq|Hneq].
  { subst mx.
    assert (Hsame : ~ (exists s s', In s keys /\ In s' keys /\ length s <> length s')).
    { intros (s & s' & Hs & Hs' & Hd).
      assert (zlen s = mn /\ zlen s' = mn).
      { pose proof (Hmin s Hs). pose proof (Hmin s' Hs').
        destruct Hmx as (_ & Hmx). pose proof (Hmx (zlen s) ltac:(now apply in_map)).
        pose proof (Hmx (zlen s') ltac:(now apply in_map)). lia. }
      unfold zlen in *. lia. }
    left.
    destruct (find_subslice_equal h keys (zlen keys / 20) mn (Z.to_nat (Z.min mn 16)) 1)
      as (r & Hr' & Hs); auto; try lia.
    exists r. split; auto. split; [destruct r; auto|].
    split; intros (Ht' & _); destruct Ht' as (_ & _ & Hd & _); contradiction. }
  assert (Hdiff : exists s s', In s keys /\ In s' keys /\ length s <> length s').
  { destruct Hmn as (H1 & _), Hmx as (H2 & _). apply in_map_iff in H1, H2.
    destruct H1 as (s & H1 & Hs), H2 as (s' & H2 & Hs'). exists s, s'. repeat split; auto.
    unfold zlen in *. lia. }
  pose proof (find_subslice_mixed h keys (zlen keys / 20) mn mx Hkne Hacc ltac:(lia) Hmin) as Hmix.
  cbv zeta in Hmix.
  destruct Hmix as [(i & -> & Hf)|(Hnl & [(i & -> & Hf)|(Hnr & [(Hle & ->)|(Hge2 & [(i & -> & Hf)|(Hnl2 & ->)])])])].
  - left. assert (Hw : some_left_window h 1 keys).
    { change 1%nat with (Z.to_nat 1). now apply (some_left_window_some h keys mn 1 i). }
    eexists. split; [reflexivity|]. split; [exact I|].
    split; intros (Ht' & _); destruct Ht' as (_ & _ & _ & _ & Hd); contradiction.
  - right. left. assert (Hw : ~ some_left_window h 1 keys).
    { change 1%nat with (Z.to_nat 1). apply (some_left_window_none h keys mn 1); auto; lia. }
    assert (Hrb : some_right_byte h keys) by (now apply (some_right_byte_some h keys mn i)).
    destruct Hf as (Hi & _). split; [|eauto].
    split; auto. repeat split; auto.
    intros s Hs ->. specialize (Hmin [] Hs). change (zlen []) with 0 in Hmin. lia.
  - left. assert (Hrb : ~ some_right_byte h keys) by now apply (some_right_byte_none h keys mn).
    eexists. split; [reflexivity|]. split; [exact I|]. split.
    + intros (_ & H). contradiction.
    + intros (_ & _ & H & _). destruct Hmn as (H1 & _). apply in_map_iff in H1.
      destruct H1 as (s & H1 & Hs). specialize (H s Hs). unfold zlen in *. lia.
  - left. assert (Hrb : ~ some_right_byte h keys) by now apply (some_right_byte_none h keys mn).
    assert (Hw : some_left_window h 2 keys).
    { change 2%nat with (Z.to_nat 2). now apply (some_left_window_some h keys mn 2 i). }
    eexists. split; [reflexivity|]. split; [exact I|]. split.
    + intros (_ & H). contradiction.
    + intros (_ & _ & _ & H). contradiction.
  - right. right. split; [|reflexivity].
    assert (Hrb : ~ some_right_byte h keys) by now apply (some_right_byte_none h keys mn).
    assert (Hw : ~ some_left_window h 1 keys).
    { change 1%nat with (Z.to_nat 1). apply (some_left_window_none h keys mn 1); auto; lia. }
    assert (Hw2 : ~ some_left_window h 2 keys).
    { change 2%nat with (Z.to_nat 2). apply (some_left_window_none h keys mn 2); auto; lia. }
    split; [|split; [auto|split; auto]].
    + split; [auto|split; [auto|split; [auto|split; [|auto]]]].
      intros s Hs ->. specialize (Hmin [] Hs). change (zlen []) with 0 in Hmin. lia.
    + intros s Hs. specialize (Hmin s Hs). unfold zlen in *. lia.
Qed.

(** ** The chosen index type counts the entries *)

Lemma payload_size_fits n : 0 <= n < 2 ^ 31 -> fits (payload_size n) n.
Proof.
  intros H. unfold payload_size. destruct (Z.leb_spec n (imax u8)); [|destruct (Z.leb_spec n (imax u16))];
    (split; [reflexivity|split; [reflexivity|split; [|lia]]]); try assumption.
  change (imax usize) with (2 ^ 64 - 1). lia.
Qed.

Lemma borrow_id {K V} (payload : list (K * V)) : map (fun e => (fst e, snd e)) payload = payload.
Proof. rewrite <- (map_id payload) at 2. apply map_ext. now intros []. Qed.

Lemma parse_ints {O V} ty (payload : list (Z * V)) :
  (forall k, In k (map fst payload) -> imin ty <= k <= imax ty) ->
  mapM (fun k => match k with
                 | LInt z => if in_type ty z then Ok z else Panic PUnwrapNone
                 | _ => Panic PUnwrapNone
                 end) (map (fun e => @LInt O (fst e)) payload) = Ok (map fst payload).
Proof.
  induction payload as [|e payload IH]; intros H; auto. cbn [map mapM].
  unfold in_type. pose proof (H (fst e) ltac:(now left)).
  destruct (_ && _) eqn:E; [|lia]. cbn [bind]. unfold in_type in IH. rewrite IH; auto.
  intros k Hk. apply H. now right.
Qed.

Lemma parse_strs {O V} (payload : list (list Z * V)) :
  mapM (fun k => match k with LStr s => Ok s | _ => Panic PUnwrapNone end)
    (map (fun e => @LStr O (fst e)) payload) = Ok (map fst payload).
Proof. induction payload as [|e payload IH]; auto. cbn [map mapM bind]. rewrite IH. reflexivity. Qed.

(** The key type cannot express the number of keys or the width of their range. *)
Definition too_wide (ty : int_type) (keys : list Z) : Prop :=
  imax ty < zlen keys \/ exists x y, In x keys /\ In y keys /\ imax ty < y - x.

Lemma NoDup_distinct (l : list Z) : NoDup l -> distinct Z.eqb l.
Proof.
  induction 1; cbn; auto. split; auto. intros k' Hk'. apply Z.eqb_neq. intros ->. contradiction.
Qed.

Lemma macro_int :
  forall (O V : Type) (pr : profile) (h : list Z -> Z) (ty : int_type) (payload : list (Z * V)),
  1 <= bits ty -> (forall k, In k (map fst payload) -> imin ty <= k <= imax ty) ->
  NoDup (map fst payload) -> zlen payload < 2 ^ 31 ->
  let keys := map fst payload in
  let expanded := frozen_map_macro pr h (TInt ty) (map (fun e => @LInt O (fst e)) payload) in
  (3 <= zlen keys /\ pr = Checked /\ too_wide ty keys /\ expanded = Panic POverflow) \/
  (3 <= zlen keys /\ (pr = Wrapping \/ ~ too_wide ty keys) /\ consecutive keys /\ zlen keys < 2 ^ bits ty /\
     exists x, expanded = Ok x /\ forall E, run_int E ty x payload = None) \/
  ((zlen keys < 3 \/ (pr = Wrapping \/ ~ too_wide ty keys) /\ (~ consecutive keys \/ zlen keys = 2 ^ bits ty)) /\
     exists x, expanded = Ok x /\ forall E, env_ok E ->
       exists get, run_int E ty x payload = Some (Ok get) /\ exact_get Z.eqb (fun _ => True) payload get).
Proof.
  intros O V pr h ty payload Hb Hin Hd Hn keys. cbv zeta.
  assert (Hlen : zlen keys = zlen payload) by apply zlen_map.
  unfold frozen_map_macro. rewrite zlen_map.
  destruct (Z.ltb_spec (zlen payload) 3) as [H3|H3].
  { right. right. split; [lia|]. exists XScanning. split; auto. intros E HE.
    eexists. split; [reflexivity|].
    pose proof (scanning_map_exact Z V Z Z.eqb (fun k => k) payload Z_equiv (NoDup_distinct _ Hd)) as H.
    cbv beta in H; rewrite borrow_id in H. exact H. }
  assert (Hne : keys <> []) by (unfold keys; destruct payload; [unfold zlen in H3; cbn in H3; lia|discriminate]).
  unfold analyze_literals, process_int_keys. rewrite parse_ints by auto. cbn [bind]. fold keys.
  assert (Hnormal : forall E, env_ok E -> exists get,
     run_int E ty (XPlain NIntegerMap (payload_size (zlen payload))) payload = Some (Ok get) /\
     exact_get Z.eqb (fun _ => True) payload get).
  { intros E HE. cbn [run_int].
    destruct (integer_map_exact V E (payload_size (zlen payload)) payload HE) as (m & -> & _ & Hx); auto.
    { apply payload_size_fits. pose proof (zlen_nonneg payload). lia. }
    cbn [bind]. eauto. }
  destruct pr.
  - destruct (int_range_checked ty keys Hb Hd Hin)
      as [(Hw & ->)|((Hl & Hs) & [(_ & Hc & ->)|(Hc & ->)])]; cbn [bind].
    + left. split; [lia|]. auto.
    + right. left. assert (Hnw : ~ too_wide ty keys).
      { intros [H|(x & y & Hx & Hy & H)]; [lia|]. specialize (Hs x y Hx Hy). lia. }
      split; [lia|]. split; auto. split; auto. split.
      * pose proof (type_size ty Hb). pose proof (imin_imax_0 ty Hb). lia.
      * eexists. split; [reflexivity|]. reflexivity.
    + right. right. assert (Hnw : ~ too_wide ty keys).
      { intros [H|(x & y & Hx & Hy & H)]; [lia|]. specialize (Hs x y Hx Hy). lia. }
      split; [right; split; auto; left; tauto|]. eexists. split; [reflexivity|]. exact Hnormal.
  - destruct (int_range_wrapping ty keys Hb Hd Hin) as (H1 & H2).
    pose proof (typed_count ty keys Hb Hd Hin) as Hcnt.
    assert (Hdec : consecutive keys \/ ~ consecutive keys).
    { destruct (min_max_exist keys Hne) as (mn & mx & Hmn & Hmx).
      rewrite <- (consecutive_iff keys mn mx Hne Hd Hmn Hmx). lia. }
    destruct (Z.eq_dec (zlen keys) (2 ^ bits ty)) as [Hf|Hf].
    + rewrite H2 by auto. cbn [bind]. right. right. split; [auto|].
      eexists. split; [reflexivity|]. exact Hnormal.
    + destruct Hdec as [Hc|Hc].
      * rewrite H1 by (split; [auto|split; [auto|lia]]). cbn [bind]. right. left.
        split; [lia|]. split; auto. split; auto. split; [lia|]. eexists. split; reflexivity.
      * rewrite H2 by auto. cbn [bind]. right. right. split; [auto|].
        eexists. split; [reflexivity|]. exact Hnormal.
Qed.

Lemma macro_str :
  forall (O V : Type) (pr : profile) (h : list Z -> Z) (payload : list (list Z * V)),
  (forall s, In s (map fst payload) -> zlen s < 2 ^ 64) ->
  distinct bytes_eqb (map fst payload) -> zlen payload < 2 ^ 31 ->
  let keys := map fst payload in
  let expanded := frozen_map_macro pr h TStr (map (fun e => @LStr O (fst e)) payload) in
  (~ string_ub h keys /\ ~ string_panic h keys /\
     exists x, expanded = Ok x /\
       forall (BH : Type) (hash_string hash_write : BH -> list Z -> Z) (E : env) (bh : BH), env_ok E ->
       exists get, run_str hash_string hash_write E bh x payload = Some (Ok get) /\
         exact_get bytes_eqb (fun _ => True) payload get) \/
  (string_ub h keys /\
     exists x, expanded = Ok x /\
       forall (BH : Type) (hash_string hash_write : BH -> list Z -> Z) (E : env) (bh : BH),
       run_str hash_string hash_write E bh x payload = Some (UB OutOfBounds)) \/
  (string_panic h keys /\ expanded = Panic PIndexOutOfBounds).
Proof.
  intros O V pr h payload H64 Hd Hn keys. cbv zeta.
  assert (Hlen : zlen keys = zlen payload) by apply zlen_map.
  pose proof (zlen_nonneg payload) as Hnn.
  unfold frozen_map_macro. rewrite zlen_map.
  destruct (Z.ltb_spec (zlen payload) 3) as [H3|H3].
  { left. assert (Hs : ~ string_trouble h keys) by (intros (H & _); unfold zlen in *; lia).
    split; [intros (H & _); auto|]. split; [intros (H & _); auto|].
    exists XScanning. split; auto. intros BH hs hw E bh HE. eexists. split; [reflexivity|].
    pose proof (scanning_map_exact _ V _ bytes_eqb (fun k => k) payload bytes_equiv Hd) as H.
    cbv beta in H; rewrite borrow_id in H. exact H. }
  assert (Hfit : fits (payload_size (zlen payload)) (zlen payload)) by (apply payload_size_fits; lia).
  assert (Hne : payload <> []) by (intros ->; unfold zlen in H3; cbn in H3; lia).
  unfold analyze_literals, process_string_keys. rewrite parse_strs. cbn [bind]. fold keys.
  destruct (analyze_slice_keys_outcome h keys) as [(r & Hr & Hnr & Hu & Hp)|[(Hu & i & Hr)|(Hp & Hr)]]; auto;
    try (unfold zlen in *; change (2 ^ 52) with 4503599627370496; lia).
  - left. split; auto. split; auto. rewrite Hr. cbn [bind].
    pose proof (analyze_slice_keys_range h keys r Hr) as Hrange.
    destruct r as [|i l|i l|]; try contradiction; cbn [choose_map]; eexists; (split; [reflexivity|]);
      intros BH hs hw E bh HE; cbn [run_str].
    + destruct (common_map_exact _ V _ BH bytes_eqb (fun k => k) hs hs E (payload_size (zlen payload)) payload bh)
        as (m & -> & _ & Hx); auto.
      { apply bytes_equiv. }
      { intros a b Hab. apply bytes_eqb_eq in Hab. now subst. }
      cbn [bind]. cbv beta in Hx; rewrite borrow_id in Hx. eauto.
    + destruct Hrange as (Hi & Hl & _ & Hs).
      destruct (left_slice_exact V BH hw E (payload_size (zlen payload)) payload i (i + l) bh)
        as (m & -> & _ & Hx); auto; try lia.
      { intros e He. apply Hs. unfold keys. now apply in_map. }
      cbn [bind]. eauto.
    + destruct (length_map_exact _ V _ bytes_eqb (fun k => k) zlen zlen E (payload_size (zlen payload)) payload)
        as (m & -> & _ & Hx); auto.
      { apply bytes_equiv. }
      { intros a b Hab. apply bytes_eqb_eq in Hab. now subst. }
      cbn [bind]. cbv beta in Hx; rewrite borrow_id in Hx. eauto.
  - right. left. split; auto. rewrite Hr. cbn [bind choose_map]. eexists. split; [reflexivity|].
    intros BH hs hw E bh. cbn [run_str].
    pose proof (analyze_slice_keys_range h keys _ Hr) as (Hi & _ & Hb & Hs).
    destruct (right_slice_forward_unusable V BH hw E (payload_size (zlen payload)) payload i (i + 1) bh)
      as (_ & H); auto; try lia.
    { intros e He. apply H64. now apply in_map. }
    rewrite H; auto. destruct payload as [|e payload']; [congruence|]. exists e. split; [now left|].
    apply Hs. now left.
  - right. right. split; auto. rewrite Hr. reflexivity.
Qed.

Lemma macro_other :
  forall (O V : Type) (eqbO : O -> O -> bool) (pr : profile) (h : list Z -> Z) (payload : list (O * V)),
  equivalence eqbO -> distinct eqbO (map fst payload) -> zlen payload < 2 ^ 31 ->
  exists x, frozen_map_macro pr h TOther (map (fun e => LExpr (fst e)) payload) = Ok x /\
    forall (BH : Type) (hash : BH -> O -> Z) (E : env) (bh : BH), env_ok E ->
    (forall a b, eqbO a b = true -> hash bh a = hash bh b) ->
    exists get, run_other eqbO hash E bh x payload = Some (Ok get) /\
      exact_get eqbO (fun _ => True) payload get.
Proof.
  intros O V eqbO pr h payload He Hd Hn. pose proof (zlen_nonneg payload) as Hnn.
  unfold frozen_map_macro. rewrite zlen_map.
  destruct (Z.ltb_spec (zlen payload) 3) as [H3|H3].
  { exists XScanning. split; auto. intros BH hash E bh HE _. eexists. split; [reflexivity|].
    pose proof (scanning_map_exact O V O eqbO (fun k => k) payload He Hd) as H.
    cbv beta in H; rewrite borrow_id in H. exact H. }
  eexists. split; [reflexivity|]. intros BH hash E bh HE Hh. cbn [run_other choose_map].
  destruct (common_map_exact O V O BH eqbO (fun k => k) hash hash E (payload_size (zlen payload)) payload bh)
    as (m & -> & _ & Hx); auto.
  { apply payload_size_fits. lia. }
  cbn [bind]. cbv beta in Hx; rewrite borrow_id in Hx. eauto.
Qed.

(** ** Literals the documentation admits and the macro does not accept *)

(** Five distinct consecutive u8 literals: the generated code does not compile. *)
Lemma macro_range_refuted :
  exists keys : list Z, NoDup keys /\ (forall k, In k keys -> 0 <= k <= 255) /\
    forall (pr : profile) (h : list Z -> Z), exists x,
      frozen_map_macro pr h (TInt u8) (map (@LInt unit) keys) = Ok x /\
      forall E, run_int E u8 x (map (fun k => (k, tt)) keys) = None.
Proof.
  exists [1; 2; 3; 4; 5]. split; [repeat constructor; cbn; lia|]. split; [cbn; lia|].
  intros [] h; eexists; split; reflexivity.
Qed.

(** Three distinct i8 literals: the macro itself panics when overflow is checked. *)
Lemma macro_panic_refuted :
  exists keys : list Z, NoDup keys /\ (forall k, In k keys -> -128 <= k <= 127) /\
    forall h : list Z -> Z,
      frozen_map_macro Checked h (TInt i8) (map (@LInt unit) keys) = Panic POverflow.
Proof.
  exists [-128; 0; 127]. split; [repeat constructor; cbn; lia|]. split; [cbn; lia|]. reflexivity.
Qed.
