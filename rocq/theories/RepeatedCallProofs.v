(** Calls of [frozen_map!] with repeated keys. *)
From Coq Require Import String List ZArith Bool Arith Lia Permutation.
From Verif Require Import Spec MapSpec Base BaseLemmas EqbLists HashTable Maps MapsProofs IntKeyAnalyzer IntProofs IntWrapProofs
  SliceKeyAnalyzer SliceKeyAnalyzerProofs BuildSound Iterators HistorySpec ObjectSpec MapObjects ComponentTheorems
  MacroModel MacroParse ParseSpec MacroProofs MacroParseProofs MacroEmit EmitSpec MacroEmitProofs EmitRun WrittenSpec EmitRunProofs
  RepeatedSpec RepeatedProofs.
Import ListNotations.
Open Scope Z_scope.

Lemma analyzed_repeated pr ty keys : 1 <= bits ty -> keys <> [] -> (forall k, In k keys -> imin ty <= k <= imax ty) ->
  (pr = Checked /\ too_wide ty keys /\ analyze_int_keys pr ty keys = Panic POverflow) \/
  ((pr = Wrapping \/ ~ too_wide ty keys) /\
   ((too_wide ty keys \/ spanning keys) /\ analyze_int_keys pr ty keys = Ok IntRange \/
    (too_wide ty keys \/ ~ spanning keys) /\ analyze_int_keys pr ty keys = Ok IntNormal)).
Proof.
  intros Hb Hne Hin. pose proof (imin_imax_0 ty Hb) as H0.
  destruct (min_max_exist keys Hne) as (mn & mx & Hmn & Hmx).
  assert (Hall : Forall (fun k => imin ty <= k <= imax ty) keys) by now apply Forall_forall.
  assert (Hw : too_wide ty keys \/ ~ too_wide ty keys /\ mx - mn <= imax ty /\ zlen keys <= imax ty).
  { destruct (Z_lt_le_dec (imax ty) (zlen keys)) as [Hl|Hl]; [left; left; auto|].
    destruct (Z_lt_le_dec (imax ty) (mx - mn)) as [Hs|Hs].
    - left. right. exists mn, mx. split; [apply Hmn|split; [apply Hmx|auto]].
    - right. split; auto. intros [H|(x & y & Hx & Hy & H)]; [lia|].
      pose proof (proj2 Hmn x Hx). pose proof (proj2 Hmx y Hy). lia. }
  destruct Hw as [Hw|(Hw & Hs & Hl)].
  - destruct pr.
    + left. split; auto. split; auto. destruct (Z_lt_le_dec (imax ty) (zlen keys)) as [Hl|Hl].
      * unfold analyze_int_keys. rewrite scan_count_overflow; auto; lia.
      * apply (analyze_int_keys_spread_overflow ty keys mn mx); auto. destruct Hw as [H|(x & y & Hx & Hy & H)]; [lia|].
        pose proof (proj2 Hmn x Hx). pose proof (proj2 Hmx y Hy). lia.
    + right. split; auto. unfold analyze_int_keys.
      destruct (scan_int_keys_wrapping ty keys Hb (imax ty) (imin ty) 0 0) as (c & -> & Hc1 & Hc2); auto. cbn [bind].
      destruct (c =? 0); [auto|].
      destruct (arith_wrapping ty (fold_left Z.max keys (imin ty) - fold_left Z.min keys (imax ty)) Hb) as (s & -> & _). cbn [bind].
      destruct (arith_wrapping ty (c - 1) Hb) as (d & -> & _). cbn [bind]. destruct (s =? d); auto.
  - right. split; auto. rewrite (analyze_int_keys_ok pr ty keys mn mx); auto.
    assert (Hsp : spanning keys <-> mx - mn = zlen keys - 1).
    { split.
      - intros (a & b & Ha & Hb' & Hab & Hd). fold (zlen keys) in Hd.
        pose proof (proj2 Hmn a Ha). pose proof (Hab mn (proj1 Hmn)). pose proof (proj2 Hmx b Hb'). pose proof (Hab mx (proj1 Hmx)). lia.
      - intros H. exists mn, mx. split; [apply Hmn|]. split; [apply Hmx|]. split; [|exact H].
        intros k Hk. split; [now apply Hmn|now apply Hmx]. }
    destruct (Z.eqb_spec (mx - mn) (zlen keys - 1)) as [H|H]; [left|right]; tauto.
Qed.

Lemma repeated_integer_call :
  forall (T ty expr O V : Type) (parse_type : list (token T) -> option (ty * list (token T)))
    (parse_expr : list (token T) -> option (expr * list (token T))) (text : expr -> list (token T)) (type_text : list (token T)) (t : ty)
    (classify : ty -> macro_type) (literal_of : expr -> literal O) (pr : profile) (h : list Z -> Z)
    (it : int_type) (key_of : expr -> Z) (value_of : expr -> V) (entries : list (expr * expr)) (trailing : bool),
  reads_back parse_type parse_expr text type_text t -> classify t = TInt it -> 1 <= bits it ->
  (forall e, In e entries -> literal_of (fst e) = LInt (key_of (fst e)) /\ imin it <= key_of (fst e) <= imax it) ->
  let payload := meaning key_of value_of entries in
  let keys := map fst payload in
  let output := frozen_map_output parse_type parse_expr classify literal_of pr h (written_call text type_text trailing entries) in
  zlen keys < 2 ^ 31 ->
  (3 <= zlen keys /\ pr = Checked /\ too_wide it keys /\ output = Some (Some (Panic POverflow))) \/
  ((zlen keys < 3 \/ pr = Wrapping \/ ~ too_wide it keys) /\
   exists code st, output = Some (Some (Ok code)) /\ read_block code = Some st /\
   ((3 <= zlen keys /\ (too_wide it keys \/ spanning keys) /\
       forall (BH : Type) (E : env) (bh : BH) (hash : BH -> Z -> Z), execute_int E bh it hash key_of value_of st = None) \/
    ((zlen keys < 3 \/ too_wide it keys \/ ~ spanning keys) /\
       forall (BH : Type) (E : env) (bh : BH) (hash : BH -> Z -> Z), env_ok E ->
       exists runs es, execute_int E bh it hash key_of value_of st = Some (Ok runs) /\
         laid_out Z.eqb (fun k => k) (fun _ => True) payload es runs))).
Proof.
  intros T ty expr O V parse_type parse_expr text type_text t classify literal_of pr h it key_of value_of entries trailing
    Hread Hc Hb Hl payload keys output Hn.
  assert (Hlit : map (fun e => literal_of (fst e)) entries = map (fun e => @LInt O (fst e)) payload).
  { unfold payload, meaning. rewrite map_map. apply map_ext_in. intros e He. apply Hl, He. }
  assert (Hin : forall k, In k (map fst payload) -> imin it <= k <= imax it).
  { intros k Hk. unfold payload, meaning in Hk. rewrite map_map in Hk. apply in_map_iff in Hk. destruct Hk as (e & <- & He). apply Hl, He. }
  assert (Ho : output = Some (Some (emit classify literal_of pr h {| pm_ty := t; pm_entries := entries |}))) by now apply output_written.
  destruct (emitted_code ty expr O classify literal_of pr h {| pm_ty := t; pm_entries := entries |}) as (Hok & Hpanic & _).
  cbn [pm_ty pm_entries] in *. rewrite Hc, Hlit in Hok, Hpanic.
  assert (Hlen : zlen keys = zlen payload) by apply zlen_map. pose proof (zlen_nonneg payload) as Hnn.
  assert (Hgood : forall x, frozen_map_macro pr h (TInt it) (map (fun e => @LInt O (fst e)) payload) = Ok x ->
    exists code, output = Some (Some (Ok code)) /\ read_block code = Some (should_say (TInt it) t entries x)).
  { intros x Hx. destruct (Hok x Hx) as (code & He & Hr). exists code. split; [now rewrite Ho, He|auto]. }
  assert (Hm : frozen_map_macro pr h (TInt it) (map (fun e => @LInt O (fst e)) payload) =
    if zlen payload <? 3 then Ok XScanning
    else a <- analyze_int_keys pr it keys ;; Ok (XPlain (choose_map VInteger a SliceNormal) (payload_size (zlen payload)))).
  { unfold frozen_map_macro. rewrite zlen_map. destruct (zlen payload <? 3); auto.
    unfold analyze_literals, process_int_keys. rewrite parse_ints by auto. cbn [bind]. fold keys.
    destruct (analyze_int_keys pr it keys) as [[]| | |]; reflexivity. }
  destruct (Z.ltb_spec (zlen payload) 3) as [H3|H3].
  { right. split; [lia|]. destruct (Hgood _ Hm) as (code & Hout & Hr). exists code, (should_say (TInt it) t entries XScanning).
    split; auto. split; auto. right. split; [lia|]. intros BH E bh hash HE.
    rewrite (execute_int_start E bh it hash t entries key_of value_of pr h _ _ Hm). eexists _, _. split; [reflexivity|].
    apply repeated_scanning. fold payload. lia. }
  assert (Hne : keys <> []) by (unfold keys; destruct payload; [unfold zlen in H3; cbn in H3; lia|discriminate]).
  destruct (analyzed_repeated pr it keys Hb Hne Hin) as [(Hpr & Hw & Ha)|(Hcase & [(Hs & Ha)|(Hs & Ha)])]; rewrite Ha in Hm; cbn [bind choose_map] in Hm.
  - left. split; [lia|]. split; auto. split; auto. rewrite Ho. f_equal. f_equal. apply Hpanic. exact Hm.
  - right. split; [tauto|]. destruct (Hgood _ Hm) as (code & Hout & Hr). eexists code, _. split; [exact Hout|]. split; [exact Hr|].
    left. split; [lia|]. split; [exact Hs|]. intros BH E bh hash.
    rewrite (execute_int_start E bh it hash t entries key_of value_of pr h _ _ Hm). reflexivity.
  - right. split; [tauto|]. destruct (Hgood _ Hm) as (code & Hout & Hr). eexists code, _. split; [exact Hout|]. split; [exact Hr|].
    right. split; [tauto|]. intros BH E bh hash HE.
    rewrite (execute_int_start E bh it hash t entries key_of value_of pr h _ _ Hm). fold payload. cbn [start_int].
    destruct (repeated_integer V E (payload_size (zlen payload)) payload HE) as (m & es & -> & Har).
    { apply payload_size_fits. lia. }
    cbn [bind]. eauto.
Qed.

Lemma repeated_string_call :
  forall (T ty expr O V : Type) (parse_type : list (token T) -> option (ty * list (token T)))
    (parse_expr : list (token T) -> option (expr * list (token T))) (text : expr -> list (token T)) (type_text : list (token T)) (t : ty)
    (classify : ty -> macro_type) (literal_of : expr -> literal O) (pr : profile) (h : list Z -> Z)
    (key_of : expr -> list Z) (value_of : expr -> V) (entries : list (expr * expr)) (trailing : bool),
  reads_back parse_type parse_expr text type_text t -> classify t = TStr ->
  (forall e, In e entries -> literal_of (fst e) = LStr (key_of (fst e)) /\ zlen (key_of (fst e)) < 2 ^ 64) ->
  let payload := meaning key_of value_of entries in
  let keys := map fst payload in
  let output := frozen_map_output parse_type parse_expr classify literal_of pr h (written_call text type_text trailing entries) in
  zlen keys < 2 ^ 31 ->
  (string_panic h keys /\ output = Some (Some (Panic PIndexOutOfBounds))) \/
  (~ string_panic h keys /\
   exists code st, output = Some (Some (Ok code)) /\ read_block code = Some st /\
   forall (BH : Type) (E : env) (bh : BH) (hash_string hash_write : BH -> list Z -> Z), env_ok E ->
     (string_ub h keys /\ execute_str E bh hash_string hash_write key_of value_of st = Some (UB OutOfBounds)) \/
     (~ string_ub h keys /\
      exists runs es, execute_str E bh hash_string hash_write key_of value_of st = Some (Ok runs) /\
        laid_out bytes_eqb (fun k => k) (fun _ => True) payload es runs)).
Proof.
  intros T ty expr O V parse_type parse_expr text type_text t classify literal_of pr h key_of value_of entries trailing
    Hread Hc Hl payload keys output Hn.
  assert (Hlit : map (fun e => literal_of (fst e)) entries = map (fun e => @LStr O (fst e)) payload).
  { unfold payload, meaning. rewrite map_map. apply map_ext_in. intros e He. apply Hl, He. }
  assert (H64 : forall k, In k (map fst payload) -> zlen k < 2 ^ 64).
  { intros k Hk. unfold payload, meaning in Hk. rewrite map_map in Hk. apply in_map_iff in Hk. destruct Hk as (e & <- & He). apply Hl, He. }
  assert (Ho : output = Some (Some (emit classify literal_of pr h {| pm_ty := t; pm_entries := entries |}))) by now apply output_written.
  destruct (emitted_code ty expr O classify literal_of pr h {| pm_ty := t; pm_entries := entries |}) as (Hok & Hpanic & _).
  cbn [pm_ty pm_entries] in *. rewrite Hc, Hlit in Hok, Hpanic.
  assert (Hlen : zlen keys = zlen payload) by apply zlen_map. pose proof (zlen_nonneg payload) as Hnn.
  assert (Hgood : forall x, frozen_map_macro pr h TStr (map (fun e => @LStr O (fst e)) payload) = Ok x ->
    exists code, output = Some (Some (Ok code)) /\ read_block code = Some (should_say TStr t entries x)).
  { intros x Hx. destruct (Hok x Hx) as (code & He & Hr). exists code. split; [now rewrite Ho, He|auto]. }
  assert (Hm : frozen_map_macro pr h TStr (map (fun e => @LStr O (fst e)) payload) =
    if zlen payload <? 3 then Ok XScanning
    else a <- analyze_slice_keys h keys ;;
         Ok match a with
            | LeftHandSubslice i l | RightHandSubslice i l => XRanged (choose_map VString IntNormal a) (payload_size (zlen payload)) i (i + l)
            | _ => XPlain (choose_map VString IntNormal a) (payload_size (zlen payload))
            end).
  { unfold frozen_map_macro. rewrite zlen_map. destruct (zlen payload <? 3); auto.
    unfold analyze_literals, process_string_keys. rewrite parse_strs by auto. cbn [bind]. fold keys.
    destruct (analyze_slice_keys h keys) as [[]| | |]; reflexivity. }
  destruct (Z.ltb_spec (zlen payload) 3) as [H3|H3].
  { right. assert (Hs : ~ string_trouble h keys) by (intros (H & _); unfold zlen in *; lia).
    split; [intros (H & _); auto|]. destruct (Hgood _ Hm) as (code & Hout & Hr). eexists code, _.
    split; [exact Hout|]. split; [exact Hr|]. intros BH E bh hs hw HE. right. split; [intros (H & _); auto|].
    rewrite (execute_str_start E bh hs hw t entries key_of value_of pr h _ _ Hm). eexists _, _. split; [reflexivity|].
    apply repeated_scanning. fold payload. lia. }
  assert (Hne : payload <> []) by (intros E; rewrite E in H3; unfold zlen in H3; cbn in H3; lia).
  assert (Hfit : fits (payload_size (zlen payload)) (zlen payload)) by (apply payload_size_fits; lia).
  destruct (analyze_slice_keys_outcome h keys) as [(r & Hr & Hnr & Hu & Hp)|[(Hu & i & Hr)|(Hp & Hr)]]; auto;
    try (unfold zlen in *; change (2 ^ 52) with 4503599627370496; lia); rewrite Hr in Hm; cbn [bind] in Hm.
  - right. split; auto. destruct (Hgood _ Hm) as (code & Hout & Hread'). eexists code, _. split; [exact Hout|]. split; [exact Hread'|].
    intros BH E bh hs hw HE. right. split; auto.
    rewrite (execute_str_start E bh hs hw t entries key_of value_of pr h _ _ Hm). fold payload.
    pose proof (analyze_slice_keys_range h keys r Hr) as Hrange.
    destruct r as [|i l|i l|]; try contradiction; cbn [choose_map start_str].
    + destruct (repeated_common _ V _ BH bytes_eqb (fun k => k) hs hs E (payload_size (zlen payload)) payload bh)
        as (m & es & -> & Hx); auto.
      { apply bytes_equiv. }
      { intros a b Hab. apply bytes_eqb_eq in Hab. now subst. }
      cbn [bind]. eauto.
    + destruct Hrange as (Hi & Hl' & _ & Hs).
      destruct (repeated_left_slice V BH hw E (payload_size (zlen payload)) payload i (i + l) bh)
        as (m & es & -> & Hx); auto; try lia.
      cbn [bind]. eauto.
    + destruct (repeated_length _ V _ bytes_eqb (fun k => k) zlen zlen E (payload_size (zlen payload)) payload)
        as (m & es & -> & Hx); auto.
      { intros a b Hab. apply bytes_eqb_eq in Hab. now subst. }
      cbn [bind]. eauto.
  - right. split; [intros (_ & H & _); destruct Hu; contradiction|].
    destruct (Hgood _ Hm) as (code & Hout & Hread'). eexists code, _. split; [exact Hout|]. split; [exact Hread'|].
    intros BH E bh hs hw HE. left. split; auto.
    rewrite (execute_str_start E bh hs hw t entries key_of value_of pr h _ _ Hm). fold payload.
    cbn [choose_map start_str].
    pose proof (analyze_slice_keys_range h keys _ Hr) as (Hi & _ & Hb & Hs).
    destruct (right_slice_forward_unusable V BH hw E (payload_size (zlen payload)) payload i (i + 1) bh)
      as (_ & H); auto; try lia.
    { intros e He. apply H64. now apply in_map. }
    rewrite H; auto. destruct payload as [|e payload']; [congruence|]. exists e. split; [now left|].
    apply Hs. now left.
  - left. split; auto. rewrite Ho. f_equal. f_equal. apply Hpanic. exact Hm.
Qed.

Lemma repeated_other_call :
  forall (T ty expr O K V : Type) (parse_type : list (token T) -> option (ty * list (token T)))
    (parse_expr : list (token T) -> option (expr * list (token T))) (text : expr -> list (token T)) (type_text : list (token T)) (t : ty)
    (classify : ty -> macro_type) (literal_of : expr -> literal O) (pr : profile) (h : list Z -> Z)
    (eqb : K -> K -> bool) (key_of : expr -> K) (value_of : expr -> V) (entries : list (expr * expr)) (trailing : bool),
  reads_back parse_type parse_expr text type_text t -> classify t = TOther -> equivalence eqb ->
  let payload := meaning key_of value_of entries in
  zlen payload < 2 ^ 31 ->
  exists code st,
    frozen_map_output parse_type parse_expr classify literal_of pr h (written_call text type_text trailing entries) = Some (Some (Ok code)) /\
    read_block code = Some st /\
    forall (BH : Type) (E : env) (bh : BH) (hash : BH -> K -> Z), env_ok E -> (forall a b, eqb a b = true -> hash bh a = hash bh b) ->
    exists runs es, execute_other E bh eqb hash key_of value_of st = Some (Ok runs) /\
      laid_out eqb (fun k => k) (fun _ => True) payload es runs.
Proof.
  intros T ty expr O K V parse_type parse_expr text type_text t classify literal_of pr h eqb key_of value_of entries trailing
    Hread Hc He payload Hn.
  destruct (emitted_code ty expr O classify literal_of pr h {| pm_ty := t; pm_entries := entries |}) as (Hok & _ & _).
  cbn [pm_ty pm_entries] in *. rewrite Hc in Hok. pose proof (zlen_nonneg payload) as Hnn.
  assert (Hz : zlen entries = zlen payload) by (unfold payload, meaning; now rewrite zlen_map).
  assert (Hm : frozen_map_macro pr h TOther (map (fun e => literal_of (fst e)) entries) =
    if zlen payload <? 3 then Ok XScanning else Ok (XPlain NCommonMap (payload_size (zlen payload)))).
  { unfold frozen_map_macro. now rewrite zlen_map, Hz. }
  destruct (Z.ltb_spec (zlen payload) 3) as [H3|H3]; destruct (Hok _ Hm) as (code & Hem & Hr);
    eexists code, _; (split; [erewrite output_written by exact Hread; rewrite Hem; reflexivity|]); (split; [exact Hr|]);
    intros BH E bh hash HE Hh; rewrite (execute_other_start E bh eqb hash t entries key_of value_of pr h _ _ Hm); fold payload.
  - eexists _, _. split; [reflexivity|]. apply repeated_scanning. fold payload. lia.
  - cbn [start_other].
    destruct (repeated_common K V K BH eqb (fun k => k) hash hash E (payload_size (zlen payload)) payload bh) as (m & es & -> & Hx); auto.
    { apply payload_size_fits. lia. }
    cbn [bind]. eauto.
Qed.
