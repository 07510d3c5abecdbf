(** From a written call of [frozen_map!] to the map that the generated code builds. *)
From Coq Require Import String List ZArith Bool Arith Lia.
From Verif Require Import Base BaseLemmas IntKeyAnalyzer SliceKeyAnalyzer HashTable Maps Iterators FrozenMapFacts Spec IterSpec MapSpec HistorySpec ObjectSpec
  MapObjects MacroModel MacroParse ParseSpec MacroEmit EmitSpec EmitRun WrittenSpec ComponentTheorems MacroProofs MacroParseProofs MacroEmitProofs.
Import ListNotations.
Open Scope Z_scope.

Lemma output_written {T ty expr O} (parse_type : list (token T) -> option (ty * list (token T)))
    (parse_expr : list (token T) -> option (expr * list (token T))) (classify : ty -> macro_type) (literal_of : expr -> literal O)
    pr h text type_text t entries trailing :
  reads_back parse_type parse_expr text type_text t ->
  frozen_map_output parse_type parse_expr classify literal_of pr h (written_call text type_text trailing entries) =
  Some (Some (emit classify literal_of pr h {| pm_ty := t; pm_entries := entries |})).
Proof.
  intros (Ht & Hne & Hp). unfold frozen_map_output, parse_map, written_call. rewrite Ht. cbn [parse_comma].
  rewrite parse_entries_text; auto. pose proof (entries_text_length text trailing entries). lia.
Qed.

(** ** Compiling *)

Lemma size_read (ty : Type) c : let s := payload_size c in
  (match @size_name ty s with GName [s] =>
     if String.eqb s "u8"%string then Some u8 else if String.eqb s "u16"%string then Some u16
     else if String.eqb s "usize"%string then Some usize else None | _ => None end) = Some s.
Proof. unfold payload_size. destruct (c <=? imax u8); [reflexivity|]. destruct (c <=? imax u16); reflexivity. Qed.

Section Said.
Context {ty expr V : Type}.
Variables (input_ty : ty) (entries : list (expr * expr)).

Lemma all_verbatim (es : list (expr * expr)) :
  forallb (fun e => negb (is_converted (fst e))) (map (fun e => (Verbatim (fst e), snd e)) es) = true.
Proof. induction es; auto. Qed.
Lemma all_converted (es : list (expr * expr)) :
  forallb (fun e => is_converted (fst e)) (map (fun e => (Converted (fst e), snd e)) es) = true.
Proof. induction es; auto. Qed.

Lemma vec_said {K} (key_of : expr -> K) (value_of : expr -> V) t x :
  vec_of key_of value_of (should_say t input_ty entries x) = meaning key_of value_of entries.
Proof.
  unfold vec_of, meaning. destruct x; cbn [should_say st_entries]; rewrite map_map; apply map_ext; intros e; destruct t; reflexivity.
Qed.

Lemma size_said t n c : size_type (should_say t input_ty entries (XPlain n (payload_size c))) = Some (payload_size c).
Proof. exact (size_read ty c). Qed.
Lemma size_said_ranged t n c a b : size_type (should_say t input_ty entries (XRanged n (payload_size c) a b)) = Some (payload_size c).
Proof. exact (size_read ty c). Qed.

Lemma plain_compiles t n S_ty : compiles (should_say t input_ty entries (XPlain n S_ty)) =
  match n with NIntegerRangeMap | NLeftSliceMap | NRightSliceMap => false | _ => true end.
Proof.
  destruct t, n; cbn -[forallb]; rewrite ?all_verbatim, ?all_converted; reflexivity.
Qed.
Lemma ranged_compiles t n S_ty a b : compiles (should_say t input_ty entries (XRanged n S_ty a b)) =
  match n with NLeftSliceMap | NRightSliceMap => true | _ => false end.
Proof.
  destruct t, n; cbn -[forallb]; rewrite ?all_verbatim, ?all_converted; reflexivity.
Qed.
End Said.

(** ** Running *)

Lemma expansion_shape {O} pr h t (keys : list (literal O)) x : frozen_map_macro pr h t keys = Ok x ->
  x = XScanning \/
  (exists n, x = XPlain n (payload_size (zlen keys)) /\ n <> NLeftSliceMap /\ n <> NRightSliceMap) \/
  (exists n a b, x = XRanged n (payload_size (zlen keys)) a b /\ (n = NLeftSliceMap \/ n = NRightSliceMap)).
Proof.
  unfold frozen_map_macro. destruct (_ <? 3); intros Hx; [left; congruence|right]. apply bind_ok in Hx.
  destruct Hx as ([[v ia] sa] & Ha & Hx). unfold analyze_literals in Ha.
  destruct t; [apply bind_ok in Ha; destruct Ha as (ia' & _ & Ha)|apply bind_ok in Ha; destruct Ha as (sa' & _ & Ha)|];
    injection Ha as <- <- <-; injection Hx as <-.
  - left. eexists. split; [reflexivity|]. destruct ia'; split; discriminate.
  - destruct sa'; cbn [choose_map];
      first [left; eexists; (split; [reflexivity|split; discriminate]) | right; eexists _, _, _; split; [reflexivity|auto]].
  - left. eexists. split; [reflexivity|]. split; discriminate.
Qed.

Lemma execute_int_start {ty expr V BH O} E (bh : BH) it hash (input_ty : ty) (entries : list (expr * expr)) (key_of : expr -> Z)
    (value_of : expr -> V) pr h (keys : list (literal O)) x :
  frozen_map_macro pr h (TInt it) keys = Ok x ->
  execute_int E bh it hash key_of value_of (should_say (TInt it) input_ty entries x) = start_int E it x (meaning key_of value_of entries).
Proof.
  intros Hx.
  assert (Hn : forall n s, x = XPlain n s -> n = NIntegerMap \/ n = NIntegerRangeMap).
  { intros n s ->. unfold frozen_map_macro in Hx. destruct (_ <? 3); [discriminate|]. apply bind_ok in Hx.
    destruct Hx as ([[v ia] sa] & Ha & Hx). apply bind_ok in Ha. destruct Ha as (ia' & _ & Ha). injection Ha as <- <- <-.
    injection Hx as <- _. destruct ia'; auto. }
  destruct (expansion_shape _ _ _ _ _ Hx) as [->|[(n & -> & _)|(n & a & b & -> & _)]].
  - unfold execute_int. rewrite vec_said. reflexivity.
  - unfold execute_int. rewrite vec_said, plain_compiles, size_said. destruct (Hn _ _ eq_refl) as [->| ->]; reflexivity.
  - exfalso. unfold frozen_map_macro in Hx. destruct (_ <? 3); [discriminate|]. apply bind_ok in Hx.
    destruct Hx as ([[v ia] sa] & Ha & Hx). apply bind_ok in Ha. destruct Ha as (ia' & _ & Ha). injection Ha as <- <- <-. discriminate.
Qed.

Lemma execute_str_start {ty expr V BH O} E (bh : BH) hs hw (input_ty : ty) (entries : list (expr * expr)) (key_of : expr -> bytes)
    (value_of : expr -> V) pr h (keys : list (literal O)) x :
  frozen_map_macro pr h TStr keys = Ok x ->
  execute_str E bh hs hw key_of value_of (should_say TStr input_ty entries x) = start_str hs hw E bh x (meaning key_of value_of entries).
Proof.
  intros Hx.
  assert (Hn : forall n s, x = XPlain n s -> n = NCommonMap \/ n = NLengthMap).
  { intros n s ->. unfold frozen_map_macro in Hx. destruct (_ <? 3); [discriminate|]. apply bind_ok in Hx.
    destruct Hx as ([[v ia] sa] & Ha & Hx). apply bind_ok in Ha. destruct Ha as (sa' & _ & Ha). injection Ha as <- <- <-.
    destruct sa'; try discriminate; injection Hx as <- _; auto. }
  destruct (expansion_shape _ _ _ _ _ Hx) as [->|[(n & -> & _)|(n & a & b & -> & Hr)]].
  - unfold execute_str. rewrite vec_said. reflexivity.
  - unfold execute_str. rewrite vec_said, plain_compiles, size_said. destruct (Hn _ _ eq_refl) as [->| ->]; reflexivity.
  - unfold execute_str. rewrite vec_said, ranged_compiles, size_said_ranged. destruct Hr as [->| ->]; reflexivity.
Qed.

Lemma execute_other_start {ty expr K V BH O} E (bh : BH) eqb hash (input_ty : ty) (entries : list (expr * expr)) (key_of : expr -> K)
    (value_of : expr -> V) pr h (keys : list (literal O)) x :
  frozen_map_macro pr h TOther keys = Ok x ->
  execute_other E bh eqb hash key_of value_of (should_say TOther input_ty entries x) =
  start_other eqb hash E bh x (meaning key_of value_of entries).
Proof.
  intros Hx. unfold frozen_map_macro in Hx. destruct (_ <? 3); injection Hx as <-.
  - unfold execute_other. rewrite vec_said. reflexivity.
  - unfold execute_other. rewrite vec_said, plain_compiles, size_said. reflexivity.
Qed.

(** ** C95 *)

Lemma integer_call_runs :
  forall (T ty expr O V : Type) (parse_type : list (token T) -> option (ty * list (token T)))
    (parse_expr : list (token T) -> option (expr * list (token T))) (text : expr -> list (token T)) (type_text : list (token T)) (t : ty)
    (classify : ty -> macro_type) (literal_of : expr -> literal O) (pr : profile) (h : list Z -> Z)
    (it : int_type) (key_of : expr -> Z) (value_of : expr -> V) (entries : list (expr * expr)) (trailing : bool),
  reads_back parse_type parse_expr text type_text t -> classify t = TInt it -> 1 <= bits it ->
  (forall e, In e entries -> literal_of (fst e) = LInt (key_of (fst e)) /\ imin it <= key_of (fst e) <= imax it) ->
  let payload := meaning key_of value_of entries in
  let keys := map fst payload in
  let output := frozen_map_output parse_type parse_expr classify literal_of pr h (written_call text type_text trailing entries) in
  NoDup keys -> zlen keys < 2 ^ 31 ->
  (3 <= zlen keys /\ pr = Checked /\ too_wide it keys /\ output = Some (Some (Panic POverflow))) \/
  ((zlen keys < 3 \/ pr = Wrapping \/ ~ too_wide it keys) /\
   exists code st, output = Some (Some (Ok code)) /\ read_block code = Some st /\
   ((3 <= zlen keys < 2 ^ bits it /\ consecutive keys /\
       forall (BH : Type) (E : env) (bh : BH) (hash : BH -> Z -> Z), execute_int E bh it hash key_of value_of st = None) \/
    ((zlen keys < 3 \/ ~ consecutive keys \/ zlen keys = 2 ^ bits it) /\
       forall (BH : Type) (E : env) (bh : BH) (hash : BH -> Z -> Z), env_ok E ->
       exists runs, execute_int E bh it hash key_of value_of st = Some (Ok runs) /\
         forall history, Forall2 same_obs (runs history) (object_run Z.eqb (fun k => k) payload history)))).
Proof.
  intros T ty expr O V parse_type parse_expr text type_text t classify literal_of pr h it key_of value_of entries trailing
    Hread Hc Hb Hl payload keys output Hd Hn.
  assert (Hlit : map (fun e => literal_of (fst e)) entries = map (fun e => @LInt O (fst e)) payload).
  { unfold payload, meaning. rewrite map_map. apply map_ext_in. intros e He. apply Hl, He. }
  assert (Hin : forall k, In k (map fst payload) -> imin it <= k <= imax it).
  { intros k Hk. unfold payload, meaning in Hk. rewrite map_map in Hk. apply in_map_iff in Hk. destruct Hk as (e & <- & He). apply Hl, He. }
  assert (Ho : output = Some (Some (emit classify literal_of pr h {| pm_ty := t; pm_entries := entries |}))) by now apply output_written.
  destruct (emitted_code ty expr O classify literal_of pr h {| pm_ty := t; pm_entries := entries |}) as (Hok & Hpanic & _).
  cbn [pm_ty pm_entries] in *. rewrite Hc, Hlit in Hok, Hpanic.
  assert (Hn' : zlen payload < 2 ^ 31) by (unfold keys in Hn; now rewrite zlen_map in Hn).
  destruct (macro_int O V pr h it payload Hb Hin Hd Hn') as [(H3 & Hpr & Hw & Hx)|[(H3 & Hpr & Hcs & Hlt & x & Hx & Hrun)|(Hcase & x & Hx & Hrun)]].
  - left. repeat split; auto. rewrite Ho. now rewrite (Hpanic _ Hx).
  - right. split; [tauto|]. destruct (Hok x Hx) as (code & He & Hr). exists code, (should_say (TInt it) t entries x).
    split; [now rewrite Ho, He|]. split; auto. left. split; [auto|]. split; auto. intros BH E bh hash.
    rewrite (execute_int_start E bh it hash t entries key_of value_of pr h _ x Hx). fold payload.
    specialize (Hrun E). unfold run_int in Hrun. unfold start_int. destruct x as [|[] ?|]; auto; discriminate.
  - right. split; [tauto|]. destruct (Hok x Hx) as (code & He & Hr). exists code, (should_say (TInt it) t entries x).
    split; [now rewrite Ho, He|]. split; auto. right. split; [fold keys in Hcase; tauto|]. intros BH E bh hash HE.
    rewrite (execute_int_start E bh it hash t entries key_of value_of pr h _ x Hx). fold payload.
    destruct (macro_int_history O V pr h it payload x Hb Hin Hd Hn' Hx E HE) as [(_ & H3 & Hcs)|(_ & H)]; auto.
    rewrite !zlen_map in Hcase. exfalso. destruct Hcase as [Hcase|(_ & [Hcase|Hcase])]; [lia|contradiction|lia].
Qed.

Lemma string_call_runs :
  forall (T ty expr O V : Type) (parse_type : list (token T) -> option (ty * list (token T)))
    (parse_expr : list (token T) -> option (expr * list (token T))) (text : expr -> list (token T)) (type_text : list (token T)) (t : ty)
    (classify : ty -> macro_type) (literal_of : expr -> literal O) (pr : profile) (h : list Z -> Z)
    (key_of : expr -> list Z) (value_of : expr -> V) (entries : list (expr * expr)) (trailing : bool),
  reads_back parse_type parse_expr text type_text t -> classify t = TStr ->
  (forall e, In e entries -> literal_of (fst e) = LStr (key_of (fst e)) /\ zlen (key_of (fst e)) < 2 ^ 64) ->
  let payload := meaning key_of value_of entries in
  let keys := map fst payload in
  let output := frozen_map_output parse_type parse_expr classify literal_of pr h (written_call text type_text trailing entries) in
  distinct bytes_eqb keys -> zlen keys < 2 ^ 31 ->
  (string_panic h keys /\ output = Some (Some (Panic PIndexOutOfBounds))) \/
  (~ string_panic h keys /\
   exists code st, output = Some (Some (Ok code)) /\ read_block code = Some st /\
   forall (BH : Type) (E : env) (bh : BH) (hash_string hash_write : BH -> list Z -> Z), env_ok E ->
     (string_ub h keys /\ execute_str E bh hash_string hash_write key_of value_of st = Some (UB OutOfBounds)) \/
     (~ string_ub h keys /\
      exists runs, execute_str E bh hash_string hash_write key_of value_of st = Some (Ok runs) /\
        forall history, Forall2 same_obs (runs history) (object_run bytes_eqb (fun k => k) payload history))).
Proof.
  intros T ty expr O V parse_type parse_expr text type_text t classify literal_of pr h key_of value_of entries trailing
    Hread Hc Hl payload keys output Hd Hn.
  assert (Hlit : map (fun e => literal_of (fst e)) entries = map (fun e => @LStr O (fst e)) payload).
  { unfold payload, meaning. rewrite map_map. apply map_ext_in. intros e He. apply Hl, He. }
  assert (Hin : forall k, In k (map fst payload) -> zlen k < 2 ^ 64).
  { intros k Hk. unfold payload, meaning in Hk. rewrite map_map in Hk. apply in_map_iff in Hk. destruct Hk as (e & <- & He). apply Hl, He. }
  assert (Ho : output = Some (Some (emit classify literal_of pr h {| pm_ty := t; pm_entries := entries |}))) by now apply output_written.
  destruct (emitted_code ty expr O classify literal_of pr h {| pm_ty := t; pm_entries := entries |}) as (Hok & Hpanic & _).
  cbn [pm_ty pm_entries] in *. rewrite Hc, Hlit in Hok, Hpanic.
  assert (Hn' : zlen payload < 2 ^ 31) by (unfold keys in Hn; now rewrite zlen_map in Hn).
  destruct (macro_str O V pr h payload Hin Hd Hn') as [(Hu & Hp & x & Hx & _)|[(Hu & x & Hx & Hrun)|(Hp & Hx)]].
  - right. split; auto. destruct (Hok x Hx) as (code & He & Hr). exists code, (should_say TStr t entries x).
    split; [now rewrite Ho, He|]. split; auto. intros BH E bh hs hw HE. right. split; auto.
    rewrite (execute_str_start E bh hs hw t entries key_of value_of pr h _ x Hx). fold payload.
    now apply (macro_str_history O V pr h payload x).
  - right. split; [intros (_ & H & _); destruct Hu; contradiction|].
    destruct (Hok x Hx) as (code & He & Hr). exists code, (should_say TStr t entries x).
    split; [now rewrite Ho, He|]. split; auto. intros BH E bh hs hw HE. left. split; auto.
    rewrite (execute_str_start E bh hs hw t entries key_of value_of pr h _ x Hx). fold payload.
    specialize (Hrun BH hs hw E bh). unfold run_str in Hrun. unfold start_str.
    destruct x as [|[] S_ty|[] S_ty a b]; try discriminate; injection Hrun as Hrun; f_equal;
      match type of Hrun with bind ?r _ = _ => destruct r; try discriminate; cbn [bind] in *; congruence end.
  - left. split; auto. rewrite Ho. now rewrite (Hpanic _ Hx).
Qed.

Lemma other_call_runs :
  forall (T ty expr O K V : Type) (parse_type : list (token T) -> option (ty * list (token T)))
    (parse_expr : list (token T) -> option (expr * list (token T))) (text : expr -> list (token T)) (type_text : list (token T)) (t : ty)
    (classify : ty -> macro_type) (literal_of : expr -> literal O) (pr : profile) (h : list Z -> Z)
    (eqb : K -> K -> bool) (key_of : expr -> K) (value_of : expr -> V) (entries : list (expr * expr)) (trailing : bool),
  reads_back parse_type parse_expr text type_text t -> classify t = TOther -> equivalence eqb ->
  let payload := meaning key_of value_of entries in
  let keys := map fst payload in
  distinct eqb keys -> zlen keys < 2 ^ 31 ->
  exists code st,
    frozen_map_output parse_type parse_expr classify literal_of pr h (written_call text type_text trailing entries) = Some (Some (Ok code)) /\
    read_block code = Some st /\
    forall (BH : Type) (E : env) (bh : BH) (hash : BH -> K -> Z), env_ok E -> (forall a b, eqb a b = true -> hash bh a = hash bh b) ->
    exists runs, execute_other E bh eqb hash key_of value_of st = Some (Ok runs) /\
      forall history, Forall2 same_obs (runs history) (object_run eqb (fun k => k) payload history).
Proof.
  intros T ty expr O K V parse_type parse_expr text type_text t classify literal_of pr h eqb key_of value_of entries trailing
    Hread Hc He payload keys Hd Hn.
  destruct (emitted_code ty expr O classify literal_of pr h {| pm_ty := t; pm_entries := entries |}) as (Hok & _ & _).
  cbn [pm_ty pm_entries] in *. rewrite Hc in Hok.
  assert (Hn' : zlen payload < 2 ^ 31) by (unfold keys in Hn; now rewrite zlen_map in Hn).
  assert (Hz : zlen entries = zlen payload) by (unfold payload, meaning; now rewrite zlen_map).
  destruct (macro_other K V eqb pr h payload He Hd Hn') as (x & Hx & _).
  assert (Hx' : frozen_map_macro pr h TOther (map (fun e => literal_of (fst e)) entries) = Ok x).
  { clear Hok. unfold frozen_map_macro in Hx |- *. rewrite zlen_map in Hx. rewrite zlen_map, Hz. exact Hx. }
  destruct (Hok x Hx') as (code & Hem & Hr). exists code, (should_say TOther t entries x).
  split; [erewrite output_written by exact Hread; now rewrite Hem|]. split; auto. intros BH E bh hash HE Hh.
  rewrite (execute_other_start E bh eqb hash t entries key_of value_of pr h _ x Hx'). fold payload.
  now apply (macro_other_history K V eqb pr h payload x).
Qed.

(** Any argument at all. *)
Lemma call_output :
  forall (T ty expr O : Type) (parse_type : list (token T) -> option (ty * list (token T)))
    (parse_expr : list (token T) -> option (expr * list (token T)))
    (classify : ty -> macro_type) (literal_of : expr -> literal O) (pr : profile) (h : list Z -> Z)
    (args : list (token T)),
  (forall ts x rest, parse_expr ts = Some (x, rest) -> (length rest < length ts)%nat) ->
  let output := frozen_map_output parse_type parse_expr classify literal_of pr h args in
  let means t es := exists rest, parse_type args = Some (t, Comma :: rest) /\ reads_entries parse_expr rest es in
  (exists t es, means t es /\
     let outcome := frozen_map_macro pr h (classify t) (map (fun e => literal_of (fst e)) es) in
     (forall x, outcome = Ok x ->
        exists code, output = Some (Some (Ok code)) /\ read_block code = Some (should_say (classify t) t es x)) /\
     (forall p, outcome = Panic p -> output = Some (Some (Panic p))) /\
     (forall code, output = Some (Some (Ok code)) -> exists x, outcome = Ok x)) \/
  ((forall t es, ~ means t es) /\ output = Some None).
Proof.
  intros T ty expr O parse_type parse_expr classify literal_of pr h args Hs output means.
  unfold output, frozen_map_output, parse_map. destruct (parse_type args) as [[t in1]|] eqn:E1.
  2:{ right. split; auto. intros t es (rest & H & _). congruence. }
  destruct in1 as [|[| |x] in2]; cbn [parse_comma].
  1,3,4: right; split; auto; intros t' es (rest & H & _); congruence.
  destruct (parse_entries_reads parse_expr Hs (S (length in2)) in2) as (r & -> & Hr); [lia|].
  destruct r as [es|]; [left|right].
  - exists t, es. split; [exists in2; split; auto; now apply Hr|].
    destruct (emitted_code ty expr O classify literal_of pr h {| pm_ty := t; pm_entries := es |}) as (H1 & H2 & H3).
    cbn [pm_ty pm_entries] in *. split; [|split].
    + intros x Hx. destruct (H1 x Hx) as (code & -> & H). eauto.
    + intros p Hp. now rewrite (H2 p Hp).
    + intros code H. injection H as H. eauto.
  - split; auto. intros t' es (rest & H & H'). injection H as <- <-. apply Hr in H'. discriminate.
Qed.
