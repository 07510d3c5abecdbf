(** Calls of [frozen_map!] and the maps they build. *)
From Coq Require Import List ZArith Bool Arith Lia.
From Verif Require Import Spec MapSpec Base BaseLemmas EqbLists IntKeyAnalyzer SliceKeyAnalyzer HashTable Maps
  MapsProofs BuildSound ComponentTheorems HistorySpec ObjectSpec MapObjects MapObjectProofs MacroModel MacroProofs MacroParse ParseSpec.
Import ListNotations.
Open Scope Z_scope.

(** ** Calls as they are written *)

Section Parser.
Context {T ty expr : Type}.
Notation token := (token T).

Variable parse_type : list token -> option (ty * list token).
Variable parse_expr : list token -> option (expr * list token).

Lemma parse_entries_text (text : expr -> list token) (trailing : bool) (es : list (expr * expr)) fuel :
  (forall e, text e <> []) ->
  (forall e rest, ends_here rest -> parse_expr (text e ++ rest) = Some (e, rest)) ->
  (length es < fuel)%nat ->
  parse_entries parse_expr fuel (entries_text text trailing es) = Some (Some es).
Proof.
  intros Hne Hp. revert fuel. induction es as [|e es IH]; intros fuel Hf; (destruct fuel as [|fuel]; cbn [length] in Hf; [lia|]).
  - reflexivity.
  - assert (H : exists c, entries_text text trailing (e :: es) = entry_text text c e ++ entries_text text trailing es /\
       (c = false -> es = [])).
    { destruct es as [|e2 es]; [exists trailing; cbn [entries_text]; now rewrite app_nil_r|exists true; split; [reflexivity|discriminate]]. }
    destruct H as (c & -> & Hc). unfold entry_text. rewrite <- !app_assoc. cbn [app]. rewrite <- !app_assoc.
    set (tail := (if c then [Comma] else []) ++ entries_text text trailing es).
    assert (Ht : ends_here tail /\ skip_comma tail = entries_text text trailing es).
    { unfold tail. destruct c; [split; reflexivity|]. rewrite (Hc eq_refl). split; reflexivity. }
    destruct Ht as (Ht & Hs). cbn [parse_entries].
    destruct (text (fst e) ++ Colon :: text (snd e) ++ tail) as [|t0 ts0] eqn:E0.
    { destruct (text (fst e)) eqn:E1; [now apply Hne in E1|discriminate]. }
    rewrite <- E0. unfold parse_entry. rewrite Hp by exact I. cbn [parse_colon]. rewrite Hp by exact Ht.
    rewrite Hs, IH by lia. destruct e; reflexivity.
Qed.

Lemma entries_text_length (text : expr -> list token) trailing es : (length es <= length (entries_text text trailing es))%nat.
Proof.
  induction es as [|e es IH]; [auto|]. destruct es as [|e2 es].
  - cbn [entries_text]. unfold entry_text. rewrite !app_length. cbn [length]. lia.
  - cbn [entries_text] in *. rewrite app_length. unfold entry_text at 1. rewrite !app_length. cbn [length] in *. lia.
Qed.
End Parser.

(** C57: a call written as a type, a comma, and entries [key : value] separated by commas, with
    or without a comma at the end, is understood as such. *)
Lemma macro_call_written :
  forall (T ty expr O : Type) (parse_type : list (token T) -> option (ty * list (token T)))
    (parse_expr : list (token T) -> option (expr * list (token T)))
    (classify : ty -> macro_type) (literal_of : expr -> literal O) (pr : profile) (h : list Z -> Z)
    (text : expr -> list (token T)) (type_text : list (token T)) (t : ty)
    (entries : list (expr * expr)) (trailing : bool),
  (forall rest, parse_type (type_text ++ Comma :: rest) = Some (t, Comma :: rest)) ->
  (forall e, text e <> []) ->
  (forall e rest, ends_here rest -> parse_expr (text e ++ rest) = Some (e, rest)) ->
  frozen_map_call parse_type parse_expr classify literal_of pr h
    (type_text ++ Comma :: entries_text text trailing entries) =
  Expanded (frozen_map_macro pr h (classify t) (map (fun e => literal_of (fst e)) entries)).
Proof.
  intros T ty expr O parse_type parse_expr classify literal_of pr h text type_text t entries trailing Ht Hne Hp.
  unfold frozen_map_call, parse_map. rewrite Ht. cbn [parse_comma].
  rewrite parse_entries_text; auto. pose proof (entries_text_length text trailing entries). lia.
Qed.

Lemma parse_entries_reads {T expr} (parse_expr : list (token T) -> option (expr * list (token T))) :
  (forall ts x rest, parse_expr ts = Some (x, rest) -> (length rest < length ts)%nat) ->
  forall fuel ts, (length ts < fuel)%nat ->
  exists r, parse_entries parse_expr fuel ts = Some r /\ (forall es, r = Some es <-> reads_entries parse_expr ts es).
Proof.
  intros Hs. induction fuel as [|fuel IH]; intros ts Hf; [lia|]. cbn [parse_entries]. destruct ts as [|t0 ts0] eqn:E0.
  { eexists. split; [reflexivity|]. intros es. split.
    - intros H. injection H as <-. constructor.
    - intros H. inversion H; subst; auto. apply Hs in H0. cbn in H0. lia. }
  rewrite <- E0 in *. assert (Hnn : ts <> []) by (subst; discriminate).
  unfold parse_entry. destruct (parse_expr ts) as [[k in1]|] eqn:E1.
  2:{ eexists. split; [reflexivity|]. intros es. split; [discriminate|]. intros H. inversion H; subst; congruence. }
  pose proof (Hs _ _ _ E1) as L1.
  destruct in1 as [|[| |x] in2]; cbn [parse_colon].
  1,2,4: eexists; (split; [reflexivity|]); intros es; (split; [discriminate|]); intros H; inversion H; subst; congruence.
  destruct (parse_expr in2) as [[v in3]|] eqn:E2.
  2:{ eexists. split; [reflexivity|]. intros es. split; [discriminate|]. intros H. inversion H; subst; congruence. }
  pose proof (Hs _ _ _ E2) as L2. cbn [length] in L1.
  assert (L3 : (length (skip_comma in3) <= length in3)%nat) by (destruct in3 as [|[| |]]; cbn; lia).
  assert (Hsk : forall rest, (in3 = Comma :: rest \/ in3 = rest /\ forall r, in3 <> Comma :: r) <-> rest = skip_comma in3).
  { intros rest. destruct in3 as [|[| |x] in3]; cbn [skip_comma]; split.
    all: try (intros [H|(H & Hn)]; [congruence|try congruence; now destruct (Hn in3)]).
    all: intros ->; try (now left).
    all: right; split; [reflexivity|discriminate]. }
  destruct (IH (skip_comma in3)) as (r & -> & Hr); [lia|]. destruct r as [es'|].
  - eexists. split; [reflexivity|]. intros es. split.
    + intros H. injection H as <-. eapply reads_entry; [exact E1|exact E2|now apply Hsk|now apply Hr].
    + intros H. inversion H; subst; [congruence|]. rewrite E1 in H0. injection H0 as <- <-.
      rewrite E2 in H1. injection H1 as <- <-. apply Hsk in H2. subst rest. apply Hr in H3. congruence.
  - eexists. split; [reflexivity|]. intros es. split; [discriminate|].
    intros H. inversion H; subst; [congruence|]. rewrite E1 in H0. injection H0 as <- <-.
    rewrite E2 in H1. injection H1 as <- <-. apply Hsk in H2. subst rest. apply Hr in H3. congruence.
Qed.

(** C57, conversely: a call that expands consists of a type, a comma and entries, each a key, a
    colon and a value followed by at most one comma, and nothing else. *)
Lemma macro_call_understood :
  forall (T ty expr O : Type) (parse_type : list (token T) -> option (ty * list (token T)))
    (parse_expr : list (token T) -> option (expr * list (token T)))
    (classify : ty -> macro_type) (literal_of : expr -> literal O) (pr : profile) (h : list Z -> Z)
    (args : list (token T)),
  (forall ts x rest, parse_expr ts = Some (x, rest) -> (length rest < length ts)%nat) ->
  let result := frozen_map_call parse_type parse_expr classify literal_of pr h args in
  let means t es := exists rest, parse_type args = Some (t, Comma :: rest) /\ reads_entries parse_expr rest es in
  (exists t es, means t es /\
     result = Expanded (frozen_map_macro pr h (classify t) (map (fun e => literal_of (fst e)) es))) \/
  ((forall t es, ~ means t es) /\ result = SyntaxError).
Proof.
  intros T ty expr O parse_type parse_expr classify literal_of pr h args Hs result means.
  unfold result, frozen_map_call, parse_map. destruct (parse_type args) as [[t in1]|] eqn:E1.
  2:{ right. split; auto. intros t es (rest & H & _). congruence. }
  destruct in1 as [|[| |x] in2]; cbn [parse_comma].
  1,3,4: right; split; auto; intros t' es (rest & H & _); congruence.
  destruct (parse_entries_reads parse_expr Hs (S (length in2)) in2) as (r & -> & Hr); [lia|].
  destruct r as [es|]; [left|right].
  - exists t, es. split; [|reflexivity]. exists in2. split; auto. now apply Hr.
  - split; auto. intros t' es (rest & H & H'). injection H as <- <-. apply Hr in H'. discriminate.
Qed.

(** ** The maps built by the expansion *)

(** C58 *)
Lemma macro_int_history :
  forall (O V : Type) (pr : profile) (h : list Z -> Z) (ty : int_type) (payload : list (Z * V)) (x : expansion),
  1 <= bits ty -> (forall k, In k (map fst payload) -> imin ty <= k <= imax ty) ->
  NoDup (map fst payload) -> zlen payload < 2 ^ 31 ->
  frozen_map_macro pr h (TInt ty) (map (fun e => @LInt O (fst e)) payload) = Ok x ->
  forall E, env_ok E ->
  (start_int E ty x payload = None /\
     3 <= zlen payload < 2 ^ bits ty /\ consecutive (map fst payload)) \/
  ((zlen payload < 3 \/ ~ consecutive (map fst payload) \/ zlen payload = 2 ^ bits ty) /\
     exists runs, start_int E ty x payload = Some (Ok runs) /\
     forall history, Forall2 same_obs (runs history) (object_run Z.eqb (fun k => k) payload history)).
Proof.
  intros O V pr h ty payload x Hb Hin Hd Hn Hx E HE.
  destruct (macro_int O V pr h ty payload Hb Hin Hd Hn) as [(_ & _ & _ & H)|[(H3 & _ & Hc & Hl & x' & H & Hrun)|(Hcase & x' & H & Hrun)]];
    rewrite H in Hx; try discriminate; injection Hx as ->; rewrite zlen_map in *.
  - left. split; [|auto]. specialize (Hrun E). unfold run_int in Hrun. unfold start_int.
    destruct x as [|[] ?|]; auto; discriminate.
  - right. split; [tauto|]. destruct (Hrun E HE) as (g & Hg & _). unfold run_int in Hg. unfold start_int.
    destruct x as [|[] S_ty|]; try discriminate.
    + eexists. split; [reflexivity|].
      apply (scanning_map_history Z V Z (prof E) Z.eqb (fun k => k) payload Z_equiv); [lia|].
      now apply NoDup_distinct.
    + unfold frozen_map_macro in H. rewrite zlen_map in H. destruct (_ <? 3); [discriminate|].
      apply bind_ok in H. destruct H as ([[variety ia] sa] & Ha & H).
      assert (S_ty = payload_size (zlen payload)) as -> by (destruct sa; congruence).
      destruct (integer_map_history V E (payload_size (zlen payload)) payload HE) as (m & -> & Hm); auto.
      { apply payload_size_fits. pose proof (zlen_nonneg payload). lia. }
      cbn [bind]. eauto.
Qed.

Lemma macro_str_history :
  forall (O V : Type) (pr : profile) (h : list Z -> Z) (payload : list (list Z * V)) (x : expansion),
  (forall s, In s (map fst payload) -> zlen s < 2 ^ 64) ->
  distinct bytes_eqb (map fst payload) -> zlen payload < 2 ^ 31 -> ~ string_ub h (map fst payload) ->
  frozen_map_macro pr h TStr (map (fun e => @LStr O (fst e)) payload) = Ok x ->
  forall (BH : Type) (hash_string hash_write : BH -> list Z -> Z) (E : env) (bh : BH), env_ok E ->
  exists runs, start_str hash_string hash_write E bh x payload = Some (Ok runs) /\
    forall history, Forall2 same_obs (runs history) (object_run bytes_eqb (fun k => k) payload history).
Proof.
  intros O V pr h payload x H64 Hd Hn Hnu Hx BH hs hw E bh HE. unfold frozen_map_macro in Hx. rewrite zlen_map in Hx.
  pose proof (zlen_nonneg payload) as Hnn.
  destruct (Z.ltb_spec (zlen payload) 3) as [H3|H3].
  { injection Hx as <-. eexists. split; [reflexivity|].
    apply (scanning_map_history _ V _ (prof E) bytes_eqb (fun k => k) payload bytes_equiv); [lia|exact Hd]. }
  assert (Hfit : fits (payload_size (zlen payload)) (zlen payload)) by (apply payload_size_fits; lia).
  apply bind_ok in Hx. destruct Hx as ([[variety ia] sa] & Ha & Hx). cbn [analyze_literals] in Ha.
  unfold process_string_keys in Ha. rewrite parse_strs in Ha. cbn [bind] in Ha.
  apply bind_ok in Ha. destruct Ha as (r & Hr & Ha). injection Ha as <- <- <-.
  pose proof (analyze_slice_keys_range h _ r Hr) as Hrange.
  destruct (analyze_slice_keys_outcome h (map fst payload)) as [(r' & Hr' & Hnr & _)|[(Hu & _)|(_ & Hr')]]; auto;
    try (unfold zlen in *; rewrite ?map_length; change (2 ^ 52) with 4503599627370496; lia); [|contradiction|congruence].
  assert (r' = r) by congruence. subst r'.
  destruct r as [|i l|i l|]; try contradiction; cbn [choose_map] in Hx; injection Hx as <-; cbn [start_str].
  - destruct (common_map_history _ V _ BH bytes_eqb (fun k => k) hs hs E (payload_size (zlen payload)) payload bh)
      as (m & -> & Hm); auto.
    { apply bytes_equiv. }
    { intros a b Hab. apply bytes_eqb_eq in Hab. now subst. }
    cbn [bind]. eauto.
  - destruct Hrange as (Hi & Hl & _ & Hs).
    destruct (left_slice_map_history V BH hw E (payload_size (zlen payload)) payload i (i + l) bh)
      as (m & -> & Hm); auto; try lia.
    { now apply (distinct_NoDup bytes_eqb bytes_equiv). }
    cbn [bind]. eauto.
  - destruct (length_map_history _ V _ bytes_eqb (fun k => k) zlen zlen E (payload_size (zlen payload)) payload)
      as (m & -> & Hm); auto.
    { apply bytes_equiv. }
    { intros a b Hab. apply bytes_eqb_eq in Hab. now subst. }
    cbn [bind]. eauto.
Qed.

Lemma macro_other_history :
  forall (O V : Type) (eqbO : O -> O -> bool) (pr : profile) (h : list Z -> Z) (payload : list (O * V)) (x : expansion),
  equivalence eqbO -> distinct eqbO (map fst payload) -> zlen payload < 2 ^ 31 ->
  frozen_map_macro pr h TOther (map (fun e => LExpr (fst e)) payload) = Ok x ->
  forall (BH : Type) (hash : BH -> O -> Z) (E : env) (bh : BH), env_ok E ->
  (forall a b, eqbO a b = true -> hash bh a = hash bh b) ->
  exists runs, start_other eqbO hash E bh x payload = Some (Ok runs) /\
    forall history, Forall2 same_obs (runs history) (object_run eqbO (fun k => k) payload history).
Proof.
  intros O V eqbO pr h payload x He Hd Hn Hx BH hash E bh HE Hh. unfold frozen_map_macro in Hx. rewrite zlen_map in Hx.
  pose proof (zlen_nonneg payload) as Hnn.
  destruct (Z.ltb_spec (zlen payload) 3) as [H3|H3]; injection Hx as <-.
  { eexists. split; [reflexivity|].
    apply (scanning_map_history O V O (prof E) eqbO (fun k => k) payload He); [lia|exact Hd]. }
  cbn [start_other choose_map].
  destruct (common_map_history O V O BH eqbO (fun k => k) hash hash E (payload_size (zlen payload)) payload bh)
    as (m & -> & Hm); auto.
  { apply payload_size_fits. lia. }
  cbn [bind]. eauto.
Qed.

(** ** Keys that are not literals of the type *)

Lemma mapM_fails {A B} (f : A -> res B) p l x :
  (forall a, In a l -> f a = Panic p \/ exists b, f a = Ok b) -> In x l -> f x = Panic p -> mapM f l = Panic p.
Proof.
  intros Hf Hx Hp. induction l as [|a l IH]; [contradiction|]. cbn [mapM].
  destruct (Hf a (or_introl eq_refl)) as [ -> |(b & Hb)]; [reflexivity|].
  destruct Hx as [->|Hx]; [congruence|]. rewrite Hb. cbn [bind]. rewrite IH; auto. intros c Hc. apply Hf. now right.
Qed.

(** C60 *)
Lemma macro_literals :
  forall (O : Type) (pr : profile) (h : list Z -> Z) (keys : list (literal O)),
  (zlen keys < 3 -> forall ty, frozen_map_macro pr h ty keys = Ok XScanning) /\
  (3 <= zlen keys ->
   (forall t k, In k keys -> ~ (exists z, k = LInt z /\ imin t <= z <= imax t) ->
      frozen_map_macro pr h (TInt t) keys = Panic PUnwrapNone) /\
   (forall k, In k keys -> ~ (exists s, k = LStr s) ->
      frozen_map_macro pr h TStr keys = Panic PUnwrapNone) /\
   exists S_ty, frozen_map_macro pr h TOther keys = Ok (XPlain NCommonMap S_ty)).
Proof.
  intros O pr h keys. unfold frozen_map_macro. split; [|intros H3; split; [|split]].
  - intros H ty. apply Z.ltb_lt in H. now rewrite H.
  - intros t k Hin Hno. rewrite (proj2 (Z.ltb_ge _ _)) by lia. cbn [analyze_literals]. unfold process_int_keys.
    rewrite (mapM_fails _ PUnwrapNone _ k); auto.
    + intros [z|s|o] _; auto. destruct (in_type t z); eauto.
    + destruct k as [z|s|o]; auto. destruct (in_type t z) eqn:E; auto. exfalso. apply Hno. exists z. split; auto.
      unfold in_type in E. lia.
  - intros k Hin Hno. rewrite (proj2 (Z.ltb_ge _ _)) by lia. cbn [analyze_literals]. unfold process_string_keys.
    rewrite (mapM_fails _ PUnwrapNone _ k); auto.
    + intros [z|s|o] _; eauto.
    + destruct k as [z|s|o]; auto. exfalso. eauto.
  - rewrite (proj2 (Z.ltb_ge _ _)) by lia. cbn [analyze_literals bind choose_map]. eauto.
Qed.

(** C63: the macro meant for sets takes entries, not items. *)
Lemma set_macro_unfinished :
  forall (T ty expr O : Type) (parse_type : list (token T) -> option (ty * list (token T)))
    (parse_expr : list (token T) -> option (expr * list (token T)))
    (classify : ty -> macro_type) (literal_of : expr -> literal O) (pr : profile) (h : list Z -> Z)
    (text : expr -> list (token T)) (type_text : list (token T)) (t : ty),
  (forall rest, parse_type (type_text ++ Comma :: rest) = Some (t, Comma :: rest)) ->
  (forall e, text e <> []) ->
  (forall e rest, ends_here rest -> parse_expr (text e ++ rest) = Some (e, rest)) ->
  let call := frozen_set_call parse_type parse_expr classify literal_of pr h in
  (forall items trailing, items <> [] -> call (type_text ++ Comma :: items_text text trailing items) = SyntaxError) /\
  (forall entries trailing, call (type_text ++ Comma :: entries_text text trailing entries) =
     Expanded (frozen_map_macro pr h (classify t) (map (fun e => literal_of (fst e)) entries))).
Proof.
  intros T ty expr O parse_type parse_expr classify literal_of pr h text type_text t Ht Hne Hp call. split.
  - intros items trailing Hi. unfold call, frozen_set_call, frozen_map_call, parse_map. rewrite Ht. cbn [parse_comma].
    destruct items as [|x items]; [congruence|].
    assert (H : exists rest, items_text text trailing (x :: items) = text x ++ rest /\
      (rest = [] \/ exists r, rest = Comma :: r)).
    { destruct items as [|y items]; cbn [items_text].
      - eexists; split; [reflexivity|]. destruct trailing; eauto.
      - eexists; split; [reflexivity|]. eauto. }
    destruct H as (rest & -> & Hr). cbn [parse_entries].
    destruct (text x ++ rest) as [|tk tks] eqn:Etx.
    { destruct (text x) eqn:Ex; [now apply Hne in Ex|discriminate]. }
    rewrite <- Etx. unfold parse_entry. rewrite Hp by (destruct Hr as [->|(r & ->)]; exact I).
    destruct Hr as [->|(r & ->)]; reflexivity.
  - intros entries trailing. now apply macro_call_written.
Qed.
