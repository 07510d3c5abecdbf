(** The code emitted by [frozen_map!] says what it should. *)
From Coq Require Import String List ZArith Bool Arith Lia.
From Verif Require Import Base BaseLemmas IntKeyAnalyzer SliceKeyAnalyzer HashTable Maps FrozenMapFacts MacroModel MacroParse MacroEmit EmitSpec.
Import ListNotations.
Open Scope Z_scope.

Section Reading.
Context {ty expr : Type}.
Notation tok := (code_token ty expr).

Definition given (e : expr * expr) : list tok * list tok := ([ExprToken (fst e)], [ExprToken (snd e)]).
Definition wrapped (e : expr * expr) : list tok * list tok := (owned_key [ExprToken (fst e)], [ExprToken (snd e)]).

Lemma read_given es :
  read_entries (flat_map (fun e => [Paren (entry_code e); Sym ","%string]) (map given es)) =
  Some (map (fun e => (Verbatim (fst e), snd e)) es).
Proof. induction es as [|e es IH]; [reflexivity|]. cbn in *. now rewrite IH. Qed.

Lemma read_wrapped es :
  read_entries (flat_map (fun e => [Paren (entry_code e); Sym ","%string]) (map wrapped es)) =
  Some (map (fun e => (Converted (fst e), snd e)) es).
Proof. induction es as [|e es IH]; [reflexivity|]. cbn in *. now rewrite IH. Qed.

Lemma read_scanning (kv : list (list tok * list tok)) xs :
  read_entries (flat_map (fun e => [Paren (entry_code e); Sym ","%string]) kv) = Some xs ->
  read_block (emit_scanning kv) =
  Some {| st_annotation := None; st_builder := scanning_name; st_entries := xs; st_range := None |}.
Proof. intros H. cbn in *. now rewrite H. Qed.

(** The key type in the annotation. *)
Inductive key_type : list tok -> generic ty -> Prop :=
| KeyGiven t : key_type [TypeToken t] (GUser t)
| KeyString : key_type [Word "String"%string] string_name.

Lemma read_plain n c (t : list tok) g (kv : list (list tok * list tok)) xs :
  key_type t g ->
  read_entries (flat_map (fun e => [Paren (entry_code e); Sym ","%string]) kv) = Some xs ->
  read_block (emit_plain (map_ident n) t (size_ident c) kv) =
  Some {| st_annotation := Some (title n, [g; GHole; size_name (payload_size c)]); st_builder := title n; st_entries := xs; st_range := None |}.
Proof.
  intros Ht H. unfold emit_plain, vec_code. revert H. generalize (flat_map (fun e => [Paren (entry_code e); Sym ","%string]) kv).
  intros l H. unfold size_ident, payload_size. destruct Ht, n; (destruct (c <=? imax u8); [|destruct (c <=? imax u16)]);
    cbn -[read_entries]; now rewrite H.
Qed.

Lemma read_ranged n c (t : list tok) g (kv : list (list tok * list tok)) xs i l :
  key_type t g ->
  read_entries (flat_map (fun e => [Paren (entry_code e); Sym ","%string]) kv) = Some xs ->
  read_block (emit_ranged (map_ident n) t (size_ident c) kv i l) =
  Some {| st_annotation := Some (title n, [g; GHole; size_name (payload_size c); random_state_name]); st_builder := title n;
          st_entries := xs; st_range := Some (i, i + l) |}.
Proof.
  intros Ht H. unfold emit_ranged, vec_code. revert H. generalize (flat_map (fun e => [Paren (entry_code e); Sym ","%string]) kv).
  intros es H. unfold size_ident, payload_size. destruct Ht, n; (destruct (c <=? imax u8); [|destruct (c <=? imax u16)]);
    cbn -[read_entries]; now rewrite H.
Qed.
End Reading.

(** ** C93 *)

Lemma emitted_code :
  forall (ty expr O : Type) (classify : ty -> macro_type) (literal_of : expr -> literal O) (pr : profile) (h : bytes -> Z)
         (input : parsed_map ty expr),
  let t := classify (pm_ty input) in
  let outcome := frozen_map_macro pr h t (map (fun e => literal_of (fst e)) (pm_entries input)) in
  let emitted := emit classify literal_of pr h input in
  (forall x, outcome = Ok x -> exists code, emitted = Ok code /\
     read_block code = Some (should_say t (pm_ty input) (pm_entries input) x)) /\
  (forall p, outcome = Panic p -> emitted = Panic p) /\
  (forall code, emitted = Ok code -> exists x, outcome = Ok x).
Proof.
  intros ty expr O classify literal_of pr h [input_ty es] t outcome emitted. subst outcome emitted. unfold emit, frozen_map_macro.
  cbn [pm_ty pm_entries] in *. unfold zlen. rewrite !map_length. destruct (Z.of_nat (length es) <? 3).
  { split; [|split; [discriminate|eauto]]. intros x Hx. injection Hx as <-. eexists. split; [reflexivity|].
    apply read_scanning. apply read_given. }
  fold t. destruct (analyze_literals pr h t _) as [[[variety ia] sa]|p|u|] eqn:Ha; cbn [bind];
    [|split; [discriminate|split; [congruence|discriminate]]..].
  split; [|split; [discriminate|eauto]]. intros x Hx. injection Hx as <-.
  assert (Hsl : sa = SliceNormal \/ t = TStr).
  { unfold analyze_literals in Ha. destruct t; auto; apply bind_ok in Ha || idtac; [destruct Ha as (? & _ & Ha)|]; injection Ha as <- <- <-; auto. }
  destruct t as [it| |] eqn:Ht; eexists; (split; [reflexivity|]); rewrite ?map_map, ?map_length.
  - destruct Hsl as [->|]; [|discriminate]. apply read_plain; [constructor|apply read_given].
  - destruct sa; (apply read_plain || apply read_ranged); [constructor|apply read_wrapped|constructor|apply read_wrapped|
      constructor|apply read_wrapped|constructor|apply read_wrapped].
  - destruct Hsl as [->|]; [|discriminate]. apply read_plain; [constructor|apply read_given].
Qed.

Lemma emitted_code_agrees :
  forall (ty expr O : Type) (t : macro_type) (input_ty : ty) (entries : list (expr * expr)) (literal_of : expr -> literal O)
         (pr : profile) (h : bytes -> Z) (x : expansion),
  frozen_map_macro pr h t (map (fun e => literal_of (fst e)) entries) = Ok x ->
  (agrees (should_say t input_ty entries x) <-> forall S_ty, x <> XPlain NIntegerRangeMap S_ty).
Proof.
  intros ty expr O t input_ty entries literal_of pr h x Hx.
  assert (HX : x = XScanning \/ (exists n S_ty, x = XPlain n S_ty /\ n <> NLeftSliceMap /\ n <> NRightSliceMap) \/
               (exists S_ty a b, x = XRanged NLeftSliceMap S_ty a b \/ x = XRanged NRightSliceMap S_ty a b)).
  { unfold frozen_map_macro in Hx. destruct (_ <? 3); [left; congruence|]. right. apply bind_ok in Hx. destruct Hx as ([[v ia] sa] & Ha & Hx).
    unfold analyze_literals in Ha. destruct t; [apply bind_ok in Ha; destruct Ha as (ia' & _ & Ha)|apply bind_ok in Ha; destruct Ha as (sa' & _ & Ha)|];
      injection Ha as <- <- <-; injection Hx as <-.
    - left. destruct ia'; cbn; eexists _, _; (split; [reflexivity|split; discriminate]).
    - destruct sa'; cbn; first [left; eexists _, _; (split; [reflexivity|split; discriminate])|right; eauto].
    - left. cbn. eexists _, _; (split; [reflexivity|split; discriminate]). }
  assert (Hin : forall n v, In (n, v) declarations -> forall v', In (n, v') declarations -> v = v').
  { intros n v H v' H'. cbn in H, H'. repeat (destruct H as [H|H]; [injection H as <- <-; repeat (destruct H' as [H'|H']; [inversion H'; auto; discriminate|]); contradiction|]). contradiction. }
  destruct HX as [->|[(n & S_ty & -> & Hl & Hr)|(S_ty & a & b & HX)]].
  - split; [discriminate|]. intros _. exists 2%nat, 2%nat, false. cbn. split; [tauto|]. split; [split; [discriminate|intros N; now elim N]|discriminate].
  - split.
    + intros (lo & hi & rg & Hd & _ & Hg) S' H. injection H as -> _. cbn [should_say st_builder st_annotation] in *.
      destruct (Hg _ _ eq_refl) as (_ & Hc). cbn [length title] in *.
      assert (Hv := Hin "IntegerRangeMap"%string _ Hd (2, 2, false)%nat ltac:(cbn; tauto)). injection Hv as -> -> ->. lia.
    + intros H. destruct n; try congruence; try (now specialize (H S_ty)); cbn;
        [exists 2%nat, 4%nat, false|exists 2%nat, 3%nat, false|exists 2%nat, 3%nat, false]; (split; [cbn; tauto|]); (split; [split; [discriminate|intros N; now elim N]|]);
        intros n gs Hn; injection Hn as <- <-; cbn; lia || (split; [reflexivity|lia]).
  - split; [destruct HX as [->| ->]; discriminate|]. intros _. exists 2%nat, 4%nat, true.
    destruct HX as [->| ->]; cbn; (split; [tauto|]); (split; [split; [discriminate|reflexivity]|]); intros n gs Hn; injection Hn as <- <-; cbn; (split; [reflexivity|lia]).
Qed.
