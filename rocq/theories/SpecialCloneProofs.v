(** Clones of the specialized maps and sets: the copies made, the safety of the result and its agreement
    with the original. *)
From Coq Require Import List ZArith Bool Arith Lia Permutation.
From Verif Require Import VolatileSafety VolatileMapProofs CloneProofs EffectProofs SpecialSetProofs RangeProofs FrozenSetProofs.
From Verif Require Import Spec MapSpec Base BaseLemmas EqbLists IntProofs HashTable HashTableProofs Maps MapsProofs FrozenMapFacts Iterators IteratorProofs
  HistorySpec ObjectSpec HistoryProofs MapObjects MapObjectProofs MapObjectEq RunSpec SetRunning Volatile VolatileSets VolatileSetSpec VolatileProofs
  VolatileMaps VolatileMapSpec EffectSpec SpecialCallSpec VolatileRange RangeSpec Sets SpecialSets SpecialSetSpec SpecialClone SpecialCloneSpec.
Import ListNotations.
Open Scope Z_scope.

(** ** The copies made *)

Section Noted.
Context {W K V BH : Type}.
Notation piece := (piece K V BH).
Notation log_t := (list (@piece_copy K V BH)).

(** The pieces [plan] are copied in order; the result has the property [P] together with the copies. *)
Definition notes_copies {A} (plan : list piece) (P : A -> list piece -> Prop) (x : M (W * log_t) A) : Prop :=
  forall w l, exists r w' log, x (w, l) = (r, (w', l ++ log)) /\
    match r with
    | Ok a => exists copies, P a copies /\ copied_in_order plan (Ok copies) log
    | Panic p => copied_in_order plan (Panic p) log
    | _ => False
    end.

Lemma combine_app_eq {A B} (l1 l2 : list A) : forall (m1 m2 : list B), length l1 = length m1 ->
  combine (l1 ++ l2) (m1 ++ m2) = combine l1 m1 ++ combine l2 m2.
Proof. induction l1 as [|a l1 IH]; intros [|b m1] m2 H; cbn in *; try discriminate; auto. f_equal. apply IH. lia. Qed.

Lemma notes_lift {A} (a : A) (P : A -> list piece -> Prop) : P a [] -> notes_copies [] P (lift (Ok a)).
Proof.
  intros H w l. exists (Ok a), w, []. rewrite app_nil_r. split; [reflexivity|]. exists []. split; auto. split; reflexivity.
Qed.

Lemma notes_bind {A B} plan1 plan2 P1 (P : B -> list piece -> Prop) (x : M (W * log_t) A) f :
  notes_copies plan1 P1 x ->
  (forall a cs, P1 a cs -> notes_copies plan2 (fun b ds => P b (cs ++ ds)) (f a)) ->
  notes_copies (plan1 ++ plan2) P (mbind x f).
Proof.
  intros Hx Hf w l. destruct (Hx w l) as (r & w1 & log1 & E1 & H1). unfold mbind. rewrite E1.
  destruct r as [a|p|u|]; try contradiction.
  - destruct H1 as (cs & HP1 & Hl1 & ->).
    destruct (Hf a cs HP1 w1 (l ++ combine plan1 (map Some cs))) as (r & w2 & log2 & E2 & H2).
    exists r, w2, (combine plan1 (map Some cs) ++ log2). rewrite E2, app_assoc. split; [reflexivity|].
    destruct r as [b|p|u|]; try contradiction.
    + destruct H2 as (ds & HP & Hl2 & ->). exists (cs ++ ds). split; auto. split; [rewrite !app_length; lia|].
      rewrite map_app, combine_app_eq; auto. rewrite map_length. lia.
    + destruct H2 as (-> & before & y & after & ds & Hp & Hl2 & ->). split; auto.
      exists (plan1 ++ before), y, after, (cs ++ ds). split; [rewrite Hp; now rewrite app_assoc|].
      split; [rewrite !app_length; lia|]. rewrite map_app, combine_app_eq; [now rewrite app_assoc|]. rewrite map_length. lia.
  - destruct H1 as (-> & before & y & after & ds & Hp & Hl2 & ->). exists (Panic PForeign), w1, (combine before (map Some ds) ++ [(y, None)]).
    split; auto. split; auto. exists before, y, (after ++ plan2), ds. split; [rewrite Hp; now rewrite <- app_assoc|]. auto.
Qed.

Lemma notes_call {A} (f : W -> option A * W) (c : A -> piece) (x : A) :
  notes_copies [c x] (fun a cs => cs = [c a]) (call (with_answer f c x)).
Proof.
  intros w l. unfold call, with_answer. cbn [fst snd]. destruct (f w) as [[a|] w'].
  - exists (Ok a), w', [(c x, Some (c a))]. split; [reflexivity|]. exists [c a]. split; auto. split; reflexivity.
  - exists (Panic PForeign), w', [(c x, None)]. split; [reflexivity|]. split; auto. exists [], (c x), [], []. auto.
Qed.

(** Entries, with the values' copies noted or not. *)
Section Entries.
Context {U : Type}.
Variable D : copying (W * log_t) K U BH.
Variable vp : U -> list piece.
Hypothesis Hk : forall k, notes_copies [KeyPiece k] (fun a cs => cs = [KeyPiece a]) (call (d_key D k)).
Hypothesis Hv : forall v, notes_copies (vp v) (fun a cs => cs = vp a) (call (d_value D v)).
Hypothesis Hh : forall bh, notes_copies [HasherPiece bh] (fun a cs => cs = [HasherPiece a]) (call (d_hasher D bh)).
Definition epieces (es : list (K * U)) : list piece := flat_map (fun e => KeyPiece (fst e) :: vp (snd e)) es.

Lemma notes_entries es : notes_copies (epieces es) (fun es' cs => cs = epieces es' /\ length es' = length es) (copy_entries D es).
Proof.
  induction es as [|[k v] es IH]; [now apply notes_lift|].
  unfold copy_entries. cbn [v_map]. change (epieces ((k, v) :: es)) with ((KeyPiece k :: vp v) ++ epieces es).
  apply (notes_bind _ _ (fun e cs => cs = KeyPiece (fst e) :: vp (snd e))).
  - change (KeyPiece k :: vp v) with ([KeyPiece k] ++ vp v). apply (notes_bind _ _ _ _ _ _ (Hk k)). intros k' cs ->.
    rewrite <- (app_nil_r (vp v)). apply (notes_bind _ _ _ _ _ _ (Hv v)). intros v' cs ->. apply notes_lift. cbn. now rewrite app_nil_r.
  - intros e cs ->. rewrite <- (app_nil_r (epieces es)). apply (notes_bind _ _ _ _ _ _ IH). intros es' cs (-> & Hl). apply notes_lift.
    rewrite app_nil_r. split; [reflexivity|]. cbn. congruence.
Qed.

(** The clone has the same frame. *)
Definition same_kind (sh sh' : shape BH) : Prop :=
  match sh, sh' with
  | Scanning, Scanning | Common _, Common _ | Length, Length | Integer, Integer => True
  | LeftSlice _ x y, LeftSlice _ x' y' | RightSlice _ x y, RightSlice _ x' y' => x' = x /\ y' = y
  | _, _ => False
  end.
Definition same_outline (m m' : special K U BH) : Prop :=
  match m, m' with
  | Entries _, Entries _ => True
  | InTable sh t, InTable sh' t' => same_table t t' /\ same_kind sh sh'
  | _, _ => False
  end.

Lemma notes_shape sh (t t' : hash_table K U) :
  notes_copies (hasher_pieces (InTable sh t)) (fun sh' cs => cs = hasher_pieces (InTable sh' t') /\ same_kind sh sh') (copy_shape D sh).
Proof.
  destruct sh as [|bh| | |bh x y|bh x y]; cbn [copy_shape hasher_pieces]; try (now apply notes_lift).
  all: rewrite <- (app_nil_r [HasherPiece bh]); apply (notes_bind _ _ _ _ _ _ (Hh bh)); intros bh' cs ->; apply notes_lift;
    cbn; auto.
Qed.

Lemma notes_clone m :
  notes_copies (epieces (sp_entries m) ++ hasher_pieces m)
    (fun m' cs => cs = epieces (sp_entries m') ++ hasher_pieces m' /\ same_outline m m' /\
       length (sp_entries m') = length (sp_entries m)) (sp_clone D m).
Proof.
  destruct m as [es|sh t]; cbn [sp_clone sp_entries].
  - apply (notes_bind _ _ _ _ _ _ (notes_entries es)). intros es' cs (-> & Hl). apply notes_lift. repeat split; auto.
  - apply (notes_bind _ _ _ _ _ _ (notes_entries (entries t))). intros es' cs (-> & Hl).
    set (t' := {| num_slots := num_slots t; slots := slots t; entries := es' |}).
    rewrite <- (app_nil_r (hasher_pieces (InTable sh t))). apply (notes_bind _ _ _ _ _ _ (notes_shape sh t t')).
    intros sh' cs (-> & Hs). apply notes_lift. rewrite app_nil_r. cbn [sp_entries same_outline]. repeat split; auto.
Qed.

Lemma notes_range_clone m :
  notes_copies (KeyPiece (rg_min m) :: KeyPiece (rg_max m) :: epieces (rg_entries m))
    (fun m' cs => cs = KeyPiece (rg_min m') :: KeyPiece (rg_max m') :: epieces (rg_entries m') /\
       length (rg_entries m') = length (rg_entries m)) (rg_clone D m).
Proof.
  unfold rg_clone. change (KeyPiece (rg_min m) :: KeyPiece (rg_max m) :: epieces (rg_entries m)) with
    ([KeyPiece (rg_min m)] ++ [KeyPiece (rg_max m)] ++ epieces (rg_entries m)).
  apply (notes_bind _ _ _ _ _ _ (Hk _)). intros k cs ->. apply (notes_bind _ _ _ _ _ _ (Hk _)). intros k' cs ->.
  rewrite <- (app_nil_r (epieces (rg_entries m))). apply (notes_bind _ _ _ _ _ _ (notes_entries _)). intros es cs (-> & Hl).
  apply notes_lift. rewrite app_nil_r. auto.
Qed.
End Entries.
End Noted.

(** Taking down the copies changes nothing. *)
Section Unchanged.
Context {W1 W2 K U BH : Type}.
Variable R : W1 -> W2 -> Prop.
Variable D1 : copying W1 K U BH.
Variable D2 : copying W2 K U BH.
Hypothesis Hk : forall x, alike_call R (d_key D1 x) (d_key D2 x).
Hypothesis Hv : forall v, alike_call R (d_value D1 v) (d_value D2 v).
Hypothesis Hb : forall bh, alike_call R (d_hasher D1 bh) (d_hasher D2 bh).

Lemma entries_alike es : alike R (copy_entries D1 es) (copy_entries D2 es).
Proof.
  apply alike_map. intros e. apply alike_bind; [apply alike_called, Hk|]. intros k.
  apply alike_bind; [apply alike_called, Hv|]. intros v. apply alike_lift.
Qed.
Lemma sp_clone_alike m : alike R (sp_clone D1 m) (sp_clone D2 m).
Proof.
  destruct m as [es|sh t]; cbn [sp_clone]; (apply alike_bind; [apply entries_alike|]; intros es'; try apply alike_lift).
  apply alike_bind; [|intros sh'; apply alike_lift].
  destruct sh; cbn [copy_shape]; try apply alike_lift; (apply alike_bind; [apply alike_called, Hb|]; intros; apply alike_lift).
Qed.
Lemma rg_clone_alike m : alike R (rg_clone D1 m) (rg_clone D2 m).
Proof.
  unfold rg_clone. apply alike_bind; [apply alike_called, Hk|]. intros min. apply alike_bind; [apply alike_called, Hk|]. intros max.
  apply alike_bind; [apply entries_alike|]. intros es. apply alike_lift.
Qed.
End Unchanged.

Section Copies.
Context {W K V BH : Type}.
Variable D : copying W K V BH.
Notation log_t := (list (@piece_copy K V BH)).

Lemma noted_alike {A} (f : W -> option A * W) (c : A -> piece K V BH) x :
  alike_call (fun (s : W * log_t) w0 => fst s = w0) (with_answer f c x) f.
Proof. intros [w1 l1] w2 <-. unfold with_answer. cbn [fst snd]. destruct (f w1) as [a w3]. repeat eexists. Qed.

Lemma silent_value (v : unit) :
  notes_copies (W := W) (K := K) (V := V) (BH := BH) [] (fun _ cs => cs = []) (call (d_value (valueless (noting_copies D)) v)).
Proof. intros w l. exists (Ok tt), w, []. rewrite app_nil_r. split; [reflexivity|]. exists []. split; auto. split; reflexivity. Qed.
End Copies.

Lemma entry_pieces_eq {K V BH} (es : list (K * V)) :
  entry_pieces (BH := BH) es = epieces (fun v => [ValuePiece v]) es.
Proof. reflexivity. Qed.
Lemma key_pieces_eq {K V BH U} (es : list (K * U)) :
  map (fun e => KeyPiece (fst e)) es = epieces (K := K) (V := V) (BH := BH) (fun _ => []) es.
Proof. induction es as [|e es IH]; [reflexivity|]. cbn [map]. rewrite IH. reflexivity. Qed.

Lemma special_clone_copies :
  forall (W K V BH : Type) (D : copying W K V BH) (m : special K V BH) (w : W),
  exists r w' log,
    sp_clone (noting_copies D) m (w, []) = (r, (w', log)) /\ sp_clone D m w = (r, w') /\
    copied_in_order (special_pieces m) (m' <- r ;; Ok (special_pieces m')) log.
Proof.
  intros W K V BH D m w.
  destruct (notes_clone (noting_copies D) (fun v => [ValuePiece v]) (fun k => notes_call _ _ k) (fun v => notes_call _ _ v)
    (fun bh => notes_call _ _ bh) m w []) as (r & w' & log & Hr & H).
  destruct (sp_clone_alike _ (noting_copies D) D (fun x => noted_alike _ _ x) (fun x => noted_alike _ _ x) (fun x => noted_alike _ _ x)
    m (w, []) w eq_refl) as (r1 & [w1 l1] & w2 & H1 & H2 & Hw).
  rewrite Hr in H1. injection H1 as <- <- <-. cbn [fst] in Hw. subst w2.
  exists r, w', log. split; auto. split; auto. unfold special_pieces. rewrite entry_pieces_eq.
  destruct r as [m'|p|u|]; try contradiction; [|exact H]. destruct H as (cs & (-> & _) & H). exact H.
Qed.
Lemma range_clone_copies :
  forall (W K V BH : Type) (D : copying W K V BH) (m : range_map K V) (w : W),
  exists r w' log,
    rg_clone (noting_copies D) m (w, []) = (r, (w', log)) /\ rg_clone D m w = (r, w') /\
    copied_in_order (range_pieces m) (m' <- r ;; Ok (range_pieces m')) log.
Proof.
  intros W K V BH D m w.
  destruct (notes_range_clone (noting_copies D) (fun v => [ValuePiece v]) (fun k => notes_call _ _ k) (fun v => notes_call _ _ v)
    m w []) as (r & w' & log & Hr & H).
  destruct (rg_clone_alike _ (noting_copies D) D (fun x => noted_alike _ _ x) (fun x => noted_alike _ _ x)
    m (w, []) w eq_refl) as (r1 & [w1 l1] & w2 & H1 & H2 & Hw).
  rewrite Hr in H1. injection H1 as <- <- <-. cbn [fst] in Hw. subst w2.
  exists r, w', log. split; auto. split; auto. unfold range_pieces. rewrite entry_pieces_eq.
  destruct r as [m'|p|u|]; try contradiction; [|exact H]. destruct H as (cs & (-> & _) & H). exact H.
Qed.

Lemma special_set_clone_copies :
  forall (W T V BH : Type) (D : copying W T V BH) (s : special T unit BH) (w : W),
  exists r w' log,
    st_clone (noting_copies D) s (w, []) = (r, (w', log)) /\ st_clone D s w = (r, w') /\
    copied_in_order (special_set_pieces s) (s' <- r ;; Ok (special_set_pieces s')) log.
Proof.
  intros W K V BH D m w. unfold st_clone.
  destruct (notes_clone (valueless (noting_copies D)) (fun _ => []) (fun k => notes_call _ _ k) (silent_value D)
    (fun bh => notes_call _ _ bh) m w []) as (r & w' & log & Hr & H).
  destruct (sp_clone_alike (fun (s : W * list piece_copy) w0 => fst s = w0) (valueless (noting_copies D)) (valueless D)
    (fun x => noted_alike _ _ x)) with (m := m) (w1 := (w, @nil (@piece_copy K V BH))) (w2 := w) as (r1 & [w1 l1] & w2 & H1 & H2 & Hw); auto.
  { intros v [w1 l1] w2 <-. repeat eexists. }
  { intros x. apply noted_alike. }
  rewrite Hr in H1. injection H1 as <- <- <-. cbn [fst] in Hw. subst w2.
  exists r, w', log. split; auto. split; auto. unfold special_set_pieces. rewrite key_pieces_eq.
  destruct r as [m'|p|u|]; try contradiction; [|exact H]. destruct H as (cs & (-> & _) & H). cbn [bind]. now rewrite key_pieces_eq.
Qed.
Lemma range_set_clone_copies :
  forall (W T V BH : Type) (D : copying W T V BH) (s : range_map T unit) (w : W),
  exists r w' log,
    rs_clone (noting_copies D) s (w, []) = (r, (w', log)) /\ rs_clone D s w = (r, w') /\
    copied_in_order (range_set_pieces s) (s' <- r ;; Ok (range_set_pieces s')) log.
Proof.
  intros W K V BH D m w. unfold rs_clone.
  destruct (notes_range_clone (valueless (noting_copies D)) (fun _ => []) (fun k => notes_call _ _ k) (silent_value D)
    m w []) as (r & w' & log & Hr & H).
  destruct (rg_clone_alike (fun (s : W * list piece_copy) w0 => fst s = w0) (valueless (noting_copies D)) (valueless D)
    (fun x => noted_alike _ _ x)) with (m := m) (w1 := (w, @nil (@piece_copy K V BH))) (w2 := w) as (r1 & [w1 l1] & w2 & H1 & H2 & Hw); auto.
  { intros v [w1 l1] w2 <-. repeat eexists. }
  rewrite Hr in H1. injection H1 as <- <- <-. cbn [fst] in Hw. subst w2.
  exists r, w', log. split; auto. split; auto. unfold range_set_pieces. rewrite key_pieces_eq.
  destruct r as [m'|p|u|]; try contradiction; [|exact H]. destruct H as (cs & (-> & _) & H). cbn [bind]. now rewrite key_pieces_eq.
Qed.

(** ** Safety *)

Lemma sp_clone_kept {W K V BH} (D : copying W K V BH) m w m' w' : sp_clone D m w = (Ok m', w') ->
  same_outline m m' /\ length (sp_entries m') = length (sp_entries m).
Proof.
  intros H.
  destruct (notes_clone (noting_copies D) (fun v => [ValuePiece v]) (fun k => notes_call _ _ k) (fun v => notes_call _ _ v)
    (fun bh => notes_call _ _ bh) m w []) as (r & w1 & log & Hr & H1).
  destruct (sp_clone_alike _ (noting_copies D) D (fun x => noted_alike _ _ x) (fun x => noted_alike _ _ x) (fun x => noted_alike _ _ x)
    m (w, []) w eq_refl) as (r1 & [w3 l1] & w2 & H2 & H3 & Hw).
  rewrite Hr in H2. injection H2 as <- _ _. rewrite H in H3. injection H3 as <- _. destruct H1 as (cs & (_ & H1) & _). exact H1.
Qed.
Lemma rg_clone_kept {W K V BH} (D : copying W K V BH) m w m' w' : rg_clone D m w = (Ok m', w') ->
  length (rg_entries m') = length (rg_entries m).
Proof.
  intros H.
  destruct (notes_range_clone (noting_copies D) (fun v => [ValuePiece v]) (fun k => notes_call _ _ k) (fun v => notes_call _ _ v)
    m w []) as (r & w1 & log & Hr & H1).
  destruct (rg_clone_alike _ (noting_copies D) D (fun x => noted_alike _ _ x) (fun x => noted_alike _ _ x)
    m (w, []) w eq_refl) as (r1 & [w3 l1] & w2 & H2 & H3 & Hw).
  rewrite Hr in H2. injection H2 as <- _ _. rewrite H in H3. injection H3 as <- _. destruct H1 as (cs & (_ & H1) & _). exact H1.
Qed.

Section Owned.
Context {W K Q V BH : Type}.
Variable F : foreign W K Q BH.
Variable D : copying W K V BH.
Variable E : env.
Hypothesis HE : env_ok E.

Lemma self_tracks (m : special K V BH) : sp_safe m -> sp_tracks (sp_entries m) [] m.
Proof. intros H. split; auto. split; [apply Permutation_refl|]. rewrite app_nil_r. apply incl_refl. Qed.

Lemma owned_safe (m : special K V BH) : owned_special F D E m -> sp_safe m /\ zlen (sp_entries m) < 2 ^ 64.
Proof.
  intros H. induction H as [S_ty sh payload w m w' HS Hz Hm|m w m' w' H (Hs & Hz) Hc|m o w b m' w' H (Hs & Hz) Hstep].
  - destruct (sp_built F E S_ty sh payload w m w' HE HS Hm) as (Hs & HP & _). rewrite <- (zlen_perm _ _ HP). auto.
  - destruct (sp_clone_kept D m w m' w' Hc) as (Ho & Hl). unfold zlen in *. rewrite Hl. split; auto.
    destruct m as [es|sh t], m' as [es'|sh' t']; cbn [same_outline sp_safe] in *; try contradiction; auto.
    destruct Ho as (Ht & _). eapply same_table_safe; eauto.
  - pose proof (sp_step_sane F E (sp_entries m) Hz [] m o w (self_tracks m Hs)) as H1. rewrite Hstep in H1.
    destruct b as [b|]; destruct H1 as (_ & H1).
    + split; [apply H1|]. apply sp_tracks_len in H1. lia.
    + subst m'. auto.
Qed.
End Owned.

Lemma owned_special_never_goes_wrong :
  forall (W K Q V BH : Type) (F : foreign W K Q BH) (D : copying W K V BH) (E : env) (m : special K V BH)
         (history : list (op Q V)) (w : W),
  env_ok E -> owned_special F D E m ->
  sane_run_caught (sp_entries m) [] history (sp_run F E m history w).
Proof.
  intros W K Q V BH F D E m history w HE H. destruct (owned_safe F D E HE m H) as (Hs & Hz).
  apply sp_run_sane; auto. now apply self_tracks.
Qed.

Lemma owned_special_equality :
  forall (W K V BH : Type) (F : foreign W K K BH) (D : copying W K V BH) (E : env) (veq : V -> V -> W -> option bool * W)
         (m1 m2 : special K V BH) (w : W),
  env_ok E -> owned_special F D E m1 -> owned_special F D E m2 ->
  match fst (sp_eq F E veq m1 m2 w) with
  | Ok true => length (sp_entries m1) = length (sp_entries m2)
  | Ok false => True
  | Panic p => p = PForeign \/ p = POverflow /\ exists bh x y t, m2 = InTable (RightSlice bh x y) t
  | UB _ | OutOfFuel => False
  end.
Proof.
  intros W K V BH F D E veq m1 m2 w HE _ H2. destruct (owned_safe F D E HE m2 H2) as (Hs & _).
  unfold sp_eq. destruct (Z.eqb_spec (zlen (sp_entries m1)) (zlen (sp_entries m2))) as [Hl|Hl]; cbn [negb]; [|exact I].
  assert (Hlen : length (sp_entries m1) = length (sp_entries m2)) by (unfold zlen in Hl; lia).
  assert (Hall : replies (expected (sp_shape m2)) (v_all (fun e => mbind (sp_get F E m2 (fst e)) (fun r =>
            match r with Some v => call (veq (snd e) v) | None => lift (Ok false) end)) (sp_entries m1))).
  { clear Hl Hlen. induction (sp_entries m1) as [|e l IH]; cbn [v_all]; [apply replies_lift|].
    apply replies_bind; [apply replies_bind|].
    - intros w0. unfold sp_get, mbind.
      destruct (sp_find_cases F E m2 (fst e) w0 Hs) as [(p & w3 & -> & Hp)|[(w3 & ->)|(i & x & w3 & -> & Hx)]];
        cbn [lift deref fst]; [eauto|eauto|]. rewrite Hx. cbn [fst]. eauto.
    - intros [v|] _ _ _; [apply replies_call; now left|apply replies_lift].
    - intros [] _ _ _; [exact IH|apply replies_lift]. }
  destruct (Hall w) as [(p & -> & Hp)|(b & ->)]; [|destruct b; auto]. cbn [fst].
  destruct Hp as [->|(-> & Hp)]; auto. right. split; auto. destruct m2 as [es|[] t]; cbn in Hp; try contradiction. eauto.
Qed.

Lemma self_range_tracks {K V} (m : range_map K V) : rg_tracks (rg_entries m) [] m.
Proof. split; [apply Permutation_refl|]. rewrite app_nil_r. apply incl_refl. Qed.

Lemma owned_range_small {W K Q V BH} (G : integers W K Q) (D : copying W K V BH) srt p : sorter_ok srt ->
  forall m, owned_range G D srt p m -> zlen (rg_entries m) < 2 ^ 64.
Proof.
  intros Hsrt m H. induction H as [payload w0 m w' Hz Hm|m w0 m' w' H Hz Hc|m o w0 b m' w' H Hz Hstep].
  - rewrite <- (zlen_perm _ _ (rg_built G srt payload w0 m w' Hsrt Hm)). exact Hz.
  - apply rg_clone_kept in Hc. unfold zlen in *. now rewrite Hc.
  - pose proof (rg_step_sane G (rg_entries m) Hz p [] m o w0 (self_range_tracks m)) as H1. rewrite Hstep in H1.
    destruct b as [b|]; destruct H1 as (_ & H1); [apply rg_tracks_len in H1; lia|now subst m'].
Qed.

Lemma owned_range_never_goes_wrong :
  forall (W K Q V BH : Type) (G : integers W K Q) (D : copying W K V BH) (srt : sorter) (p : profile) (m : range_map K V)
         (history : list (op Q V)) (w : W),
  sorter_ok srt -> owned_range G D srt p m ->
  sane_run_caught (rg_entries m) [] history (rg_run G p m history w).
Proof.
  intros W K Q V BH G D srt p m history w Hsrt H. pose proof (owned_range_small G D srt p Hsrt m H) as Hz.
  apply rg_run_sane; auto. apply self_range_tracks.
Qed.

Lemma any_range_equality :
  forall (W K V : Type) (G : integers W K K) (veq : V -> V -> W -> option bool * W) (m1 m2 : range_map K V) (w : W),
  match fst (rg_eq G veq m1 m2 w) with
  | Ok true => length (rg_entries m1) = length (rg_entries m2)
  | Ok false => True
  | Panic p => p = PForeign \/ p = PIndexOutOfBounds
  | UB _ | OutOfFuel => False
  end.
Proof.
  intros W K V G veq m1 m2 w.
  unfold rg_eq. destruct (Z.eqb_spec (zlen (rg_entries m1)) (zlen (rg_entries m2))) as [Hl|Hl]; cbn [negb]; [|exact I].
  assert (Hlen : length (rg_entries m1) = length (rg_entries m2)) by (unfold zlen in Hl; lia).
  assert (Hall : replies (fun p => p = PForeign \/ p = PIndexOutOfBounds) (v_all (fun e => mbind (rg_get G m2 (fst e)) (fun r =>
            match r with Some v => call (veq (snd e) v) | None => lift (Ok false) end)) (rg_entries m1))).
  { clear Hl Hlen. induction (rg_entries m1) as [|e l IH]; cbn [v_all]; [apply replies_lift|].
    apply replies_bind; [apply replies_bind|].
    - intros w0. unfold rg_get, mbind.
      destruct (rg_find_cases G m2 (fst e) w0) as [(p & w3 & -> & Hp)|[(w3 & ->)|(i & x & w3 & -> & Hx)]];
        cbn [lift deref fst]; [eauto|eauto|]. rewrite Hx. cbn [fst]. eauto.
    - intros [v|] _ _ _; [apply replies_call; now left|apply replies_lift].
    - intros [] _ _ _; [exact IH|apply replies_lift]. }
  destruct (Hall w) as [(p & -> & Hp)|(b & ->)]; [|destruct b; auto]. exact Hp.
Qed.

(** ** Faithful clones *)

Section Faithful.
Context {W K V BH : Type}.
Variable D : copying W K V BH.
Variable cK : K -> K.
Variable cV : V -> V.
Variable cB : BH -> BH.
Hypothesis HD : copies_as D cK cV cB.
Definition twin (e : K * V) : K * V := (cK (fst e), cV (snd e)).
Definition twin_shape (sh : shape BH) : shape BH :=
  match sh with
  | Common bh => Common (cB bh)
  | LeftSlice bh x y => LeftSlice (cB bh) x y
  | RightSlice bh x y => RightSlice (cB bh) x y
  | sh => sh
  end.
Definition twin_table (t : hash_table K V) : hash_table K V :=
  {| num_slots := num_slots t; slots := slots t; entries := map twin (entries t) |}.
Definition twin_map (m : special K V BH) : special K V BH :=
  match m with Entries es => Entries (map twin es) | InTable sh t => InTable (twin_shape sh) (twin_table t) end.
Definition twin_range (m : range_map K V) : range_map K V :=
  {| rg_min := cK (rg_min m); rg_max := cK (rg_max m); rg_entries := map twin (rg_entries m) |}.

Lemma twin_entries m : sp_entries (twin_map m) = map twin (sp_entries m).
Proof. now destruct m. Qed.

Lemma copy_entries_same es : same (copy_entries D es) (Ok (map twin es)).
Proof.
  induction es as [|e es IH]; [apply same_lift|]. unfold copy_entries. cbn [v_map map].
  apply (same_then _ (twin e)).
  - apply (same_then _ (cK (fst e))); [apply same_call, HD|]. apply (same_then _ (cV (snd e))); [apply same_call, HD|]. apply same_lift.
  - apply (same_then _ (map twin es)); [exact IH|]. apply same_lift.
Qed.
Lemma sp_clone_same m : same (sp_clone D m) (Ok (twin_map m)).
Proof.
  destruct m as [es|sh t]; cbn [sp_clone twin_map]; apply (same_then _ _ _ _ (copy_entries_same _)); [apply same_lift|].
  apply (same_then _ (twin_shape sh)); [|apply same_lift].
  destruct sh; cbn [copy_shape twin_shape]; try apply same_lift; (eapply same_then; [apply same_call, HD|apply same_lift]).
Qed.
Lemma rg_clone_same m : same (rg_clone D m) (Ok (twin_range m)).
Proof.
  unfold rg_clone. eapply same_then; [apply same_call, HD|]. eapply same_then; [apply same_call, HD|].
  apply (same_then _ _ _ _ (copy_entries_same _)). apply same_lift.
Qed.
End Faithful.

Lemma same_at {W A} (x : M W A) r w : same x r -> exists w', x w = (r, w').
Proof. intros H. specialize (H w). destruct (x w) as [r0 w']. cbn [fst] in H. subst. eauto. Qed.

Section LawfulClones.
Context {W K Q V BH : Type}.
Variable F : foreign W K Q BH.
Variable a : oracle K Q BH.
Variable D : copying W K V BH.
Variable E : env.
Variable cK : K -> K.
Variable cV : V -> V.
Variable cB : BH -> BH.
Hypothesis HF : regular_foreign F a.
Hypothesis HE : env_ok E.
Hypothesis He : equivalence (a_eq a).
Hypothesis HD : copies_as D cK cV cB.
Hypothesis Hc : true_copies a cK cB.
Notation twin := (twin cK cV).
Notation twin_map := (twin_map cK cV cB).
Notation twin_shape := (twin_shape cB).
Implicit Types m : special K V BH.

Lemma fitting_twin sh keys : fitting a sh keys -> fitting a (twin_shape sh) (map cK keys).
Proof.
  destruct sh as [|bh| | |bh x y|bh x y]; cbn [fitting SpecialCloneProofs.twin_shape]; auto.
  - intros (H1 & H2). split; intros; rewrite ?(tc_hash_key _ _ _ Hc), ?(tc_hash_query _ _ _ Hc); auto.
  - intros (L1 & L2 & H1 & H2 & H3). repeat split; auto; intros; rewrite ?(tc_slice_key _ _ _ Hc), ?(tc_slice_query _ _ _ Hc); auto.
    apply in_map_iff in H. destruct H as (k0 & <- & Hk). rewrite L1, <- (L2 _ _ (tc_key _ _ _ Hc k0)), <- L1. auto.
  - intros (L1 & L2 & H1 & H2 & H3 & H4 & H5). repeat split; try apply H3; auto; intros; rewrite ?(tc_slice_key _ _ _ Hc), ?(tc_slice_query _ _ _ Hc); auto.
    apply in_map_iff in H. destruct H as (k0 & <- & Hk). rewrite L1, <- (L2 _ _ (tc_key _ _ _ Hc k0)), <- L1. auto.
Qed.

Lemma key_code_twin sh keys k : fitting a sh keys -> In k keys -> key_code a (twin_shape sh) (cK k) = key_code a sh k.
Proof.
  pose proof (tc_key _ _ _ Hc k) as Hk.
  destruct sh as [|bh| | |bh x y|bh x y]; cbn [fitting SpecialCloneProofs.twin_shape key_code]; auto.
  - intros (H1 & H2) _. rewrite (tc_hash_key _ _ _ Hc), !H1. symmetry. auto.
  - intros (H1 & H2) _. rewrite !H1. symmetry. auto.
  - intros (H1 & H2) _. rewrite !H1. symmetry. auto.
  - intros (L1 & L2 & H1 & H2 & H3) _. rewrite (tc_slice_key _ _ _ Hc), !H1. symmetry. auto.
  - intros (L1 & L2 & H1 & H2 & H3) _. rewrite (tc_slice_key _ _ _ Hc), !H1, !L1, <- (L2 _ _ Hk). symmetry. auto.
Qed.

Lemma table_ok_twin h h' (t : hash_table K V) : (forall k, In k (map fst (entries t)) -> h' (cK k) = h k) ->
  table_ok h t -> table_ok h' (twin_table cK cV t).
Proof.
  intros Hh (H1 & H2). split; [exact H1|]. intros code. destruct (H2 code) as (x & y & Hi & Hr & Hs). exists x, y.
  split; [exact Hi|]. cbn [twin_table entries num_slots]. split.
  - unfold range_ok in *. now rewrite zlen_map.
  - assert (Hsub : sub x y (map twin (entries t)) = map twin (sub x y (entries t))).
    { unfold sub. now rewrite skipn_map, firstn_map. }
    rewrite Hsub, Hs. clear - Hh. induction (entries t) as [|e l IH]; [reflexivity|]. cbn [map filter].
    cbn [map] in Hh. change (fst (twin e)) with (cK (fst e)). rewrite (Hh (fst e)) by (now left).
    destruct (_ =? _); cbn [map]; [f_equal|]; apply IH; intros k Hk; apply Hh; now right.
Qed.

Lemma in_order_twin sh m : in_order a sh m -> in_order a (twin_shape sh) (twin_map m).
Proof.
  destruct m as [es|sh' t]; cbn [in_order SpecialCloneProofs.twin_map]; auto. intros (-> & Hok & Hfit).
  split; auto. split.
  - apply (table_ok_twin (key_code a sh)); auto. intros k Hk. now apply (key_code_twin sh (map fst (entries t))).
  - cbn [twin_table entries]. rewrite map_map. cbn [SpecialCloneProofs.twin fst]. rewrite <- (map_map fst cK). now apply fitting_twin.
Qed.

Lemma a_eq_twin k k' : a_eq a (a_borrow a (cK k)) (a_borrow a (cK k')) = a_eq a (a_borrow a k) (a_borrow a k').
Proof.
  pose proof (tc_key _ _ _ Hc k) as H1. pose proof (tc_key _ _ _ Hc k') as H2.
  destruct (a_eq a (a_borrow a k) (a_borrow a k')) eqn:H3.
  - apply (eq_trans_ok _ He) with (a_borrow a k); [now apply (eq_sym_ok _ He)|]. now apply (eq_trans_ok _ He) with (a_borrow a k').
  - destruct (a_eq a (a_borrow a (cK k)) (a_borrow a (cK k'))) eqn:H4; auto. rewrite <- H3. symmetry.
    apply (eq_trans_ok _ He) with (a_borrow a (cK k)); auto. apply (eq_trans_ok _ He) with (a_borrow a (cK k')); auto. now apply (eq_sym_ok _ He).
Qed.

Lemma distinct_twin (es : list (K * V)) : distinct (a_eq a) (map (fun e => a_borrow a (fst e)) es) ->
  distinct (a_eq a) (map (fun e => a_borrow a (fst e)) (map twin es)).
Proof.
  induction es as [|e es IH]; cbn [map distinct]; auto. intros (H1 & H2). split; auto.
  intros q Hq. rewrite map_map in Hq. apply in_map_iff in Hq. destruct Hq as (e' & <- & He').
  cbn [SpecialCloneProofs.twin fst]. rewrite a_eq_twin. apply H1. apply in_map_iff. eauto.
Qed.

Definition lawfully m : Prop :=
  (exists sh, in_order a sh m) /\ distinct (a_eq a) (map (fun e => a_borrow a (fst e)) (sp_entries m)) /\ zlen (sp_entries m) < 2 ^ 64.

Lemma lawful_owned_ok m : lawful_owned F a D E m -> lawfully m.
Proof.
  intros H. induction H as [S_ty sh payload w m w' HS Hfit Hd Hm|m w m' w' H ((sh & Ho) & Hd & Hz) Hcl|m o w b m' w' H ((sh & Ho) & Hd & Hz) Hstep].
  - destruct (lawful_special F a E HF S_ty sh payload w HE HS Hfit) as (m0 & Hm0 & HP & Ho). rewrite Hm in Hm0. injection Hm0 as <-.
    split; [eauto|]. split; [|rewrite <- (zlen_perm _ _ HP); now apply fits_small with S_ty].
    apply (distinct_perm _ He) with (map (fun e => a_borrow a (fst e)) payload); auto. now apply Permutation_map.
  - destruct (same_at _ _ w (sp_clone_same D cK cV cB HD m)) as (w1 & H1). rewrite Hcl in H1. injection H1 as -> _.
    split; [exists (twin_shape sh); now apply in_order_twin|]. rewrite twin_entries. split; [now apply distinct_twin|]. now rewrite zlen_map.
  - destruct (sp_step_same F a E HF sh m o w He Ho Hz) as (w1 & H1). rewrite Hstep in H1. injection H1 as _ Hm' _.
    destruct (mo_step_kept a E sh m o Ho) as (Ho' & Hz'). rewrite <- Hm' in Ho', Hz'.
    split; [eauto|]. split; [|lia].
    assert (Hkeys : map fst (sp_entries m') = map fst (sp_entries m)).
    { assert (Hw : forall i v m, map fst (sp_entries (sp_write i v m)) = map fst (sp_entries m)).
      { intros i v m0. now rewrite sp_write_entries, write_entry_keys. }
      assert (Hws : forall ps vs m, map fst (sp_entries (sp_write_all ps vs m)) = map fst (sp_entries m)).
      { intros ps vs. unfold sp_write_all. induction (combine ps vs) as [|[i v] l IH]; intros m0; cbn [fold_left fst snd]; auto.
        rewrite IH. apply Hw. }
      rewrite Hm'. clear - Hw Hws. destruct o as [k|k|k|k| | | |k v|k v|kws]; cbn [mo_step snd]; auto.
      - cbn [mo_get_mut sp_object]. destruct (find_pos _ _); cbn [snd]; [apply Hw|auto].
      - unfold mo_index_mut, index_of. cbn [mo_get_mut sp_object bind]. destruct (find_pos _ _); cbn [unwrap snd]; [apply Hw|auto].
      - destruct (mo_get_many_mut _ _ _ _) as [[ps|]| | |]; cbn [snd]; auto. rewrite write_all_same. apply Hws. }
    rewrite <- (map_map fst (a_borrow a)), Hkeys, map_map. exact Hd.
Qed.

Lemma lawfully_runs m history w : lawfully m ->
  Forall2 (fun seen expected => exists b, seen = Some b /\ same_obs b expected)
    (sp_run F E m history w) (object_run (a_eq a) (a_borrow a) (sp_entries m) history).
Proof.
  intros ((sh & Ho) & Hd & Hz). rewrite (sp_run_same F a E HF sh history m w He Ho Hz).
  assert (Hsim : Forall2 same_obs (mo_run (prof E) (a_eq a) (sp_object a) m history) (object_run (a_eq a) (a_borrow a) (sp_entries m) history)).
  { apply (mo_run_simulates (prof E) (a_eq a) (a_borrow a) _ _ _ He (sp_searches a sh)).
    - split; [apply Permutation_refl|]. split; auto.
    - intros o q _ _. exact I. }
  clear - Hsim. induction Hsim as [|x y l1 l2 Hxy _ IH]; cbn [map]; constructor; eauto.
Qed.
End LawfulClones.

Lemma faithful_special_clone :
  forall (W K Q V BH : Type) (F : foreign W K Q BH) (a : oracle K Q BH) (D : copying W K V BH) (E : env)
         (cK : K -> K) (cV : V -> V) (cB : BH -> BH) (m : special K V BH),
  regular_foreign F a -> env_ok E -> equivalence (a_eq a) -> copies_as D cK cV cB -> true_copies a cK cB ->
  lawful_owned F a D E m ->
  (forall history w, Forall2 (fun seen expected => exists b, seen = Some b /\ same_obs b expected)
     (sp_run F E m history w) (object_run (a_eq a) (a_borrow a) (sp_entries m) history)) /\
  forall w, exists m' w', sp_clone D m w = (Ok m', w') /\
    sp_entries m' = map (fun e => (cK (fst e), cV (snd e))) (sp_entries m).
Proof.
  intros W K Q V BH F a D E cK cV cB m HF HE He HD Hc H.
  pose proof (lawful_owned_ok F a D E cK cV cB HF HE He HD Hc m H) as Hm. split.
  - intros history w. now apply lawfully_runs.
  - intros w. destruct (same_at _ _ w (sp_clone_same D cK cV cB HD m)) as (w' & H1). exists (twin_map cK cV cB m), w'.
    split; auto. apply twin_entries.
Qed.

Lemma lawful_special_equality_owned :
  forall (W K V BH : Type) (F : foreign W K K BH) (a : oracle K K BH) (D : copying W K V BH) (E : env)
         (cK : K -> K) (cV : V -> V) (cB : BH -> BH) (veq : V -> V -> W -> option bool * W) (veqb : V -> V -> bool)
         (m1 m2 : special K V BH) (w : W),
  regular_foreign F a -> env_ok E -> equivalence (a_eq a) -> copies_as D cK cV cB -> true_copies a cK cB ->
  (forall k, a_borrow a k = k) -> (forall x y, always (veq x y) (veqb x y)) ->
  lawful_owned F a D E m1 -> lawful_owned F a D E m2 ->
  exists b, fst (sp_eq F E veq m1 m2 w) = Ok b /\ (b = true <-> same_map (a_eq a) veqb (sp_entries m1) (sp_entries m2)).
Proof.
  intros W K V BH F a D E cK cV cB veq veqb m1 m2 w HF HE He HD Hc Hbo Hv H1 H2.
  destruct (lawful_owned_ok F a D E cK cV cB HF HE He HD Hc m1 H1) as ((sh1 & O1) & D1 & Z1).
  destruct (lawful_owned_ok F a D E cK cV cB HF HE He HD Hc m2 H2) as ((sh2 & O2) & D2 & Z2).
  assert (Hsame : same (sp_eq F E veq m1 m2) (mo_eq veqb (sp_object a) m1 m2)).
  { unfold sp_eq, mo_eq, map_eq. cbn [mo_entries sp_object]. destruct (negb _); [apply same_lift|]. apply same_all. intros e.
    apply same_bind; [now apply (lawful_get F a E HF sh2)|]. intros [v|]; [apply same_call, Hv|apply same_lift]. }
  rewrite (Hsame w).
  assert (Hs : searches (a_eq a) (fun k => k) (sp_object a) (fun _ => True) (in_order (V := V) a sh2)).
  { destruct (sp_searches (V := V) a sh2) as (G1 & G2). split; auto. intros m0 q Hin _. destruct (G1 m0 q Hin I) as (A1 & A2 & A3 & A4).
    assert (Hn : forall q (e : K * V), names (a_eq a) (a_borrow a) q e = names (a_eq a) (fun k => k) q e) by (intros; unfold names; now rewrite Hbo).
    assert (Hp : find_pos (names (a_eq a) (a_borrow a) q) (sp_entries m0) = find_pos (names (a_eq a) (fun k => k) q) (sp_entries m0)) by (apply find_pos_ext; auto).
    cbn [mo_get_at mo_get mo_get_mut mo_get_key_value mo_entries sp_object]. rewrite !find_find_pos, !Hp. auto. }
  assert (Hdd : forall es : list (K * V), distinct (a_eq a) (map (fun e => a_borrow a (fst e)) es) -> distinct (a_eq a) (map fst es)).
  { intros es Hd. erewrite map_ext; [exact Hd|]. intros e. cbn. now rewrite Hbo. }
  apply (mo_eq_ok (a_eq a) veqb He _ _ _ (sp_entries m1) (sp_entries m2) m1 m2 Hs); auto.
Qed.

(** A map and its clone have the same entries. *)
Lemma twins_alike {K V} (eqb : K -> K -> bool) (veqb : V -> V -> bool) (cK : K -> K) (cV : V -> V) (es : list (K * V)) :
  equivalence eqb -> (forall k, eqb k (cK k) = true) -> (forall v, veqb v (cV v) = true /\ veqb (cV v) v = true) ->
  same_map eqb veqb es (map (twin cK cV) es) /\ same_map eqb veqb (map (twin cK cV) es) es.
Proof.
  intros He Hkc Hve. split; split; intros k v (k' & Hin & Hk).
  - exists (cV v). split; [|apply Hve]. exists (cK k'). split; [apply in_map_iff; exists (k', v); auto|].
    now apply (eq_trans_ok _ He) with k'.
  - apply in_map_iff in Hin. destruct Hin as ([k0 v0] & Ht & Hin). injection Ht as <- <-. exists v0. split; [|apply Hve].
    exists k0. split; auto. apply (eq_trans_ok _ He) with (cK k0); auto. now apply (eq_sym_ok _ He).
  - apply in_map_iff in Hin. destruct Hin as ([k0 v0] & Ht & Hin). injection Ht as <- <-. exists v0. split; [|apply Hve].
    exists k0. split; auto. apply (eq_trans_ok _ He) with (cK k0); auto. now apply (eq_sym_ok _ He).
  - exists (cV v). split; [|apply Hve]. exists (cK k'). split; [apply in_map_iff; exists (k', v); auto|].
    now apply (eq_trans_ok _ He) with k'.
Qed.

Lemma faithful_special_clone_equal :
  forall (W K V BH : Type) (F : foreign W K K BH) (a : oracle K K BH) (D : copying W K V BH) (E : env)
         (cK : K -> K) (cV : V -> V) (cB : BH -> BH) (veq : V -> V -> W -> option bool * W) (veqb : V -> V -> bool)
         (m m' : special K V BH) (w w' w1 : W),
  regular_foreign F a -> env_ok E -> equivalence (a_eq a) -> copies_as D cK cV cB -> true_copies a cK cB ->
  (forall k, a_borrow a k = k) -> (forall x y, always (veq x y) (veqb x y)) ->
  (forall v, veqb v (cV v) = true /\ veqb (cV v) v = true) ->
  lawful_owned F a D E m -> sp_clone D m w = (Ok m', w') ->
  fst (sp_eq F E veq m m' w1) = Ok true /\ fst (sp_eq F E veq m' m w1) = Ok true.
Proof.
  intros W K V BH F a D E cK cV cB veq veqb m m' w w' w1 HF HE He HD Hc Hbo Hv Hve H Hcl.
  pose proof (LawfulClone _ _ _ _ _ _ _ _ H Hcl) as H'.
  assert (Hes : sp_entries m' = map (twin cK cV) (sp_entries m)).
  { destruct (same_at _ _ w (sp_clone_same D cK cV cB HD m)) as (w2 & H1). rewrite Hcl in H1. injection H1 as -> _. apply twin_entries. }
  assert (Hkc : forall k, a_eq a k (cK k) = true) by (intros k; pose proof (tc_key _ _ _ Hc k) as Hk; now rewrite !Hbo in Hk).
  destruct (twins_alike (a_eq a) veqb cK cV (sp_entries m) He Hkc Hve) as (S1 & S2). rewrite <- Hes in S1, S2.
  destruct (lawful_special_equality_owned W K V BH F a D E cK cV cB veq veqb m m' w1 HF HE He HD Hc Hbo Hv H H') as (b & -> & Hb).
  destruct (lawful_special_equality_owned W K V BH F a D E cK cV cB veq veqb m' m w1 HF HE He HD Hc Hbo Hv H' H) as (b' & -> & Hb').
  apply Hb in S1. apply Hb' in S2. now subst.
Qed.

Lemma owned_ordered {W K Q V BH} (G : integers W K Q) (lo hi : Z) (kv : K -> Z) (value : Q -> Z) (borrow : K -> Q)
    (D : copying W K V BH) (cK : K -> K) (cV : V -> V) (cB : BH -> BH) (srt : sorter) (p : profile) (m : range_map K V) :
  lawful_integers G lo hi kv value -> (forall k, value (borrow k) = kv k) -> sorter_ok srt ->
  copies_as D cK cV cB -> (forall k, kv (cK k) = kv k) ->
  lawful_range_owned G hi kv D srt p m -> rg_ordered hi kv m.
Proof.
  intros HG Hb Hsrt HD Hc H.
  induction H as [payload w m w' Hne H64 Hhi Hco Hm|m w m' w' H IH Hcl|m o w b m' w' H IH Hstep].
  - destruct (lawful_range_build G lo hi kv value HG srt Hsrt payload Hne H64 Hhi Hco) as (m0 & Hm0 & _ & Ho).
    specialize (Hm0 w). rewrite Hm in Hm0. injection Hm0 as <-. exact Ho.
  - destruct (same_at _ _ w (rg_clone_same D cK cV cB HD m)) as (w2 & H1). rewrite Hcl in H1. injection H1 as -> _.
    destruct IH as (Hne & H64 & Hhi & Hk & Hmx). unfold rg_ordered, twin_range. cbn [rg_entries rg_min rg_max].
    rewrite zlen_map, map_length, !Hc, map_map. cbn [twin fst]. split; [|split; [|split; [|split]]]; auto.
    + intros H0. apply map_eq_nil in H0. auto.
    + erewrite map_ext; [exact Hk|]. intros e. apply Hc.
  - destruct (rg_step_same G lo hi kv value HG borrow Hb p m o w IH) as (w1 & H1). rewrite Hstep in H1. injection H1 as _ -> _.
    now apply (rg_step_kept hi kv value borrow).
Qed.

Lemma ordered_distinct {K V} hi (value : K -> Z) (m : range_map K V) : rg_ordered hi value m ->
  distinct (fun a b => value a =? value b) (map fst (rg_entries m)).
Proof.
  intros (_ & _ & _ & Hk & _). apply value_distinct. rewrite map_map, Hk. apply interval_NoDup.
Qed.

Lemma faithful_range_clone :
  forall (W K Q V BH : Type) (G : integers W K Q) (lo hi : Z) (key_value : K -> Z) (value : Q -> Z) (borrow : K -> Q)
         (D : copying W K V BH) (cK : K -> K) (cV : V -> V) (cB : BH -> BH) (srt : sorter) (p : profile) (m : range_map K V),
  lawful_integers G lo hi key_value value -> (forall k, value (borrow k) = key_value k) -> sorter_ok srt ->
  copies_as D cK cV cB -> (forall k, key_value (cK k) = key_value k) ->
  lawful_range_owned G hi key_value D srt p m ->
  (forall history w, Forall2 (fun seen expected => exists b, seen = Some b /\ same_obs b expected)
     (rg_run G p m history w) (object_run (fun a b => value a =? value b) borrow (rg_entries m) history)) /\
  forall w, exists m' w', rg_clone D m w = (Ok m', w') /\
    rg_entries m' = map (fun e => (cK (fst e), cV (snd e))) (rg_entries m).
Proof.
  intros W K Q V BH G lo hi kv value borrow D cK cV cB srt p m HG Hb Hsrt HD Hc H.
  pose proof (owned_ordered G lo hi kv value borrow D cK cV cB srt p m HG Hb Hsrt HD Hc H) as Ho.
  split.
  - intros history w. rewrite (rg_run_same G lo hi kv value HG borrow Hb p history m w Ho).
    assert (Hsim : Forall2 same_obs (mo_run p (fun a b => value a =? value b) (rg_object value borrow) m history)
      (object_run (fun a b => value a =? value b) borrow (rg_entries m) history)).
    { apply (mo_run_simulates p _ borrow _ _ _ (value_equivalence value) (rg_searches hi kv value borrow)).
      - split; [apply Permutation_refl|]. split; auto. split; [|apply Ho].
        assert (Hd : NoDup (map value (map (fun e => borrow (fst e)) (rg_entries m)))).
        { rewrite map_map. erewrite map_ext; [|intros e; apply Hb]. destruct Ho as (_ & _ & _ & -> & _). apply interval_NoDup. }
        now apply value_distinct.
      - intros o q _ _. exact I. }
    clear - Hsim. induction Hsim as [|x y l1 l2 Hxy _ IH]; cbn [map]; constructor; eauto.
  - intros w. destruct (same_at _ _ w (rg_clone_same D cK cV cB HD m)) as (w' & H1). eexists _, w'. split; [exact H1|]. reflexivity.
Qed.

Lemma lawful_range_equality_owned :
  forall (W K V BH : Type) (G : integers W K K) (lo hi : Z) (value : K -> Z)
         (D : copying W K V BH) (cK : K -> K) (cV : V -> V) (cB : BH -> BH) (srt : sorter) (p : profile)
         (veq : V -> V -> W -> option bool * W) (veqb : V -> V -> bool) (m1 m2 : range_map K V) (w : W),
  lawful_integers G lo hi value value -> sorter_ok srt ->
  copies_as D cK cV cB -> (forall k, value (cK k) = value k) -> (forall x y, always (veq x y) (veqb x y)) ->
  lawful_range_owned G hi value D srt p m1 -> lawful_range_owned G hi value D srt p m2 ->
  exists b, fst (rg_eq G veq m1 m2 w) = Ok b /\
    (b = true <-> same_map (fun a b => value a =? value b) veqb (rg_entries m1) (rg_entries m2)).
Proof.
  intros W K V BH G lo hi value D cK cV cB srt p veq veqb m1 m2 w HG Hsrt HD Hc Hv H1 H2.
  pose proof (owned_ordered G lo hi value value (fun k => k) D cK cV cB srt p m1 HG (fun k => eq_refl) Hsrt HD Hc H1) as O1.
  pose proof (owned_ordered G lo hi value value (fun k => k) D cK cV cB srt p m2 HG (fun k => eq_refl) Hsrt HD Hc H2) as O2.
  assert (Hsame : same (rg_eq G veq m1 m2) (mo_eq veqb (rg_object value (fun k => k)) m1 m2)).
  { unfold rg_eq, mo_eq, map_eq. cbn [mo_entries rg_object]. destruct (negb _); [apply same_lift|]. apply same_all. intros e.
    apply same_bind; [now apply (ordered_get G lo hi value value HG)|]. intros [v|]; [apply same_call, Hv|apply same_lift]. }
  rewrite (Hsame w).
  apply (mo_eq_ok (fun a b => value a =? value b) veqb (value_equivalence value) _ _ _ (rg_entries m1) (rg_entries m2) _ _
    (rg_searches hi value value (fun k => k))); auto; eapply ordered_distinct; eauto.
Qed.

Lemma faithful_range_clone_equal :
  forall (W K V BH : Type) (G : integers W K K) (lo hi : Z) (value : K -> Z)
         (D : copying W K V BH) (cK : K -> K) (cV : V -> V) (cB : BH -> BH) (srt : sorter) (p : profile)
         (veq : V -> V -> W -> option bool * W) (veqb : V -> V -> bool) (m m' : range_map K V) (w w' w1 : W),
  lawful_integers G lo hi value value -> sorter_ok srt ->
  copies_as D cK cV cB -> (forall k, value (cK k) = value k) -> (forall x y, always (veq x y) (veqb x y)) ->
  (forall v, veqb v (cV v) = true /\ veqb (cV v) v = true) ->
  lawful_range_owned G hi value D srt p m -> rg_clone D m w = (Ok m', w') ->
  fst (rg_eq G veq m m' w1) = Ok true /\ fst (rg_eq G veq m' m w1) = Ok true.
Proof.
  intros W K V BH G lo hi value D cK cV cB srt p veq veqb m m' w w' w1 HG Hsrt HD Hc Hv Hve H Hcl.
  pose proof (LawfulRangeClone _ _ _ _ _ _ _ _ _ _ H Hcl) as H'.
  assert (Hes : rg_entries m' = map (twin cK cV) (rg_entries m)).
  { destruct (same_at _ _ w (rg_clone_same D cK cV cB HD m)) as (w2 & H1). rewrite Hcl in H1. injection H1 as -> _. reflexivity. }
  destruct (twins_alike (fun a b => value a =? value b) veqb cK cV (rg_entries m) (value_equivalence value)) as (S1 & S2); auto.
  { intros k. rewrite Hc. apply Z.eqb_refl. }
  rewrite <- Hes in S1, S2.
  destruct (lawful_range_equality_owned W K V BH G lo hi value D cK cV cB srt p veq veqb m m' w1 HG Hsrt HD Hc Hv H H') as (b & -> & Hb).
  destruct (lawful_range_equality_owned W K V BH G lo hi value D cK cV cB srt p veq veqb m' m w1 HG Hsrt HD Hc Hv H' H) as (b' & -> & Hb').
  apply Hb in S1. apply Hb' in S2. now subst.
Qed.

(** ** Sets: maps without values, which do not change *)

Lemma owned_special_set_use :
  forall (W T Q V BH : Type) (F : foreign W T Q BH) (D : copying W T V BH) (E : env) (s : special T unit BH),
  env_ok E -> owned_special F (valueless D) E s ->
  (forall W' (G : foreign W' T T BH), vs_len (st_running E G s) = zlen (st_items s) /\
     runs_through (vs_next (st_running E G s)) (vs_iter (st_running E G s)) (st_items s)) /\
  forall W' (G : foreign W' T Q BH) (q : Q) (w : W'),
    (exists p, fst (st_get E G s q w) = Panic p /\ fst (st_contains E G s q w) = Panic p /\
       (p = PForeign \/ p = POverflow /\ exists bh x y t, s = InTable (RightSlice bh x y) t)) \/
    exists o, fst (st_get E G s q w) = Ok o /\ (forall y, o = Some y -> In y (st_items s)) /\
      fst (st_contains E G s q w) = Ok (match o with Some _ => true | None => false end).
Proof.
  intros W T Q V BH F D E s HE H. destruct (owned_safe F (valueless D) E HE s H) as (Hs & Hz).
  assert (Hl : zlen (sp_entries s) = zlen (st_items s)) by (unfold st_items; now rewrite zlen_map).
  split; [intros W' G; split; [exact Hl|apply (st_runs E G (st_items s)); [lia|apply Permutation_refl]]|].
  intros W' G q w. rewrite st_contains_get. unfold st_get, sp_get_key_value, mbind.
  destruct (sp_find_cases G E s q w Hs) as [(p & w2 & -> & Hp)|[(w2 & ->)|(i & e & w2 & -> & He)]]; cbn [lift fst over].
  - left. exists p. split; auto. split; auto. destruct Hp as [->|(-> & Hp)]; auto. right. split; auto.
    destruct s as [es|[] t]; cbn in Hp; try contradiction. eauto.
  - right. exists None. split; auto. split; auto. discriminate.
  - right. rewrite He. exists (Some (fst e)). split; auto. split; auto. intros y [= <-]. apply in_map. eapply nth_error_In; eauto.
Qed.

Lemma owned_range_set_use :
  forall (W T Q V BH : Type) (G : integers W T Q) (D : copying W T V BH) (srt : sorter) (p : profile) (s : range_map T unit),
  sorter_ok srt -> owned_range G (valueless D) srt p s ->
  (forall W' (G' : integers W' T T), vs_len (rs_running p G' s) = zlen (rs_items s) /\
     runs_through (vs_next (rs_running p G' s)) (vs_iter (rs_running p G' s)) (rs_items s)) /\
  forall W' (G' : integers W' T Q) (q : Q) (w : W'),
    (exists e, (e = PForeign \/ e = PIndexOutOfBounds) /\ fst (rs_get G' s q w) = Panic e /\ fst (rs_contains G' s q w) = Panic e) \/
    exists o, fst (rs_get G' s q w) = Ok o /\ (forall y, o = Some y -> In y (rs_items s)) /\
      fst (rs_contains G' s q w) = Ok (match o with Some _ => true | None => false end).
Proof.
  intros W T Q V BH G D srt p s Hsrt H.
  pose proof (owned_range_small G (valueless D) srt p Hsrt s H) as Hz.
  assert (Hl : zlen (rg_entries s) = zlen (rs_items s)) by (unfold rs_items; now rewrite zlen_map).
  split; [intros W' G'; split; [exact Hl|apply (rs_runs p G' (rs_items s)); [lia|apply Permutation_refl]]|].
  intros W' G' q w. rewrite rs_contains_get. unfold rs_get, rg_get_key_value, mbind.
  destruct (rg_find_cases G' s q w) as [(e & w2 & -> & He)|[(w2 & ->)|(i & e & w2 & -> & He)]]; cbn [lift fst over].
  - left. exists e. auto.
  - right. exists None. split; auto. split; auto. discriminate.
  - right. rewrite He. exists (Some (fst e)). split; auto. split; auto. intros y [= <-]. apply in_map. eapply nth_error_In; eauto.
Qed.

(** ** Lawful sets *)

Lemma valueless_copies {W T V BH} (D : copying W T V BH) cK cV cB : copies_as D cK cV cB ->
  copies_as (valueless D) cK (fun u => u) cB.
Proof. intros [H1 H2 H3]. split; auto. intros [] w. reflexivity. Qed.

Lemma lawful_set_ok {W T Q V BH} (F : foreign W T Q BH) a (D : copying W T V BH) E cK cV cB s :
  regular_foreign F a -> env_ok E -> equivalence (a_eq a) -> copies_as D cK cV cB -> true_copies a cK cB ->
  lawful_set_owned F a D E s -> (exists sh, in_order a sh s) /\ zlen (sp_entries s) < 2 ^ 64.
Proof.
  intros HF HE He HD Hc H. induction H as [S_ty sh payload w s w' HS Hfit Hs|s w s' w' H ((sh & Ho) & Hz) Hcl].
  - rewrite <- (with_unit_len payload) in HS. rewrite <- (with_unit_keys payload) in Hfit.
    destruct (lawful_special F a E HF S_ty sh (with_unit payload) w HE HS Hfit) as (s0 & Hs0 & HP & Ho).
    unfold st_from_vec in Hs. rewrite Hs in Hs0. injection Hs0 as <-. split; [eauto|].
    rewrite <- (zlen_perm _ _ HP). now apply fits_small with S_ty.
  - apply valueless_copies in HD.
    destruct (same_at _ _ w (sp_clone_same (valueless D) cK _ cB HD s)) as (w1 & H1). unfold st_clone in Hcl. rewrite Hcl in H1. injection H1 as -> _.
    split; [exists (twin_shape cB sh); now apply in_order_twin|]. now rewrite twin_entries, zlen_map.
Qed.

Lemma faithful_special_set_clone :
  forall (W T Q V BH : Type) (F : foreign W T Q BH) (a : oracle T Q BH) (D : copying W T V BH) (E : env)
         (cK : T -> T) (cV : V -> V) (cB : BH -> BH) (s : special T unit BH),
  regular_foreign F a -> env_ok E -> equivalence (a_eq a) -> copies_as D cK cV cB -> true_copies a cK cB ->
  lawful_set_owned F a D E s ->
  (forall q w,
     (exists x, In x (st_items s) /\ a_eq a q (a_borrow a x) = true /\
        fst (st_get E F s q w) = Ok (Some x) /\ fst (st_contains E F s q w) = Ok true) \/
     ((forall x, In x (st_items s) -> a_eq a q (a_borrow a x) = false) /\
        fst (st_get E F s q w) = Ok None /\ fst (st_contains E F s q w) = Ok false)) /\
  forall w, exists s' w', st_clone D s w = (Ok s', w') /\ st_items s' = map cK (st_items s).
Proof.
  intros W T Q V BH F a D E cK cV cB s HF HE He HD Hc H.
  destruct (lawful_set_ok F a D E cK cV cB s HF HE He HD Hc H) as ((sh & Ho) & _). split.
  - intros q w. pose proof (lawful_find F a E HF sh s q He Ho w) as Hf.
    assert (Hg : fst (st_get E F s q w) =
      Ok (option_map fst (match find_pos (names (a_eq a) (a_borrow a) q) (sp_entries s) with
                          | Some i => nth_error (sp_entries s) i | None => None end))).
    { unfold st_get, sp_get_key_value, mbind. destruct (sp_find F E s q w) as [r w2]. cbn [fst] in Hf. subst r. reflexivity. }
    assert (Hcg : fst (st_contains E F s q w) = over (fun o => match o with Some _ => true | None => false end) (fst (st_get E F s q w))).
    { rewrite st_contains_get. now destruct (st_get E F s q w). }
    rewrite Hcg, Hg. destruct (find_pos (names (a_eq a) (a_borrow a) q) (sp_entries s)) as [i|] eqn:Hp.
    + destruct (find_pos_some _ _ _ Hp) as (e & He1 & He2). rewrite He1. left. exists (fst e). split.
      { apply in_map. eapply nth_error_In; eauto. }
      split; [exact (proj1 He2)|split; reflexivity].
    + right. split; [|split; reflexivity]. intros x Hx.
      apply in_map_iff in Hx. destruct Hx as (e & <- & Hx). exact (proj1 (find_pos_none _ _) Hp e Hx).
  - intros w. destruct (same_at _ _ w (sp_clone_same (valueless D) cK _ cB (valueless_copies D cK cV cB HD) s)) as (w' & H1).
    eexists _, w'. split; [exact H1|]. unfold st_items. rewrite twin_entries, !map_map. reflexivity.
Qed.

Lemma faithful_special_set_serves :
  forall (W T V BH : Type) (F : foreign W T T BH) (a : oracle T T BH) (D : copying W T V BH) (E : env)
         (cK : T -> T) (cV : V -> V) (cB : BH -> BH) (s : special T unit BH),
  regular_foreign F a -> env_ok E -> equivalence (a_eq a) -> copies_as D cK cV cB -> true_copies a cK cB ->
  (forall x, a_borrow a x = x) -> lawful_set_owned F a D E s ->
  serves (a_eq a) (fun _ => True) (st_running E F s) (st_items s).
Proof.
  intros W T V BH F a D E cK cV cB s HF HE He HD Hc Hb H.
  destruct (lawful_set_ok F a D E cK cV cB s HF HE He HD Hc H) as (_ & Hz).
  destruct (faithful_special_set_clone W T T V BH F a D E cK cV cB s HF HE He HD Hc H) as (Hq & _).
  assert (Hl : zlen (sp_entries s) = zlen (st_items s)) by (unfold st_items; now rewrite zlen_map).
  split; auto.
  - apply (st_runs E F (st_items s)); [lia|apply Permutation_refl].
  - intros x w _. cbn [st_running vs_contains]. destruct (Hq x w) as [(y & Hy & Hxy & _ & ->)|(Hn & _ & ->)].
    + exists true. split; auto. split; auto. intros _. exists y. rewrite Hb in Hxy. auto.
    + exists false. split; auto. split; [discriminate|]. intros (y & Hy & Hxy). specialize (Hn y Hy). rewrite Hb in Hn. congruence.
Qed.

Lemma faithful_range_set_clone :
  forall (W T V BH : Type) (G : integers W T T) (lo hi : Z) (value : T -> Z) (D : copying W T V BH)
         (cK : T -> T) (cV : V -> V) (cB : BH -> BH) (srt : sorter) (p : profile) (s : range_map T unit),
  lawful_integers G lo hi value value -> sorter_ok srt -> copies_as D cK cV cB -> (forall k, value (cK k) = value k) ->
  lawful_range_set_owned G hi value D srt s ->
  serves (fun a b => value a =? value b) (fun _ => True) (rs_running p G s) (rs_items s) /\
  forall w, exists s' w', rs_clone D s w = (Ok s', w') /\ rs_items s' = map cK (rs_items s).
Proof.
  intros W T V BH G lo hi value D cK cV cB srt p s HG Hsrt HD Hc H. apply valueless_copies in HD.
  assert (Ho : rg_ordered hi value s).
  { assert (Hr : lawful_range_owned G hi value (valueless D) srt p s).
    { clear - H. induction H as [payload w s w' Hne H64 Hhi Hco Hs|s w s' w' H IH Hcl]; [|eapply LawfulRangeClone; eauto].
      apply (LawfulRangeNew _ _ _ _ _ _ (with_unit payload) w s w'); rewrite ?with_unit_len; auto.
      - intros H0. apply Hne. rewrite <- (with_unit_keys payload), H0. reflexivity.
      - rewrite <- (map_map fst value), with_unit_keys. exact Hco. }
    now apply (owned_ordered G lo hi value value (fun k => k) (valueless D) cK _ cB srt p s HG (fun k => eq_refl) Hsrt HD Hc). }
  split.
  - assert (Hl : zlen (rg_entries s) = zlen (rs_items s)) by (unfold rs_items; now rewrite zlen_map).
    split; auto.
    + apply (rs_runs p G (rs_items s)); [destruct Ho as (_ & H64 & _); lia|apply Permutation_refl].
    + intros x w _. cbn [rs_running vs_contains]. rewrite rs_contains_get.
      unfold rs_get, rg_get_key_value, mbind.
      pose proof (ordered_find G lo hi value value HG (fun k => k) (fun k => eq_refl) s x Ho w) as Hf.
      destruct (rg_find G s x w) as [r w2]. cbn [fst] in Hf. subst r. cbn [lift].
      rewrite <- find_find_pos. eexists. split; [cbn [fst over option_map]; reflexivity|].
      unfold member, rs_items. destruct (find _ (rg_entries s)) as [e|] eqn:Ef; cbn [option_map].
      * apply find_some in Ef. split; auto. intros _. exists (fst e). split; [now apply in_map|apply Ef].
      * split; [discriminate|]. intros (y & Hy & Hxy). apply in_map_iff in Hy. destruct Hy as (e & <- & He).
        pose proof (find_none _ _ Ef e He) as Hn. unfold names in Hn. congruence.
  - intros w. destruct (same_at _ _ w (rg_clone_same (valueless D) cK _ cB HD s)) as (w' & H1).
    eexists _, w'. split; [exact H1|]. unfold rs_items. cbn [twin_range rg_entries]. rewrite !map_map. reflexivity.
Qed.
