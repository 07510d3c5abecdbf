(** Clones: the copies made, the safety of the result, and its agreement with the original. *)
From Coq Require Import List ZArith Bool Lia Permutation.
From Verif Require Import VolatileSafety CallProofs CallTheorems SetCallProofs VolatileSetTheorems VolatileSetProofs.
From Verif Require Import Spec MapSpec Base BaseLemmas HashTable HashTableProofs Maps FrozenMap FrozenMapProofs FrozenMapFacts BuildSound MapTheorems
  FrozenSet FrozenSetProofs SetTheorems SetOps SetRunning RunSpec SetRunningProofs HistorySpec History HistorySafety Iterators IteratorProofs Volatile VolatileProofs VolatileSets
  VolatileSetSpec CallSpec Cloning CloneSpec.
Import ListNotations.
Open Scope Z_scope.

(** ** Two runs of the same code *)

Section Alike.
Context {W1 W2 : Type}.
Variable R : W1 -> W2 -> Prop.

Definition alike {A} (x : M W1 A) (y : M W2 A) : Prop :=
  forall w1 w2, R w1 w2 -> exists r w1' w2', x w1 = (r, w1') /\ y w2 = (r, w2') /\ R w1' w2'.

Lemma alike_lift {A} (r : res A) : alike (lift r) (lift r).
Proof. intros w1 w2 H. exists r, w1, w2. auto. Qed.

Lemma alike_bind {A B} (x : M W1 A) y (f : A -> M W1 B) g :
  alike x y -> (forall a, alike (f a) (g a)) -> alike (mbind x f) (mbind y g).
Proof.
  intros Hx Hf w1 w2 H. destruct (Hx w1 w2 H) as (r & u1 & u2 & E1 & E2 & H'). unfold mbind. rewrite E1, E2.
  destruct r as [a| | |]; [apply (Hf a u1 u2 H')|..]; repeat eexists; assumption.
Qed.

Lemma alike_map {A B} (f : A -> M W1 B) g l : (forall a, alike (f a) (g a)) -> alike (v_map f l) (v_map g l).
Proof.
  intros Hf. induction l as [|a l IH]; cbn [v_map]; [apply alike_lift|].
  apply alike_bind; auto. intros b. apply alike_bind; auto. intros bs. apply alike_lift.
Qed.

Definition alike_call {A} (f : W1 -> option A * W1) (g : W2 -> option A * W2) : Prop :=
  forall w1 w2, R w1 w2 -> exists o w1' w2', f w1 = (o, w1') /\ g w2 = (o, w2') /\ R w1' w2'.

Lemma alike_called {A} (f : W1 -> option A * W1) g : alike_call f g -> alike (call f) (call g).
Proof.
  intros H w1 w2 HR. destruct (H w1 w2 HR) as (o & u1 & u2 & E1 & E2 & H'). unfold call. rewrite E1, E2.
  eexists _, u1, u2. auto.
Qed.

Context {O V : Type}.
Variable C1 : cloning W1 O V.
Variable C2 : cloning W2 O V.
Hypothesis Hk : forall x, alike_call (on_clone C1 x) (on_clone C2 x).
Hypothesis Hv : forall v, alike_call (on_clone_value C1 v) (on_clone_value C2 v).
Hypothesis Hb : forall bh, alike_call (on_clone_hasher C1 bh) (on_clone_hasher C2 bh).

Lemma fm_clone_alike m : alike (fm_clone C1 m) (fm_clone C2 m).
Proof.
  assert (HE : forall K (ck1 : K -> M W1 K) ck2 es, (forall k, alike (ck1 k) (ck2 k)) ->
    alike (clone_entries C1 ck1 es) (clone_entries C2 ck2 es)).
  { intros K ck1 ck2 es Hc. apply alike_map. intros e. apply alike_bind; [apply Hc|]. intros k.
    apply alike_bind; [apply alike_called, Hv|]. intros v. apply alike_lift. }
  assert (HT : forall K (ck1 : K -> M W1 K) ck2 t, (forall k, alike (ck1 k) (ck2 k)) ->
    alike (clone_table C1 ck1 t) (clone_table C2 ck2 t)).
  { intros K ck1 ck2 t Hc. apply alike_bind; [now apply HE|]. intros es. apply alike_lift. }
  assert (HK : forall k, alike (clone_key C1 k) (clone_key C2 k)).
  { intros [n|s|x]; cbn [clone_key]; try apply alike_lift. apply alike_bind; [apply alike_called, Hk|]. intros y. apply alike_lift. }
  assert (HS : forall K (k : K), alike (same_key k) (same_key k)) by (intros; apply alike_lift).
  assert (HB : forall bh, alike (call (on_clone_hasher C1 bh)) (call (on_clone_hasher C2 bh))) by (intros; apply alike_called, Hb).
  destruct m; cbn [fm_clone]; apply alike_bind; try (intros; apply alike_lift);
    unfold sm_clone, cm_clone, im_clone, irm_clone, slm_clone, lm_clone;
    (apply alike_bind; [first [apply HE|apply HT]; auto|]); intros;
    try apply alike_lift; (apply alike_bind; [apply HB|]; intros; apply alike_lift).
Qed.
End Alike.

Lemma mbind_steps {W A B} (x : M W A) (f : A -> M W B) w a w' : x w = (Ok a, w') -> mbind x f w = f a w'.
Proof. intros H. unfold mbind. now rewrite H. Qed.
Lemma mbind_panics {W A B} (x : M W A) (f : A -> M W B) w p w' : x w = (Panic p, w') -> mbind x f w = (Panic p, w').
Proof. intros H. unfold mbind. now rewrite H. Qed.

(** ** The copies made *)

Section Copies.
Context {W O V : Type}.
Variable C : cloning W O V.
Notation RC := (recording_copies C).
Notation log_t := (list (copy O V)).

(** Taking them down changes nothing. *)
Lemma recorded_clone m w l : exists r w' l', fm_clone RC m (w, l) = (r, (w', l')) /\ fm_clone C m w = (r, w').
Proof.
  assert (Hc : forall A (f : W -> option A * W) (c : option A -> copy O V),
    alike_call (fun (s : W * log_t) w0 => fst s = w0) (with_copy f c) f).
  { intros A f c [w1 l1] w2 <-. unfold with_copy. cbn [fst snd]. destruct (f w1) as [a w3]. repeat eexists. }
  destruct (fm_clone_alike (fun (s : W * log_t) w0 => fst s = w0) RC C
    (fun x => Hc O _ _) (fun v => Hc V _ _) (fun bh => Hc _ _ _) m (w, l) w eq_refl) as (r & [w1 l1] & w2 & H1 & H2 & <-).
  eauto.
Qed.

Lemma call_copied {A} (f : W -> option A * W) (c : option A -> copy O V) w l :
  (exists a w', call (with_copy f c) (w, l) = (Ok a, (w', l ++ [c (Some a)]))) \/
  (exists w', call (with_copy f c) (w, l) = (Panic PForeign, (w', l ++ [c None]))).
Proof. unfold call, with_copy. cbn [fst snd]. destruct (f w) as [[a|] w']; eauto. Qed.

Section Entries.
Context {K : Type}.
Variable inj : K -> key O.
Variable ck : K -> M (W * log_t) K.
Definition to_key (e : K * V) : key O * V := (inj (fst e), snd e).

Definition ck_logs : Prop := forall k w l,
  (exists k' w' l1, ck k (w, l) = (Ok k', (w', l ++ l1)) /\ key_copied (inj k) (inj k') l1) \/
  (exists x w', inj k = KOther x /\ ck k (w, l) = (Panic PForeign, (w', l ++ [CopiedKey x None]))).
Hypothesis Hck : ck_logs.

Lemma some_copied_cons k v k' v' (es : list (key O * V)) l1 l2 : key_copied k k' l1 -> some_copied es l2 ->
  some_copied ((k, v) :: es) (l1 ++ [CopiedValue v (Some v')] ++ l2).
Proof.
  intros Hk H. destruct H as [es1 x u es2 es1' log -> Ha|es1 k0 u es2 es1' log k0' log0 -> Ha Hk0].
  - assert (E : l1 ++ [CopiedValue v (Some v')] ++ log ++ [CopiedKey x None] = (l1 ++ [CopiedValue v (Some v')] ++ log) ++ [CopiedKey x None])
      by now rewrite <- !app_assoc. rewrite E.
    eapply (KeyPanics _ ((k, v) :: es1) x u es2 ((k', v') :: es1')); [reflexivity|]. now constructor.
  - assert (E : l1 ++ [CopiedValue v (Some v')] ++ log ++ log0 ++ [CopiedValue u None] =
      (l1 ++ [CopiedValue v (Some v')] ++ log) ++ log0 ++ [CopiedValue u None]) by now rewrite <- !app_assoc. rewrite E.
    eapply (ValuePanics _ ((k, v) :: es1) k0 u es2 ((k', v') :: es1')); [reflexivity| |exact Hk0]. now constructor.
Qed.

Lemma clone_entries_logs es : forall w l, exists r w' log,
  clone_entries RC ck es (w, l) = (r, (w', l ++ log)) /\
  match r with
  | Ok es' => all_copied (map to_key es) (map to_key es') log /\ length es' = length es
  | Panic p => p = PForeign /\ some_copied (map to_key es) log
  | _ => False
  end.
Proof.
  induction es as [|[k v] es IH]; intros w l.
  { exists (Ok []), w, []. rewrite app_nil_r. split; [reflexivity|]. split; [constructor|reflexivity]. }
  change (map to_key ((k, v) :: es)) with ((inj k, v) :: map to_key es).
  change (clone_entries RC ck ((k, v) :: es)) with
    (b <~ (k <~ ck k ;; v <~ call (on_clone_value RC v) ;; lift (Ok (k, v))) ;;
     bs <~ clone_entries RC ck es ;; lift (Ok (b :: bs))).
  destruct (Hck k w l) as [(k' & w1 & l1 & Ek & Hk)|(x & w1 & Hx & Ek)].
  2: { exists (Panic PForeign), w1, [CopiedKey x None]. split; [|split; auto].
       - apply mbind_panics. now apply mbind_panics.
       - rewrite Hx. apply (KeyPanics _ [] x v (map to_key es) [] []); [reflexivity|constructor]. }
  destruct (call_copied (on_clone_value C v) (CopiedValue v) w1 (l ++ l1)) as [(v' & w2 & Ev)|(w2 & Ev)].
  2: { exists (Panic PForeign), w2, (l1 ++ [CopiedValue v None]). split; [|split; auto].
       - apply mbind_panics. rewrite (mbind_steps _ _ _ _ _ Ek). apply mbind_panics. rewrite app_assoc. exact Ev.
       - apply (ValuePanics _ [] (inj k) v (map to_key es) [] [] (inj k') l1); [reflexivity|constructor|exact Hk]. }
  assert (Eb : (k <~ ck k ;; v <~ call (on_clone_value RC v) ;; lift (Ok (k, v))) (w, l) =
    (Ok (k', v'), (w2, (l ++ l1) ++ [CopiedValue v (Some v')]))).
  { rewrite (mbind_steps _ _ _ _ _ Ek). rewrite (mbind_steps _ _ _ _ _ Ev). reflexivity. }
  rewrite (mbind_steps _ _ _ _ _ Eb).
  destruct (IH w2 ((l ++ l1) ++ [CopiedValue v (Some v')])) as (r & w3 & log & Er & Hr).
  assert (EL : ((l ++ l1) ++ [CopiedValue v (Some v')]) ++ log = l ++ l1 ++ [CopiedValue v (Some v')] ++ log)
    by now rewrite <- !app_assoc.
  rewrite EL in Er. destruct r as [es'|p|u|]; try contradiction.
  - destruct Hr as (Ha & Hl). exists (Ok ((k', v') :: es')), w3, (l1 ++ [CopiedValue v (Some v')] ++ log).
    rewrite (mbind_steps _ _ _ _ _ Er). split; [reflexivity|]. split; [|cbn [length]; congruence].
    change (map to_key ((k', v') :: es')) with ((inj k', v') :: map to_key es'). now constructor.
  - destruct Hr as (-> & Hs). exists (Panic PForeign), w3, (l1 ++ [CopiedValue v (Some v')] ++ log).
    rewrite (mbind_panics _ _ _ _ _ Er). split; [reflexivity|]. split; auto.
    now apply some_copied_cons with (k' := inj k').
Qed.
End Entries.

Lemma clone_key_logs : ck_logs (fun k => k) (clone_key RC).
Proof.
  intros [n|s|x] w l; [left; exists (KU32 n), w, []; rewrite app_nil_r; now repeat split|
    left; exists (KStr s), w, []; rewrite app_nil_r; now repeat split|].
  cbn [clone_key]. unfold mbind, call. cbn [on_clone recording_copies]. unfold with_copy. cbn [fst snd].
  destruct (on_clone C x w) as [[x'|] w']; [left|right; eauto].
  exists (KOther x'), w', [CopiedKey x (Some x')]. split; [reflexivity|]. cbn. eauto.
Qed.
Lemma same_key_logs {K} (inj : K -> key O) : (forall k, match inj k with KOther _ => False | _ => True end) ->
  ck_logs inj same_key.
Proof.
  intros H k w l. left. exists k, w, []. rewrite app_nil_r. split; [reflexivity|].
  specialize (H k). destruct (inj k); cbn; tauto.
Qed.

(** What a clone shares with its original. *)
Definition same_table {K} (t t' : hash_table K V) : Prop :=
  num_slots t' = num_slots t /\ slots t' = slots t /\ length (entries t') = length (entries t).
Definition same_frame (m m' : map_types O V) : Prop :=
  match m, m' with
  | MScanning _, MScanning _ => True
  | MCommonSmall m, MCommonSmall m' | MCommonLarge m, MCommonLarge m' => same_table (cm_table m) (cm_table m')
  | MU32Small m, MU32Small m' | MU32Large m, MU32Large m' => same_table (im_table m) (im_table m')
  | MU32Range m, MU32Range m' =>
      irm_min m' = irm_min m /\ irm_max m' = irm_max m /\ length (irm_entries m') = length (irm_entries m)
  | MLeftStringSliceSmall m, MLeftStringSliceSmall m' | MLeftStringSliceLarge m, MLeftStringSliceLarge m'
  | MRightStringSliceSmall m, MRightStringSliceSmall m' | MRightStringSliceLarge m, MRightStringSliceLarge m' =>
      same_table (slm_table m) (slm_table m') /\ slm_start m' = slm_start m /\ slm_end m' = slm_end m
  | MStringLengthSmall m, MStringLengthSmall m' => same_table (lm_table m) (lm_table m')
  | _, _ => False
  end.

Lemma same_table_safe {K} (t t' : hash_table K V) : same_table t t' -> table_safe t -> table_safe t'.
Proof.
  intros (Hn & Hs & Hl) H code. destruct (H code) as (a & b & H1 & H2). exists a, b. split.
  - unfold ht_get_hash_info in *. now rewrite Hn, Hs.
  - apply range_ok_iff in H2. apply range_ok_iff. unfold zlen in *. now rewrite Hl.
Qed.

Lemma same_frame_safe kd m m' : same_frame m m' -> fm_safe kd m -> fm_safe kd m'.
Proof.
  destruct m, m'; cbn [same_frame fm_safe]; try contradiction; auto; eauto using same_table_safe;
    try (intros Hf (H1 & H2); eauto using same_table_safe).
  - destruct Hf as (E1 & E2 & El), H2 as (Hne & H2 & H3). split; auto. unfold irm_wf, zlen in *. rewrite E1, E2, El.
    split; auto. intros H0. apply Hne. rewrite H0 in El. now destruct (irm_entries m).
  - destruct Hf as (Ht & -> & ->), H2. eauto using same_table_safe.
  - destruct Hf as (Ht & -> & ->), H2. eauto using same_table_safe.
  - destruct Hf as (Ht & -> & ->), H2. eauto using same_table_safe.
  - destruct Hf as (Ht & -> & ->), H2. eauto using same_table_safe.
Qed.

Lemma all_copied_hasher (es es' : list (key O * V)) l1 : all_copied es es' l1 -> forall bh l2, hasher_in bh (l1 ++ l2) = hasher_in bh l2.
Proof.
  intros H. induction H as [|k v k' v' es es' l1 l2 Hk H IH]; intros bh l3; [reflexivity|].
  rewrite <- !app_assoc. cbn [app].
  assert (Ha : forall l, hasher_in bh (l1 ++ CopiedValue v (Some v') :: l) = hasher_in bh l).
  { intros l. destruct k; [destruct Hk as (_ & ->)|destruct Hk as (_ & ->)|destruct Hk as (y & _ & ->)]; reflexivity. }
  rewrite Ha. apply IH.
Qed.

Lemma all_copied_len (es es' : list (key O * V)) l1 : all_copied es es' l1 -> length es' = length es.
Proof. intros H. induction H; cbn; congruence. Qed.

Lemma map_to_key_id (es : list (key O * V)) : map (to_key (fun k => k)) es = es.
Proof. rewrite <- (map_id es) at 2. apply map_ext. now intros []. Qed.

(** The entries, and no hasher. *)
Lemma entries_alone kd bh K (inj : K -> key O) ck es : ck_logs inj ck ->
    ~ holds_hasher kd (zlen (map (to_key inj) es)) ->
    forall B (mk : list (K * V) -> B) w l,
    exists r w' log, (es' <~ clone_entries RC ck es ;; lift (Ok (mk es'))) (w, l) = (r, (w', l ++ log)) /\
    match r with
    | Ok b => exists es', b = mk es' /\ copies_made kd bh (map (to_key inj) es) (Ok (map (to_key inj) es')) log /\
        length es' = length es /\ hasher_in bh log = bh
    | Panic p => copies_made kd bh (map (to_key inj) es) (Panic p) log
    | _ => False
    end.
Proof.
  intros Hck Hno B mk w0 l0. destruct (clone_entries_logs inj ck Hck es w0 l0) as (r & w1 & log & Er & Hr).
    unfold mbind. rewrite Er. destruct r as [es'|p|u|]; try contradiction.
    - exists (Ok (mk es')), w1, log. split; [reflexivity|]. exists es'. split; auto. destruct Hr as (Ha & Hl).
      split; [|split; auto].
      + cbn [copies_made]. exists log, []. rewrite app_nil_r. split; auto. split; auto. left. auto.
      + rewrite <- (app_nil_r log). now rewrite (all_copied_hasher _ _ _ Ha).
    - exists (Panic p), w1, log. split; [reflexivity|]. destruct Hr as (-> & Hs). cbn [copies_made]. auto.
Qed.

(** The entries, then the hasher. *)
Lemma entries_and_hasher kd bh K (inj : K -> key O) ck es : ck_logs inj ck ->
    may_hold_hasher kd (zlen (map (to_key inj) es)) ->
    forall A B (mk : list (K * V) -> A) (mk' : A -> hasher O -> B) w l,
    exists r w' log, (t <~ (es' <~ clone_entries RC ck es ;; lift (Ok (mk es'))) ;;
       bh' <~ call (on_clone_hasher RC bh) ;; lift (Ok (mk' t bh'))) (w, l) = (r, (w', l ++ log)) /\
    match r with
    | Ok b => exists es' bh', b = mk' (mk es') bh' /\ copies_made kd bh (map (to_key inj) es) (Ok (map (to_key inj) es')) log /\
        length es' = length es /\ hasher_in bh log = bh'
    | Panic p => copies_made kd bh (map (to_key inj) es) (Panic p) log
    | _ => False
    end.
Proof.
  intros Hck Hmay A B mk mk' w0 l0.
    destruct (clone_entries_logs inj ck Hck es w0 l0) as (r & w1 & log & Er & Hr).
    destruct r as [es'|p|u|]; try contradiction.
    2: { exists (Panic p), w1, log. split; [apply mbind_panics; now apply mbind_panics|].
         destruct Hr as (-> & Hs). cbn [copies_made]. auto. }
    destruct Hr as (Ha & Hl).
    assert (Et : (es' <~ clone_entries RC ck es ;; lift (Ok (mk es'))) (w0, l0) = (Ok (mk es'), (w1, l0 ++ log)))
      by (rewrite (mbind_steps _ _ _ _ _ Er); reflexivity).
    rewrite (mbind_steps _ _ _ _ _ Et).
    destruct (call_copied (on_clone_hasher C bh) (CopiedHasher bh) w1 (l0 ++ log)) as [(bh' & w2 & Ev)|(w2 & Ev)].
    - exists (Ok (mk' (mk es') bh')), w2, (log ++ [CopiedHasher bh (Some bh')]).
      rewrite (mbind_steps _ _ _ _ _ Ev). split; [now rewrite app_assoc|]. exists es', bh'. split; auto. split; [|split; auto].
      + cbn [copies_made]. exists log, [CopiedHasher bh (Some bh')]. split; auto. split; auto. right. eauto.
      + now rewrite (all_copied_hasher _ _ _ Ha).
    - exists (Panic PForeign), w2, (log ++ [CopiedHasher bh None]).
      rewrite (mbind_panics _ _ _ _ _ Ev). split; [now rewrite app_assoc|].
      cbn [copies_made]. split; auto. right. eauto.
Qed.

Lemma int_key_logs : ck_logs (fun n => KU32 n) same_key.
Proof. apply same_key_logs. intros. exact I. Qed.
Lemma str_key_logs : ck_logs (fun s => KStr s) same_key.
Proof. apply same_key_logs. intros. exact I. Qed.

Local Ltac plain con Er Hr r w1 log :=
  destruct r as [b|p|u|]; try contradiction;
  [destruct Hr as (es' & -> & Hc & Hl & Hb); eexists (Ok (con _)), w1, log;
   first [rewrite (mbind_steps _ _ _ _ _ Er)|erewrite mbind_steps by (rewrite (mbind_steps _ _ _ _ _ Er); reflexivity)]; split; [reflexivity|];
   cbn [fm_iter same_frame hashes_with sm_entries irm_entries irm_min irm_max im_table lm_table entries];
   rewrite ?map_to_key_id in Hc; split; [exact Hc|]; split; [repeat split; exact Hl|]; 
   unfold zlen in *; rewrite ?map_length in *; rewrite ?Hl; auto
  |exists (Panic p), w1, log; split; [apply mbind_panics; try exact Er; now apply mbind_panics|exact Hr]].
Local Ltac hashed con Er Hr r w1 log :=
  destruct r as [b|p|u|]; try contradiction;
  [destruct Hr as (es' & bh' & -> & Hc & Hl & Hbh); eexists (Ok (con _)), w1, log;
   rewrite (mbind_steps _ _ _ _ _ Er); split; [reflexivity|];
   cbn [fm_iter same_frame hashes_with cm_table cm_bh slm_table slm_bh slm_start slm_end entries];
   rewrite ?map_to_key_id in Hc; split; [exact Hc|];
   split; [repeat split; exact Hl|]; unfold zlen in *; rewrite ?map_length in *; rewrite ?Hl; auto
  |exists (Panic p), w1, log; split; [now apply mbind_panics|exact Hr]].
Local Ltac common_case kd cm con w0 l0 :=
  destruct (entries_and_hasher kd (cm_bh cm) _ (fun k => k) (clone_key RC) (entries (cm_table cm)) clone_key_logs) with
    (A := hash_table (key O) V) (B := common_map (key O) V (hasher O))
    (mk := fun es : list (key O * V) => {| num_slots := num_slots (cm_table cm); slots := slots (cm_table cm); entries := es |})
    (mk' := fun (t : hash_table (key O) V) (bh : hasher O) => {| cm_table := t; cm_bh := bh |}) (w := w0) (l := l0) as (r & w1 & log & Er & Hr);
  [rewrite map_to_key_id; split; assumption|]; rewrite map_to_key_id in Hr; hashed con Er Hr r w1 log.
Local Ltac slice_case kd sl con w0 l0 :=
  destruct (entries_and_hasher kd (slm_bh sl) _ (fun s => KStr s) same_key (entries (slm_table sl)) str_key_logs) with
    (A := hash_table (list Z) V) (B := slice_map V (hasher O))
    (mk := fun es : list (list Z * V) => {| num_slots := num_slots (slm_table sl); slots := slots (slm_table sl); entries := es |})
    (mk' := fun (t : hash_table (list Z) V) (bh : hasher O) => {| slm_table := t; slm_bh := bh; slm_start := slm_start sl; slm_end := slm_end sl |})
    (w := w0) (l := l0) as (r & w1 & log & Er & Hr);
  [split; [assumption|discriminate]|]; hashed con Er Hr r w1 log.
Local Ltac int_case kd bh im con w0 l0 :=
  destruct (entries_alone kd bh _ (fun n => KU32 n) same_key (entries (im_table im)) int_key_logs) with
    (B := hash_table Z V)
    (mk := fun es : list (Z * V) => {| num_slots := num_slots (im_table im); slots := slots (im_table im); entries := es |})
    (w := w0) (l := l0) as (r & w1 & log & Er & Hr);
  [intros (_ & Hx); discriminate Hx|]; plain con Er Hr r w1 log.

Lemma fm_clone_logs kd bh m w l : hashes_with kd (zlen (fm_iter m)) bh m -> exists r w' log,
  fm_clone RC m (w, l) = (r, (w', l ++ log)) /\
  match r with
  | Ok m' => copies_made kd bh (fm_iter m) (Ok (fm_iter m')) log /\ same_frame m m' /\
      hashes_with kd (zlen (fm_iter m')) (hasher_in bh log) m'
  | Panic p => copies_made kd bh (fm_iter m) (Panic p) log
  | _ => False
  end.
Proof.
  intros Hw. destruct m as [sm|cm|cm|im|im|rm|sl|sl|sr|sr|lm]; cbn [hashes_with fm_iter] in Hw; cbn [fm_clone fm_iter].
  - destruct (entries_alone kd bh _ (fun k => k) (clone_key RC) (sm_entries sm) clone_key_logs) with
      (B := scanning_map (key O) V) (mk := fun es : list (key O * V) => {| sm_entries := es |})
      (w := w) (l := l) as (r & w1 & log & Er & Hr); [rewrite map_to_key_id; intros (Hx & _); lia|].
    rewrite map_to_key_id in Hr. unfold sm_clone. plain (fun t => @MScanning O V t) Er Hr r w1 log.
  - destruct Hw as (Hn & Hk & <-). unfold cm_clone, clone_table. common_case kd cm (fun t => @MCommonSmall O V t) w l.
  - destruct Hw as (Hn & Hk & <-). unfold cm_clone, clone_table. common_case kd cm (fun t => @MCommonLarge O V t) w l.
  - destruct Hw as (Hn & ->). unfold im_clone, clone_table. int_case KindU32 bh im (fun t => @MU32Small O V t) w l.
  - destruct Hw as (Hn & ->). unfold im_clone, clone_table. int_case KindU32 bh im (fun t => @MU32Large O V t) w l.
  - destruct Hw as (Hn & ->).
    destruct (entries_alone KindU32 bh _ (fun n => KU32 n) same_key (irm_entries rm) int_key_logs) with
      (B := integer_range_map V) (mk := fun es : list (Z * V) => {| irm_min := irm_min rm; irm_max := irm_max rm; irm_entries := es |})
      (w := w) (l := l) as (r & w1 & log & Er & Hr); [intros (_ & Hx); discriminate Hx|].
    unfold irm_clone. plain (fun t => @MU32Range O V t) Er Hr r w1 log.
  - destruct Hw as (Hn & -> & <-). unfold slm_clone, clone_table. slice_case KindString sl (fun t => @MLeftStringSliceSmall O V t) w l.
  - destruct Hw as (Hn & -> & <-). unfold slm_clone, clone_table. slice_case KindString sl (fun t => @MLeftStringSliceLarge O V t) w l.
  - contradiction.
  - contradiction.
  - destruct Hw as (Hn & ->).
    destruct (entries_alone KindString bh _ (fun s => KStr s) same_key (entries (lm_table lm)) str_key_logs) with
      (B := hash_table (list Z) V)
      (mk := fun es : list (list Z * V) => {| num_slots := num_slots (lm_table lm); slots := slots (lm_table lm); entries := es |})
      (w := w) (l := l) as (r & w1 & log & Er & Hr); [intros (_ & Hx); discriminate Hx|].
    unfold lm_clone, clone_table. plain (fun t => @MStringLengthSmall O V t) Er Hr r w1 log.
Qed.
End Copies.

(** ** Maps that a caller can have *)

Lemma hashes_with_write {O V : Type} kd n bh i (v : V) (m : map_types O V) :
  hashes_with kd n bh m -> hashes_with kd n bh (fm_write i v m).
Proof. destruct m; exact (fun H => H). Qed.

Lemma hashes_with_write_all {O V : Type} kd n bh ps : forall ws (m : map_types O V),
  hashes_with kd n bh m -> hashes_with kd n bh (write_all ps ws m).
Proof.
  unfold write_all. induction ps as [|p ps IH]; intros ws m H; [exact H|].
  destruct ws as [|v ws]; [exact H|]. cbn [combine fold_left fst snd]. apply IH. now apply hashes_with_write.
Qed.

Section Owned.
Context {W O V : Type}.
Variable F : conduct W O.
Variable C : cloning W O V.
Variable E : env.
Variable kd : kind.
Hypothesis HE : env_ok E.

Definition sound bh (m : map_types O V) : Prop :=
  fm_safe kd m /\ zlen (fm_iter m) < 2 ^ 64 /\ hashes_with kd (zlen (fm_iter m)) bh m.

Lemma step_hashes bh (m : map_types O V) o w n : hashes_with kd n bh m ->
  hashes_with kd n bh (snd (fst (v_step F E m o w))).
Proof.
  intros H. destruct o; cbn [v_step];
    repeat match goal with
    | |- context [let (_, _) := ?x in _] => destruct x as [?r ?w1]
    | |- context [match ?x with _ => _ end] => destruct x
    end; cbn [fst snd]; auto using hashes_with_write, hashes_with_write_all.
Qed.

Lemma sound_tracks bh m : sound bh m -> tracks kd (fm_iter m) [] m.
Proof. intros (Hs & _). split; auto. split; [reflexivity|]. rewrite app_nil_r. apply incl_refl. Qed.

Lemma owned_sound bh m : owned F C E kd bh m -> sound bh m.
Proof.
  intros H. induction H as [payload bh w m w' Hz Ht Hm|bh m w m' w' log H (Hs & Hz & Hw) Hc|bh m o w b m' w' H IH Hk Hstep].
  - destruct (v_built F E HE kd payload bh w m w' Ht Hm) as (HP & Hs). apply zlen_perm in HP. unfold sound. rewrite <- HP.
    split; auto. split; auto. eapply built_hashes_with; eauto.
  - destruct (fm_clone_logs C kd bh m w [] Hw) as (r & w1 & l1 & Hr & H1). rewrite Hc in Hr. injection Hr as <- <- <-.
    destruct H1 as ((l1 & l2 & _ & Ha & _) & Hf & Hw'). apply all_copied_len in Ha. unfold sound, zlen in *. rewrite Ha.
    split; [eapply same_frame_safe; eauto|]. split; auto. now rewrite Ha in Hw'.
  - pose proof (sound_tracks bh m IH) as HT. destruct IH as (Hs & Hz & Hw).
    pose proof (v_step_sane F E kd (fm_iter m) Hz [] m o w HT Hk) as Hsane.
    pose proof (step_hashes bh m o w _ Hw) as Hw'. rewrite Hstep in Hsane, Hw'. cbn [fst snd] in Hw'.
    destruct b as [b|].
    + destruct Hsane as (_ & HT'). pose proof (tracks_len _ _ _ _ HT') as Hl. unfold sound. rewrite Hl.
      split; [apply HT'|]. auto.
    + destruct Hsane as (_ & ->). unfold sound. auto.
Qed.
End Owned.

(** C78 *)
Lemma clone_copies :
  forall (W O V : Type) (F : conduct W O) (C : cloning W O V) (E : env) (kd : kind) (bh : hasher O)
         (m : map_types O V) (w : W),
  env_ok E -> owned F C E kd bh m ->
  exists r w' log,
    fm_clone (recording_copies C) m (w, []) = (r, (w', log)) /\ fm_clone C m w = (r, w') /\
    copies_made kd bh (fm_iter m) (m' <- r ;; Ok (fm_iter m')) log.
Proof.
  intros W O V F C E kd bh m w HE H. destruct (owned_sound F C E kd HE bh m H) as (_ & _ & Hw).
  destruct (fm_clone_logs C kd bh m w [] Hw) as (r & w1 & log & Hr & H1).
  destruct (recorded_clone C m w []) as (r' & w1' & l' & Hr' & Hp). rewrite Hr in Hr'. injection Hr' as <- <- <-.
  exists r, w1, log. split; [exact Hr|]. split; [exact Hp|]. destruct r; cbn [bind]; try contradiction; [apply H1|exact H1].
Qed.

Lemma owned_history_never_goes_wrong :
  forall (W O V : Type) (F : conduct W O) (C : cloning W O V) (E : env) (kd : kind) (bh : hasher O)
         (m : map_types O V) (history : list (op (key O) V)) (w : W),
  env_ok E -> owned F C E kd bh m ->
  (forall o k, In o history -> In k (op_keys o) -> has_kind kd k) ->
  sane_run_caught (fm_iter m) [] history (v_run F E m history w).
Proof.
  intros W O V F C E kd bh m history w HE H Hk. pose proof (owned_sound F C E kd HE bh m H) as Hs.
  apply (v_run_sane F E kd); auto; [apply Hs|]. eapply sound_tracks; eauto.
Qed.

Lemma owned_lookup_calls :
  forall (W O V : Type) (F : conduct W O) (C : cloning W O V) (E : env) (kd : kind) (bh : hasher O)
         (m : map_types O V) (k : key O) (w : W),
  env_ok E -> owned F C E kd bh m -> has_kind kd k ->
  exists r w' calls,
    v_find (recording F) E m k (w, []) = (r, (w', calls)) /\ v_find F E m k w = (r, w') /\
    lookup_asks kd bh k (fm_iter m) r calls.
Proof.
  intros W O V F C E kd bh m k w HE H Hk. destruct (owned_sound F C E kd HE bh m H) as (Hs & _ & Hw).
  destruct (lookup_logs F E kd m k bh Hs Hk Hw w []) as (r & w1 & calls & Hf & Ha).
  destruct (echo_find F E m k w []) as (He1 & He2). rewrite Hf in He1, He2. cbn [fst snd] in He1, He2.
  exists r, w1, calls. split; [exact Hf|]. split; [|exact Ha]. destruct (v_find F E m k w); cbn in *; congruence.
Qed.

(** ** Faithful clones *)

Section Faithful.
Context {W O V : Type}.
Variable C : cloning W O V.
Variable cO : O -> O.
Variable cV : V -> V.
Variable cB : hasher O -> hasher O.
Hypothesis HO : clones_as (on_clone C) cO.
Hypothesis HV : clones_as (on_clone_value C) cV.
Hypothesis HB : clones_as (on_clone_hasher C) cB.

Definition copied_entry {K} (ck : K -> K) (e : K * V) : K * V := (ck (fst e), cV (snd e)).
Definition copied_table {K} (ck : K -> K) (t : hash_table K V) : hash_table K V :=
  {| num_slots := num_slots t; slots := slots t; entries := map (copied_entry ck) (entries t) |}.
Definition copied_cm (m : common_map (key O) V (hasher O)) :=
  {| cm_table := copied_table (copied_key cO) (cm_table m); cm_bh := cB (cm_bh m) |}.
Definition copied_slm (m : slice_map V (hasher O)) :=
  {| slm_table := copied_table (fun k => k) (slm_table m); slm_bh := cB (slm_bh m);
     slm_start := slm_start m; slm_end := slm_end m |}.
Definition copied_map (m : map_types O V) : map_types O V :=
  match m with
  | MScanning m => MScanning {| sm_entries := map (copied_entry (copied_key cO)) (sm_entries m) |}
  | MCommonSmall m => MCommonSmall (copied_cm m)
  | MCommonLarge m => MCommonLarge (copied_cm m)
  | MU32Small m => MU32Small {| im_table := copied_table (fun k => k) (im_table m) |}
  | MU32Large m => MU32Large {| im_table := copied_table (fun k => k) (im_table m) |}
  | MU32Range m => MU32Range {| irm_min := irm_min m; irm_max := irm_max m;
                                irm_entries := map (copied_entry (fun k => k)) (irm_entries m) |}
  | MLeftStringSliceSmall m => MLeftStringSliceSmall (copied_slm m)
  | MLeftStringSliceLarge m => MLeftStringSliceLarge (copied_slm m)
  | MRightStringSliceSmall m => MRightStringSliceSmall (copied_slm m)
  | MRightStringSliceLarge m => MRightStringSliceLarge (copied_slm m)
  | MStringLengthSmall m => MStringLengthSmall {| lm_table := copied_table (fun k => k) (lm_table m) |}
  end.

Definition gives {A} (x : M W A) (a : A) : Prop := forall w, exists w', x w = (Ok a, w').
Lemma gives_lift {A} (a : A) : gives (lift (Ok a)) a.
Proof. intros w. exists w. reflexivity. Qed.
Lemma gives_bind {A B} (x : M W A) a (f : A -> M W B) b : gives x a -> gives (f a) b -> gives (mbind x f) b.
Proof. intros Hx Hf w. destruct (Hx w) as (w1 & E1). rewrite (mbind_steps _ _ _ _ _ E1). apply Hf. Qed.
Lemma gives_call {A} (f : A -> W -> option A * W) c a : clones_as f c -> gives (call (f a)) (c a).
Proof. intros H w. destruct (H a w) as (w' & E). exists w'. unfold call. now rewrite E. Qed.

Lemma clone_gives m : gives (fm_clone C m) (copied_map m).
Proof.
  assert (HE : forall K (ck : K -> M W K) c es, (forall k, gives (ck k) (c k)) ->
    gives (clone_entries C ck es) (map (copied_entry c) es)).
  { intros K ck c es Hc. induction es as [|e es IH]; [apply gives_lift|]. unfold clone_entries. cbn [v_map map].
    eapply gives_bind; [|eapply gives_bind; [apply IH|apply gives_lift]].
    eapply gives_bind; [apply Hc|]. eapply gives_bind; [apply (gives_call _ _ _ HV)|]. apply gives_lift. }
  assert (HT : forall K (ck : K -> M W K) c t, (forall k, gives (ck k) (c k)) ->
    gives (clone_table C ck t) (copied_table c t)).
  { intros K ck c t Hc. eapply gives_bind; [apply HE, Hc|apply gives_lift]. }
  assert (HK : forall k, gives (clone_key C k) (copied_key cO k)).
  { intros [n|s|x]; cbn [clone_key copied_key]; try apply gives_lift.
    eapply gives_bind; [apply (gives_call _ _ _ HO)|apply gives_lift]. }
  assert (HS : forall K (k : K), gives (same_key k) k) by (intros; apply gives_lift).
  destruct m; cbn [fm_clone copied_map]; (eapply gives_bind; [|apply gives_lift]);
    unfold sm_clone, cm_clone, im_clone, irm_clone, slm_clone, lm_clone;
    (eapply gives_bind; [first [apply HE|apply HT]; auto|]);
    try apply gives_lift; (eapply gives_bind; [apply (gives_call _ _ _ HB)|apply gives_lift]).
Qed.

Lemma copied_iter m : fm_iter (copied_map m) = map (copied_entry (copied_key cO)) (fm_iter m).
Proof.
  destruct m; cbn [copied_map fm_iter sm_entries irm_entries im_table lm_table cm_table slm_table copied_cm copied_slm copied_table entries];
    rewrite ?map_map; reflexivity.
Qed.

Variable eqbO : O -> O -> bool.
Variable E : env.
Hypothesis Heq : equivalence eqbO.
Hypothesis HcO : forall x, eqbO x (cO x) = true.
Hypothesis HcB : forall b, hash_alike b (cB b).

Lemma eqb_copied a k : key_eqb eqbO a (copied_key cO k) = key_eqb eqbO a k.
Proof.
  destruct a as [|s|x], k as [|s'|y]; cbn [copied_key key_eqb]; auto.
  destruct Heq as [Hr Hs Ht].
  destruct (eqbO x y) eqn:E1; [now apply (Ht x y)|].
  destruct (eqbO x (cO y)) eqn:E2; auto. rewrite <- E1. symmetry. apply (Ht x (cO y)); auto.
Qed.


Lemma probe_copied {K} (ck : K -> K) t range (p q : K -> bool) : (forall k, p (ck k) = q k) ->
  ht_probe (copied_table ck t) range p = ht_probe t range q.
Proof.
  intros H. unfold ht_probe, slice_unchecked, range_ok. cbn [copied_table entries]. rewrite zlen_map.
  destruct (_ && _)%bool; [|reflexivity]. cbn [bind]. unfold sub. rewrite skipn_map, firstn_map, find_pos_map.
  f_equal. f_equal. apply find_pos_ext. intros e. apply H.
Qed.

Lemma slice_hash_copied bh s a b : slice_hash hash_write (cB bh) s a b = slice_hash hash_write bh s a b.
Proof. unfold slice_hash. destruct (slice_unchecked a b s); cbn [bind]; auto. now rewrite (proj2 (HcB bh)). Qed.
Lemma right_hash_copied pr bh s a b : right_hash hash_write pr (cB bh) s a b = right_hash hash_write pr bh s a b.
Proof. unfold right_hash. destruct (arith _ _ _); cbn [bind]; auto. destruct (arith _ _ _); cbn [bind]; auto. apply slice_hash_copied. Qed.

Local Ltac found t := destruct (ht_get_hash_info t _); cbn [bind]; auto; apply probe_copied; intros; first [reflexivity|apply eqb_copied].
Lemma info_copied {K} (ck : K -> K) (t : hash_table K V) : ht_get_hash_info (copied_table ck t) = ht_get_hash_info t.
Proof. reflexivity. Qed.

Lemma get_at_copied m k : fm_get_at eqbO E (copied_map m) k = fm_get_at eqbO E m k.
Proof.
  destruct m as [sm|cm|cm|im|im|rm|sl|sl|sr|sr|lm]; cbn [fm_get_at copied_map];
    try match goal with
    | |- context [as_u32 k] => destruct (as_u32 k) as [n| | |]; cbn [bind]; auto
    | |- context [as_string k] => destruct (as_string k) as [s| | |]; cbn [bind]; auto
    end.
  - unfold sm_get_at. cbn [sm_entries]. rewrite find_pos_map. f_equal. apply find_pos_ext. intros e. apply eqb_copied.
  - unfold cm_get_at, cm_get_hash_info. cbn [cm_table cm_bh copied_cm]. rewrite (proj1 (HcB (cm_bh cm))), info_copied. found (cm_table cm).
  - unfold cm_get_at, cm_get_hash_info. cbn [cm_table cm_bh copied_cm]. rewrite (proj1 (HcB (cm_bh cm))), info_copied. found (cm_table cm).
  - unfold im_get_at, im_get_hash_info. cbn [im_table]. rewrite info_copied. found (im_table im).
  - unfold im_get_at, im_get_hash_info. cbn [im_table]. rewrite info_copied. found (im_table im).
  - unfold irm_get_at. cbn [irm_min irm_max irm_entries]. destruct (_ && _)%bool; auto.
    destruct (arith _ _ _); cbn [bind]; auto. destruct (to_usize _); auto.
    unfold index_checked. rewrite nth_error_map. destruct (0 <=? _); auto. now destruct (nth_error _ _).
  - unfold lsm_get_at, lsm_get_hash_info. cbn [slm_table slm_bh slm_start slm_end copied_slm]. rewrite slice_hash_copied, info_copied.
    destruct (if _ <=? _ then _ else _); cbn [bind]; auto. found (slm_table sl).
  - unfold lsm_get_at, lsm_get_hash_info. cbn [slm_table slm_bh slm_start slm_end copied_slm]. rewrite slice_hash_copied, info_copied.
    destruct (if _ <=? _ then _ else _); cbn [bind]; auto. found (slm_table sl).
  - unfold rsm_get_at, rsm_get_hash_info. cbn [slm_table slm_bh slm_start slm_end copied_slm]. rewrite right_hash_copied, info_copied.
    destruct (if _ <=? _ then _ else _); cbn [bind]; auto. found (slm_table sr).
  - unfold rsm_get_at, rsm_get_hash_info. cbn [slm_table slm_bh slm_start slm_end copied_slm]. rewrite right_hash_copied, info_copied.
    destruct (if _ <=? _ then _ else _); cbn [bind]; auto. found (slm_table sr).
  - unfold lm_get_at, lm_get_hash_info. cbn [lm_table]. rewrite info_copied. found (lm_table lm).
Qed.

Lemma copied_frame m : same_frame m (copied_map m).
Proof.
  destruct m; cbn [copied_map same_frame]; auto; unfold same_table; cbn; rewrite ?map_length; auto.
Qed.

Lemma lookups_copied kd m k : fm_safe kd m -> has_kind kd k ->
  fm_get_mut eqbO E (copied_map m) k = fm_get_mut eqbO E m k /\
  fm_get eqbO E (copied_map m) k = (r <- fm_get eqbO E m k ;; Ok (option_map cV r)) /\
  fm_get_key_value eqbO E (copied_map m) k =
    (r <- fm_get_key_value eqbO E m k ;; Ok (option_map (copied_entry (copied_key cO)) r)).
Proof.
  intros Hs Hk. pose proof (same_frame_safe kd _ _ (copied_frame m) Hs) as Hs'.
  destruct (fm_lookup_safe eqbO E kd m k Hs Hk) as (r & H1 & H2 & H3 & H4 & _).
  destruct (fm_lookup_safe eqbO E kd _ k Hs' Hk) as (r' & H1' & H2' & H3' & H4' & _).
  rewrite get_at_copied, H1 in H1'. injection H1' as <-.
  rewrite H2, H3, H4, H2', H3', H4', copied_iter. cbn [bind]. split; auto.
  destruct r as [i|]; cbn [at_pos]; [|auto]. rewrite nth_error_map. now destruct (nth_error (fm_iter m) i).
Qed.
End Faithful.

Lemma faithful_clone :
  forall (W O V : Type) (F : conduct W O) (C : cloning W O V) (cO : O -> O) (cV : V -> V) (cB : hasher O -> hasher O)
         (eqbO : O -> O -> bool) (E : env) (kd : kind) (bh : hasher O) (m : map_types O V) (w : W),
  env_ok E -> equivalence eqbO -> (forall x, eqbO x (cO x) = true) -> (forall b, hash_alike b (cB b)) ->
  clones_as (on_clone C) cO -> clones_as (on_clone_value C) cV -> clones_as (on_clone_hasher C) cB ->
  owned F C E kd bh m ->
  exists m' w', fm_clone C m w = (Ok m', w') /\
    let copied e := (copied_key cO (fst e), cV (snd e)) in
    fm_iter m' = map copied (fm_iter m) /\ fm_len m' = fm_len m /\
    forall k, has_kind kd k ->
      fm_get_mut eqbO E m' k = fm_get_mut eqbO E m k /\
      fm_get eqbO E m' k = (r <- fm_get eqbO E m k ;; Ok (option_map cV r)) /\
      fm_get_key_value eqbO E m' k = (r <- fm_get_key_value eqbO E m k ;; Ok (option_map copied r)).
Proof.
  intros W O V F C cO cV cB eqbO E kd bh m w HE He HcO HcB HO HV HB H.
  destruct (clone_gives C cO cV cB HO HV HB m w) as (w' & Hc). exists (copied_map cO cV cB m), w'. split; [exact Hc|].
  cbn zeta. pose proof (copied_iter cO cV cB m) as Hi. split; [exact Hi|]. split.
  - rewrite !fm_len_iter, Hi. apply zlen_map.
  - intros k Hk. apply (lookups_copied cO cV cB eqbO E He HcO HcB kd); auto. apply (owned_sound F C E kd HE bh m H).
Qed.

Lemma clone_equals_original :
  forall (W O V : Type) (C : cloning W O V) (cO : O -> O) (cV : V -> V) (cB : hasher O -> hasher O)
         (eqbO : O -> O -> bool) (veq : V -> V -> bool) (E : env) (kd : kind) (bh : hasher O)
         (payload : list (key O * V)) (m m' : map_types O V) (w w' : W),
  env_ok E -> equivalence eqbO -> (forall x, eqbO x (cO x) = true) -> (forall b, hash_alike b (cB b)) ->
  (forall v, veq v (cV v) = true /\ veq (cV v) v = true) ->
  clones_as (on_clone C) cO -> clones_as (on_clone_value C) cV -> clones_as (on_clone_hasher C) cB ->
  lawful_hash eqbO bh -> countable (prof E) (zlen payload) -> typed kd payload ->
  distinct (key_eqb eqbO) (map fst payload) ->
  fm_new E kd payload bh = Ok m -> fm_clone C m w = (Ok m', w') ->
  fm_eq eqbO E veq m m' = Ok true /\ fm_eq eqbO E veq m' m = Ok true.
Proof.
  intros W O V C cO cV cB eqbO veq E kd bh payload m m' w w' HE He HcO HcB Hve HO HV HB Hl Hcnt Ht Hd Hm Hc.
  destruct (clone_gives C cO cV cB HO HV HB m w) as (w1 & Hc'). rewrite Hc in Hc'. injection Hc' as -> _.
  pose proof (fm_new_perm E HE kd payload bh m Hm) as HP.
  assert (Hs : fm_safe kd m).
  { destruct (built_safe eqbO E HE kd payload bh m Ht Hm) as (_ & Hs & _). exact Hs. }
  assert (Hk : forall k, In k (map fst (fm_iter m)) -> has_kind kd k /\ has_kind kd (copied_key cO k)).
  { intros k Hk. apply in_map_iff in Hk. destruct Hk as (e & <- & Hi). apply (Permutation_in _ (Permutation_sym HP)) in Hi.
    specialize (Ht e Hi). split; auto. now destruct (fst e). }
  assert (Hget : forall e k, In e (fm_iter m) -> key_eqb eqbO k (fst e) = true -> has_kind kd k -> fm_get eqbO E m k = Ok (Some (snd e))).
  { intros e k Hi Hke Hkk. apply (map_get_exact O V eqbO E kd bh payload m HE He Hl Hcnt Ht Hd Hm k Hkk).
    exists (fst e). split; auto. rewrite <- surjective_pairing. now apply (Permutation_in _ (Permutation_sym HP)). }
  pose proof (key_eqb_equiv eqbO He) as Hkeq.
  unfold fm_eq. rewrite !fm_len_iter, copied_iter, zlen_map, Z.eqb_refl. cbn [negb].
  assert (Hall : forall A (f : A -> res bool) l, (forall a, In a l -> f a = Ok true) -> all_res f l = Ok true).
  { intros A f l Hf. rewrite (all_res_ok _ (fun _ => true)) by auto. f_equal. apply forallb_forall. auto. }
  split; apply Hall.
  - intros e Hi. destruct (Hk (fst e) (in_map fst _ _ Hi)) as (Hke & _).
    destruct (lookups_copied cO cV cB eqbO E He HcO HcB kd m (fst e) Hs Hke) as (_ & -> & _).
    rewrite (Hget e (fst e) Hi (eq_refl_ok _ Hkeq _) Hke). cbn [bind option_map]. f_equal. apply Hve.
  - intros e' Hi'. apply in_map_iff in Hi'. destruct Hi' as (e & <- & Hi). cbn [fst snd copied_entry].
    destruct (Hk (fst e) (in_map fst _ _ Hi)) as (_ & Hke).
    rewrite (Hget e (copied_key cO (fst e)) Hi); auto; [cbn [bind]; f_equal; apply Hve|].
    apply (eq_sym_ok _ Hkeq). rewrite (eqb_copied cO eqbO He HcO). apply (eq_refl_ok _ Hkeq).
Qed.

(** ** Sets *)

Section Inside.
Context {W O V : Type}.

Lemma fs_clone_map (C : cloning W O V) s : forall w,
  (s' <~ fs_clone C s ;; lift (Ok (to_map s'))) w = fm_clone (for_set C) (to_map s) w.
Proof.
  assert (H : forall A B D (x : M W A) (f : A -> B) (g : B -> D) w,
    (y <~ (a <~ x ;; lift (Ok (f a))) ;; lift (Ok (g y))) w = (a <~ x ;; lift (Ok (g (f a)))) w).
  { intros A B D x f g w. unfold mbind, lift. destruct (x w) as [[]]; reflexivity. }
  intros w. destruct s; cbn [fs_clone fm_clone to_map]; apply H.
Qed.

Lemma fs_clone_ok (C : cloning W O V) s w r w' : fs_clone C s w = (r, w') ->
  fm_clone (for_set C) (to_map s) w = (s' <- r ;; Ok (to_map s'), w').
Proof. intros H. rewrite <- fs_clone_map. unfold mbind. rewrite H. now destruct r. Qed.
End Inside.

Section Sets.
Context {W O V : Type}.
Variable C : cloning W O V.
Notation log_t := (list (copy O V)).
Notation ulog_t := (list (copy O unit)).

(** The copies of keys and hashers among those of the map inside. *)
Definition forget (c : copy O unit) : list (copy O V) :=
  match c with
  | CopiedKey x a => [CopiedKey x a]
  | CopiedValue _ _ => []
  | CopiedHasher bh a => [CopiedHasher bh a]
  end.
Definition mild (c : copy O unit) : Prop := match c with CopiedValue _ a => a = Some tt | _ => True end.
Definition seen_as (s : W * log_t) (u : W * ulog_t) : Prop :=
  fst s = fst u /\ snd s = flat_map forget (snd u) /\ Forall mild (snd u).

Lemma inner_clone m w : exists r w' log,
  fm_clone (for_set (recording_copies C)) m (w, []) = (r, (w', flat_map forget log)) /\
  fm_clone (recording_copies (for_set C)) m (w, []) = (r, (w', log)) /\ Forall mild log.
Proof.
  assert (Hm : forall (u : ulog_t) c, Forall mild u -> mild c -> Forall mild (u ++ [c])).
  { intros u c Hu Hc. apply Forall_app. auto. }
  destruct (fm_clone_alike seen_as (for_set (recording_copies C)) (recording_copies (for_set C))) with
    (m := m) (w1 := (w, @nil (copy O V))) (w2 := (w, @nil (copy O unit))) as (r & [w1 l1] & [w2 l2] & H1 & H2 & Hw & Hl & Hf).
  - intros x [w1 l1] [w2 l2] (Hw & Hl & Hf). cbn [fst snd] in *. subst.
    cbn [for_set recording_copies on_clone]. unfold with_copy. cbn [fst snd].
    destruct (on_clone C x w2) as [a w3]. eexists _, _, _. split; [reflexivity|]. split; [reflexivity|].
    split; [reflexivity|]. cbn [fst snd]. rewrite flat_map_app. split; [reflexivity|]. now apply Hm.
  - intros [] [w1 l1] [w2 l2] (Hw & Hl & Hf). cbn [fst snd] in *. subst.
    cbn [for_set recording_copies on_clone_value]. unfold with_copy. cbn [fst snd].
    eexists _, _, _. split; [reflexivity|]. split; [reflexivity|].
    split; [reflexivity|]. cbn [fst snd]. rewrite flat_map_app, app_nil_r. split; [reflexivity|]. now apply Hm.
  - intros bh [w1 l1] [w2 l2] (Hw & Hl & Hf). cbn [fst snd] in *. subst.
    cbn [for_set recording_copies on_clone_hasher]. unfold with_copy. cbn [fst snd].
    destruct (on_clone_hasher C bh w2) as [a w3]. eexists _, _, _. split; [reflexivity|]. split; [reflexivity|].
    split; [reflexivity|]. cbn [fst snd]. rewrite flat_map_app. split; [reflexivity|]. now apply Hm.
  - repeat split. constructor.
  - cbn [fst snd] in *. subst. exists r, w2, l2. auto.
Qed.

Lemma forget_key k k' (l : ulog_t) : key_copied k k' l -> key_copied k k' (flat_map forget l).
Proof. destruct k; cbn [key_copied]; [intros (-> & ->)|intros (-> & ->)|intros (x' & -> & ->)]; cbn; eauto. Qed.

Lemma forget_copied es es' (l : ulog_t) : all_copied es es' l -> items_copied (map fst es) (map fst es') (flat_map forget l).
Proof.
  intros H. induction H as [|k v k' v' es es' l1 l2 Hk H IH]; [constructor|].
  rewrite !flat_map_app. cbn [flat_map forget app map fst]. constructor; auto using forget_key.
Qed.

Lemma forget_hasher_in bh (l : ulog_t) : hasher_in bh (flat_map forget l) = hasher_in bh l.
Proof. induction l as [|c l IH]; [reflexivity|]. destruct c as [x a|v a|b [a|]]; cbn [flat_map forget app hasher_in]; auto. Qed.

Lemma forget_made kd bh es r (l : ulog_t) : Forall mild l -> copies_made kd bh es r l ->
  set_copies_made kd bh (map fst es) (items <- r ;; Ok (map fst items)) (flat_map forget l).
Proof.
  intros Hm. assert (Hz : zlen (map fst es) = zlen es) by apply zlen_map.
  destruct r as [items|p|u|]; cbn [copies_made set_copies_made bind]; try contradiction; rewrite Hz.
  - intros (l1 & l2 & -> & Ha & Hh). exists (flat_map forget l1), (flat_map forget l2). rewrite flat_map_app.
    split; auto. split; [now apply forget_copied|].
    destruct Hh as [(-> & Hh)|(Hh & bh' & ->)]; [left; auto|right; split; auto; exists bh'; reflexivity].
  - intros (-> & [Hs|(items & l1 & Ha & Hh & ->)]); (split; [reflexivity|]).
    + left. destruct Hs as [es1 x v es2 es1' log Hes Ha|es1 k v es2 es1' log k' l1 Hes Ha Hk].
      * exists (map fst es1), x, (map fst es2), (map fst es1'), (flat_map forget log).
        rewrite Hes, map_app, flat_map_app. split; [reflexivity|]. split; [now apply forget_copied|reflexivity].
      * exfalso. apply Forall_app in Hm. destruct Hm as (_ & Hm). apply Forall_app in Hm. destruct Hm as (_ & Hm).
        inversion Hm; subst. discriminate.
    + right. exists (map fst items), (flat_map forget l1). rewrite flat_map_app.
      split; [now apply forget_copied|]. split; auto.
Qed.

Variable F : conduct W O.
Variable E : env.
Variable kd : kind.
Hypothesis HE : env_ok E.

Lemma set_clone_logs bh s w : made kd bh s -> exists r w' log,
  fs_clone (recording_copies C) s (w, []) = (r, (w', log)) /\ fs_clone C s w = (r, w') /\
  set_copies_made kd bh (fs_items s) (s' <- r ;; Ok (fs_items s')) log /\
  forall s', r = Ok s' -> made kd (hasher_in bh log) s' /\ length (fs_items s') = length (fs_items s).
Proof.
  intros (Hs & Hw). destruct (inner_clone (to_map s) w) as (r & w' & log & H1 & H2 & Hm).
  destruct (recorded_clone (for_set C) (to_map s) w []) as (r1 & w1 & l1 & H3 & H4). rewrite H2 in H3. injection H3 as <- <- <-.
  destruct (fm_clone_logs (for_set C) kd bh (to_map s) w [] Hw) as (r1 & w1 & l1 & H3 & H5).
  rewrite H2 in H3. injection H3 as <- <- <-.
  destruct (fs_clone (recording_copies C) s (w, [])) as [q1 x1] eqn:Q1.
  destruct (fs_clone C s w) as [q2 x2] eqn:Q2.
  apply fs_clone_ok in Q1, Q2. rewrite H1 in Q1. rewrite H4 in Q2. injection Q1 as Q1 <-. injection Q2 as Q2 <-.
  assert (Hq : q1 = q2).
  { rewrite Q1 in Q2. destruct q1 as [s1| | |], q2 as [s2| | |]; cbn [bind] in Q2; try congruence. injection Q2 as Q2. f_equal.
    destruct s1, s2; cbn [to_map] in Q2; congruence. }
  subst q2. exists q1, w', (flat_map forget log). split; [reflexivity|]. split; [reflexivity|].
  assert (Hc : copies_made kd bh (fm_iter (to_map s)) (m <- r ;; Ok (fm_iter m)) log).
  { destruct r; cbn [bind]; try contradiction; [apply H5|exact H5]. }
  apply (forget_made kd bh _ _ _ Hm) in Hc. rewrite <- fs_items_map in Hc. split.
  - destruct q1 as [s1| | |]; cbn [bind] in *; subst r; cbn [bind] in *; auto. now rewrite <- fs_items_map in Hc.
  - intros s' ->. cbn [bind] in Q1. subst r. destruct H5 as (Hc1 & Hf & Hw'). split.
    + split; [eapply same_frame_safe; eauto|]. now rewrite forget_hasher_in.
    + destruct Hc1 as (l1 & l2 & _ & Ha & _). apply all_copied_len in Ha. rewrite !fs_items_map, !map_length. exact Ha.
Qed.

Lemma owned_set_made bh s : owned_set F C E kd bh s -> made kd bh s /\ zlen (fs_items s) < 2 ^ 64.
Proof.
  intros H. induction H as [payload bh w s w' Hz Hk Hs|bh s w s' w' log H (Hm & Hz) Hc].
  - destruct (made_built F E kd payload bh w s w' HE Hk Hs) as (Hm & HP & _). apply zlen_perm in HP. rewrite <- HP. auto.
  - destruct (set_clone_logs bh s w Hm) as (r & w1 & l1 & Hr & _ & _ & H1). rewrite Hc in Hr. injection Hr as <- <- <-.
    destruct (H1 s' eq_refl) as (Hm' & Hl). unfold zlen in *. rewrite Hl. auto.
Qed.
End Sets.

Lemma set_clone_copies :
  forall (W O V : Type) (F : conduct W O) (C : cloning W O V) (E : env) (kd : kind) (bh : hasher O)
         (s : set_types O) (w : W),
  env_ok E -> owned_set F C E kd bh s ->
  exists r w' log,
    fs_clone (recording_copies C) s (w, []) = (r, (w', log)) /\ fs_clone C s w = (r, w') /\
    set_copies_made kd bh (fs_items s) (s' <- r ;; Ok (fs_items s')) log.
Proof.
  intros W O V F C E kd bh s w HE H. destruct (owned_set_made C F E kd HE bh s H) as (Hm & _).
  destruct (set_clone_logs C kd bh s w Hm) as (r & w' & log & H1 & H2 & H3 & _). eauto 6.
Qed.

Lemma owned_set_use :
  forall (W O V : Type) (F : conduct W O) (C : cloning W O V) (E : env) (kd : kind) (bh : hasher O)
         (s : set_types O),
  env_ok E -> owned_set F C E kd bh s ->
  let r := v_fs_running F E s in
  vs_len r = zlen (fs_items s) /\ runs_through (vs_next r) (vs_iter r) (fs_items s) /\
  forall x w, has_kind kd x ->
    (fst (v_fs_get F E s x w) = Panic PForeign /\ fst (vs_contains r x w) = Panic PForeign) \/
    exists o, fst (v_fs_get F E s x w) = Ok o /\ (forall y, o = Some y -> In y (fs_items s)) /\
      fst (vs_contains r x w) = Ok (match o with Some _ => true | None => false end).
Proof.
  intros W O V F C E kd bh s HE H r. destruct (owned_set_made C F E kd HE bh s H) as ((Hs & Hw) & Hz).
  split.
  { cbn [r v_fs_running vs_len]. rewrite fs_len_map, fm_len_iter, fs_items_map. now rewrite zlen_map. }
  split; [now apply library_iterators|].
  intros x w Hx. cbn [r v_fs_running vs_contains]. rewrite v_fs_contains_get.
  destruct (v_fs_get_cases F E kd s x w Hs Hx) as [H1|(o & H1 & Ho)];
    destruct (v_fs_get F E s x w) as [q w2]; cbn [fst] in *; subst q; [left; auto|].
  right. exists o. auto.
Qed.

(** It is false that a clone finds what the original finds, if the clone of the hasher hashes
    otherwise. *)
Lemma clone_finds_the_same_refuted :
  exists (C : cloning unit Z Z) (E : env) (payload : list (key Z * Z)) (bh : hasher Z) (m m' : map_types Z Z),
    env_ok E /\ lawful_hash Z.eqb bh /\ typed KindOther payload /\ distinct (key_eqb Z.eqb) (map fst payload) /\
    clones_as (on_clone C) (fun x => x) /\ clones_as (on_clone_value C) (fun v => v) /\
    fm_new E KindOther payload bh = Ok m /\ fm_clone C m tt = (Ok m', tt) /\ fm_iter m' = fm_iter m /\
    forall e, In e payload -> fm_get Z.eqb E m (fst e) = Ok (Some (snd e)) /\ fm_get Z.eqb E m' (fst e) = Ok None.
Proof.
  set (E := {| prof := Checked; usort := @stable_sort |}).
  set (bh := fun d => {| hash_one := fun k : key Z => match k with KOther a => a + d | _ => 0 end;
                         hash_one_slice := fun _ => 0; hash_write := fun _ => 0 |}).
  set (C := {| on_clone := fun x w => (Some x, w); on_clone_value := fun v w => (Some v, w);
               on_clone_hasher := fun _ w => (Some (bh 1), w) |} : cloning unit Z Z).
  set (payload := [(KOther 0, 10); (KOther 1, 11); (KOther 2, 12); (KOther 3, 13)]).
  assert (H : match fm_new E KindOther payload (bh 0) with
              | Ok m => match fst (fm_clone C m tt) with
                        | Ok m' => fm_iter m' = fm_iter m /\
                            map (fun e => fm_get Z.eqb E m (fst e)) payload = map (fun e => Ok (Some (snd e))) payload /\
                            map (fun e => fm_get Z.eqb E m' (fst e)) payload = map (fun _ => Ok None) payload
                        | _ => False
                        end
              | _ => False
              end) by (vm_compute; repeat split).
  destruct (fm_new E KindOther payload (bh 0)) as [m| | |] eqn:Hm; try contradiction.
  destruct (fm_clone C m tt) as [[m'| | |] []] eqn:Hc; cbn [fst] in H; try contradiction. destruct H as (Hi & Hg & Hg').
  exists C, E, payload, (bh 0), m, m'.
  split. { intros A key l. split; [apply stable_sort_perm|apply stable_sort_sorted]. }
  split. { intros a b Hab. apply Z.eqb_eq in Hab. now rewrite Hab. }
  split. { intros e He. cbn in He. intuition subst; exact I. }
  split. { cbn. intuition subst; reflexivity. }
  split. { intros x w. exists w. reflexivity. }
  split. { intros x w. exists w. reflexivity. }
  split; auto. split; auto. split; auto. clear Hm Hc Hi.
  intros e He. cbn [map payload fst snd] in Hg, Hg'. injection Hg as G0 G1 G2 G3. injection Hg' as G0' G1' G2' G3'.
  cbn in He. intuition subst; assumption.
Qed.
