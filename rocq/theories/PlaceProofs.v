(** Range maps answer by place. *)
From Coq Require Import List ZArith Bool Arith Lia Permutation Sorted.
From Verif Require Import Spec MapSpec Base BaseLemmas EqbLists IntKeyAnalyzer HashTable HashTableProofs Maps MapsProofs IntProofs
  FrozenMap FrozenMapProofs BuildSound FrozenMapFacts Iterators IterSpec IteratorProofs HistorySpec ObjectSpec History HistoryProofs MapObjects
  ComponentTheorems MapTheorems MapObjectProofs RepeatedSpec RepeatedProofs PlaceSpec.
Import ListNotations.
Open Scope Z_scope.

Section Simulation.
Context {M K V Q : Type}.
Variable pr : profile.
Variable eqb : Q -> Q -> bool.
Variable spot : Q -> option nat.
Variable mo : map_object M K V Q.
Variable D : Q -> Prop.
Variable inv : M -> Prop.

Definition places : Prop :=
  (forall m q, inv m -> D q ->
     mo_get_at mo m q = Ok (spot q) /\
     mo_get_mut mo m q = Ok (spot q) /\
     mo_get_key_value mo m q = Ok (match spot q with Some i => nth_error (mo_entries mo m) i | None => None end) /\
     (forall i, spot q = Some i -> (i < length (mo_entries mo m))%nat) /\
     mo_get mo m q = Ok (option_map snd (match spot q with Some i => nth_error (mo_entries mo m) i | None => None end))) /\
  (forall m, mo_len mo m = zlen (mo_entries mo m)) /\
  (forall m i w, mo_entries mo (mo_write mo i w m) = write_entry i w (mo_entries mo m)) /\
  (forall m i w, inv m -> inv (mo_write mo i w m)).

Hypothesis Hs : places.
Implicit Types m : M.

Lemma write_put i w (p : list (K * V)) : write_entry i w p = put i w p.
Proof.
  unfold write_entry. revert i. induction p as [|e p IH]; intros [|i]; cbn; auto.
  rewrite <- IH. destruct (nth_error p i); reflexivity.
Qed.

Lemma put_length i w (p : list (K * V)) : length (put i w p) = length p.
Proof. revert i. induction p as [|e p IH]; intros [|i]; cbn; auto. Qed.

Lemma place_many m qs : inv m -> (forall q, In q qs -> D q) ->
  (exists ps, mo_get_many_mut eqb mo m qs = Ok (Some ps) /\ distinct eqb qs /\ Forall2 (fun q i => spot q = Some i) qs ps) \/
  (mo_get_many_mut eqb mo m qs = Ok None /\ (~ distinct eqb qs \/ exists q, In q qs /\ spot q = None)).
Proof.
  intros H Hq. unfold mo_get_many_mut, get_many_mut.
  destruct (has_duplicate_key eqb [] qs) eqn:Hd.
  { right. split; auto. left. intros Hdist.
    assert (has_duplicate_key eqb [] qs = false); [|congruence].
    apply has_duplicate_key_spec. split; auto. intros s k []. }
  apply has_duplicate_key_spec in Hd. destruct Hd as (Hd & _).
  destruct (get_each_spec (mo_get_at mo m) spot qs) as [(ps & -> & HF)|(-> & k & Hik & Hf)]; eauto 10.
  intros k Hik. now destruct (proj1 Hs m k H (Hq k Hik)) as (G & _).
Qed.

Lemma writes_put ps ws m :
  mo_entries mo (mo_write_all mo ps ws m) =
    fold_left (fun p0 pw => put (fst pw) (snd pw) p0) (combine ps ws) (mo_entries mo m) /\
  (inv m -> inv (mo_write_all mo ps ws m)).
Proof.
  destruct Hs as (_ & _ & H3 & H4).
  unfold mo_write_all. generalize (combine ps ws) as l. intros l. revert m.
  induction l as [|[i w] l IH]; intros m; cbn [fold_left fst snd]; auto.
  destruct (IH (mo_write mo i w m)) as (E1 & E2). split; [now rewrite E1, H3, write_put|].
  intros Hi. apply E2. now apply H4.
Qed.

Lemma puts_same : forall (qws : list (Q * V)) ps (p : list (K * V)), Forall2 (fun q i => spot q = Some i) (map fst qws) ps ->
  fold_left (fun p0 pw => put (fst pw) (snd pw) p0) (combine ps (map snd qws)) p =
  fold_left (fun p qw => match spot (fst qw) with Some i => put i (snd qw) p | None => p end) qws p.
Proof.
  induction qws as [|[q w] qws IH]; intros ps p H; cbn [map fst snd] in *.
  - inversion H. reflexivity.
  - inversion H as [|q' i qs ps' Hk Hks]; subst. cbn [combine fold_left fst snd]. rewrite Hk. now apply IH.
Qed.

Lemma puts_length : forall (qws : list (Q * V)) (p : list (K * V)),
  length (fold_left (fun p qw => match spot (fst qw) with Some i => put i (snd qw) p | None => p end) qws p) = length p.
Proof. induction qws as [|kw kws IH]; cbn; intros p; auto. rewrite IH. destruct (spot _); auto. apply put_length. Qed.

Lemma place_step_ok m o : inv m -> zlen (mo_entries mo m) < 2 ^ 64 -> (forall q, In q (op_keys o) -> D q) ->
  fst (mo_step pr eqb mo m o) = fst (place_step eqb spot (mo_entries mo m) o) /\
  mo_entries mo (snd (mo_step pr eqb mo m o)) = snd (place_step eqb spot (mo_entries mo m) o) /\
  inv (snd (mo_step pr eqb mo m o)).
Proof.
  intros Hi Hz Hk. pose proof Hs as (_ & Hlen & Hw & Hwi).
  assert (Hl : forall q, In q (op_keys o) -> _) by (intros q Hqo; exact (proj1 Hs m q Hi (Hk q Hqo))).
  destruct o as [k|k|k|k| | | |k w|k w|kws]; cbn [op_keys] in *; cbn [mo_step place_step].
  - destruct (Hl k ltac:(cbn; auto)) as (_ & _ & _ & _ & ->). cbn. auto.
  - destruct (Hl k ltac:(cbn; auto)) as (_ & _ & -> & _). cbn. auto.
  - destruct (Hl k ltac:(cbn; auto)) as (_ & _ & _ & Hlt & Hg). unfold mo_contains_key, contains_key. rewrite Hg. cbn.
    split; auto. f_equal. destruct (spot k) as [i|]; auto. specialize (Hlt i eq_refl). apply nth_error_Some in Hlt.
    destruct (nth_error _ i); [reflexivity|congruence].
  - destruct (Hl k ltac:(cbn; auto)) as (_ & _ & _ & _ & Hg). unfold mo_index, index_of. rewrite Hg. cbn [bind].
    split; auto. cbn. destruct (spot k) as [i|]; cbn; auto. destruct (nth_error _ i); reflexivity.
  - cbn. split; auto. now rewrite Hlen.
  - cbn. split; auto. f_equal. rewrite Hlen. unfold zlen. now destruct (mo_entries mo m).
  - pose proof (fun it a l => it_at_cons pr (mo_entries mo m) it a l Hz) as Hcons.
    rewrite (R_fold (it_next pr) (it_at (mo_entries mo m)) (it_at_nil pr (mo_entries mo m)) Hcons _ (mo_entries mo m));
      [|apply it_at_new|lia].
    assert (Hf : forall (l acc : list (K * V)), fold_left (fun acc e => acc ++ [e]) l acc = acc ++ l).
    { induction l as [|x l IH]; intros acc; cbn; [now rewrite app_nil_r|]. now rewrite IH, <- app_assoc. }
    rewrite Hf. cbn. auto.
  - destruct (Hl k ltac:(cbn; auto)) as (_ & -> & _). destruct (spot k) as [i|]; cbn [fst snd watch]; auto.
    split; [reflexivity|]. split; [|auto]. now rewrite Hw, write_put.
  - destruct (Hl k ltac:(cbn; auto)) as (_ & Hm & _). unfold mo_index_mut, index_of. rewrite Hm. cbn [bind].
    destruct (spot k) as [i|]; cbn [fst snd unwrap watch]; auto.
    split; [reflexivity|]. split; [|auto]. now rewrite Hw, write_put.
  - destruct (place_many m (map fst kws) Hi Hk) as [(ps & -> & Hdk & HF)|(-> & Hr)].
    + assert (Hp : forallb (fun q => match spot q with Some _ => true | None => false end) (map fst kws) = true).
      { apply forallb_forall. intros k Hin. clear - HF Hin. induction HF as [|? ? ? ? E HF IH]; [contradiction|].
        destruct Hin as [ <- |Hin]; auto. now rewrite E. }
      rewrite (proj2 (all_different_spec eqb (map fst kws)) Hdk), Hp. cbn [andb fst snd]. split; [reflexivity|].
      destruct (writes_put ps (map snd kws) m) as (W1 & W2). split; [|auto]. rewrite W1. now apply puts_same.
    + assert (Hn : all_different eqb (map fst kws) &&
                   forallb (fun q => match spot q with Some _ => true | None => false end) (map fst kws) = false).
      { apply andb_false_iff. destruct Hr as [Hr|(k & Hin & Hg)].
        - left. destruct (all_different _ _) eqn:A; auto. now apply all_different_spec in A.
        - right. destruct (forallb _ _) eqn:F; auto. rewrite forallb_forall in F. specialize (F k Hin).
          rewrite Hg in F. discriminate. }
      rewrite Hn. cbn [fst snd watch]. auto.
Qed.

Lemma place_step_length (p : list (K * V)) (o : op Q V) : zlen (snd (place_step eqb spot p o)) = zlen p.
Proof.
  unfold zlen. destruct o; cbn [place_step snd]; auto.
  - destruct (spot k); auto. now rewrite put_length.
  - destruct (spot k); cbn [snd]; auto. now rewrite put_length.
  - destruct (_ && _); cbn [snd]; auto. now rewrite puts_length.
Qed.

Lemma place_run_ok : forall os m, inv m -> zlen (mo_entries mo m) < 2 ^ 64 -> queries D os ->
  mo_run pr eqb mo m os = place_run eqb spot (mo_entries mo m) os.
Proof.
  unfold queries. induction os as [|o os IH]; intros m Hi Hz Hk; cbn [mo_run place_run]; [reflexivity|].
  destruct (place_step_ok m o Hi Hz) as (H1 & H2 & H3); [intros k; apply Hk; cbn; auto|].
  pose proof (place_step_length (mo_entries mo m) o) as Hlen.
  destruct (mo_step pr eqb mo m o) as [b m'], (place_step eqb spot (mo_entries mo m) o) as [b' p']. cbn [fst snd] in *.
  subst b' p'. f_equal. apply IH; auto; [lia|]. intros o' k Ho. apply Hk. cbn. auto.
Qed.
End Simulation.

(** ** Stability of the sort *)

Lemma insert_filter {A} (key : A -> Z) (x : A) l k :
  filter (fun e => key e =? k) (insert_by key x l) = filter (fun e => key e =? k) (x :: l).
Proof.
  induction l as [|y l IH]; [reflexivity|]. cbn [insert_by]. destruct (key x <=? key y) eqn:C; [reflexivity|].
  cbn [filter] in *. rewrite IH. destruct (Z.eqb_spec (key x) k), (Z.eqb_spec (key y) k); auto. exfalso. lia.
Qed.

Lemma stable_sort_filter {A} (key : A -> Z) (l : list A) k :
  filter (fun e => key e =? k) (stable_sort key l) = filter (fun e => key e =? k) l.
Proof.
  induction l as [|x l IH]; [reflexivity|]. cbn [stable_sort]. rewrite insert_filter. cbn [filter]. now rewrite IH.
Qed.

Lemma stable_sorted_entries {V} (payload : list (Z * V)) : sorted_entries (fun k => k) payload (stable_sort fst payload).
Proof.
  split; [apply stable_sort_perm|]. split; [apply stable_sort_sorted|]. intros k. apply stable_sort_filter.
Qed.

Definition range_inv {V} (ty : int_type) mn n (m : integer_range_map V) : Prop :=
  irm_min m = mn /\ irm_max m = mn + Z.of_nat n - 1 /\ length (irm_entries m) = n /\
  Z.of_nat n - 1 <= imax ty /\ imin ty <= 0 /\ Z.of_nat n - 1 < 2 ^ 64.

Lemma irm_lookup_place {V} pr ty mn n (m : integer_range_map V) k : range_inv ty mn n m ->
  irm_get_at pr ty m k = Ok (offset_from mn n k) /\
  irm_get_mut pr ty m k = Ok (offset_from mn n k) /\
  irm_get_key_value pr ty m k = Ok (match offset_from mn n k with Some i => nth_error (irm_entries m) i | None => None end) /\
  (forall i, offset_from mn n k = Some i -> (i < length (irm_entries m))%nat) /\
  irm_get pr ty m k = Ok (option_map snd (match offset_from mn n k with Some i => nth_error (irm_entries m) i | None => None end)).
Proof.
  intros (H1 & H2 & H3 & H4 & H5 & H6).
  assert (H : irm_get_at pr ty m k = Ok (offset_from mn n k) /\ irm_get_mut pr ty m k = Ok (offset_from mn n k) /\
    irm_get_key_value pr ty m k = Ok (match offset_from mn n k with Some i => nth_error (irm_entries m) i | None => None end) /\
    (forall i, offset_from mn n k = Some i -> (i < length (irm_entries m))%nat)).
  { unfold irm_get_at, irm_get_mut, irm_get_key_value, offset_from. rewrite H1, H2.
    replace (k <=? mn + Z.of_nat n - 1) with (k <? mn + Z.of_nat n) by lia.
    destruct ((mn <=? k) && (k <? mn + Z.of_nat n)) eqn:E; [|repeat split; auto; discriminate].
    rewrite arith_ok by lia. cbn [bind]. rewrite to_usize_ok by lia.
    destruct (nth_error (irm_entries m) (Z.to_nat (k - mn))) as [e|] eqn:He.
    2:{ apply nth_error_None in He. lia. }
    rewrite (index_checked_ok _ _ e) by (auto; lia). cbn [bind]. repeat split; auto.
    intros i Hi. injection Hi as <-. lia. }
  destruct H as (G1 & G2 & G3 & G4). split; auto. split; auto. split; auto. split; auto.
  unfold irm_get. rewrite G1. cbn [bind]. destruct (offset_from mn n k) as [i|]; cbn [deref]; auto.
  specialize (G4 i eq_refl). apply nth_error_Some in G4. destruct (nth_error _ i); [reflexivity|congruence].
Qed.

Lemma irm_places {V} pr ty mn n :
  places (offset_from mn n) (irm_object (V := V) pr ty) (fun _ => True) (range_inv ty mn n).
Proof.
  split; [|split; [|split]]; auto.
  - intros m q Hok _. exact (irm_lookup_place pr ty mn n m q Hok).
  - intros m i w (H1 & H2 & H3 & H). unfold range_inv. cbn [mo_write irm_object irm_entries irm_min irm_max].
    rewrite write_entry_length. auto.
Qed.

Lemma spans_min_max mn keys : spans_from mn keys <->
  is_min mn keys /\ is_max (mn + zlen keys - 1) keys.
Proof.
  unfold spans_from, is_min, is_max, zlen. split; [intros (H1 & H2 & H3 & H4); repeat split; auto|intros ((H1 & H2) & H3 & H4); auto].
Qed.

(** ** C97 *)

Lemma range_map_by_place :
  forall (V : Type) (pr : profile) (ty : int_type) (payload : list (Z * V)),
  1 <= bits ty -> payload <> [] -> zlen payload < 2 ^ 64 ->
  (forall x y, In x (map fst payload) -> In y (map fst payload) -> x - y <= imax ty /\ x - y < 2 ^ 64) ->
  (forall mn, spans_from mn (map fst payload) ->
     exists m es, irm_from_vec pr ty payload = Ok m /\ sorted_entries (fun k => k) payload es /\
       forall history : list (op Z V),
       mo_run pr Z.eqb (irm_object pr ty) m history = place_run Z.eqb (offset_from mn (length payload)) es history) /\
  ((forall mn, ~ spans_from mn (map fst payload)) -> irm_from_vec pr ty payload = Panic PAssert).
Proof.
  intros V pr ty payload Hb Hne H64 Hsp. pose proof (imin_imax_0 ty Hb) as H0.
  assert (Hne' : map fst payload <> []) by (destruct payload; [congruence|discriminate]).
  assert (Hpos : (0 < length payload)%nat) by (destruct payload; [congruence|cbn; lia]).
  destruct (min_max_exist _ Hne') as (mn0 & mx0 & Hmn0 & Hmx0).
  pose proof (Hsp mx0 mn0 (proj1 Hmx0) (proj1 Hmn0)) as (S1 & S2).
  assert (Hle : mn0 <= mx0) by (apply Hmx0; apply Hmn0).
  assert (Hspec := irm_from_vec_spec pr ty payload mn0 mx0 Hne Hmn0 Hmx0).
  rewrite arith_ok in Hspec by lia. cbn [bind] in Hspec. rewrite to_usize_ok in Hspec by lia. cbn [unwrap bind] in Hspec.
  split.
  - intros mn Hs. apply spans_min_max in Hs. destruct Hs as (Hm1 & Hm2). rewrite zlen_map in Hm2.
    assert (mn0 = mn) by (eapply is_min_unique; eauto). assert (mx0 = mn + zlen payload - 1) by (eapply is_max_unique; eauto). subst mn0.
    destruct (Z.eqb_spec (mx0 - mn) (zlen payload - 1)) as [Hlen|Hlen]; [|lia].
    eexists _, (stable_sort fst payload). split; [exact Hspec|]. split; [apply stable_sorted_entries|]. intros history.
    pose proof (Permutation_length (stable_sort_perm fst payload)) as HL.
    apply (place_run_ok pr Z.eqb _ _ _ _ (irm_places pr ty mn (length payload)) history
             {| irm_min := mn; irm_max := mx0; irm_entries := stable_sort fst payload |}).
    + unfold range_inv, zlen in *. cbn [irm_min irm_max irm_entries]. rewrite <- HL. repeat split; lia.
    + cbn. unfold zlen in *. rewrite <- HL. exact H64.
    + intros o q _ _. exact I.
  - intros Hn. destruct (Z.eqb_spec (mx0 - mn0) (zlen payload - 1)) as [Hlen|Hlen]; auto.
    exfalso. apply (Hn mn0). apply spans_min_max. rewrite zlen_map. split; auto.
    now replace (mn0 + zlen payload - 1) with mx0 by lia.
Qed.

(** Keys between the least and the greatest that were never given are found exactly if some key was repeated. *)

Definition between (mn : Z) (n : nat) : list Z := map (fun i => mn + Z.of_nat i) (seq 0 n).

Lemma between_spec mn n k : In k (between mn n) <-> mn <= k < mn + Z.of_nat n.
Proof.
  unfold between. rewrite in_map_iff. split.
  - intros (i & <- & Hi). apply in_seq in Hi. lia.
  - intros H. exists (Z.to_nat (k - mn)). split; [lia|]. apply in_seq. lia.
Qed.

Lemma between_nodup mn n : NoDup (between mn n).
Proof. unfold between. apply FinFun.Injective_map_NoDup; [intros x y H; lia|apply seq_NoDup]. Qed.

Lemma between_length mn n : length (between mn n) = n.
Proof. unfold between. now rewrite map_length, seq_length. Qed.

Lemma spans_nodup mn keys : spans_from mn keys ->
  (NoDup keys <-> forall k, mn <= k < mn + Z.of_nat (length keys) -> In k keys).
Proof.
  intros (_ & H2 & _ & H4). split.
  - intros Hd k Hk. apply (NoDup_length_incl Hd (l' := between mn (length keys))); [now rewrite between_length| |now apply between_spec].
    intros x Hx. apply between_spec. specialize (H2 x Hx). specialize (H4 x Hx). lia.
  - intros H. apply (NoDup_incl_NoDup (between_nodup mn (length keys))); [now rewrite between_length|].
    intros k Hk. apply between_spec in Hk. auto.
Qed.

Lemma range_map_strangers :
  forall (V : Type) (pr : profile) (ty : int_type) (payload : list (Z * V)) (m : integer_range_map V),
  1 <= bits ty -> payload <> [] -> zlen payload < 2 ^ 64 ->
  (forall x y, In x (map fst payload) -> In y (map fst payload) -> x - y <= imax ty /\ x - y < 2 ^ 64) ->
  irm_from_vec pr ty payload = Ok m ->
  (forall k, In k (map fst payload) -> mo_contains_key (irm_object pr ty) m k = Ok true) /\
  (NoDup (map fst payload) <-> forall k, mo_contains_key (irm_object pr ty) m k = Ok true -> In k (map fst payload)).
Proof.
  intros V pr ty payload m Hb Hne H64 Hsp Hm.
  assert (Hne' : map fst payload <> []) by (destruct payload; [congruence|discriminate]).
  destruct (min_max_exist _ Hne') as (mn & mx & Hmn & Hmx).
  pose proof (range_map_by_place V pr ty payload Hb Hne H64 Hsp) as (Hyes & Hno).
  assert (Hs : spans_from mn (map fst payload)).
  { assert (D : spans_from mn (map fst payload) \/ ~ spans_from mn (map fst payload)).
    { rewrite spans_min_max. destruct (Z.eq_dec mx (mn + zlen (map fst payload) - 1)) as [->|N]; [auto|].
      right. intros (_ & H). apply N. eapply is_max_unique; eauto. }
    destruct D as [D|D]; auto. rewrite Hno in Hm; [discriminate|]. intros mn' H'. apply D.
    assert (mn' = mn) as <-; [|auto]. apply spans_min_max in H'. eapply is_min_unique; [apply H'|auto]. }
  destruct (Hyes mn Hs) as (m' & es & Hm' & HP & Hrun). rewrite Hm in Hm'. injection Hm' as <-.
  assert (Hc : forall k, mo_contains_key (irm_object pr ty) m k = Ok true <-> mn <= k < mn + Z.of_nat (length (map fst payload))).
  { intros k. pose proof (Hrun [OContainsKey k]) as H. cbn [mo_run mo_step place_run place_step] in H.
    injection H as H. unfold offset_from in H. rewrite map_length.
    destruct (mo_contains_key (irm_object pr ty) m k) eqn:Ek; cbn in H; try discriminate; try (destruct p; discriminate).
    injection H as Hb0. subst. destruct ((mn <=? k) && (k <? mn + Z.of_nat (length payload))) eqn:B; split; intros X; try reflexivity; try discriminate; lia. }
  split.
  - intros k Hk. apply Hc. destruct Hs as (_ & H2 & _ & H4). specialize (H2 k Hk). specialize (H4 k Hk). lia.
  - rewrite (spans_nodup mn _ Hs). split; intros H k Hk; apply H, Hc; auto.
Qed.

(** ** FrozenMap with u32 keys *)

Lemma fm_places {O V} (eqbO : O -> O -> bool) (E : env) mn n :
  places (fun k : key O => offset_from mn n (u32_of k)) (fm_object (V := V) eqbO E) (has_kind KindU32)
    (fun m => exists rm, m = MU32Range rm /\ range_inv u32 mn n rm).
Proof.
  split; [|split; [|split]].
  - intros m q (rm & -> & Hr) Hk. destruct (has_kind_u32 q Hk) as (k & -> & Hk').
    destruct (irm_lookup_place (prof E) u32 mn n rm k Hr) as (H1 & H2 & H3 & H4 & H5).
    cbn [mo_get_at mo_get mo_get_mut mo_get_key_value mo_entries fm_object fm_get_at fm_get fm_get_mut fm_get_key_value
         fm_iter as_u32 bind u32_of].
    rewrite H1, H2, H3, H5. cbn [bind]. rewrite map_length. split; auto. split; auto.
    assert (Hmap : forall i, nth_error (map (@from_u32_entry O V) (irm_entries rm)) i =
                     option_map from_u32_entry (nth_error (irm_entries rm) i)) by (intros i; apply nth_error_map).
    destruct (offset_from mn n k) as [i|]; cbn [option_map].
    + rewrite Hmap. split; auto. split; auto. destruct (nth_error (irm_entries rm) i); reflexivity.
    + auto.
  - intros m. apply fm_len_iter.
  - intros m i w. apply fm_iter_write.
  - intros m i w (rm & -> & H1 & H2 & H3 & H). cbn [mo_write fm_object fm_write]. eexists. split; [reflexivity|].
    unfold range_inv. cbn [irm_entries irm_min irm_max]. rewrite write_entry_length. auto.
Qed.

Lemma sorted_entries_u32 {O V} (p es : list (Z * V)) : sorted_entries (fun k => k) p es ->
  sorted_entries (@u32_of O) (map from_u32_entry p) (map from_u32_entry es).
Proof.
  intros (H1 & H2 & H3). split; [now apply Permutation_map|]. split.
  - clear - H2. induction H2 as [|e es _ IH H]; cbn [map]; constructor; auto.
    apply Forall_map. eapply Forall_impl; [|exact H]. intros a. auto.
  - intros k. specialize (H3 k).
    assert (G : forall l : list (Z * V), filter (fun e => u32_of (fst e) =? k) (map (@from_u32_entry O V) l) =
                 map from_u32_entry (filter (fun e => fst e =? k) l)).
    { induction l as [|e l IH]; [reflexivity|]. cbn [map filter]. rewrite IH. cbn [from_u32_entry fst u32_of].
      now destruct (fst e =? k). }
    rewrite !G. f_equal. exact H3.
Qed.

Lemma frozen_map_places :
  forall (O V : Type) (eqbO : O -> O -> bool) (E : env) (bh : hasher O) (payload : list (key O * V)) (mn : Z),
  4 <= zlen payload -> zlen payload < 2 ^ 32 -> typed KindU32 payload ->
  spans_from mn (map (fun e => u32_of (fst e)) payload) ->
  exists m es, fm_new E KindU32 payload bh = Ok m /\ sorted_entries u32_of payload es /\
    (fm_iter m = es /\ forall q, has_kind KindU32 q -> fm_get_key_value eqbO E m q =
       Ok (match offset_from mn (length payload) (u32_of q) with Some i => nth_error es i | None => None end)) /\
    forall history : list (op (key O) V), queries (has_kind KindU32) history ->
    run eqbO E m history =
      place_run (key_eqb eqbO) (fun k => offset_from mn (length payload) (u32_of k)) es history.
Proof.
  intros O V eqbO E bh payload mn H4 Hn Hk Hs.
  destruct (as_u32_payload payload Hk) as (p & Hp & Hm & Hr).
  assert (Hkeys : map (fun e => u32_of (fst e)) payload = map fst p).
  { rewrite <- Hm, map_map. apply map_ext. intros []. reflexivity. }
  rewrite Hkeys in Hs. assert (Hlen : zlen payload = zlen p) by (rewrite <- Hm; apply zlen_map).
  assert (Hlen' : length payload = length p) by (unfold zlen in Hlen; lia).
  assert (Hne : p <> []) by (intros ->; change (zlen []) with 0 in Hlen; lia).
  pose proof Hs as Hmm. apply spans_min_max in Hmm. destruct Hmm as (Hmn & Hmx). rewrite zlen_map in Hmx.
  assert (Hrange : forall x, In x (map fst p) -> 0 <= x < 2 ^ 32).
  { intros x Hx. apply in_map_iff in Hx. destruct Hx as (e & <- & He). auto. }
  change (2 ^ 32) with 4294967296 in *.
  destruct (proj1 (range_map_by_place V (prof E) u32 p ltac:(cbn; lia) Hne ltac:(change (2 ^ 64) with 18446744073709551616; lia)
    ltac:(intros x y Hx Hy; apply Hrange in Hx, Hy; change (imax u32) with 4294967295; change (2 ^ 64) with 18446744073709551616; lia)) mn Hs)
    as (rm & es & Hrm & Hes & _).
  exists (MU32Range rm), (fm_iter (@MU32Range O V rm)).
  assert (Hrm' := Hrm). rewrite (irm_from_vec_spec _ _ p mn (mn + zlen p - 1)) in Hrm' by auto.
  rewrite arith_ok in Hrm' by (change (imax u32) with 4294967295; change (imin u32) with 0; lia). cbn [bind] in Hrm'.
  rewrite to_usize_ok in Hrm' by (change (2 ^ 64) with 18446744073709551616; lia). cbn [unwrap bind] in Hrm'.
  destruct (Z.eqb_spec (mn + zlen p - 1 - mn) (zlen p - 1)) as [_|N]; [|lia]. injection Hrm' as <-.
  pose proof (Permutation_length (stable_sort_perm fst p)) as HL.
  assert (Hinv : range_inv u32 mn (length payload) {| irm_min := mn; irm_max := mn + zlen p - 1; irm_entries := stable_sort fst p |}).
  { unfold range_inv, zlen in *. cbn [irm_min irm_max irm_entries].
    rewrite <- HL, Hlen'. change (imax u32) with 4294967295. change (imin u32) with 0.
    change (2 ^ 64) with 18446744073709551616. repeat split; lia. }
  split; [|split; [|split]].
  - unfold fm_new. destruct (Z.ltb_spec (zlen payload) 4); [lia|]. unfold fm_new_u32_map. rewrite Hp. cbn [bind].
    rewrite (analyze_int_keys_ok _ _ _ mn (mn + zlen p - 1)); auto.
    2: cbn; lia.
    2: destruct p; [congruence|discriminate].
    2:{ apply Forall_forall. intros x Hx. apply Hrange in Hx. cbn. lia. }
    2: change (imax u32) with 4294967295; lia.
    2: rewrite zlen_map; change (imax u32) with 4294967295; lia.
    cbn [bind]. rewrite zlen_map. replace (mn + zlen p - 1 - mn) with (zlen p - 1) by lia. rewrite Z.eqb_refl, Hrm. reflexivity.
  - rewrite <- Hm at 1. cbn [fm_iter irm_entries]. apply sorted_entries_u32, stable_sorted_entries.
  - split; [reflexivity|]. intros q Hq.
    exact (proj1 (proj2 (proj2 (proj1 (fm_places eqbO E mn (length payload)) _ q (ex_intro _ _ (conj eq_refl Hinv)) Hq)))).
  - intros history Hq. rewrite fm_run_object.
    apply (place_run_ok (prof E) (key_eqb eqbO) _ _ _ _ (fm_places eqbO E mn (length payload)) history); auto.
    + eexists. split; [reflexivity|]. exact Hinv.
    + cbn [mo_entries fm_object fm_iter irm_entries]. rewrite zlen_map. unfold zlen in *. rewrite <- HL.
      change (2 ^ 64) with 18446744073709551616. lia.
Qed.

Lemma frozen_map_by_place :
  forall (O V : Type) (eqbO : O -> O -> bool) (E : env) (bh : hasher O) (payload : list (key O * V)) (mn : Z),
  4 <= zlen payload -> zlen payload < 2 ^ 32 -> typed KindU32 payload ->
  spans_from mn (map (fun e => u32_of (fst e)) payload) ->
  exists m es, fm_new E KindU32 payload bh = Ok m /\ sorted_entries u32_of payload es /\
    forall history : list (op (key O) V), queries (has_kind KindU32) history ->
    run eqbO E m history =
      place_run (key_eqb eqbO) (fun k => offset_from mn (length payload) (u32_of k)) es history.
Proof.
  intros O V eqbO E bh payload mn H1 H2 H3 H4.
  destruct (frozen_map_places O V eqbO E bh payload mn H1 H2 H3 H4) as (m & es & A & B & _ & C). eauto.
Qed.
