(** The number of comparisons needed to find all stored keys. *)
From Coq Require Import List ZArith Bool Arith Lia Permutation.
From Verif Require Import Spec MapSpec CostSpec Base BaseLemmas EqbLists IntKeyAnalyzer SliceKeyAnalyzer
  HashCodeAnalyzer HashTable HashTableProofs HashCodeAnalyzerProofs IntProofs SliceKeyAnalyzerProofs Maps MapsProofs
  FrozenMap FrozenMapProofs FrozenMapBuild FrozenMapFacts CapacityProofs BuildSound LookupCost ComponentTheorems
  LookupCostProofs.
Import ListNotations.
Open Scope Z_scope.

(** ** Costs and slots *)

Notation count x l := (count_occ Z.eq_dec l x).

(** The cost of finding each element of [l] after [pre] in the scan of its slot. *)
Fixpoint prefix_costs (pre l : list Z) : list Z :=
  match l with
  | [] => []
  | x :: l' => 1 + Z.of_nat (count x pre) :: prefix_costs (x :: pre) l'
  end.

Lemma total_map_add {A} (f g : A -> Z) l : total (map (fun x => f x + g x) l) = total (map f l) + total (map g l).
Proof. unfold total. induction l; cbn; lia. Qed.

Lemma total_eqb x (l : list Z) : total (map (fun y => if Z.eq_dec x y then 1 else 0) l) = Z.of_nat (count x l).
Proof.
  unfold total. induction l as [|y l IH]; cbn [map fold_right count_occ]; [reflexivity|].
  rewrite IH. destruct (Z.eq_dec x y), (Z.eq_dec y x); try congruence; lia.
Qed.

Lemma total_prefix_costs l : forall pre,
  2 * total (prefix_costs pre l) =
  total (map (fun y => 1 + (Z.of_nat (count y l) + 2 * Z.of_nat (count y pre))) l).
Proof.
  induction l as [|x l IH]; intros pre; [reflexivity|].
  cbn [prefix_costs]. change (total (?a :: ?b)) with (a + total b). rewrite Z.mul_add_distr_l, IH.
  cbn [map]. change (total (?a :: ?b)) with (a + total b). rewrite count_occ_cons_eq by reflexivity.
  rewrite (map_ext (fun y => 1 + (Z.of_nat (count y l) + 2 * Z.of_nat (count y (x :: pre))))
     (fun y => (1 + (Z.of_nat (count y l) + 2 * Z.of_nat (count y pre))) + ((if Z.eq_dec x y then 1 else 0) + (if Z.eq_dec x y then 1 else 0)))).
  2:{ intros y. cbn [count_occ]. destruct (Z.eq_dec x y); lia. }
  rewrite (map_ext (fun y => 1 + (Z.of_nat (count y (x :: l)) + 2 * Z.of_nat (count y pre)))
     (fun y => (1 + (Z.of_nat (count y l) + 2 * Z.of_nat (count y pre))) + (if Z.eq_dec x y then 1 else 0))).
  2:{ intros y. cbn [count_occ]. destruct (Z.eq_dec x y); lia. }
  rewrite !total_map_add, !total_eqb. lia.
Qed.

Lemma nodup_length_perm (l l' : list Z) : Permutation l l' -> length (nodup Z.eq_dec l) = length (nodup Z.eq_dec l').
Proof.
  intros HP. apply Nat.le_antisymm; apply NoDup_incl_length; try apply NoDup_nodup; intros x Hx;
    apply nodup_In; apply nodup_In in Hx; eauto using Permutation_in, Permutation_sym.
Qed.

Lemma ones_prefix_costs l : forall pre,
  (length (filter (fun c => (c =? 1)%Z) (prefix_costs pre l)) + length (nodup Z.eq_dec pre) =
   length (nodup Z.eq_dec (l ++ pre)))%nat.
Proof.
  induction l as [|x l IH]; intros pre; [reflexivity|]. cbn [prefix_costs filter].
  rewrite (nodup_length_perm ((x :: l) ++ pre) (l ++ x :: pre)) by apply Permutation_middle.
  rewrite <- IH. cbn [nodup]. destruct (in_dec Z.eq_dec x pre) as [i|n].
  - apply (count_occ_In Z.eq_dec) in i. destruct (Z.eqb_spec (1 + Z.of_nat (count x pre)) 1); cbn [length]; lia.
  - apply (count_occ_not_In Z.eq_dec) in n. rewrite n. cbn [length Z.of_nat Z.add Z.eqb Pos.eqb]. lia.
Qed.

(** ** Finding the stored keys of a list grouped by slots *)

Section Scan.
Context {K V : Type}.
Variable eqb : K -> K -> bool.
Hypothesis He : equivalence eqb.
Variable slot : K -> Z.

(** The comparisons made when the slot of [k] is scanned for [k]. *)
Definition scan_cost (es : list (K * V)) (k : K) : Z :=
  comparisons (fun e => eqb k (fst e)) (filter (fun e => slot (fst e) =? slot k) es).

Lemma comparisons_app {A} (f : A -> bool) l x l' :
  (forall y, In y l -> f y = false) -> f x = true -> comparisons f (l ++ x :: l') = zlen l + 1.
Proof.
  intros Hl Hx. unfold zlen. induction l as [|y l IH]; cbn [app comparisons length].
  - rewrite Hx. reflexivity.
  - rewrite Hl by now left. rewrite IH by (intros z Hz; apply Hl; now right). lia.
Qed.

Lemma filter_length_count (x : Z) (l : list (K * V)) :
  length (filter (fun e => slot (fst e) =? x) l) = count x (map (fun e => slot (fst e)) l).
Proof.
  induction l as [|e l IH]; [reflexivity|]. cbn [filter map count_occ].
  destruct (Z.eqb_spec (slot (fst e)) x), (Z.eq_dec (slot (fst e)) x); try congruence. cbn [length]. now rewrite IH.
Qed.

Lemma scan_cost_at pre e post :
  distinct eqb (map fst (pre ++ e :: post)) ->
  scan_cost (pre ++ e :: post) (fst e) = 1 + Z.of_nat (count (slot (fst e)) (map (fun e => slot (fst e)) pre)).
Proof.
  intros Hd. unfold scan_cost. rewrite filter_app. cbn [filter]. rewrite Z.eqb_refl.
  rewrite comparisons_app.
  - unfold zlen. rewrite filter_length_count. lia.
  - intros y Hy. apply filter_In in Hy. destruct Hy as (Hy & _). destruct He as [_ Hs _].
    destruct (eqb (fst e) (fst y)) eqn:E; auto. exfalso. clear -Hd Hy E Hs.
    induction pre as [|z pre IH]; [contradiction|]. cbn [app map distinct] in Hd. destruct Hd as (Hz & Hd).
    destruct Hy as [->|Hy]; [|auto]. apply Hs in E. rewrite (Hz (fst e)) in E; [discriminate|].
    rewrite map_app. apply in_or_app. right. now left.
  - apply (eq_refl_ok _ He).
Qed.

Lemma scan_costs pre es :
  distinct eqb (map fst (pre ++ es)) ->
  map (fun e => scan_cost (pre ++ es) (fst e)) es =
  prefix_costs (rev (map (fun e => slot (fst e)) pre)) (map (fun e => slot (fst e)) es).
Proof.
  revert pre. induction es as [|e es IH]; intros pre Hd; [reflexivity|]. cbn [map prefix_costs]. f_equal.
  - rewrite scan_cost_at by auto. f_equal. f_equal.
    exact (proj1 (Permutation_count_occ Z.eq_dec _ _) (Permutation_rev _) _).
  - specialize (IH (pre ++ [e])). rewrite <- app_assoc in IH. cbn [app] in IH. rewrite IH by auto.
    rewrite map_app, rev_app_distr. reflexivity.
Qed.
End Scan.

(** ** The maps *)

Lemma comparisons_map {A B} (g : A -> B) (f : B -> bool) l : comparisons f (map g l) = comparisons (fun x => f (g x)) l.
Proof. induction l as [|x l IH]; cbn [map comparisons]; [reflexivity|]. now rewrite IH. Qed.

Lemma filter_map_swap {A B} (g : A -> B) (f : B -> bool) l : filter f (map g l) = map g (filter (fun x => f (g x)) l).
Proof. induction l as [|x l IH]; cbn; auto. destruct (f (g x)); cbn; now rewrite IH. Qed.

Section Table.
Context {K V : Type}.

Lemma table_scan (h : K -> Z) (t : hash_table K V) code (matches : K -> bool) :
  table_ok h t ->
  (range <- ht_get_hash_info t code ;; ht_probe_cost t range matches) =
  Ok (comparisons (fun e => matches (fst e))
        (filter (fun e => h (fst e) mod num_slots t =? code mod num_slots t) (entries t))).
Proof.
  intros (_ & Hok). destruct (Hok code) as (a & b & Hi & Hr & Hs). rewrite Hi. cbn [bind].
  unfold ht_probe_cost, slice_unchecked. cbn [fst snd]. rewrite Hr. cbn [bind]. now rewrite Hs.
Qed.
End Table.

Section Maps.
Context {V : Type}.
Variable E : env.
Hypothesis HE : env_ok E.
Variable S_ty : int_type.
Hypothesis HS : imin S_ty = 0.

Lemma cm_scan {K Q BH} (eqb : Q -> Q -> bool) (borrow : K -> Q) (hk : BH -> K -> Z) (hq : BH -> Q -> Z)
    (payload : list (K * V)) bh m :
  countable (prof E) (zlen payload) -> payload <> [] -> cm_from_vec hk E S_ty payload bh = Ok m ->
  exists s col, analyze_hash_codes (map (fun e => hk bh (fst e)) payload) = Ok (s, col) /\
  forall q, cm_get_cost eqb borrow hq m q =
    Ok (comparisons (fun e => eqb q (borrow (fst e)))
          (filter (fun e => hk bh (fst e) mod s =? hq bh q mod s) (entries (cm_table m)))).
Proof.
  intros Hc Hne H. unfold cm_from_vec in H. apply bind_ok in H. destruct H as ([s col] & Ha & H).
  apply bind_ok in H. destruct H as (t & Ht & H). injection H as <-. exists s, col. split; auto. intros q.
  destruct (build_cost E S_ty payload _ _ (hk bh) (s, col) t HE HS Hc Hne (map_nonempty _ _ Hne) (fun e _ => eq_refl) Ha Ht)
    as (HP & Hok & Hn).
  cbn [fst] in Hn. rewrite <- Hn. exact (table_scan (hk bh) t (hq bh q) (fun k => eqb q (borrow k)) Hok).
Qed.

Lemma lm_scan {K Q} (eqb : Q -> Q -> bool) (borrow : K -> Q) (lk : K -> Z) (lq : Q -> Z) (payload : list (K * V)) m :
  countable (prof E) (zlen payload) -> payload <> [] -> lm_from_vec lk E S_ty payload = Ok m ->
  exists s col, analyze_hash_codes (map (fun e => lk (fst e)) payload) = Ok (s, col) /\
  forall q, lm_get_cost eqb borrow lq m q =
    Ok (comparisons (fun e => eqb q (borrow (fst e)))
          (filter (fun e => lk (fst e) mod s =? lq q mod s) (entries (lm_table m)))).
Proof.
  intros Hc Hne H. unfold lm_from_vec in H. apply bind_ok in H. destruct H as ([s col] & Ha & H).
  apply bind_ok in H. destruct H as (t & Ht & H). injection H as <-. exists s, col. split; auto. intros q.
  destruct (build_cost E S_ty payload _ _ lk (s, col) t HE HS Hc Hne (map_nonempty _ _ Hne) (fun e _ => eq_refl) Ha Ht)
    as (HP & Hok & Hn).
  cbn [fst] in Hn. rewrite <- Hn. exact (table_scan lk t (lq q) (fun k => eqb q (borrow k)) Hok).
Qed.

Lemma im_scan (payload : list (Z * V)) m :
  countable (prof E) (zlen payload) -> payload <> [] -> im_from_vec E S_ty payload = Ok m ->
  exists s col, analyze_hash_codes (map (fun e => int_code (fst e)) payload) = Ok (s, col) /\
  forall q, im_get_cost m q =
    Ok (comparisons (fun e => q =? fst e)
          (filter (fun e => int_code (fst e) mod s =? int_code q mod s) (entries (im_table m)))).
Proof.
  intros Hc Hne H. unfold im_from_vec in H. apply bind_ok in H. destruct H as ([s col] & Ha & H).
  apply bind_ok in H. destruct H as (t & Ht & H). injection H as <-. exists s, col. split; auto. intros q.
  destruct (build_cost E S_ty payload _ _ int_code (s, col) t HE HS Hc Hne (map_nonempty _ _ Hne) (fun e _ => eq_refl) Ha Ht)
    as (HP & Hok & Hn).
  cbn [fst] in Hn. rewrite <- Hn. exact (table_scan int_code t (int_code q) (fun k => q =? k) Hok).
Qed.

Lemma lsm_scan {BH} (hw : BH -> list Z -> Z) (payload : list (list Z * V)) a b bh m :
  countable (prof E) (zlen payload) -> payload <> [] -> lsm_from_vec hw E S_ty payload a b bh = Ok m ->
  0 <= a <= b /\
  exists s col, analyze_hash_codes (map (fun e => window_code hw bh a b (fst e)) payload) = Ok (s, col) /\
  forall q, lsm_get_cost hw m q =
    Ok (comparisons (fun e => bytes_eqb q (fst e))
          (filter (fun e => window_code hw bh a b (fst e) mod s =? window_code hw bh a b q mod s) (entries (slm_table m)))).
Proof.
  intros Hc Hne H. unfold lsm_from_vec in H. apply bind_ok in H. destruct H as (codes & Hcodes & H).
  apply bind_ok in H. destruct H as ([s col] & Ha & H).
  apply bind_ok in H. destruct H as (t & Ht & H). injection H as <-.
  assert (Hk : forall e, In e payload -> 0 <= a <= b /\ b <= zlen (fst e)).
  { intros e He. destruct (ht_new_hash_ok _ _ _ _ _ _ Ht e He) as (c & Hh). unfold slice_hash, slice_unchecked in Hh.
    destruct (range_ok a b (fst e)) eqn:Er; [|discriminate]. now apply range_ok_iff in Er. }
  assert (Hab : 0 <= a <= b) by (destruct payload as [|e p]; [congruence|]; apply (Hk e); now left).
  split; auto.
  rewrite (mapM_ok _ (fun e => window_code hw bh a b (fst e))) in Hcodes.
  2:{ intros e He. cbv beta zeta. destruct (Hk e He) as (_ & Hb). unfold window_code.
      rewrite (proj2 (Z.leb_le b _)) by exact Hb. now apply slice_hash_ok. }
  injection Hcodes as <-. exists s, col. split; auto. intros q.
  destruct (build_cost E S_ty payload _ _ (left_code hw bh a b) (s, col) t HE HS Hc Hne (map_nonempty _ _ Hne)
    (fun e He => slice_hash_ok hw bh (fst e) a b Hab (proj2 (Hk e He))) Ha Ht) as (HP & Hok & Hn).
  cbn [fst] in Hn. rewrite <- Hn. cbn [slm_table].
  rewrite (filter_ext_in (fun e => window_code hw bh a b (fst e) mod num_slots t =? window_code hw bh a b q mod num_slots t)
     (fun e => left_code hw bh a b (fst e) mod num_slots t =? window_code hw bh a b q mod num_slots t)).
  2:{ intros e He. apply (Permutation_in _ (Permutation_sym HP)) in He. destruct (Hk e He) as (_ & Hb).
      unfold window_code at 1. now rewrite (proj2 (Z.leb_le b _)) by exact Hb. }
  unfold lsm_get_cost, lsm_get_hash_info. cbn [slm_table slm_bh slm_start slm_end].
  assert (Hcode : (if b <=? zlen q then slice_hash hw bh q a b else Ok 0) = Ok (window_code hw bh a b q)).
  { unfold window_code. destruct (Z.leb_spec b (zlen q)); [|reflexivity]. now apply slice_hash_ok. }
  rewrite Hcode. cbn [bind]. exact (table_scan (left_code hw bh a b) t (window_code hw bh a b q) (fun k => bytes_eqb q k) Hok).
Qed.
End Maps.

(** ** The facade *)

Lemma fm_get_cost_scan {O V} (eqbO : O -> O -> bool) (E : env) (kd : kind) (bh : hasher O)
    (payload : list (key O * V)) (m : map_types O V) :
  env_ok E -> countable (prof E) (zlen payload) -> typed kd payload -> fm_new E kd payload bh = Ok m ->
  (zlen payload < 4 /\ fm_iter m = payload /\
     forall k, fm_get_cost eqbO E m k = Ok (comparisons (fun e => key_eqb eqbO k (fst e)) payload)) \/
  (kd = KindU32 /\ full_span payload /\ forall k, has_kind kd k -> fm_get_cost eqbO E m k = Ok 0) \/
  (4 <= zlen payload /\
   exists code_of s col, code_choice kd bh code_of /\
     analyze_hash_codes (map (fun e => code_of (fst e)) payload) = Ok (s, col) /\
     forall k, has_kind kd k ->
       fm_get_cost eqbO E m k = Ok (scan_cost (key_eqb eqbO) (fun k => code_of k mod s) (fm_iter m) k)).
Proof.
  intros HE Hc Ht Hm.
  destruct (built_sound eqbO E HE kd payload bh m Hc Ht Hm) as (HP & Hinv & _ & Hrange).
  unfold fm_new in Hm. destruct (Z.ltb_spec (zlen payload) 4) as [H4|H4].
  { injection Hm as <-. left. split; auto. }
  right. assert (Hne : payload <> []) by (intros ->; change (zlen []) with 0 in *; lia).
  assert (Hcm : kd <> KindU32 -> forall S_ty (cm : common_map (key O) V (hasher O)), imin S_ty = 0 ->
     cm_from_vec hash_one E S_ty payload bh = Ok cm -> exists code_of s col,
     code_choice kd bh code_of /\
     analyze_hash_codes (map (fun e => code_of (fst e)) payload) = Ok (s, col) /\
     forall k, has_kind kd k ->
       cm_get_cost (key_eqb eqbO) id_key hash_one cm k =
       Ok (scan_cost (key_eqb eqbO) (fun k => code_of k mod s) (entries (cm_table cm)) k)).
  { intros Hkd S_ty cm HS H.
    destruct (cm_scan E HE S_ty HS (key_eqb eqbO) id_key hash_one hash_one payload bh cm Hc Hne H) as (s & col & H1 & H2).
    exists (hash_one bh), s, col. split; [destruct kd; cbn [code_choice]; auto; congruence|]. split; [exact H1|].
    intros k _. apply H2. }
  destruct kd.
  - destruct (as_u32_payload payload Ht) as (p & Hp & Hmp & Hr).
    assert (Hlen : zlen payload = zlen p) by (rewrite <- Hmp; apply zlen_map).
    assert (Hpne : p <> []) by (intros ->; cbn in Hmp; congruence).
    unfold fm_new_u32_map in Hm. rewrite Hp in Hm. cbn [bind] in Hm.
    apply bind_ok in Hm. destruct Hm as (an & _ & Hm). destruct an.
    + right. split; auto. exists u32_of.
      assert (Hcodes : map (fun e => int_code (fst e)) p = map (fun e => u32_of (fst e)) payload).
      { rewrite <- Hmp, map_map. apply map_ext_in. intros e He. cbn [from_u32_entry fst u32_of]. apply int_code_u32; auto. }
      rewrite Hlen in Hc.
      assert (Him : forall S_ty im, imin S_ty = 0 -> im_from_vec E S_ty p = Ok im -> exists s col,
        code_choice KindU32 bh u32_of /\
        analyze_hash_codes (map (fun e => u32_of (fst e)) payload) = Ok (s, col) /\
        forall k, has_kind KindU32 k -> (n <- as_u32 k ;; im_get_cost im n) =
          Ok (scan_cost (key_eqb eqbO) (fun k => u32_of k mod s) (map from_u32_entry (entries (im_table im))) k)).
      { intros S_ty im HS H. destruct (im_scan E HE S_ty HS p im Hc Hpne H) as (s & col & H1 & H2).
        exists s, col. rewrite Hcodes in H1. split; [exact (fun _ => eq_refl)|]. split; auto.
        intros k Hk. destruct (has_kind_u32 k Hk) as (n & -> & Hn). cbn [as_u32 bind]. rewrite H2. f_equal.
        unfold scan_cost. rewrite filter_map_swap, comparisons_map. cbn [from_u32_entry fst u32_of key_eqb].
        f_equal. apply filter_ext_in. intros e Hin.
        assert (Hie : In e p).
        { unfold im_from_vec in H. apply bind_ok in H. destruct H as ([s' c'] & Ha & H).
          apply bind_ok in H. destruct H as (t & Htt & H). injection H as <-. cbn [im_table] in Hin.
          destruct (build_cost E S_ty p _ _ int_code (s', c') t HE HS Hc Hpne (map_nonempty _ _ Hpne) (fun e _ => eq_refl) Ha Htt)
            as (HP' & _). exact (Permutation_in _ (Permutation_sym HP') Hin). }
        rewrite !int_code_u32 by auto. reflexivity. }
      destruct (_ <=? _); apply bind_ok in Hm; destruct Hm as (im & Hm & H); injection H as <-.
      * exact (Him u8 im eq_refl Hm).
      * exact (Him usize im eq_refl Hm).
    + left. apply bind_ok in Hm. destruct Hm as (rm & Hm & H). injection H as <-.
      destruct (Hrange I) as (_ & Hfs). split; auto. split; auto. intros k Hk.
      destruct (has_kind_u32 k Hk) as (n & -> & Hn).
      destruct (fm_lookup_agree eqbO E KindU32 bh (MU32Range rm) (KU32 n) Hinv Hk) as (r & Hat & _).
      cbn [fm_get_at as_u32 bind] in Hat. cbn [fm_get_cost as_u32 bind]. unfold irm_get_cost. rewrite Hat. reflexivity.
  - right. split; auto. destruct (as_string_payload payload Ht) as (p & Hp & Hmp & Hr).
    assert (Hlen : zlen payload = zlen p) by (rewrite <- Hmp; apply zlen_map).
    assert (Hpne : p <> []) by (intros ->; cbn in Hmp; congruence).
    unfold fm_new_string_map in Hm. rewrite Hp in Hm. cbn [bind] in Hm.
    apply bind_ok in Hm. destruct Hm as (an & Han & Hm). apply analyze_slice_keys_range in Han.
    assert (Hslice : forall S_ty i l (sm : slice_map V (hasher O)), imin S_ty = 0 -> 0 <= i /\ 0 <= l ->
      lsm_from_vec hash_write E S_ty p i (i + l) bh = Ok sm -> exists co s col,
      code_choice KindString bh co /\ analyze_hash_codes (map (fun e => co (fst e)) payload) = Ok (s, col) /\
      forall k, has_kind KindString k -> (q <- as_string k ;; lsm_get_cost hash_write sm q) =
        Ok (scan_cost (key_eqb eqbO) (fun k => co k mod s) (map from_string_entry (entries (slm_table sm))) k)).
    { intros S_ty i l sm HS Hil H. rewrite Hlen in Hc.
      destruct (lsm_scan E HE S_ty HS hash_write p i (i + l) bh sm Hc Hpne H) as (Hab & s & col & H1 & H2).
      exists (fun k => window_code hash_write bh i (i + l) (str_of k)), s, col.
      assert (Hcodes : map (fun e => window_code hash_write bh i (i + l) (fst e)) p =
         map (fun e => window_code hash_write bh i (i + l) (str_of (fst e))) payload).
      { rewrite <- Hmp, map_map. apply map_ext. intros e. reflexivity. }
      rewrite Hcodes in H1. split; [|split; auto].
      - right. right. exists (Z.to_nat i), (Z.to_nat l).
        intros s0. cbn [str_of]. unfold window_code, left_code, left_win, sub, zlen.
        replace (Z.to_nat (i + l - i)) with (Z.to_nat l) by lia.
        destruct (Z.leb_spec (i + l) (Z.of_nat (length s0))), (Nat.leb_spec (Z.to_nat i + Z.to_nat l) (length s0)); auto; lia.
      - intros k Hk. destruct (has_kind_string k Hk) as (q & -> & Hq). cbn [as_string bind]. rewrite H2. f_equal.
        unfold scan_cost. rewrite filter_map_swap, comparisons_map. reflexivity. }
    assert (Hlm : forall (lm : length_map (list Z) V), lm_from_vec zlen E u8 p = Ok lm -> exists co s col,
      code_choice KindString bh co /\ analyze_hash_codes (map (fun e => co (fst e)) payload) = Ok (s, col) /\
      forall k, has_kind KindString k -> (q <- as_string k ;; lm_get_cost bytes_eqb id_bytes zlen lm q) =
        Ok (scan_cost (key_eqb eqbO) (fun k => co k mod s) (map from_string_entry (entries (lm_table lm))) k)).
    { intros lm H. rewrite Hlen in Hc.
      destruct (lm_scan E HE u8 eq_refl bytes_eqb id_bytes zlen zlen p lm Hc Hpne H) as (s & col & H1 & H2).
      exists (fun k => zlen (str_of k)), s, col.
      assert (Hcodes : map (fun e => zlen (fst e)) p = map (fun e => zlen (str_of (fst e))) payload).
      { rewrite <- Hmp, map_map. apply map_ext. intros e. reflexivity. }
      rewrite Hcodes in H1. split; [|split; auto].
      - right. left. intros s0. reflexivity.
      - intros k Hk. destruct (has_kind_string k Hk) as (q & -> & Hq). cbn [as_string bind]. rewrite H2. f_equal.
        unfold scan_cost. rewrite filter_map_swap, comparisons_map. reflexivity. }
    destruct (_ <=? _); destruct an as [|i l|i l|]; apply bind_ok in Hm; destruct Hm as (x & Hm & H);
      injection H as <-.
    + exact (Hcm ltac:(discriminate) u8 x eq_refl Hm).
    + exact (Hslice u8 i l x eq_refl ltac:(lia) Hm).
    + exfalso. eapply (rsm_from_vec_forward_fails hash_write E u8 p i (i + l) bh x); eauto; lia.
    + exact (Hlm x Hm).
    + exact (Hcm ltac:(discriminate) usize x eq_refl Hm).
    + exact (Hslice usize i l x eq_refl ltac:(lia) Hm).
    + exfalso. eapply (rsm_from_vec_forward_fails hash_write E usize p i (i + l) bh x); eauto; lia.
    + exact (Hcm ltac:(discriminate) usize x eq_refl Hm).
  - right. split; auto. unfold fm_new_common_map in Hm.
    destruct (_ <=? _); apply bind_ok in Hm; destruct Hm as (x & Hm & H); injection H as <-.
    + exact (Hcm ltac:(discriminate) u8 x eq_refl Hm).
    + exact (Hcm ltac:(discriminate) usize x eq_refl Hm).
Qed.

Lemma total_perm l l' : Permutation l l' -> total l = total l'.
Proof. unfold total. induction 1; cbn; lia. Qed.

Lemma scanning_costs {K V} (eqb : K -> K -> bool) (payload : list (K * V)) :
  equivalence eqb -> distinct eqb (map fst payload) ->
  map (fun e => comparisons (fun e' => eqb (fst e) (fst e')) payload) payload =
  map Z.of_nat (seq 1 (length payload)).
Proof.
  intros He Hd.
  assert (H : forall es : list (K * V), map (fun e => comparisons (fun e' => eqb (fst e) (fst e')) es) es =
                         map (fun e => scan_cost eqb (fun _ => 0) es (fst e)) es).
  { intros es. apply map_ext. intros e. unfold scan_cost. f_equal. cbn. induction es as [|x es IH]; cbn; congruence. }
  rewrite H. pose proof (scan_costs eqb He (fun _ => 0) [] payload Hd) as Hs. cbn [app map rev] in Hs. rewrite Hs.
  assert (G : forall n (l : list (K * V)), prefix_costs (repeat 0 n) (map (fun _ => 0) l) = map Z.of_nat (seq (S n) (length l))).
  { intros n l. revert n. induction l as [|x l IH]; intros n; [reflexivity|]. cbn [map prefix_costs length seq].
    f_equal.
    - enough (count 0 (repeat 0 n) = n) by lia. clear. induction n as [|n IHn]; [reflexivity|]. cbn [repeat]. rewrite count_occ_cons_eq by reflexivity. now rewrite IHn.
    - rewrite <- IH. reflexivity. }
  exact (G O payload).
Qed.

(** C59 *)
Lemma stored_lookup_cost :
  forall (O V : Type) (eqbO : O -> O -> bool) (E : env) (kd : kind) (bh : hasher O)
         (payload : list (key O * V)) (m : map_types O V),
  env_ok E -> countable (prof E) (zlen payload) -> typed kd payload ->
  equivalence eqbO -> distinct (key_eqb eqbO) (map fst payload) ->
  fm_new E kd payload bh = Ok m ->
  exists costs, Forall2 (fun e c => fm_get_cost eqbO E m (fst e) = Ok c) payload costs /\
  let found_at_once := length (filter (fun c => c =? 1) costs) in
  ((zlen payload < 4 /\ costs = map Z.of_nat (seq 1 (length payload))) \/
   (kd = KindU32 /\ full_span payload /\ Forall (eq 0) costs) \/
   (4 <= zlen payload /\ exists code_of s col,
      let codes := map (fun e => code_of (fst e)) payload in
      code_choice kd bh code_of /\ analyze_hash_codes codes = Ok (s, col) /\
      2 * total costs = zlen payload + total (map (fun c => Z.of_nat (sharing s c codes)) codes) /\
      (found_at_once + collisions s codes)%nat = length payload /\
      (s <> zlen payload -> 95 * zlen payload <= 100 * Z.of_nat found_at_once))).
Proof.
  intros O V eqbO E kd bh payload m HE Hc Ht He Hd Hm.
  pose proof (key_eqb_equiv eqbO He) as Hke.
  assert (Hall : forall f, (forall k, has_kind kd k -> fm_get_cost eqbO E m k = Ok (f k)) ->
     Forall2 (fun e c => fm_get_cost eqbO E m (fst e) = Ok c) payload (map (fun e => f (fst e)) payload)).
  { intros f Hf. assert (Hin : forall e, In e payload -> has_kind kd (fst e)) by exact Ht.
    clear -Hf Hin. induction payload as [|e p IH]; cbn [map]; constructor.
    - apply Hf, Hin. now left.
    - apply IH. intros e' He'. apply Hin. now right. }
  destruct (fm_get_cost_scan eqbO E kd bh payload m HE Hc Ht Hm)
    as [(H4 & Hi & Hk)|[(Hkd & Hf & Hk)|(H4 & co & s & col & Hcc & Ha & Hk)]].
  - eexists. split; [apply Hall; intros k _; apply Hk|]. left. split; auto. now apply scanning_costs.
  - eexists. split; [apply (Hall (fun _ => 0)); exact Hk|]. right. left. split; auto. split; auto.
    apply Forall_forall. intros x Hx. apply in_map_iff in Hx. now destruct Hx as (_ & <- & _).
  - eexists. split; [apply Hall; exact Hk|]. right. right. split; auto. exists co, s, col. cbv zeta.
    split; auto. split; auto. set (codes := map (fun e => co (fst e)) payload) in *.
    pose proof (fm_new_perm E HE kd payload bh m Hm) as HP.
    set (slot := fun k => co k mod s).
    assert (HPc : Permutation (map (fun e => scan_cost (key_eqb eqbO) slot (fm_iter m) (fst e)) payload)
                              (prefix_costs [] (map (fun e => slot (fst e)) (fm_iter m)))).
    { assert (Hd' : distinct (key_eqb eqbO) (map fst (fm_iter m))).
      { apply (distinct_perm (key_eqb eqbO) Hke (map fst payload)); auto. now apply Permutation_map. }
      pose proof (scan_costs (key_eqb eqbO) Hke slot [] (fm_iter m) Hd') as Hs. cbn [app map rev] in Hs. rewrite <- Hs.
      now apply Permutation_map. }
    assert (HPs : Permutation (map (fun e => slot (fst e)) (fm_iter m)) (map (fun c => c mod s) codes)).
    { unfold codes. rewrite map_map. apply Permutation_map. now apply Permutation_sym. }
    assert (Hones : (length (filter (fun c => (c =? 1)%Z)
       (map (fun e => scan_cost (key_eqb eqbO) slot (fm_iter m) (fst e)) payload)) + collisions s codes)%nat = length payload).
    { rewrite (length_filter_perm _ _ _ HPc).
      pose proof (ones_prefix_costs (map (fun e => slot (fst e)) (fm_iter m)) []) as H. rewrite app_nil_r in H.
      rewrite (nodup_length_perm _ _ HPs) in H. unfold collisions, repeated.
      pose proof (nodup_length_le (map (fun c => c mod s) codes)) as Hle.
      assert (Hlc : length (map (fun c => c mod s) codes) = length payload) by (unfold codes; now rewrite !map_length).
      cbn [nodup length] in H. lia. }
    split; [|split; [exact Hones|]].
    + rewrite (total_perm _ _ HPc), total_prefix_costs.
      rewrite (map_ext _ (fun y => 1 + Z.of_nat (count y (map (fun e => slot (fst e)) (fm_iter m))))).
      2:{ intros y. cbn [count_occ]. lia. }
      rewrite total_map_add.
      rewrite (total_perm _ _ (Permutation_map (fun _ => 1) HPs)).
      rewrite (total_perm _ _ (Permutation_map (fun x => Z.of_nat (count x (map (fun e => slot (fst e)) (fm_iter m)))) HPs)).
      rewrite !map_map. f_equal.
      * unfold codes. rewrite map_map. unfold zlen. clear. unfold total. induction payload as [|e p IH]; cbn [map fold_right length]; lia.
      * f_equal. apply map_ext. intros c. f_equal. unfold sharing.
        rewrite (proj1 (Permutation_count_occ Z.eq_dec _ _) HPs).
        clear. induction codes as [|x l IH]; [reflexivity|]. cbn [map count_occ filter].
        destruct (Z.eq_dec (x mod s) (c mod s)), (Z.eqb_spec (x mod s) (c mod s)); try congruence. cbn [length]. now rewrite IH.
    + intros Hs.
      assert (Hcn : codes <> []) by (unfold codes; destruct payload; [change (zlen []) with 0 in H4; lia|discriminate]).
      assert (Hz : zlen codes = zlen payload) by apply zlen_map.
      destruct (table_size_sound codes Hcn) as (s' & c' & Ha' & _ & _ & Hcol & Hor). rewrite Ha in Ha'.
      injection Ha' as <- <-. rewrite Hz in Hor. destruct Hor as [Hor|Hor]; [contradiction|]. rewrite Hcol in Hor.
      unfold tolerated in Hor. unfold zlen in *.
      assert (5 * (Z.of_nat (length payload) / 100) <= Z.of_nat (length payload) / 20) by (clear; Z.to_euclidean_division_equations; lia).
      assert (Z.of_nat (length payload) / 20 * 20 <= Z.of_nat (length payload)) by (clear; Z.to_euclidean_division_equations; lia).
      destruct (_ <? 128); lia.
Qed.
