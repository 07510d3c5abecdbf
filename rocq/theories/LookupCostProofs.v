(** Bounds on the number of key comparisons of a lookup. *)
From Coq Require Import List ZArith Bool Arith Lia Permutation.
From Verif Require Import Spec MapSpec CostSpec Base BaseLemmas EqbLists IntKeyAnalyzer SliceKeyAnalyzer
  HashCodeAnalyzer HashTable HashTableProofs HashCodeAnalyzerProofs IntProofs SliceKeyAnalyzerProofs Maps MapsProofs
  FrozenMap FrozenMapProofs FrozenMapBuild FrozenMapFacts CapacityProofs BuildSound LookupCost ComponentTheorems.
Import ListNotations.
Open Scope Z_scope.

(** ** Counting *)

Lemma comparisons_bound {A} (f : A -> bool) l : 0 <= comparisons f l <= zlen l.
Proof. induction l as [|x l IH]; unfold zlen in *; cbn [comparisons length]; [lia|]. destruct (f x); lia. Qed.

Lemma comparisons_none {A} (f : A -> bool) l : find_pos f l = None -> comparisons f l = zlen l.
Proof.
  induction l as [|x l IH]; cbn [find_pos comparisons]; [reflexivity|]. destruct (f x); [discriminate|].
  destruct (find_pos f l); [discriminate|]. intros _. rewrite IH by auto. unfold zlen. cbn [length]. lia.
Qed.

Lemma length_filter_map {A B} (g : A -> B) (q : B -> bool) l :
  length (filter q (map g l)) = length (filter (fun a => q (g a)) l).
Proof. induction l as [|x l IH]; cbn; auto. destruct (q (g x)); cbn; now rewrite IH. Qed.

Lemma length_filter_perm {A} (q : A -> bool) l l' : Permutation l l' -> length (filter q l) = length (filter q l').
Proof.
  induction 1; cbn; auto; [| |congruence].
  - destruct (q x); cbn; auto.
  - destruct (q x), (q y); reflexivity.
Qed.

(** A slot holds at most one more code than the table has collisions. *)
Lemma repeated_cons (x : Z) (l : list Z) : repeated (x :: l) = (repeated l + if in_dec Z.eq_dec x l then 1 else 0)%nat.
Proof.
  unfold repeated. cbn [nodup length]. pose proof (nodup_length_le l).
  destruct (in_dec Z.eq_dec x l); cbn [length]; lia.
Qed.

Lemma same_le_repeated (x : Z) (l : list Z) : (length (filter (fun c => (c =? x)%Z) l) <= 1 + repeated l)%nat.
Proof.
  enough (H : (length (filter (fun c => (c =? x)%Z) l) <= (if in_dec Z.eq_dec x l then 1 else 0) + repeated l)%nat)
    by (destruct (in_dec Z.eq_dec x l); lia).
  induction l as [|y l IH]; [cbn; lia|]. rewrite repeated_cons. cbn [filter].
  destruct (Z.eqb_spec y x) as [->|Hy]; cbn [length].
  - destruct (in_dec Z.eq_dec x (x :: l)) as [_|n]; [|cbn in n; tauto]. destruct (in_dec Z.eq_dec x l); lia.
  - destruct (in_dec Z.eq_dec x (y :: l)) as [i|n].
    + destruct i as [i|i]; [congruence|]. destruct (in_dec Z.eq_dec x l); [|contradiction].
      destruct (in_dec Z.eq_dec y l); lia.
    + destruct (in_dec Z.eq_dec x l) as [i|]; [cbn in n; tauto|]. destruct (in_dec Z.eq_dec y l); lia.
Qed.

Lemma sharing_collisions s code codes : (sharing s code codes <= 1 + collisions s codes)%nat.
Proof.
  unfold sharing, collisions. rewrite <- (length_filter_map (fun c => c mod s) (fun c => c =? code mod s)).
  apply same_le_repeated.
Qed.

Lemma sharing_le s code codes : (sharing s code codes <= length codes)%nat.
Proof. unfold sharing. induction codes as [|c l IH]; cbn; auto. destruct (_ =? _); cbn; lia. Qed.

(** ** One table *)

(** The cost of a lookup with result [got] in a table of [s] slots filled with [codes]. *)
Definition cost_ok {A} (codes : list Z) (s code : Z) (got : res (option A)) (cost : res Z) : Prop :=
  exists c, cost = Ok c /\ 0 <= c <= Z.of_nat (sharing s code codes) /\
    (got = Ok None -> c = Z.of_nat (sharing s code codes)).

Section Table.
Context {K V : Type}.
Implicit Types (payload : list (K * V)) (t : hash_table K V).

Lemma table_cost h t code (matches : K -> bool) payload :
  table_ok h t -> Permutation payload (entries t) ->
  cost_ok (map (fun e => h (fst e)) payload) (num_slots t) code
    (r <- (range <- ht_get_hash_info t code ;; ht_probe t range matches) ;; deref (entries t) r)
    (range <- ht_get_hash_info t code ;; ht_probe_cost t range matches).
Proof.
  intros (_ & Hok) HP. destruct (Hok code) as (a & b & Hi & Hr & Hs).
  rewrite Hi. cbn [bind]. unfold ht_probe_cost, ht_probe, slice_unchecked. cbn [fst snd]. rewrite Hr. cbn [bind].
  assert (Hz : zlen (sub a b (entries t)) = Z.of_nat (sharing (num_slots t) code (map (fun e => h (fst e)) payload))).
  { unfold sharing. rewrite length_filter_map, (length_filter_perm _ _ _ HP), Hs. reflexivity. }
  eexists. split; [reflexivity|]. rewrite <- Hz. split; [apply comparisons_bound|].
  intros Hn. apply comparisons_none. destruct (find_pos _ _); auto. cbn [option_map deref] in Hn.
  destruct (nth_error _ _); discriminate.
Qed.

Lemma build_cost E S_ty payload codes hash h a t :
  env_ok E -> imin S_ty = 0 -> countable (prof E) (zlen payload) -> payload <> [] -> codes <> [] ->
  (forall e, In e payload -> hash (fst e) = Ok (h (fst e))) ->
  analyze_hash_codes codes = Ok a -> ht_new E S_ty payload (fst a) hash = Ok t ->
  Permutation payload (entries t) /\ table_ok h t /\ num_slots t = fst a.
Proof.
  intros HE HS Hc Hne Hcodes Hh Ha Ht.
  destruct (analyze_hash_codes_pos codes) as (s & c & Ha' & Hs). rewrite Ha in Ha'. injection Ha' as ->.
  cbn [fst] in *. destruct (ht_new_sound E S_ty payload s hash h t) as (H1 & H2); auto.
  split; [eapply ht_new_perm; eauto|]. auto.
Qed.
End Table.

(** ** The maps *)

Section Maps.
Context {V : Type}.
Variable E : env.
Hypothesis HE : env_ok E.
Variable S_ty : int_type.
Hypothesis HS : imin S_ty = 0.

Lemma cm_cost {K Q BH} (eqb : Q -> Q -> bool) (borrow : K -> Q) (hk : BH -> K -> Z) (hq : BH -> Q -> Z)
    (payload : list (K * V)) bh m q :
  countable (prof E) (zlen payload) -> payload <> [] -> cm_from_vec hk E S_ty payload bh = Ok m ->
  exists s col, analyze_hash_codes (map (fun e => hk bh (fst e)) payload) = Ok (s, col) /\
    cost_ok (map (fun e => hk bh (fst e)) payload) s (hq bh q) (cm_get eqb borrow hq m q) (cm_get_cost eqb borrow hq m q).
Proof.
  intros Hc Hne H. unfold cm_from_vec in H. apply bind_ok in H. destruct H as ([s col] & Ha & H).
  apply bind_ok in H. destruct H as (t & Ht & H). injection H as <-. exists s, col. split; auto.
  destruct (build_cost E S_ty payload _ _ (hk bh) (s, col) t HE HS Hc Hne (map_nonempty _ _ Hne) (fun e _ => eq_refl) Ha Ht)
    as (HP & Hok & Hn).
  cbn [fst] in Hn. rewrite <- Hn. exact (table_cost _ _ (hq bh q) (fun k => eqb q (borrow k)) payload Hok HP).
Qed.

Lemma lm_cost {K Q} (eqb : Q -> Q -> bool) (borrow : K -> Q) (lk : K -> Z) (lq : Q -> Z) (payload : list (K * V)) m q :
  countable (prof E) (zlen payload) -> payload <> [] -> lm_from_vec lk E S_ty payload = Ok m ->
  exists s col, analyze_hash_codes (map (fun e => lk (fst e)) payload) = Ok (s, col) /\
    cost_ok (map (fun e => lk (fst e)) payload) s (lq q) (lm_get eqb borrow lq m q) (lm_get_cost eqb borrow lq m q).
Proof.
  intros Hc Hne H. unfold lm_from_vec in H. apply bind_ok in H. destruct H as ([s col] & Ha & H).
  apply bind_ok in H. destruct H as (t & Ht & H). injection H as <-. exists s, col. split; auto.
  destruct (build_cost E S_ty payload _ _ lk (s, col) t HE HS Hc Hne (map_nonempty _ _ Hne) (fun e _ => eq_refl) Ha Ht)
    as (HP & Hok & Hn).
  cbn [fst] in Hn. rewrite <- Hn. exact (table_cost _ _ (lq q) (fun k => eqb q (borrow k)) payload Hok HP).
Qed.

Lemma im_cost (payload : list (Z * V)) m q :
  countable (prof E) (zlen payload) -> payload <> [] -> im_from_vec E S_ty payload = Ok m ->
  exists s col, analyze_hash_codes (map (fun e => int_code (fst e)) payload) = Ok (s, col) /\
    cost_ok (map (fun e => int_code (fst e)) payload) s (int_code q) (im_get m q) (im_get_cost m q).
Proof.
  intros Hc Hne H. unfold im_from_vec in H. apply bind_ok in H. destruct H as ([s col] & Ha & H).
  apply bind_ok in H. destruct H as (t & Ht & H). injection H as <-. exists s, col. split; auto.
  destruct (build_cost E S_ty payload _ _ int_code (s, col) t HE HS Hc Hne (map_nonempty _ _ Hne) (fun e _ => eq_refl) Ha Ht)
    as (HP & Hok & Hn).
  cbn [fst] in Hn. rewrite <- Hn. exact (table_cost _ _ (int_code q) (fun k => q =? k) payload Hok HP).
Qed.

(** The code of a key or query in a slice map. *)
Definition window_code {BH} (hw : BH -> list Z -> Z) (bh : BH) (a b : Z) (k : list Z) : Z :=
  if b <=? zlen k then left_code hw bh a b k else 0.

Lemma lsm_cost {BH} (hw : BH -> list Z -> Z) (payload : list (list Z * V)) a b bh m q :
  countable (prof E) (zlen payload) -> payload <> [] -> lsm_from_vec hw E S_ty payload a b bh = Ok m ->
  0 <= a <= b /\
  exists s col, analyze_hash_codes (map (fun e => window_code hw bh a b (fst e)) payload) = Ok (s, col) /\
    cost_ok (map (fun e => window_code hw bh a b (fst e)) payload) s (window_code hw bh a b q)
      (lsm_get hw m q) (lsm_get_cost hw m q).
Proof.
  intros Hc Hne H. unfold lsm_from_vec in H. apply bind_ok in H. destruct H as (codes & Hcodes & H).
  apply bind_ok in H. destruct H as ([s col] & Ha & H).
  apply bind_ok in H. destruct H as (t & Ht & H). injection H as <-.
  assert (Hk : forall e, In e payload -> 0 <= a <= b /\ b <= zlen (fst e)).
  { intros e He. destruct (ht_new_hash_ok _ _ _ _ _ _ Ht e He) as (c & Hh). unfold slice_hash, slice_unchecked in Hh.
    destruct (range_ok a b (fst e)) eqn:Er; [|discriminate]. now apply range_ok_iff in Er. }
  assert (Hab : 0 <= a <= b) by (destruct payload as [|e p]; [congruence|]; apply (Hk e); now left).
  split; auto.
  rewrite (mapM_ok _ (fun e => window_code hw bh a b (fst e))) in Hcodes.
  2:{ intros e He. cbv beta zeta. destruct (Hk e He) as (_ & Hb). unfold window_code.
      rewrite (proj2 (Z.leb_le b _)) by exact Hb. now apply slice_hash_ok. }
  injection Hcodes as <-. exists s, col. split; auto.
  destruct (build_cost E S_ty payload _ _ (left_code hw bh a b) (s, col) t HE HS Hc Hne (map_nonempty _ _ Hne)
    (fun e He => slice_hash_ok hw bh (fst e) a b Hab (proj2 (Hk e He))) Ha Ht) as (HP & Hok & Hn).
  cbn [fst] in Hn. rewrite <- Hn.
  replace (map (fun e => window_code hw bh a b (fst e)) payload) with (map (fun e => left_code hw bh a b (fst e)) payload).
  2:{ apply map_ext_in. intros e He. destruct (Hk e He) as (_ & Hb). unfold window_code.
      now rewrite (proj2 (Z.leb_le b _)) by exact Hb. }
  unfold lsm_get, lsm_get_at, lsm_get_cost, lsm_get_hash_info. cbn [slm_table slm_bh slm_start slm_end].
  assert (Hcode : (if b <=? zlen q then slice_hash hw bh q a b else Ok 0) = Ok (window_code hw bh a b q)).
  { unfold window_code. destruct (Z.leb_spec b (zlen q)); [|reflexivity]. now apply slice_hash_ok. }
  rewrite Hcode. cbn [bind].
  exact (table_cost _ _ (window_code hw bh a b q) (fun k => bytes_eqb q k) payload Hok HP).
Qed.
End Maps.

Lemma int_code_u32 n : 0 <= n < 2 ^ 32 -> int_code n = n.
Proof. intros H. unfold int_code, wrap. cbn [signed bits u64 andb]. apply Z.mod_small. lia. Qed.

(** ** The facade *)

(** C49 *)
Lemma map_lookup_cost :
  forall (O V : Type) (eqbO : O -> O -> bool) (E : env) (kd : kind) (bh : hasher O)
         (payload : list (key O * V)) (m : map_types O V),
  env_ok E -> countable (prof E) (zlen payload) -> typed kd payload ->
  fm_new E kd payload bh = Ok m ->
  forall k, has_kind kd k ->
  exists c, fm_get_cost eqbO E m k = Ok c /\ 0 <= c <= zlen payload /\
    (zlen payload < 4 \/
     (kd = KindU32 /\ full_span payload /\ c = 0) \/
     exists code_of s col,
       let codes := map (fun e => code_of (fst e)) payload in
       code_choice kd bh code_of /\ analyze_hash_codes codes = Ok (s, col) /\
       (Z.to_nat c <= sharing s (code_of k) codes)%nat /\
       (sharing s (code_of k) codes <= 1 + collisions s codes)%nat /\
       (fm_get eqbO E m k = Ok None -> Z.to_nat c = sharing s (code_of k) codes)).
Proof.
  intros O V eqbO E kd bh payload m HE Hc Ht Hm k Hk.
  destruct (built_sound eqbO E HE kd payload bh m Hc Ht Hm) as (HP & Hinv & _ & Hrange).
  assert (Hfin : forall code_of s col got cost,
     let codes := map (fun e => code_of (fst e)) payload in
     code_choice kd bh code_of -> analyze_hash_codes codes = Ok (s, col) ->
     cost_ok codes s (code_of k) got cost -> fm_get eqbO E m k = got -> fm_get_cost eqbO E m k = cost ->
     exists c, fm_get_cost eqbO E m k = Ok c /\ 0 <= c <= zlen payload /\
     (zlen payload < 4 \/ (kd = KindU32 /\ full_span payload /\ c = 0) \/
     exists code_of s col,
       let codes := map (fun e => code_of (fst e)) payload in
       code_choice kd bh code_of /\ analyze_hash_codes codes = Ok (s, col) /\
       (Z.to_nat c <= sharing s (code_of k) codes)%nat /\
       (sharing s (code_of k) codes <= 1 + collisions s codes)%nat /\
       (fm_get eqbO E m k = Ok None -> Z.to_nat c = sharing s (code_of k) codes))).
  { intros code_of s col got cost codes Hcc Ha (c & H1 & H2 & H3) H4 H5. exists c. rewrite H5. split; auto.
    pose proof (sharing_le s (code_of k) codes) as Hle. unfold codes in Hle at 2. rewrite map_length in Hle.
    split; [unfold zlen; lia|]. right. right. exists code_of, s, col. cbv zeta. fold codes.
    split; auto. split; auto. split; [lia|]. split; [apply sharing_collisions|]. rewrite H4. intros Hn.
    specialize (H3 Hn). lia. }
  unfold fm_new in Hm. destruct (Z.ltb_spec (zlen payload) 4) as [H4|H4].
  { injection Hm as <-. eexists. split; [reflexivity|]. split; [|auto]. apply comparisons_bound. }
  assert (Hne : payload <> []) by (intros ->; change (zlen []) with 0 in *; lia).
  assert (Hcm : kd <> KindU32 -> forall S_ty (cm : common_map (key O) V (hasher O)), imin S_ty = 0 ->
     cm_from_vec hash_one E S_ty payload bh = Ok cm -> exists s col,
     code_choice kd bh (hash_one bh) /\
     analyze_hash_codes (map (fun e => hash_one bh (fst e)) payload) = Ok (s, col) /\
     cost_ok (map (fun e => hash_one bh (fst e)) payload) s (hash_one bh k)
       (cm_get (key_eqb eqbO) id_key hash_one cm k) (cm_get_cost (key_eqb eqbO) id_key hash_one cm k)).
  { intros Hkd S_ty cm HS H.
    destruct (cm_cost E HE S_ty HS (key_eqb eqbO) id_key hash_one hash_one payload bh cm k Hc Hne H) as (s & col & H1 & H2).
    exists s, col. split; auto. destruct kd; cbn [code_choice]; auto. congruence. }
  destruct kd.
  - (* u32 *)
    destruct (as_u32_payload payload Ht) as (p & Hp & Hmp & Hr).
    assert (Hlen : zlen payload = zlen p) by (rewrite <- Hmp; apply zlen_map).
    assert (Hpne : p <> []) by (intros ->; cbn in Hmp; congruence).
    destruct (has_kind_u32 k Hk) as (n & -> & Hn).
    unfold fm_new_u32_map in Hm. rewrite Hp in Hm. cbn [bind] in Hm.
    apply bind_ok in Hm. destruct Hm as (an & _ & Hm). destruct an.
    + assert (Hcodes : map (fun e => int_code (fst e)) p = map (fun e => u32_of (fst e)) payload).
      { rewrite <- Hmp, map_map. apply map_ext_in. intros e He. cbn [from_u32_entry fst u32_of]. apply int_code_u32; auto. }
      rewrite Hlen in Hc.
      destruct (_ <=? _); apply bind_ok in Hm; destruct Hm as (im & Hm & H); injection H as <-.
      * destruct (im_cost E HE u8 eq_refl p im n Hc Hpne Hm) as (s & col & H1 & H2). rewrite Hcodes in H1, H2.
        rewrite int_code_u32 in H2 by lia. apply (Hfin u32_of s col _ _ (fun _ => eq_refl) H1 H2); reflexivity.
      * destruct (im_cost E HE usize eq_refl p im n Hc Hpne Hm) as (s & col & H1 & H2). rewrite Hcodes in H1, H2.
        rewrite int_code_u32 in H2 by lia. apply (Hfin u32_of s col _ _ (fun _ => eq_refl) H1 H2); reflexivity.
    + apply bind_ok in Hm. destruct Hm as (rm & Hm & H). injection H as <-.
      destruct (Hrange I) as (_ & Hfs).
      destruct (fm_lookup_agree eqbO E KindU32 bh (MU32Range rm) (KU32 n) Hinv Hk) as (r & Hat & _).
      cbn [fm_get_at as_u32 bind] in Hat. cbn [fm_get_cost as_u32 bind]. unfold irm_get_cost. rewrite Hat. cbn [bind].
      exists 0. split; auto. split; [unfold zlen; lia|]. auto.
  - (* String *)
    destruct (as_string_payload payload Ht) as (p & Hp & Hmp & Hr).
    assert (Hlen : zlen payload = zlen p) by (rewrite <- Hmp; apply zlen_map).
    assert (Hpne : p <> []) by (intros ->; cbn in Hmp; congruence).
    destruct (has_kind_string k Hk) as (q & -> & Hq).
    unfold fm_new_string_map in Hm. rewrite Hp in Hm. cbn [bind] in Hm.
    apply bind_ok in Hm. destruct Hm as (an & Han & Hm). apply analyze_slice_keys_range in Han.
    assert (Hslice : forall S_ty i l (sm : slice_map V (hasher O)), imin S_ty = 0 -> 0 <= i /\ 0 <= l ->
      lsm_from_vec hash_write E S_ty p i (i + l) bh = Ok sm -> exists s col,
      let co k := window_code hash_write bh i (i + l) (str_of k) in
      code_choice KindString bh co /\ analyze_hash_codes (map (fun e => co (fst e)) payload) = Ok (s, col) /\
      cost_ok (map (fun e => co (fst e)) payload) s (co (KStr q)) (lsm_get hash_write sm q) (lsm_get_cost hash_write sm q)).
    { intros S_ty i l sm HS Hil H. rewrite Hlen in Hc.
      destruct (lsm_cost E HE S_ty HS hash_write p i (i + l) bh sm q Hc Hpne H) as (Hab & s & col & H1 & H2).
      exists s, col. cbv zeta.
      assert (Hcodes : map (fun e => window_code hash_write bh i (i + l) (fst e)) p =
         map (fun e => window_code hash_write bh i (i + l) (str_of (fst e))) payload).
      { rewrite <- Hmp, map_map. apply map_ext. intros e. reflexivity. }
      rewrite Hcodes in H1, H2. split; [|auto]. right. right. exists (Z.to_nat i), (Z.to_nat l).
      intros s0. cbn [str_of]. unfold window_code, left_code, left_win, sub, zlen.
      replace (Z.to_nat (i + l - i)) with (Z.to_nat l) by lia.
      destruct (Z.leb_spec (i + l) (Z.of_nat (length s0))), (Nat.leb_spec (Z.to_nat i + Z.to_nat l) (length s0)); auto; lia. }
    assert (Hlm : forall (lm : length_map (list Z) V), lm_from_vec zlen E u8 p = Ok lm -> exists s col,
      let co k := zlen (@str_of O k) in
      code_choice KindString bh co /\ analyze_hash_codes (map (fun e => co (fst e)) payload) = Ok (s, col) /\
      cost_ok (map (fun e => co (fst e)) payload) s (co (KStr q)) (lm_get bytes_eqb id_bytes zlen lm q)
        (lm_get_cost bytes_eqb id_bytes zlen lm q)).
    { intros lm H. rewrite Hlen in Hc.
      destruct (lm_cost E HE u8 eq_refl bytes_eqb id_bytes zlen zlen p lm q Hc Hpne H) as (s & col & H1 & H2).
      exists s, col. cbv zeta.
      assert (Hcodes : map (fun e => zlen (fst e)) p = map (fun e => zlen (str_of (fst e))) payload).
      { rewrite <- Hmp, map_map. apply map_ext. intros e. reflexivity. }
      rewrite Hcodes in H1, H2. split; [|auto]. right. left. intros s0. reflexivity. }
    destruct (_ <=? _); destruct an as [|i l|i l|]; apply bind_ok in Hm; destruct Hm as (x & Hm & H);
      injection H as <-.
    + destruct (Hcm ltac:(discriminate) u8 x eq_refl Hm) as (s & col & H0 & H1 & H2).
      apply (Hfin _ s col _ _ H0 H1 H2); reflexivity.
    + destruct (Hslice u8 i l x eq_refl ltac:(lia) Hm) as (s & col & H0 & H1 & H2).
      apply (Hfin _ s col _ _ H0 H1 H2); reflexivity.
    + exfalso. eapply (rsm_from_vec_forward_fails hash_write E u8 p i (i + l) bh x); eauto; lia.
    + destruct (Hlm x Hm) as (s & col & H0 & H1 & H2). apply (Hfin _ s col _ _ H0 H1 H2); reflexivity.
    + destruct (Hcm ltac:(discriminate) usize x eq_refl Hm) as (s & col & H0 & H1 & H2).
      apply (Hfin _ s col _ _ H0 H1 H2); reflexivity.
    + destruct (Hslice usize i l x eq_refl ltac:(lia) Hm) as (s & col & H0 & H1 & H2).
      apply (Hfin _ s col _ _ H0 H1 H2); reflexivity.
    + exfalso. eapply (rsm_from_vec_forward_fails hash_write E usize p i (i + l) bh x); eauto; lia.
    + destruct (Hcm ltac:(discriminate) usize x eq_refl Hm) as (s & col & H0 & H1 & H2).
      apply (Hfin _ s col _ _ H0 H1 H2); reflexivity.
  - (* other *)
    unfold fm_new_common_map in Hm.
    destruct (_ <=? _); apply bind_ok in Hm; destruct Hm as (x & Hm & H); injection H as <-.
    + destruct (Hcm ltac:(discriminate) u8 x eq_refl Hm) as (s & col & H0 & H1 & H2).
      apply (Hfin _ s col _ _ H0 H1 H2); reflexivity.
    + destruct (Hcm ltac:(discriminate) usize x eq_refl Hm) as (s & col & H0 & H1 & H2).
      apply (Hfin _ s col _ _ H0 H1 H2); reflexivity.
Qed.

(** Between four and seven keys: one comparison suffices whenever some table of up to sixteen
    times as many slots separates the codes. *)
Lemma small_map_one_comparison :
  forall (O V : Type) (eqbO : O -> O -> bool) (E : env) (bh : hasher O)
         (payload : list (key O * V)) (m : map_types O V) (size : Z),
  env_ok E -> 4 <= zlen payload < 8 ->
  zlen payload <= size <= 16 * zlen payload ->
  collisions size (map (fun e => hash_one bh (fst e)) payload) = 0%nat ->
  typed KindOther payload -> fm_new E KindOther payload bh = Ok m ->
  forall k, has_kind KindOther k ->
  exists c, fm_get_cost eqbO E m k = Ok c /\ 0 <= c <= 1.
Proof.
  intros O V eqbO E bh payload m size HE Hn Hs H0 Ht Hm k Hk.
  assert (Hc : countable (prof E) (zlen payload)) by (right; lia).
  destruct (map_lookup_cost O V eqbO E KindOther bh payload m HE Hc Ht Hm k Hk)
    as (c & H1 & H2 & [H3|[(H3 & _)|(co & s & col & H3 & H4 & H5 & H6 & _)]]); [lia|discriminate|].
  exists c. split; auto. cbn [code_choice] in H3.
  rewrite (map_ext _ (fun e => hash_one bh (fst e))) in H4, H5, H6 by (intros e; apply H3).
  set (codes := map (fun e => hash_one bh (fst e)) payload) in *.
  assert (Hz : zlen codes = zlen payload) by apply zlen_map.
  destruct (table_size_small codes) as (s' & c' & Ha & Hd); [intros He; rewrite He in Hz; change (zlen (@nil Z)) with 0 in Hz; lia|lia|].
  rewrite H4 in Ha. injection Ha as <- <-.
  destruct Hd as [(_ & Hp & _)|(_ & _ & Hp)]; [lia|]. exfalso. apply (Hp size); [lia|exact H0].
Qed.

(** The same is false for eight keys: eight distinct u32 keys whose lookups need up to eight
    comparisons although a table of nine slots would separate them. *)
Lemma eight_keys_refuted :
  exists (E : env) (payload : list (key unit * Z)) (bh : hasher unit) (m : map_types unit Z) (k : key unit),
  env_ok E /\ zlen payload = 8 /\ typed KindU32 payload /\
  NoDup (map (fun e => u32_of (fst e)) payload) /\
  collisions 9 (map (fun e => u32_of (fst e)) payload) = 0%nat /\
  fm_new E KindU32 payload bh = Ok m /\ has_kind KindU32 k /\
  fm_get_cost (fun _ _ => true) E m k = Ok 8.
Proof.
  set (E := {| prof := Checked; usort := @stable_sort |}).
  set (p := map (fun n => (@KU32 unit n, n)) [0; 8; 16; 24; 32; 40; 48; 56]).
  set (bh := {| hash_one := fun _ : key unit => 0; hash_one_slice := fun _ => 0; hash_write := fun _ => 0 |}).
  assert (H : exists m, fm_new E KindU32 p bh = Ok m /\ fm_get_cost (fun _ _ => true) E m (KU32 64) = Ok 8).
  { destruct (fm_new E KindU32 p bh) as [m| | |] eqn:Em.
    - exists m. split; auto. vm_compute in Em. injection Em as <-. vm_compute. reflexivity.
    - exfalso. vm_compute in Em. discriminate.
    - exfalso. vm_compute in Em. discriminate.
    - exfalso. vm_compute in Em. discriminate. }
  destruct H as (m & Hm & Hk). exists E, p, bh, m, (KU32 64).
  split. { intros A key l. split; [apply stable_sort_perm|apply stable_sort_sorted]. }
  split; [reflexivity|]. split.
  { intros e He. cbn in He. repeat destruct He as [<-|He]; try contradiction; cbn; lia. }
  split. { cbn. repeat constructor; cbn; intuition discriminate. }
  split; [vm_compute; reflexivity|]. split; auto. split; auto. cbn. lia.
Qed.
