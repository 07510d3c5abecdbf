(** Each specialized set answers queries exactly and is a correct implementation of the Set
    trait. *)
From Coq Require Import List ZArith Bool Arith Lia Permutation.
From Verif Require Import Spec MapSpec SetSpec Base BaseLemmas EqbLists HashTable HashTableProofs Maps MapsProofs IntProofs
  FrozenMap FrozenMapFacts SetOps Sets FrozenSetProofs SetObjects ObjectSpec MapObjects ComponentTheorems
  MapObjectProofs MapObjectEq.
Import ListNotations.
Open Scope Z_scope.

(** A set whose map searches its entries. *)
Lemma searched_set {T Q} (eqb : Q -> Q -> bool) (borrow : T -> Q) (D : Q -> Prop) (payload : list T)
    (es : list (T * unit)) (gkv : Q -> res (option (T * unit))) :
  Permutation (with_unit payload) es ->
  (forall q, D q -> gkv q = Ok (find (names eqb borrow q) es)) ->
  Permutation payload (map fst es) /\
  exact_set eqb borrow D payload (fun q => set_get_of (gkv q)) (fun q => set_contains_of (set_get_of (gkv q))).
Proof.
  intros HP Hg. assert (HP' : Permutation payload (map fst es)).
  { rewrite <- (with_unit_keys payload). now apply Permutation_map. }
  split; auto. intros q Hq. rewrite (Hg q Hq). unfold set_get_of, set_contains_of. cbn [bind].
  destruct (find _ es) as [e|] eqn:F; cbn [option_map].
  - left. apply find_some in F. destruct F as (F1 & F2). exists (fst e).
    split; [apply (Permutation_in _ (Permutation_sym HP')); now apply in_map|]. auto.
  - right. split; auto. intros x Hx. apply (Permutation_in _ HP') in Hx. apply in_map_iff in Hx.
    destruct Hx as (e & <- & He). exact (find_none _ _ F e He).
Qed.

Lemma exact_set_lawful {T} (eqb : T -> T -> bool) (D : T -> Prop) (payload : list T) get (s : set_impl T) :
  equivalence eqb -> (forall x, In x payload -> D x) ->
  Permutation payload (s_items s) -> s_len s = zlen (s_items s) ->
  exact_set eqb (fun x => x) D payload get (s_contains s) ->
  lawful_set eqb D s /\ (distinct eqb payload -> distinct eqb (s_items s)).
Proof.
  intros He HD HP Hlen Hx. split.
  - constructor; auto.
    + intros x Hi. apply HD. now apply (Permutation_in _ (Permutation_sym HP)).
    + intros x Hd. destruct (Hx x Hd) as [(y & Hy & Hxy & _ & ->)|(Hn & _ & ->)].
      * exists true. split; auto. split; auto. intros _. exists y. split; auto. now apply (Permutation_in _ HP).
      * exists false. split; auto. split; [discriminate|]. intros (y & Hy & Hxy).
        apply (Permutation_in _ (Permutation_sym HP)) in Hy. rewrite Hn in Hxy; auto.
  - intros Hd. eapply distinct_perm; eauto.
Qed.

(** ** ScanningSet *)

Lemma scanning_set_exact :
  forall (T Q : Type) (eqb : Q -> Q -> bool) (borrow : T -> Q) (items : list T),
  let s := ss_from_vec items in
  ss_items s = items /\ ss_len s = zlen items /\
  exact_set eqb borrow (fun _ => True) items (ss_get eqb borrow s) (ss_contains eqb borrow s).
Proof.
  intros T Q eqb borrow items s.
  destruct (searched_set eqb borrow (fun _ => True) items (with_unit items) (sm_get_key_value eqb borrow s)
    (Permutation_refl _)) as (_ & H); auto.
  split; [apply with_unit_keys|]. split; [apply with_unit_len|]. exact H.
Qed.

Lemma scanning_set_lawful :
  forall (T : Type) (eqb : T -> T -> bool) (items : list T), equivalence eqb ->
  lawful_set eqb (fun _ => True) (ss_as_set eqb (ss_from_vec items)) /\
  (distinct eqb items -> distinct eqb (s_items (ss_as_set eqb (ss_from_vec items)))).
Proof.
  intros T eqb items He. destruct (scanning_set_exact T T eqb (fun x => x) items) as (H1 & H2 & H3).
  apply (exact_set_lawful eqb _ items (ss_get eqb (fun x => x) (ss_from_vec items))); auto;
    cbn [ss_as_set s_items s_len s_contains]; try now rewrite H1.
Qed.

(** ** CommonSet *)

Lemma common_set_exact :
  forall (T Q BH : Type) (eqb : Q -> Q -> bool) (borrow : T -> Q)
         (hash_key : BH -> T -> Z) (hash_query : BH -> Q -> Z)
         (E : env) (S_ty : int_type) (items : list T) (bh : BH),
  env_ok E -> fits S_ty (zlen items) -> equivalence eqb ->
  (forall k, hash_key bh k = hash_query bh (borrow k)) ->
  (forall a b, eqb a b = true -> hash_query bh a = hash_query bh b) ->
  exists s, cs_from_vec hash_key E S_ty items bh = Ok s /\
    Permutation items (cs_items s) /\ cs_len s = zlen items /\
    exact_set eqb borrow (fun _ => True) items (cs_get eqb borrow hash_query s) (cs_contains eqb borrow hash_query s).
Proof.
  intros T Q BH eqb borrow hk hq E S_ty items bh HE HF He Hkq Hq.
  rewrite <- (with_unit_len items) in HF.
  destruct (cm_from_vec_ok hk E S_ty (with_unit items) bh HE HF) as (m & Hm & HP & Hok & Hb).
  exists m. split; auto.
  destruct (cm_searches (V := unit) eqb borrow hk hq bh He Hkq Hq) as (Hs & _).
  destruct (searched_set eqb borrow (fun _ => True) items (entries (cm_table m)) (cm_get_key_value eqb borrow hq m) HP) as (H1 & H2).
  { intros q _. now destruct (Hs m q (conj Hok Hb) I) as (_ & _ & _ & G). }
  split; auto. split; [|exact H2].
  unfold cs_len, ht_len. now rewrite <- (zlen_perm _ _ HP), with_unit_len.
Qed.

Lemma common_set_lawful :
  forall (T BH : Type) (eqb : T -> T -> bool) (hash : BH -> T -> Z) (E : env) (S_ty : int_type)
         (items : list T) (bh : BH) (s : common_set T BH),
  env_ok E -> fits S_ty (zlen items) -> equivalence eqb ->
  (forall a b, eqb a b = true -> hash bh a = hash bh b) ->
  cs_from_vec hash E S_ty items bh = Ok s ->
  lawful_set eqb (fun _ => True) (cs_as_set eqb hash s) /\
  (distinct eqb items -> distinct eqb (s_items (cs_as_set eqb hash s))).
Proof.
  intros T BH eqb hash E S_ty items bh s HE HF He Hq Hs.
  destruct (common_set_exact T T BH eqb (fun x => x) hash hash E S_ty items bh HE HF He (fun _ => eq_refl) Hq)
    as (s' & Hs' & HP & Hl & Hx).
  rewrite Hs in Hs'. injection Hs' as <-.
  apply (exact_set_lawful eqb _ items (cs_get eqb (fun x => x) hash s)); auto.
  cbn [cs_as_set s_len s_items]. now rewrite Hl, (zlen_perm _ _ HP).
Qed.

(** ** IntegerSet *)

Lemma integer_set_exact :
  forall (E : env) (S_ty : int_type) (items : list Z),
  env_ok E -> fits S_ty (zlen items) ->
  exists s, is_from_vec E S_ty items = Ok s /\
    Permutation items (is_items s) /\ is_len s = zlen items /\
    exact_set Z.eqb (fun x => x) (fun _ => True) items (is_get s) (is_contains s).
Proof.
  intros E S_ty items HE HF. rewrite <- (with_unit_len items) in HF.
  destruct (im_from_vec_ok E S_ty (with_unit items) HE HF) as (m & Hm & HP & Hok).
  exists m. split; auto. destruct (im_searches (V := unit)) as (Hs & _).
  destruct (searched_set Z.eqb (fun x => x) (fun _ => True) items (entries (im_table m)) (im_get_key_value m) HP) as (H1 & H2).
  { intros q _. now destruct (Hs m q Hok I) as (_ & _ & _ & G). }
  split; auto. split; [|exact H2].
  unfold is_len, ht_len. now rewrite <- (zlen_perm _ _ HP), with_unit_len.
Qed.

Lemma integer_set_lawful :
  forall (E : env) (S_ty : int_type) (items : list Z) (s : integer_set),
  env_ok E -> fits S_ty (zlen items) -> is_from_vec E S_ty items = Ok s ->
  lawful_set Z.eqb (fun _ => True) (is_as_set s) /\
  (NoDup items -> distinct Z.eqb (s_items (is_as_set s))).
Proof.
  intros E S_ty items s HE HF Hs. destruct (integer_set_exact E S_ty items HE HF) as (s' & Hs' & HP & Hl & Hx).
  rewrite Hs in Hs'. injection Hs' as <-. rewrite map_eq_distinct_Z.
  apply (exact_set_lawful Z.eqb _ items (is_get s)); auto using Z_equiv.
  cbn [is_as_set s_len s_items]. now rewrite Hl, (zlen_perm _ _ HP).
Qed.

(** ** IntegerRangeSet *)

Lemma range_set_exact :
  forall (pr : profile) (ty : int_type) (items : list Z) (s : integer_range_set),
  1 <= bits ty -> items <> [] -> zlen items < 2 ^ 64 -> NoDup items ->
  (forall x, In x items -> imin ty <= x <= imax ty) ->
  irs_from_vec pr ty items = Ok s ->
  Permutation items (irs_items s) /\ irs_len s = zlen items /\
  exact_set Z.eqb (fun x => x) (fun _ => True) items (irs_get pr ty s) (irs_contains pr ty s).
Proof.
  intros pr ty items s Hb Hne Hz Hd Hr Hs. unfold irs_from_vec in Hs.
  assert (Hok : irm_ok ty s).
  { apply (irm_built_ok pr ty (with_unit items)); auto.
    - destruct items; [congruence|discriminate].
    - now rewrite with_unit_len.
    - now rewrite with_unit_keys.
    - now rewrite with_unit_keys. }
  pose proof (irm_from_vec_perm _ _ _ _ Hs) as HP. destruct (irm_searches (V := unit) pr ty) as (Hsr & _).
  destruct (searched_set Z.eqb (fun x => x) (fun _ => True) items (irm_entries s) (irm_get_key_value pr ty s) HP) as (H1 & H2).
  { intros q _. now destruct (Hsr s q Hok I) as (_ & _ & _ & G). }
  split; auto. split; [|exact H2].
  unfold irs_len. now rewrite <- (zlen_perm _ _ HP), with_unit_len.
Qed.

Lemma range_set_lawful :
  forall (pr : profile) (ty : int_type) (items : list Z) (s : integer_range_set),
  1 <= bits ty -> items <> [] -> zlen items < 2 ^ 64 -> NoDup items ->
  (forall x, In x items -> imin ty <= x <= imax ty) ->
  irs_from_vec pr ty items = Ok s ->
  lawful_set Z.eqb (fun _ => True) (irs_as_set pr ty s) /\ distinct Z.eqb (s_items (irs_as_set pr ty s)).
Proof.
  intros pr ty items s Hb Hne Hz Hd Hr Hs. destruct (range_set_exact pr ty items s Hb Hne Hz Hd Hr Hs) as (HP & Hl & Hx).
  destruct (exact_set_lawful Z.eqb (fun _ => True) items (irs_get pr ty s) (irs_as_set pr ty s)) as (H1 & H2);
    auto using Z_equiv.
  - cbn [irs_as_set s_len s_items]. now rewrite Hl, (zlen_perm _ _ HP).
  - split; auto. apply H2. now apply map_eq_distinct_Z.
Qed.

(** ** LengthSet *)

Lemma length_set_exact :
  forall (T Q : Type) (eqb : Q -> Q -> bool) (borrow : T -> Q) (len_key : T -> Z) (len_query : Q -> Z)
         (E : env) (S_ty : int_type) (items : list T),
  env_ok E -> fits S_ty (zlen items) ->
  (forall k, len_key k = len_query (borrow k)) ->
  (forall a b, eqb a b = true -> len_query a = len_query b) ->
  exists s, ls_from_vec len_key E S_ty items = Ok s /\
    Permutation items (ls_items s) /\ Sets.ls_len s = zlen items /\
    exact_set eqb borrow (fun _ => True) items (ls_get eqb borrow len_query s) (Sets.ls_contains eqb borrow len_query s).
Proof.
  intros T Q eqb borrow lk lq E S_ty items HE HF Hkq Hq.
  rewrite <- (with_unit_len items) in HF.
  destruct (lm_from_vec_ok lk E S_ty (with_unit items) HE HF) as (m & Hm & HP & Hok).
  exists m. split; auto.
  destruct (lm_searches (V := unit) eqb borrow lk lq Hkq Hq) as (Hs & _).
  destruct (searched_set eqb borrow (fun _ => True) items (entries (lm_table m)) (lm_get_key_value eqb borrow lq m) HP) as (H1 & H2).
  { intros q _. now destruct (Hs m q Hok I) as (_ & _ & _ & G). }
  split; auto. split; [|exact H2].
  unfold Sets.ls_len, ht_len. now rewrite <- (zlen_perm _ _ HP), with_unit_len.
Qed.

Lemma length_set_lawful :
  forall (T : Type) (eqb : T -> T -> bool) (len : T -> Z) (E : env) (S_ty : int_type)
         (items : list T) (s : length_set T),
  env_ok E -> fits S_ty (zlen items) -> equivalence eqb ->
  (forall a b, eqb a b = true -> len a = len b) ->
  ls_from_vec len E S_ty items = Ok s ->
  lawful_set eqb (fun _ => True) (ls_as_set eqb len s) /\
  (distinct eqb items -> distinct eqb (s_items (ls_as_set eqb len s))).
Proof.
  intros T eqb len E S_ty items s HE HF He Hq Hs.
  destruct (length_set_exact T T eqb (fun x => x) len len E S_ty items HE HF (fun _ => eq_refl) Hq)
    as (s' & Hs' & HP & Hl & Hx).
  rewrite Hs in Hs'. injection Hs' as <-.
  apply (exact_set_lawful eqb _ items (ls_get eqb (fun x => x) len s)); auto.
  cbn [ls_as_set s_len s_items]. now rewrite Hl, (zlen_perm _ _ HP).
Qed.

(** ** LeftSliceSet and RightSliceSet *)

Lemma left_slice_set_exact :
  forall (BH : Type) (hash_write : BH -> list Z -> Z) (E : env) (S_ty : int_type)
         (items : list (list Z)) (a b : Z) (bh : BH),
  env_ok E -> fits S_ty (zlen items) -> 0 <= a <= b -> (forall x, In x items -> b <= zlen x) ->
  exists s, lss_from_vec hash_write E S_ty items a b bh = Ok s /\
    Permutation items (sls_items s) /\ sls_len s = zlen items /\
    exact_set bytes_eqb (fun x => x) (fun _ => True) items (lss_get hash_write s) (lss_contains hash_write s).
Proof.
  intros BH hw E S_ty items a b bh HE HF Hab Hk. rewrite <- (with_unit_len items) in HF.
  destruct (lsm_from_vec_ok hw E S_ty (with_unit items) a b bh HE HF Hab) as (m & Hm & HP & Hok & _).
  { intros e He. apply Hk. rewrite <- (with_unit_keys items). now apply in_map. }
  exists m. split; auto. destruct (lsm_searches (V := unit) hw) as (Hs & _).
  destruct (searched_set bytes_eqb (fun x => x) (fun _ => True) items (entries (slm_table m)) (lsm_get_key_value hw m) HP) as (H1 & H2).
  { intros q _. now destruct (Hs m q Hok I) as (_ & _ & _ & G). }
  split; auto. split; [|exact H2].
  unfold sls_len, ht_len. now rewrite <- (zlen_perm _ _ HP), with_unit_len.
Qed.

Lemma left_slice_set_lawful :
  forall (BH : Type) (hash_write : BH -> list Z -> Z) (E : env) (S_ty : int_type)
         (items : list (list Z)) (a b : Z) (bh : BH) (s : slice_set BH),
  env_ok E -> fits S_ty (zlen items) -> 0 <= a <= b -> (forall x, In x items -> b <= zlen x) ->
  lss_from_vec hash_write E S_ty items a b bh = Ok s ->
  lawful_set bytes_eqb (fun _ => True) (lss_as_set hash_write s) /\
  (NoDup items -> distinct bytes_eqb (s_items (lss_as_set hash_write s))).
Proof.
  intros BH hw E S_ty items a b bh s HE HF Hab Hk Hs.
  destruct (left_slice_set_exact BH hw E S_ty items a b bh HE HF Hab Hk) as (s' & Hs' & HP & Hl & Hx).
  rewrite Hs in Hs'. injection Hs' as <-.
  destruct (exact_set_lawful bytes_eqb (fun _ => True) items (lss_get hw s) (lss_as_set hw s)) as (H1 & H2);
    auto using bytes_equiv, NoDup_bytes.
  cbn [lss_as_set s_len s_items]. now rewrite Hl, (zlen_perm _ _ HP).
Qed.

(** The range of a right slice set must be given reversed. *)
Lemma right_slice_set_exact :
  forall (BH : Type) (hash_write : BH -> list Z -> Z) (E : env) (S_ty : int_type)
         (items : list (list Z)) (a b : Z) (bh : BH),
  env_ok E -> fits S_ty (zlen items) -> 0 <= b <= a -> (forall x, In x items -> a <= zlen x < 2 ^ 64) ->
  exists s, rss_from_vec hash_write E S_ty items a b bh = Ok s /\
    Permutation items (sls_items s) /\ sls_len s = zlen items /\
    exact_set bytes_eqb (fun x => x) (fun q => zlen q < 2 ^ 64) items (rss_get hash_write E s) (rss_contains hash_write E s).
Proof.
  intros BH hw E S_ty items a b bh HE HF Hab Hk. rewrite <- (with_unit_len items) in HF.
  destruct (rsm_from_vec_ok hw E S_ty (with_unit items) a b bh HE HF Hab) as (m & Hm & HP & Hok & _).
  { intros e He. apply Hk. rewrite <- (with_unit_keys items). now apply in_map. }
  exists m. split; auto. destruct (rsm_searches (V := unit) hw E) as (Hs & _).
  destruct (searched_set bytes_eqb (fun x => x) (fun q => zlen q < 2 ^ 64) items (entries (slm_table m)) (rsm_get_key_value hw E m) HP) as (H1 & H2).
  { intros q Hq. now destruct (Hs m q Hok Hq) as (_ & _ & _ & G). }
  split; auto. split; [|exact H2].
  unfold sls_len, ht_len. now rewrite <- (zlen_perm _ _ HP), with_unit_len.
Qed.

Lemma right_slice_set_lawful :
  forall (BH : Type) (hash_write : BH -> list Z -> Z) (E : env) (S_ty : int_type)
         (items : list (list Z)) (a b : Z) (bh : BH) (s : slice_set BH),
  env_ok E -> fits S_ty (zlen items) -> 0 <= b <= a -> (forall x, In x items -> a <= zlen x < 2 ^ 64) ->
  rss_from_vec hash_write E S_ty items a b bh = Ok s ->
  lawful_set bytes_eqb (fun q => zlen q < 2 ^ 64) (rss_as_set hash_write E s) /\
  (NoDup items -> distinct bytes_eqb (s_items (rss_as_set hash_write E s))).
Proof.
  intros BH hw E S_ty items a b bh s HE HF Hab Hk Hs.
  destruct (right_slice_set_exact BH hw E S_ty items a b bh HE HF Hab Hk) as (s' & Hs' & HP & Hl & Hx).
  rewrite Hs in Hs'. injection Hs' as <-.
  destruct (exact_set_lawful bytes_eqb (fun q => zlen q < 2 ^ 64) items (rss_get hw E s) (rss_as_set hw E s)) as (H1 & H2);
    auto using bytes_equiv, NoDup_bytes.
  - intros x Hx'. now apply Hk.
  - cbn [rss_as_set s_len s_items]. now rewrite Hl, (zlen_perm _ _ HP).
Qed.
