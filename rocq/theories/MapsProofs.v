(** Proofs about the specialized maps of Maps.v. *)
From Coq Require Import List ZArith Bool Lia Permutation.
From Verif Require Import Base BaseLemmas HashCodeAnalyzer HashCodeAnalyzerProofs
  HashTable HashTableProofs Maps FrozenMap MapSpec.
Import ListNotations.
Open Scope Z_scope.

Lemma bytes_eqb_eq a b : bytes_eqb a b = true <-> a = b.
Proof.
  revert b. induction a as [|x a IH]; destruct b as [|y b]; cbn; split; intros H; try discriminate; auto.
  - apply andb_prop in H. destruct H as (H1 & H2). apply Z.eqb_eq in H1. apply IH in H2. now subst.
  - injection H as -> ->. rewrite Z.eqb_refl. cbn. now apply IH.
Qed.

Lemma bytes_eqb_refl a : bytes_eqb a a = true.
Proof. now apply bytes_eqb_eq. Qed.


(** Analysis followed by table construction. *)
Lemma build_table {K V} (E : env) S_ty (payload : list (K * V)) codes (hash : K -> res Z) h :
  env_ok E -> fits S_ty (zlen payload) ->
  (payload <> [] -> codes <> []) ->
  (forall e, In e payload -> hash (fst e) = Ok (h (fst e))) ->
  exists a t, analyze_hash_codes codes = Ok a /\ ht_new E S_ty payload (fst a) hash = Ok t /\
    Permutation payload (entries t) /\ table_ok h t.
Proof.
  intros HE (F1 & F2 & F3 & F4) Hcodes Hh.
  destruct (analyze_hash_codes_pos codes) as (s & c & Ha & Hs).
  destruct payload as [|e p] eqn:Hp.
  - destruct (ht_new_ok E S_ty (@nil (K * V)) 1 hash h) as (t & Ht & HP & Hok & _); auto; try lia.
    exists (s, c), t. auto.
  - rewrite <- Hp in *. assert (payload <> []) by (subst; discriminate).
    destruct (ht_new_ok E S_ty payload s hash h) as (t & Ht & HP & Hok & _); auto; try lia.
    exists (s, c), t. auto.
Qed.

(** Writing through a reference keeps a table well formed. *)
Lemma table_ok_write {K V} (h : K -> Z) (t t' : hash_table K V) :
  num_slots t' = num_slots t -> slots t' = slots t -> map fst (entries t') = map fst (entries t) ->
  table_ok h t -> table_ok h t'.
Proof.
  intros Hn Hs Hk (H1 & H2). split; [lia|]. intros code.
  destruct (H2 code) as (a & b & Hi & Hr & Hf). exists a, b.
  unfold ht_get_hash_info in *. rewrite Hn, Hs. split; auto.
  assert (Hl : zlen (entries t') = zlen (entries t)).
  { rewrite <- (zlen_map fst (entries t')), Hk. apply zlen_map. }
  split.
  { unfold range_ok in *. now rewrite Hl. }
  set (q := fun k => h k mod num_slots t =? code mod num_slots t).
  apply range_ok_iff in Hr. destruct Hr as (Ha & Hb).
  (* Both sides are the elements at the same positions. *)
  assert (Hq : forall (l l' : list (K * V)) a b, map fst l = map fst l' ->
      0 <= a <= b -> b <= zlen l ->
      sub a b l = filter (fun e => q (fst e)) l -> sub a b l' = filter (fun e => q (fst e)) l').
  { clear. intros l l' a b Hk Ha Hb Hf.
    assert (Hl : zlen l' = zlen l).
    { rewrite <- (zlen_map fst l'), <- Hk. apply zlen_map. }
    destruct (sub_split a b l Ha Hb) as (pre & post & E & Hpre & Hmid).
    destruct (sub_split a b l' Ha ltac:(lia)) as (pre' & post' & E' & Hpre' & Hmid').
    assert (Hpp : length pre = length pre') by (unfold zlen in *; lia).
    assert (Hmm : length (sub a b l) = length (sub a b l')) by (unfold zlen in *; lia).
    set (mid := sub a b l) in *. set (mid' := sub a b l') in *.
    rewrite E, E', !map_app in Hk.
    assert (Happ : forall (x y x' y' : list K), length x = length x' -> x ++ y = x' ++ y' -> x = x' /\ y = y').
    { clear. induction x as [|c x IH]; destruct x' as [|c' x']; cbn; intros y' Hle He; try discriminate; auto.
      injection He as -> He. injection Hle as Hle. destruct (IH _ _ _ Hle He). subst; auto. }
    apply Happ in Hk; [|now rewrite !map_length]. destruct Hk as (Hk1 & Hk).
    apply Happ in Hk; [|now rewrite !map_length]. destruct Hk as (Hk2 & Hk3).
    assert (Hmidq : forall e, In e mid -> q (fst e) = true).
    { intros e He. rewrite Hf in He. now apply filter_In in He. }
    assert (Hout : filter (fun e => q (fst e)) pre = [] /\ filter (fun e => q (fst e)) post = []).
    { assert (Hlen : length mid = length (filter (fun e => q (fst e)) l)) by now rewrite Hf.
      rewrite E in Hlen. rewrite !filter_app, !app_length in Hlen.
      rewrite (filter_all _ mid) in Hlen by auto.
      split; apply length_zero_iff_nil; lia. }
    destruct Hout as (Ho1 & Ho2). rewrite filter_nil_iff in Ho1, Ho2.
    assert (Htr : forall (x x' : list (K * V)) v, map fst x = map fst x' ->
        (forall e, In e x -> q (fst e) = v) -> forall e, In e x' -> q (fst e) = v).
    { clear. intros x x' v Hk H e He. assert (In (fst e) (map fst x)) by (rewrite Hk; now apply in_map).
      apply in_map_iff in H0. destruct H0 as (e' & <- & He'). auto. }
    rewrite E', !filter_app.
    rewrite (filter_none _ pre') by (now apply (Htr pre)).
    rewrite (filter_none _ post') by (now apply (Htr post)).
    rewrite (filter_all _ mid') by (now apply (Htr mid)).
    now rewrite app_nil_r. }
  apply (Hq (entries t)); auto.
Qed.

(** ** CommonMap *)

Section Common.
Context {K V Q BH : Type}.
Variable eqb : Q -> Q -> bool.
Variable borrow : K -> Q.
Variable hash_key : BH -> K -> Z.
Variable hash_query : BH -> Q -> Z.

Lemma cm_from_vec_ok E S_ty (payload : list (K * V)) bh :
  env_ok E -> fits S_ty (zlen payload) ->
  exists m, cm_from_vec hash_key E S_ty payload bh = Ok m /\
    Permutation payload (entries (cm_table m)) /\ table_ok (hash_key bh) (cm_table m) /\ cm_bh m = bh.
Proof.
  intros HE HF. unfold cm_from_vec.
  destruct (build_table E S_ty payload (map (fun e => hash_key bh (fst e)) payload)
    (fun k => Ok (hash_key bh k)) (hash_key bh)) as (a & t & Ha & Ht & HP & Hok); auto.
  { destruct payload; [congruence|discriminate]. }
  rewrite Ha. cbn [bind]. rewrite Ht. cbn [bind]. eauto.
Qed.

Lemma cm_lookup_ok (m : common_map K V BH) q :
  table_ok (hash_key (cm_bh m)) (cm_table m) ->
  (forall e, In e (entries (cm_table m)) -> eqb q (borrow (fst e)) = true ->
     hash_key (cm_bh m) (fst e) = hash_query (cm_bh m) q) ->
  let p e := eqb q (borrow (fst e)) in
  cm_get_at eqb borrow hash_query m q = Ok (find_pos p (entries (cm_table m))) /\
  cm_get_mut eqb borrow hash_query m q = Ok (find_pos p (entries (cm_table m))) /\
  cm_get_key_value eqb borrow hash_query m q = Ok (find p (entries (cm_table m))).
Proof.
  intros Hok Hm p.
  destruct (probe_ok _ _ (hash_query (cm_bh m) q) (fun k => eqb q (borrow k)) Hok) as (H1 & H2).
  - exact Hm.
  - unfold cm_get_at, cm_get_mut, cm_get_key_value, cm_get_hash_info. rewrite H1, H2. auto.
Qed.
End Common.

(** ** IntegerMap *)

Section Integer.
Context {V : Type}.

Lemma im_from_vec_ok E S_ty (payload : list (Z * V)) :
  env_ok E -> fits S_ty (zlen payload) ->
  exists m, im_from_vec E S_ty payload = Ok m /\
    Permutation payload (entries (im_table m)) /\ table_ok int_code (im_table m).
Proof.
  intros HE HF. unfold im_from_vec.
  destruct (build_table E S_ty payload (map (fun e => int_code (fst e)) payload)
    (fun k => Ok (int_code k)) int_code) as (a & t & Ha & Ht & HP & Hok); auto.
  { destruct payload; [congruence|discriminate]. }
  rewrite Ha. cbn [bind]. rewrite Ht. cbn [bind]. eauto.
Qed.

Lemma im_lookup_ok (m : integer_map V) q :
  table_ok int_code (im_table m) ->
  let p e := q =? fst e in
  im_get_at m q = Ok (find_pos p (entries (im_table m))) /\
  im_get_mut m q = Ok (find_pos p (entries (im_table m))) /\
  im_get_key_value m q = Ok (find p (entries (im_table m))).
Proof.
  intros Hok p.
  destruct (probe_ok _ _ (int_code q) (fun k => q =? k) Hok) as (H1 & H2).
  - intros e _ H. apply Z.eqb_eq in H. now subst.
  - unfold im_get_at, im_get_mut, im_get_key_value, im_get_hash_info. rewrite H1, H2. auto.
Qed.
End Integer.

(** ** LengthMap *)

Section Length.
Context {K V Q : Type}.
Variable eqb : Q -> Q -> bool.
Variable borrow : K -> Q.
Variable len_key : K -> Z.
Variable len_query : Q -> Z.

Lemma lm_from_vec_ok E S_ty (payload : list (K * V)) :
  env_ok E -> fits S_ty (zlen payload) ->
  exists m, lm_from_vec len_key E S_ty payload = Ok m /\
    Permutation payload (entries (lm_table m)) /\ table_ok len_key (lm_table m).
Proof.
  intros HE HF. unfold lm_from_vec.
  destruct (build_table E S_ty payload (map (fun e => len_key (fst e)) payload)
    (fun k => Ok (len_key k)) len_key) as (a & t & Ha & Ht & HP & Hok); auto.
  { destruct payload; [congruence|discriminate]. }
  rewrite Ha. cbn [bind]. rewrite Ht. cbn [bind]. eauto.
Qed.

Lemma lm_lookup_ok (m : length_map K V) q :
  table_ok len_key (lm_table m) ->
  (forall k, eqb q (borrow k) = true -> len_key k = len_query q) ->
  let p e := eqb q (borrow (fst e)) in
  lm_get_at eqb borrow len_query m q = Ok (find_pos p (entries (lm_table m))) /\
  lm_get_mut eqb borrow len_query m q = Ok (find_pos p (entries (lm_table m))) /\
  lm_get_key_value eqb borrow len_query m q = Ok (find p (entries (lm_table m))).
Proof.
  intros Hok Hl p.
  destruct (probe_ok _ _ (len_query q) (fun k => eqb q (borrow k)) Hok) as (H1 & H2).
  - intros e _ H. auto.
  - unfold lm_get_at, lm_get_mut, lm_get_key_value, lm_get_hash_info. rewrite H1, H2. auto.
Qed.
End Length.

(** ** Slice maps *)

Section Slices.
Context {V BH : Type}.
Variable hash_write : BH -> bytes -> Z.
Implicit Types (payload : list (bytes * V)) (m : slice_map V BH).

Definition left_code (bh : BH) (a b : Z) (k : bytes) : Z := hash_write bh (sub a b k).
Definition right_code (bh : BH) (a b : Z) (k : bytes) : Z :=
  hash_write bh (sub (zlen k - a) (zlen k - b) k).

Lemma slice_hash_ok bh k a b : 0 <= a <= b -> b <= zlen k ->
  slice_hash hash_write bh k a b = Ok (hash_write bh (sub a b k)).
Proof.
  intros. unfold slice_hash, slice_unchecked. now rewrite (proj2 (range_ok_iff _ _ _)) by lia.
Qed.

Lemma slice_hash_ub bh k a b : ~ (0 <= a <= b /\ b <= zlen k) ->
  slice_hash hash_write bh k a b = UB OutOfBounds.
Proof.
  intros H. unfold slice_hash, slice_unchecked. destruct (range_ok a b k) eqn:E; auto.
  apply range_ok_iff in E. contradiction.
Qed.

Definition left_map_ok m : Prop :=
  table_ok (left_code (slm_bh m) (slm_start m) (slm_end m)) (slm_table m) /\
  0 <= slm_start m <= slm_end m /\
  (forall e, In e (entries (slm_table m)) -> slm_end m <= zlen (fst e)).

Lemma lsm_from_vec_ok E S_ty payload a b bh :
  env_ok E -> fits S_ty (zlen payload) -> 0 <= a <= b ->
  (forall e, In e payload -> b <= zlen (fst e)) ->
  exists m, lsm_from_vec hash_write E S_ty payload a b bh = Ok m /\
    Permutation payload (entries (slm_table m)) /\ left_map_ok m /\
    slm_bh m = bh /\ slm_start m = a /\ slm_end m = b.
Proof.
  intros HE HF Hab Hk. unfold lsm_from_vec.
  rewrite (mapM_ok _ (fun e => left_code bh a b (fst e))).
  2:{ intros e He. cbv beta zeta. specialize (Hk e He). rewrite (proj2 (Z.leb_le b _)) by (try apply Hk; lia).
      now apply slice_hash_ok. }
  cbn [bind].
  destruct (build_table E S_ty payload (map (fun e => left_code bh a b (fst e)) payload)
    (fun k => slice_hash hash_write bh k a b) (left_code bh a b)) as (an & t & Ha & Ht & HP & Hok); auto.
  { destruct payload; [congruence|discriminate]. }
  { intros e He. apply slice_hash_ok; auto. }
  rewrite Ha. cbn [bind]. rewrite Ht. cbn [bind]. eexists. split; [reflexivity|].
  cbn [slm_table slm_bh slm_start slm_end]. split; [exact HP|]. split; [|auto].
  split; [exact Hok|]. split; [exact Hab|]. cbn [slm_table slm_bh slm_start slm_end].
  intros e He. apply Hk. now apply (Permutation_in _ (Permutation_sym HP)).
Qed.

Lemma lsm_lookup_ok m q :
  left_map_ok m ->
  let p e := bytes_eqb q (fst e) in
  lsm_get_at hash_write m q = Ok (find_pos p (entries (slm_table m))) /\
  lsm_get_mut hash_write m q = Ok (find_pos p (entries (slm_table m))) /\
  lsm_get_key_value hash_write m q = Ok (find p (entries (slm_table m))).
Proof.
  intros (Hok & Hab & Hk) p.
  set (code := if slm_end m <=? zlen q then left_code (slm_bh m) (slm_start m) (slm_end m) q else 0).
  assert (Hinfo : lsm_get_hash_info hash_write m q = ht_get_hash_info (slm_table m) code).
  { unfold lsm_get_hash_info, code. destruct (Z.leb_spec (slm_end m) (zlen q)); [|reflexivity].
    rewrite slice_hash_ok by lia. reflexivity. }
  destruct (probe_ok _ _ code (fun k => bytes_eqb q k) Hok) as (H1 & H2).
  - intros e He H. apply bytes_eqb_eq in H. subst q. unfold code.
    specialize (Hk e He). destruct (Z.leb_spec (slm_end m) (zlen (fst e))); [|lia]. reflexivity.
  - unfold lsm_get_at, lsm_get_mut, lsm_get_key_value. rewrite Hinfo, H1, H2. auto.
Qed.

(** Building a table whose hash function fails on some key. *)
Lemma prepare_ub (hash : bytes -> res Z) n payload :
  n <> 0 -> (forall e, In e payload -> (exists c, hash (fst e) = Ok c) \/ hash (fst e) = UB OutOfBounds) ->
  (exists e, In e payload /\ hash (fst e) = UB OutOfBounds) ->
  prepare hash n payload = UB OutOfBounds.
Proof.
  intros Hn. induction payload as [|e payload IH]; intros Hall (x & Hx & Hub); [destruct Hx|].
  cbn [prepare]. destruct (Hall e) as [(c & Hc)|Hc]; [now left| |]; rewrite Hc; cbn [bind]; auto.
  destruct (Z.eqb_spec n 0); [lia|]. rewrite IH; auto.
  - intros; apply Hall; now right.
  - destruct Hx as [<-|Hx]; [congruence|]. eauto.
Qed.

Lemma ht_new_prepare_ub E S_ty payload n (hash : bytes -> res Z) :
  payload <> [] -> fits S_ty (zlen payload) -> prepare hash n payload = UB OutOfBounds ->
  ht_new E S_ty payload n hash = UB OutOfBounds.
Proof.
  intros Hne (F1 & F2 & F3 & F4) Hp. unfold ht_new. pose proof (zlen_nonneg payload).
  destruct payload; [congruence|]. rewrite to_usize_ok by lia. cbn [unwrap bind].
  destruct (Z.ltb_spec (imax S_ty) (zlen (p :: payload))); [lia|]. now rewrite Hp.
Qed.

Lemma mapM_nonempty {A B} (f : A -> res B) l l' : mapM f l = Ok l' -> l <> [] -> l' <> [].
Proof. intros H Hne. apply mapM_ok_inv in H. inversion H; subst; congruence. Qed.

(** A key shorter than the range, or a reversed range, makes the constructor read out
    of bounds. *)
Lemma lsm_from_vec_ub E S_ty payload a b bh :
  fits S_ty (zlen payload) -> 0 <= a -> payload <> [] ->
  (b < a \/ exists e, In e payload /\ zlen (fst e) < b) ->
  lsm_from_vec hash_write E S_ty payload a b bh = UB OutOfBounds.
Proof.
  intros HF Ha Hne Hbad. unfold lsm_from_vec.
  set (f := fun e : bytes * V => if b <=? zlen (fst e) then slice_hash hash_write bh (fst e) a b else Ok 0).
  assert (Hf : (exists l, mapM f payload = Ok l) \/ mapM f payload = UB OutOfBounds).
  { clear Hbad HF Hne. induction payload as [|e p IH]; cbn; eauto.
    assert (He : (exists c, f e = Ok c) \/ f e = UB OutOfBounds).
    { unfold f. destruct (b <=? zlen (fst e)); eauto.
      unfold slice_hash, slice_unchecked. destruct (range_ok _ _ _); cbn; eauto. }
    destruct He as [(c & ->)| ->]; cbn; auto. destruct IH as [(l & ->)| ->]; cbn; eauto. }
  match goal with |- bind (mapM ?g payload) _ = _ => change g with f end.
  destruct Hf as [(l & Hl)| ->]; [|reflexivity]. rewrite Hl. cbn [bind].
  destruct (analyze_hash_codes_pos l) as (s & c & Hs & Hpos). rewrite Hs. cbn [bind fst].
  rewrite ht_new_prepare_ub; auto. apply prepare_ub.
  - specialize (Hpos (mapM_nonempty _ _ _ Hl Hne)). lia.
  - intros e _. unfold slice_hash, slice_unchecked. destruct (range_ok _ _ _); cbn; eauto.
  - destruct Hbad as [Hba|(e & He & Hlt)].
    + destruct payload as [|e p]; [congruence|]. exists e. split; [now left|].
      apply slice_hash_ub. lia.
    + exists e. split; auto. apply slice_hash_ub. lia.
Qed.

(** Right slices. *)

Lemma right_hash_ok pr bh k a b : 0 <= b <= a -> a <= zlen k < 2 ^ 64 ->
  right_hash hash_write pr bh k a b = Ok (right_code bh a b k).
Proof.
  intros. unfold right_hash. pose proof (zlen_nonneg k).
  rewrite !arith_ok by (change (imin usize) with 0; change (imax usize) with (2 ^ 64 - 1); lia).
  cbn [bind]. now rewrite slice_hash_ok by lia.
Qed.

Lemma right_hash_forward_ub pr bh k a b : 0 <= a < b -> b <= zlen k < 2 ^ 64 ->
  right_hash hash_write pr bh k a b = UB OutOfBounds.
Proof.
  intros. unfold right_hash. pose proof (zlen_nonneg k).
  rewrite !arith_ok by (change (imin usize) with 0; change (imax usize) with (2 ^ 64 - 1); lia).
  cbn [bind]. now rewrite slice_hash_ub by lia.
Qed.

(** What a usize subtraction may return. *)
Lemma usize_sub_cases pr x y : 0 <= x < 2 ^ 64 -> 0 <= y < 2 ^ 64 ->
  arith pr usize (x - y) = Ok (x - y) /\ y <= x \/
  x < y /\ (arith pr usize (x - y) = Panic POverflow \/
            arith pr usize (x - y) = Ok (x - y + 2 ^ 64)).
Proof.
  intros Hx Hy. destruct (Z.le_gt_cases y x).
  - left. split; auto. apply arith_ok. change (imin usize) with 0. change (imax usize) with (2 ^ 64 - 1). lia.
  - right. split; auto. unfold arith, in_type. change (imin usize) with 0.
    destruct (Z.leb_spec 0 (x - y)); [lia|]. cbn [andb]. destruct pr; auto. right. f_equal.
    unfold wrap. change (bits usize) with 64. change (signed usize) with false. cbn [andb].
    symmetry. apply Z.mod_unique with (-1); lia.
Qed.

(** With a forward range no key can be hashed. *)
Lemma right_hash_forward_fails pr bh k a b :
  0 <= a < b -> b < 2 ^ 64 -> zlen k < 2 ^ 64 ->
  right_hash hash_write pr bh k a b = UB OutOfBounds \/ right_hash hash_write pr bh k a b = Panic POverflow.
Proof.
  intros Hab Hb Hk. pose proof (zlen_nonneg k).
  unfold right_hash.
  destruct (usize_sub_cases pr (zlen k) a) as [(-> & ?)|(? & [-> | ->])]; try lia; cbn [bind]; auto;
  destruct (usize_sub_cases pr (zlen k) b) as [(-> & ?)|(? & [-> | ->])]; try lia; cbn [bind]; auto;
  left; apply slice_hash_ub; lia.
Qed.

Definition right_map_ok m : Prop :=
  table_ok (right_code (slm_bh m) (slm_start m) (slm_end m)) (slm_table m) /\
  0 <= slm_end m <= slm_start m /\
  (forall e, In e (entries (slm_table m)) -> slm_start m <= zlen (fst e)).

Lemma rsm_from_vec_ok E S_ty payload a b bh :
  env_ok E -> fits S_ty (zlen payload) -> 0 <= b <= a ->
  (forall e, In e payload -> a <= zlen (fst e) < 2 ^ 64) ->
  exists m, rsm_from_vec hash_write E S_ty payload a b bh = Ok m /\
    Permutation payload (entries (slm_table m)) /\ right_map_ok m /\
    slm_bh m = bh /\ slm_start m = a /\ slm_end m = b.
Proof.
  intros HE HF Hab Hk. unfold rsm_from_vec.
  rewrite (mapM_ok _ (fun e => right_code bh a b (fst e))).
  2:{ intros e He. cbv beta zeta. specialize (Hk e He). rewrite (proj2 (Z.leb_le b _)) by (try apply Hk; lia).
      now apply right_hash_ok. }
  cbn [bind].
  destruct (build_table E S_ty payload (map (fun e => right_code bh a b (fst e)) payload)
    (fun k => right_hash hash_write (prof E) bh k a b) (right_code bh a b))
    as (an & t & Ha & Ht & HP & Hok); auto.
  { destruct payload; [congruence|discriminate]. }
  { intros e He. apply right_hash_ok; auto. }
  rewrite Ha. cbn [bind]. rewrite Ht. cbn [bind]. eexists. split; [reflexivity|].
  cbn [slm_table slm_bh slm_start slm_end]. split; [exact HP|]. split; [|auto].
  split; [exact Hok|]. split; [exact Hab|]. cbn [slm_table slm_bh slm_start slm_end].
  intros e He. apply Hk. now apply (Permutation_in _ (Permutation_sym HP)).
Qed.

Lemma rsm_lookup_ok E m q :
  right_map_ok m -> zlen q < 2 ^ 64 ->
  let p e := bytes_eqb q (fst e) in
  rsm_get_at hash_write E m q = Ok (find_pos p (entries (slm_table m))) /\
  rsm_get_mut hash_write E m q = Ok (find_pos p (entries (slm_table m))) /\
  rsm_get_key_value hash_write E m q = Ok (find p (entries (slm_table m))).
Proof.
  intros (Hok & Hab & Hk) Hq p.
  set (code := if slm_start m <=? zlen q then right_code (slm_bh m) (slm_start m) (slm_end m) q else 0).
  assert (Hinfo : rsm_get_hash_info hash_write E m q = ht_get_hash_info (slm_table m) code).
  { unfold rsm_get_hash_info, code. destruct (Z.leb_spec (slm_start m) (zlen q)); [|reflexivity].
    rewrite right_hash_ok by lia. reflexivity. }
  destruct (probe_ok _ _ code (fun k => bytes_eqb q k) Hok) as (H1 & H2).
  - intros e He H. apply bytes_eqb_eq in H. subst q. unfold code.
    specialize (Hk e He). destruct (Z.leb_spec (slm_start m) (zlen (fst e))); [|lia]. reflexivity.
  - unfold rsm_get_at, rsm_get_mut, rsm_get_key_value. rewrite Hinfo, H1, H2. auto.
Qed.

(** Forward ranges: undefined behaviour as soon as one key reaches the end of the range. *)
Lemma rsm_from_vec_forward_ub E S_ty payload a b bh :
  0 <= a < b -> (forall e, In e payload -> zlen (fst e) < 2 ^ 64) ->
  (exists e, In e payload /\ b <= zlen (fst e)) ->
  rsm_from_vec hash_write E S_ty payload a b bh = UB OutOfBounds.
Proof.
  intros Hab Hk Hex. unfold rsm_from_vec.
  set (f := fun e : bytes * V =>
    if b <=? zlen (fst e) then right_hash hash_write (prof E) bh (fst e) a b else Ok 0).
  match goal with |- bind (mapM ?g payload) _ = _ => change g with f end.
  assert (Hf : mapM f payload = UB OutOfBounds).
  { induction payload as [|e p IH]; [destruct Hex as (? & [] & _)|]. cbn [mapM].
    unfold f at 1. destruct (Z.leb_spec b (zlen (fst e))).
    - rewrite right_hash_forward_ub; auto. split; auto. apply Hk. now left.
    - cbn [bind]. rewrite IH; auto.
      + intros; apply Hk; now right.
      + destruct Hex as (e' & [<-|He'] & ?); [lia|]. eauto. }
  now rewrite Hf.
Qed.

(** ... and never a usable map. *)
Lemma rsm_from_vec_forward_fails E S_ty payload a b bh m :
  payload <> [] -> 0 <= a < b -> b < 2 ^ 64 ->
  (forall e, In e payload -> zlen (fst e) < 2 ^ 64) ->
  rsm_from_vec hash_write E S_ty payload a b bh <> Ok m.
Proof.
  intros Hne Hab Hb Hk H. unfold rsm_from_vec in H.
  apply bind_ok in H. destruct H as (codes & _ & H).
  apply bind_ok in H. destruct H as (an & _ & H).
  apply bind_ok in H. destruct H as (t & H & _).
  unfold ht_new in H. destruct payload as [|e p]; [congruence|].
  apply bind_ok in H. destruct H as (cap & _ & H).
  destruct (cap <? _); [discriminate|].
  apply bind_ok in H. destruct H as (items & H & _). cbn [prepare] in H.
  apply bind_ok in H. destruct H as (c & H & _).
  destruct (right_hash_forward_fails (prof E) bh (fst e) a b) as [H'|H'];
    auto; try congruence. apply Hk. now left.
Qed.

End Slices.
