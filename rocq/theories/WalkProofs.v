(** Walking over the specialized maps and sets. *)
From Coq Require Import List ZArith Bool Lia Permutation Sorted.
From Verif Require Import IterSpec Base BaseLemmas HashCodeAnalyzer HashTable Maps FrozenMap FrozenMapFacts Iterators
  IteratorProofs BuildSound LookupCostProofs IterationOrder MapObjects Sets Walks WalkSpec.
Import ListNotations.
Open Scope Z_scope.

Lemma assign_write {K V} (es : list (K * V)) i v : assign_value es (i, v) = write_entry i v es.
Proof.
  unfold assign_value, write_entry. cbn [fst snd].
  assert (H : forall (x : K * V) l j, (j < length l)%nat -> firstn j l ++ x :: skipn (S j) l = set_nth j x l).
  { intros x l. induction l as [|y l IH]; cbn [length]; intros j Hj; [lia|]. destruct j as [|j]; [reflexivity|].
    cbn [firstn set_nth app]. rewrite <- IH by lia. reflexivity. }
  destruct (nth_error es i) eqn:Hn; auto. apply H. apply nth_error_Some. congruence.
Qed.

Lemma assigned_keys {K V} ws : forall es : list (K * V), map fst (assigned ws es) = map fst es.
Proof.
  induction ws as [|[i v] ws IH]; intros es; auto. unfold assigned in *. cbn [fold_left]. rewrite IH, assign_write.
  apply write_entry_keys.
Qed.

Lemma walks {M K V} pr (write : nat -> V -> M -> M) (walk_of : M -> walk K V) (entries_of : M -> list (K * V)) m :
  (forall m, walk_of m = walk_over (entries_of m)) ->
  (forall i v m, entries_of (write i v m) = write_entry i v (entries_of m)) ->
  zlen (entries_of m) < 2 ^ 64 -> walks_in pr write walk_of m (entries_of m).
Proof.
  intros Hw He Hn ws m'.
  assert (G : forall m, entries_of (changed write m ws) = assigned ws (entries_of m)).
  { clear m m' Hn. induction ws as [|[i v] ws IH]; intros m; auto. unfold changed, assigned in *. cbn [fold_left fst snd].
    now rewrite IH, He, assign_write. }
  assert (Hl : zlen (assigned ws (entries_of m)) < 2 ^ 64).
  { unfold zlen in *. rewrite <- (map_length fst), assigned_keys, map_length. exact Hn. }
  subst m'. rewrite Hw, G. cbn [walk_over w_iter w_keys w_values].
  destruct (map_iter_exact pr _ Hl 0%nat) as (it & Hc & Hy & _). cbn [calls skipn] in Hc, Hy. rewrite map_id in Hy. injection Hc as <-.
  destruct (keys_iter_exact pr _ Hl 0%nat) as (it2 & Hc2 & Hy2 & _). cbn [calls skipn] in Hc2, Hy2. injection Hc2 as <-.
  destruct (values_iter_exact pr _ Hl 0%nat) as (it3 & Hc3 & Hy3 & _). cbn [calls skipn] in Hc3, Hy3. injection Hc3 as <-.
  rewrite assigned_keys in Hy2. auto.
Qed.

Lemma set_walks {T} pr (es : list (T * unit)) : zlen es < 2 ^ 64 -> set_walks_in pr (set_walk_over es) (map fst es).
Proof.
  intros Hl. destruct (keys_iter_exact pr _ Hl 0%nat) as (it & Hc & Hy & _). cbn [calls skipn] in Hc, Hy. injection Hc as <-.
  split; [exact Hy|]. destruct (into_iter_exact es 0) as (_ & H). exact H.
Qed.

Lemma zlen_perm {A} (l l' : list A) : Permutation l l' -> zlen l' = zlen l.
Proof. intros H. unfold zlen. now rewrite (Permutation_length H). Qed.

Lemma irm_perm {V} pr ty (payload : list (Z * V)) m : irm_from_vec pr ty payload = Ok m -> Permutation payload (irm_entries m).
Proof.
  unfold irm_from_vec. destruct payload as [|e p]; [intros H; injection H as <-; constructor|].
  intros H. cbv zeta in H. repeat (apply bind_ok in H; destruct H as (? & _ & H)).
  destruct (_ =? _); [|discriminate]. injection H as <-. exact (stable_sort_perm fst (e :: p)).
Qed.

Lemma changed_keeps {M V A} (write : nat -> V -> M -> M) (f : M -> A) :
  (forall i v m, f (write i v m) = f m) -> forall ws m, f (changed write m ws) = f m.
Proof.
  intros H ws. induction ws as [|[i v] ws IH]; intros m; auto. unfold changed in *. cbn [fold_left fst snd]. now rewrite IH, H.
Qed.

(** ** Maps *)

Lemma scanning_map_walks :
  forall (K V Q : Type) (eqb : Q -> Q -> bool) (borrow : K -> Q) (pr : profile) (payload : list (K * V)),
  zlen payload < 2 ^ 64 ->
  walks_in pr (mo_write (sm_object eqb borrow)) sm_walk (sm_from_vec payload) payload.
Proof.
  intros K V Q eqb borrow pr payload Hn. change payload with (sm_entries (sm_from_vec payload)) at 2.
  apply (walks pr _ _ sm_entries); auto.
Qed.

Lemma common_map_walks :
  forall (K V Q BH : Type) (eqb : Q -> Q -> bool) (borrow : K -> Q) (hash_key : BH -> K -> Z) (hash_query : BH -> Q -> Z)
         (E : env) (S_ty : int_type) (payload : list (K * V)) (bh : BH) (m : common_map K V BH),
  env_ok E -> zlen payload < 2 ^ 64 -> cm_from_vec hash_key E S_ty payload bh = Ok m ->
  exists es, Permutation payload es /\
    walks_in (prof E) (mo_write (cm_object eqb borrow hash_query)) cm_walk m es /\
    (forall ws, cm_hasher (changed (mo_write (cm_object eqb borrow hash_query)) m ws) = bh) /\
    (payload <> [] -> exists slots collisions,
       analyze_hash_codes (map (fun e => hash_key bh (fst e)) payload) = Ok (slots, collisions) /\ by_slot (hash_key bh) slots es).
Proof.
  intros K V Q BH eqb borrow hash_key hash_query E S_ty payload bh m HE Hn Hm. exists (entries (cm_table m)).
  assert (HP : Permutation payload (entries (cm_table m)) /\ cm_bh m = bh).
  { unfold cm_from_vec in Hm. apply bind_ok in Hm. destruct Hm as (a & _ & H). apply bind_ok in H. destruct H as (t & Ht & H).
    injection H as <-. split; [eapply ht_new_perm; eauto|reflexivity]. }
  destruct HP as (HP & Hb). split; auto. split; [apply (walks (prof E) _ _ (fun m => entries (cm_table m))); auto; now rewrite (zlen_perm _ _ HP)|].
  split; [intros ws; unfold cm_hasher; rewrite changed_keeps; auto|].
  intros Hne. exact (cm_order E HE S_ty hash_key payload bh m Hne Hm).
Qed.

Lemma integer_map_walks :
  forall (V : Type) (E : env) (S_ty : int_type) (payload : list (Z * V)) (m : integer_map V),
  env_ok E -> zlen payload < 2 ^ 64 -> im_from_vec E S_ty payload = Ok m ->
  exists es, Permutation payload es /\ walks_in (prof E) (mo_write im_object) im_walk m es /\
    (payload <> [] -> exists slots collisions,
       analyze_hash_codes (map (fun e => fst e mod 2 ^ 64) payload) = Ok (slots, collisions) /\
       by_slot (fun k => k mod 2 ^ 64) slots es).
Proof.
  intros V E S_ty payload m HE Hn Hm. exists (entries (im_table m)).
  assert (HP : Permutation payload (entries (im_table m))).
  { unfold im_from_vec in Hm. apply bind_ok in Hm. destruct Hm as (a & _ & H). apply bind_ok in H. destruct H as (t & Ht & H).
    injection H as <-. eapply ht_new_perm; eauto. }
  split; auto. split; [apply (walks (prof E) _ _ (fun m => entries (im_table m))); auto; now rewrite (zlen_perm _ _ HP)|].
  intros Hne. destruct (im_order E HE S_ty payload m Hne Hm) as (s & col & H1 & H2).
  exists s, col. split; [exact H1|exact H2].
Qed.

Lemma range_map_walks :
  forall (V : Type) (pr : profile) (ty : int_type) (payload : list (Z * V)) (m : integer_range_map V),
  zlen payload < 2 ^ 64 -> irm_from_vec pr ty payload = Ok m ->
  exists es, Permutation payload es /\ walks_in pr (mo_write (irm_object pr ty)) irm_walk m es /\
    StronglySorted Z.le (map fst es).
Proof.
  intros V pr ty payload m Hn Hm. exists (irm_entries m). pose proof (irm_perm pr ty payload m Hm) as HP. split; auto.
  split; [apply (walks pr _ _ irm_entries); auto; now rewrite (zlen_perm _ _ HP)|].
  apply sorted_map_inv. exact (irm_from_vec_sorted pr ty payload m Hm).
Qed.

Lemma length_map_walks :
  forall (K V Q : Type) (eqb : Q -> Q -> bool) (borrow : K -> Q) (len_key : K -> Z) (len_query : Q -> Z)
         (E : env) (S_ty : int_type) (payload : list (K * V)) (m : length_map K V),
  env_ok E -> zlen payload < 2 ^ 64 -> lm_from_vec len_key E S_ty payload = Ok m ->
  exists es, Permutation payload es /\ walks_in (prof E) (mo_write (lm_object eqb borrow len_query)) lm_walk m es /\
    (payload <> [] -> exists slots collisions,
       analyze_hash_codes (map (fun e => len_key (fst e)) payload) = Ok (slots, collisions) /\ by_slot len_key slots es).
Proof.
  intros K V Q eqb borrow len_key len_query E S_ty payload m HE Hn Hm. exists (entries (lm_table m)).
  assert (HP : Permutation payload (entries (lm_table m))).
  { unfold lm_from_vec in Hm. apply bind_ok in Hm. destruct Hm as (a & _ & H). apply bind_ok in H. destruct H as (t & Ht & H).
    injection H as <-. eapply ht_new_perm; eauto. }
  split; auto. split; [apply (walks (prof E) _ _ (fun m => entries (lm_table m))); auto; now rewrite (zlen_perm _ _ HP)|].
  intros Hne. exact (lm_order E HE S_ty len_key payload m Hne Hm).
Qed.

Lemma slm_built {V BH} (hash_write : BH -> bytes -> Z) E S_ty (payload : list (bytes * V)) start end_ bh m :
  env_ok E ->
  lsm_from_vec hash_write E S_ty payload start end_ bh = Ok m \/ rsm_from_vec hash_write E S_ty payload start end_ bh = Ok m ->
  Permutation payload (entries (slm_table m)) /\ slm_bh m = bh.
Proof.
  intros HE [H|H]; [unfold lsm_from_vec in H|unfold rsm_from_vec in H]; apply bind_ok in H; destruct H as (c & _ & H);
    apply bind_ok in H; destruct H as (a & _ & H); apply bind_ok in H; destruct H as (t & Ht & H); injection H as <-;
    (split; [eapply ht_new_perm; eauto|reflexivity]).
Qed.

Lemma slice_map_walks :
  forall (V BH : Type) (hash_write : BH -> bytes -> Z) (E : env) (S_ty : int_type) (payload : list (bytes * V))
         (start end_ : Z) (bh : BH) (m : slice_map V BH),
  env_ok E -> zlen payload < 2 ^ 64 ->
  (lsm_from_vec hash_write E S_ty payload start end_ bh = Ok m ->
   exists es, Permutation payload es /\ walks_in (prof E) (mo_write (lsm_object hash_write)) slm_walk m es /\
     (forall ws, slm_hasher (changed (mo_write (lsm_object hash_write)) m ws) = bh) /\
     (payload <> [] -> exists slots collisions,
        let code k := hash_write bh (firstn (Z.to_nat (end_ - start)) (skipn (Z.to_nat start) k)) in
        analyze_hash_codes (map (fun e => code (fst e)) payload) = Ok (slots, collisions) /\ by_slot code slots es)) /\
  (rsm_from_vec hash_write E S_ty payload start end_ bh = Ok m ->
   exists es, Permutation payload es /\ walks_in (prof E) (mo_write (rsm_object hash_write E)) slm_walk m es /\
     (forall ws, slm_hasher (changed (mo_write (rsm_object hash_write E)) m ws) = bh)).
Proof.
  intros V BH hash_write E S_ty payload start end_ bh m HE Hn. split; intros Hm; exists (entries (slm_table m));
    (destruct (slm_built hash_write E S_ty payload start end_ bh m HE) as (HP & Hb); [auto|]); (split; [auto|]);
    (split; [apply (walks (prof E) _ _ (fun m => entries (slm_table m))); auto; now rewrite (zlen_perm _ _ HP)|]);
    [|intros ws; unfold slm_hasher; rewrite changed_keeps; auto].
  split; [intros ws; unfold slm_hasher; rewrite changed_keeps; auto|]. intros Hne.
  destruct (lsm_order E HE S_ty hash_write payload start end_ bh m Hne Hm) as (Hab & s & col & H1 & H2).
  assert (Hlong : forall e, In e payload -> end_ <= zlen (fst e)).
  { intros e He. unfold lsm_from_vec in Hm. apply bind_ok in Hm. destruct Hm as (c & _ & H). apply bind_ok in H. destruct H as (x & _ & H).
    apply bind_ok in H. destruct H as (t & Ht & _).
    destruct (ht_new_hash_ok _ _ _ _ _ _ Ht e He) as (h & Hh). unfold slice_hash, slice_unchecked in Hh.
    destruct (range_ok start end_ (fst e)) eqn:Er; [|discriminate]. now apply range_ok_iff in Er. }
  assert (Hcode : forall e, In e payload -> window_code hash_write bh start end_ (fst e) =
    hash_write bh (firstn (Z.to_nat (end_ - start)) (skipn (Z.to_nat start) (fst e)))).
  { intros e He. unfold window_code. now rewrite (proj2 (Z.leb_le _ _) (Hlong e He)). }
  exists s, col. cbv zeta. split.
  - rewrite <- H1. f_equal. apply map_ext_in. intros e He. symmetry. now apply Hcode.
  - unfold by_slot. eapply sorted_impl; [|exact H2]. intros x y Hx Hy H. cbv beta in H.
    rewrite <- !Hcode by (apply (Permutation_in _ (Permutation_sym HP)); assumption). exact H.
Qed.

(** ** Sets *)

Lemma special_set_walks :
  forall (T BH : Type) (hash_key : BH -> T -> Z) (len_key : T -> Z) (hash_write : BH -> bytes -> Z) (E : env) (ty S_ty : int_type)
         (items : list T) (numbers : list Z) (strings : list bytes) (start end_ : Z) (bh : BH),
  env_ok E -> zlen items < 2 ^ 64 -> zlen numbers < 2 ^ 64 -> zlen strings < 2 ^ 64 ->
  let visits {S U} (built : res S) (walk_of : S -> set_walk U) (l : list U) (more : S -> Prop) :=
    forall s, built = Ok s -> exists l', Permutation l l' /\ set_walks_in (prof E) (walk_of s) l' /\ more s in
  set_walks_in (prof E) (ss_walk (ss_from_vec items)) items /\
  visits (cs_from_vec hash_key E S_ty items bh) cs_walk items (fun s => cs_hasher s = bh) /\
  visits (is_from_vec E S_ty numbers) is_walk numbers (fun _ => True) /\
  (forall s, irs_from_vec (prof E) ty numbers = Ok s -> exists l', Permutation numbers l' /\ set_walks_in (prof E) (irs_walk s) l' /\
     StronglySorted Z.le l') /\
  visits (ls_from_vec len_key E S_ty items) ls_walk items (fun _ => True) /\
  visits (lss_from_vec hash_write E S_ty strings start end_ bh) sls_walk strings (fun s => sls_hasher s = bh) /\
  visits (rss_from_vec hash_write E S_ty strings start end_ bh) sls_walk strings (fun s => sls_hasher s = bh).
Proof.
  intros T BH hash_key len_key hash_write E ty S_ty items numbers strings start end_ bh HE H1 H2 H3 visits.
  assert (G : forall U (l : list U) es, zlen l < 2 ^ 64 -> Permutation (with_unit l) es ->
    Permutation l (map fst es) /\ set_walks_in (prof E) (set_walk_over es) (map fst es)).
  { intros U l es Hl HP. split.
    - apply (Permutation_map fst) in HP. unfold with_unit in HP. rewrite map_map, map_id in HP. exact HP.
    - apply set_walks. rewrite (zlen_perm _ _ HP). unfold with_unit, zlen in *. now rewrite map_length. }
  split.
  { destruct (G T items (with_unit items) H1 (Permutation_refl _)) as (_ & H). unfold with_unit in H at 2. rewrite map_map, map_id in H.
    exact H. }
  split; [|split; [|split; [|split; [|split]]]]; intros s Hs.
  - unfold cs_from_vec, cm_from_vec in Hs. apply bind_ok in Hs. destruct Hs as (a & _ & H). apply bind_ok in H. destruct H as (t & Ht & H).
    injection H as <-. destruct (G T items (entries t) H1) as (P1 & P2); [eapply ht_new_perm; eauto|]. exists (map fst (entries t)). auto.
  - unfold is_from_vec, im_from_vec in Hs. apply bind_ok in Hs. destruct Hs as (a & _ & H). apply bind_ok in H. destruct H as (t & Ht & H).
    injection H as <-. destruct (G Z numbers (entries t) H2) as (P1 & P2); [eapply ht_new_perm; eauto|]. exists (map fst (entries t)). auto.
  - destruct (G Z numbers (irm_entries s) H2) as (P1 & P2); [exact (irm_perm _ _ _ _ Hs)|]. exists (map fst (irm_entries s)).
    split; auto. split; [exact P2|]. apply sorted_map_inv. exact (irm_from_vec_sorted _ _ _ _ Hs).
  - unfold ls_from_vec, lm_from_vec in Hs. apply bind_ok in Hs. destruct Hs as (a & _ & H). apply bind_ok in H. destruct H as (t & Ht & H).
    injection H as <-. destruct (G T items (entries t) H1) as (P1 & P2); [eapply ht_new_perm; eauto|]. exists (map fst (entries t)). auto.
  - destruct (slm_built hash_write E S_ty (with_unit strings) start end_ bh s HE (or_introl Hs)) as (HP & Hb).
    destruct (G _ strings _ H3 HP) as (P1 & P2). exists (map fst (entries (slm_table s))). auto.
  - destruct (slm_built hash_write E S_ty (with_unit strings) start end_ bh s HE (or_intror Hs)) as (HP & Hb).
    destruct (G _ strings _ H3 HP) as (P1 & P2). exists (map fst (entries (slm_table s))). auto.
Qed.
