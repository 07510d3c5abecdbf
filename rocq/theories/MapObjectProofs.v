(** Each specialized map behaves like the abstract map of ObjectSpec.v. *)
From Coq Require Import List ZArith Bool Arith Lia Permutation.
From Verif Require Import Spec MapSpec Base BaseLemmas EqbLists HashTable HashTableProofs Maps MapsProofs IntProofs
  FrozenMap FrozenMapFacts Iterators IterSpec IteratorProofs HistorySpec ObjectSpec HistoryProofs MapObjects
  ComponentTheorems MapTheorems.
Import ListNotations.
Open Scope Z_scope.

Section Assoc.
Context {K V Q : Type}.
Variable eqb : Q -> Q -> bool.
Variable borrow : K -> Q.
Hypothesis Heq : equivalence eqb.
Implicit Types (p : list (K * V)) (q : Q).
Notation bkeys p := (map (fun e => borrow (fst e)) p).
Notation nm := (@names K V Q eqb borrow).
Notation assign := (@assign K V Q eqb borrow).
Notation entry_of := (@entry_of K V Q eqb borrow).
Notation has_entry := (@has_entry K V Q eqb borrow).

Lemma bdistinct_unique p e e' : distinct eqb (bkeys p) -> In e p -> In e' p ->
  eqb (borrow (fst e)) (borrow (fst e')) = true -> e = e'.
Proof.
  induction p as [|x p IH]; cbn; [tauto|]. intros (H1 & H2) He He' Hk.
  destruct He as [ -> |He], He' as [ <- |He']; auto.
  - rewrite H1 in Hk; [discriminate|]. now apply (in_map (fun e => borrow (fst e))).
  - apply (eq_sym_ok _ Heq) in Hk. rewrite H1 in Hk; [discriminate|]. now apply (in_map (fun e => borrow (fst e))).
Qed.

Lemma entry_of_perm p p' q : distinct eqb (bkeys p) -> Permutation p p' -> entry_of p q = entry_of p' q.
Proof.
  intros Hd HP. unfold ObjectSpec.entry_of.
  destruct (find _ p) as [e|] eqn:Fp, (find _ p') as [e'|] eqn:Fq; auto.
  - apply find_some in Fp, Fq. destruct Fp as (Hp & Kp), Fq as (Hq & Kq). f_equal.
    apply (bdistinct_unique p); auto.
    + now apply (Permutation_in _ (Permutation_sym HP)).
    + apply (eq_trans_ok _ Heq) with q; auto. now apply (eq_sym_ok _ Heq).
  - apply find_some in Fp. destruct Fp as (Hp & Kp). apply (Permutation_in _ HP) in Hp.
    now rewrite (find_none _ _ Fq e Hp) in Kp.
  - apply find_some in Fq. destruct Fq as (Hq & Kq). apply (Permutation_in _ (Permutation_sym HP)) in Hq.
    now rewrite (find_none _ _ Fp e' Hq) in Kq.
Qed.

Lemma has_entry_of p q : has_entry p q = match entry_of p q with Some _ => true | None => false end.
Proof.
  unfold ObjectSpec.has_entry, ObjectSpec.entry_of. induction p as [|e p IH]; cbn; auto. destruct (names eqb borrow q e); auto.
Qed.

Lemma assign_keys p q w : map fst (assign p q w) = map fst p.
Proof. unfold ObjectSpec.assign. rewrite map_map. apply map_ext. intros e. now destruct (names eqb borrow q e). Qed.

Lemma assign_bkeys p q w : bkeys (assign p q w) = bkeys p.
Proof. rewrite <- !(map_map fst borrow). now rewrite assign_keys. Qed.

Lemma assign_absent p q w : entry_of p q = None -> assign p q w = p.
Proof.
  intros H. unfold ObjectSpec.assign. rewrite <- (map_id p) at 2. apply map_ext_in. intros e He.
  now rewrite (find_none _ _ H e He).
Qed.

Lemma write_assign p q i w : distinct eqb (bkeys p) ->
  find_pos (nm q) p = Some i -> write_entry i w p = assign p q w.
Proof.
  revert i. induction p as [|x p IH]; cbn; intros i Hd H; [discriminate|]. destruct Hd as (H1 & H2).
  destruct (names eqb borrow q x) eqn:Ex.
  - injection H as <-. cbn. f_equal. symmetry. rewrite <- (map_id p) at 2. apply map_ext_in.
    intros e He. destruct (names eqb borrow q e) eqn:Ee; auto. exfalso.
    assert (eqb (borrow (fst x)) (borrow (fst e)) = true).
    { apply (eq_trans_ok _ Heq) with q; auto. now apply (eq_sym_ok _ Heq). }
    rewrite H1 in H; [discriminate|]. now apply (in_map (fun e => borrow (fst e))).
  - destruct (find_pos _ p) as [j|] eqn:F; [|discriminate]. injection H as <-.
    change (write_entry (S j) w (x :: p) = x :: assign p q w).
    rewrite <- (IH j H2 eq_refl). unfold write_entry. cbn [nth_error].
    destruct (nth_error p j); reflexivity.
Qed.

Lemma find_pos_bkeys p p' q : map fst p = map fst p' -> find_pos (nm q) p = find_pos (nm q) p'.
Proof.
  intros H. unfold names. rewrite <- !(find_pos_map fst (fun k => eqb q (borrow k))). now rewrite H.
Qed.

Lemma write_assigns : forall qws ps p, distinct eqb (bkeys p) ->
  Forall2 (fun q i => find_pos (nm q) p = Some i) (map fst qws) ps ->
  fold_left (fun p0 pw => write_entry (fst pw) (snd pw) p0) (combine ps (map snd qws)) p =
  fold_left (fun p qw => assign p (fst qw) (snd qw)) qws p.
Proof.
  induction qws as [|[q w] qws IH]; intros ps p Hd H; cbn [map fst snd] in *.
  - inversion H. reflexivity.
  - inversion H as [|q' i qs ps' Hk Hks]; subst. cbn [combine fold_left fst snd].
    rewrite (write_assign p q i w Hd Hk). apply IH; [now rewrite assign_bkeys|].
    clear - Hks. induction Hks; constructor; auto.
    rewrite <- H. apply find_pos_bkeys. apply assign_keys.
Qed.

Lemma assigns_perm : forall qws p p', Permutation p p' ->
  Permutation (fold_left (fun p qw => assign p (fst qw) (snd qw)) qws p)
              (fold_left (fun p qw => assign p (fst qw) (snd qw)) qws p').
Proof. induction qws as [|kw kws IH]; cbn; intros p p' H; auto. apply IH. now apply Permutation_map. Qed.

Lemma assigns_keys : forall qws p,
  map fst (fold_left (fun p qw => assign p (fst qw) (snd qw)) qws p) = map fst p.
Proof. induction qws as [|kw kws IH]; cbn; intros p; auto. now rewrite IH, assign_keys. Qed.
End Assoc.

(** ** Simulation for any map whose lookups search its entries *)

Section Simulation.
Context {M K V Q : Type}.
Variable pr : profile.
Variable eqb : Q -> Q -> bool.
Variable borrow : K -> Q.
Variable mo : map_object M K V Q.
Variable D : Q -> Prop.
Variable inv : M -> Prop.
Notation nm := (@names K V Q eqb borrow).

(** A sound representation: lookups find the first entry with the key, and assignments
    through references change only the value of the entry. *)
Definition searches : Prop :=
  (forall m q, inv m -> D q ->
     mo_get_at mo m q = Ok (find_pos (nm q) (mo_entries mo m)) /\
     mo_get mo m q = Ok (option_map snd (find (nm q) (mo_entries mo m))) /\
     mo_get_mut mo m q = Ok (find_pos (nm q) (mo_entries mo m)) /\
     mo_get_key_value mo m q = Ok (find (nm q) (mo_entries mo m))) /\
  (forall m, mo_len mo m = zlen (mo_entries mo m)) /\
  (forall m i w, mo_entries mo (mo_write mo i w m) = write_entry i w (mo_entries mo m)) /\
  (forall m i w, inv m -> inv (mo_write mo i w m)).

Hypothesis Heq : equivalence eqb.
Hypothesis Hs : searches.
Implicit Types (m : M) (p : list (K * V)).

Definition shows p m : Prop :=
  Permutation p (mo_entries mo m) /\ inv m /\ distinct eqb (map (fun e => borrow (fst e)) p) /\ zlen p < 2 ^ 64.

Lemma shown_lookup p m q : shows p m -> D q ->
  mo_get mo m q = Ok (option_map snd (entry_of eqb borrow p q)) /\
  mo_get_key_value mo m q = Ok (entry_of eqb borrow p q) /\
  mo_get_mut mo m q = Ok (find_pos (nm q) (mo_entries mo m)) /\
  mo_get_at mo m q = Ok (find_pos (nm q) (mo_entries mo m)).
Proof.
  intros (HP & Hi & Hd & _) Hq. destruct Hs as (H1 & _). destruct (H1 m q Hi Hq) as (G1 & G2 & G3 & G4).
  rewrite (entry_of_perm eqb borrow Heq p (mo_entries mo m) q Hd HP). auto.
Qed.

Lemma shown_distinct p m : shows p m -> distinct eqb (map (fun e => borrow (fst e)) (mo_entries mo m)).
Proof.
  intros (HP & _ & Hd & _). eapply distinct_perm; [exact Heq|apply Permutation_map, HP|exact Hd].
Qed.

Lemma shown_present p m q : shows p m ->
  has_entry eqb borrow p q = match find_pos (nm q) (mo_entries mo m) with Some _ => true | None => false end.
Proof.
  intros H. rewrite has_entry_of. destruct H as (HP & _ & Hd & _).
  rewrite (entry_of_perm eqb borrow Heq p (mo_entries mo m) q Hd HP). unfold entry_of. rewrite find_find_pos.
  destruct (find_pos _ (mo_entries mo m)) as [i|] eqn:F; auto.
  destruct (find_pos_some _ _ _ F) as (x & -> & _). reflexivity.
Qed.

Lemma shown_write p m q i w : shows p m -> D q ->
  find_pos (nm q) (mo_entries mo m) = Some i ->
  shows (assign eqb borrow p q w) (mo_write mo i w m).
Proof.
  intros H Hk Hf. pose proof (shown_distinct p m H) as Hd'. destruct H as (HP & Hi & Hd & Hz).
  destruct Hs as (_ & _ & H3 & H4). split; [|split; [|split]].
  - rewrite H3, (write_assign eqb borrow Heq (mo_entries mo m) q i w Hd' Hf). now apply Permutation_map.
  - now apply H4.
  - now rewrite assign_bkeys.
  - unfold assign. now rewrite zlen_map.
Qed.

Lemma entries_write_all ps ws m :
  mo_entries mo (mo_write_all mo ps ws m) =
    fold_left (fun p0 pw => write_entry (fst pw) (snd pw) p0) (combine ps ws) (mo_entries mo m) /\
  (inv m -> inv (mo_write_all mo ps ws m)).
Proof.
  destruct Hs as (_ & _ & H3 & H4).
  unfold mo_write_all. generalize (combine ps ws) as l. intros l. revert m.
  induction l as [|[i w] l IH]; intros m; cbn [fold_left fst snd]; auto.
  destruct (IH (mo_write mo i w m)) as (E1 & E2). split; [now rewrite E1, H3|].
  intros Hi. apply E2. now apply H4.
Qed.

Lemma get_many_ok p m qs : shows p m -> (forall q, In q qs -> D q) ->
  (exists ps, mo_get_many_mut eqb mo m qs = Ok (Some ps) /\ distinct eqb qs /\
     Forall2 (fun q i => find_pos (nm q) (mo_entries mo m) = Some i) qs ps) \/
  (mo_get_many_mut eqb mo m qs = Ok None /\
     (~ distinct eqb qs \/ exists q, In q qs /\ find_pos (nm q) (mo_entries mo m) = None)).
Proof.
  intros H Hq. unfold mo_get_many_mut, get_many_mut.
  destruct (has_duplicate_key eqb [] qs) eqn:Hd.
  { right. split; auto. left. intros Hdist.
    assert (has_duplicate_key eqb [] qs = false); [|congruence].
    apply has_duplicate_key_spec. split; auto. intros s k []. }
  apply has_duplicate_key_spec in Hd. destruct Hd as (Hd & _).
  destruct (get_each_spec (mo_get_at mo m) (fun q => find_pos (nm q) (mo_entries mo m)) qs)
    as [(ps & -> & HF)|(-> & k & Hik & Hf)]; eauto 10.
  intros k Hik. now destruct (shown_lookup p m k H (Hq k Hik)) as (_ & _ & _ & G).
Qed.

Lemma mo_step_simulates p m o : shows p m -> (forall q, In q (op_keys o) -> D q) ->
  same_obs (fst (mo_step pr eqb mo m o)) (fst (object_step eqb borrow p o)) /\
  shows (snd (object_step eqb borrow p o)) (snd (mo_step pr eqb mo m o)).
Proof.
  intros H Hk. pose proof H as (HP & Hi & Hd & Hz). pose proof Hs as (_ & Hlen & _).
  assert (Hl : forall q, In q (op_keys o) -> _) by (intros q Hqo; exact (shown_lookup p m q H (Hk q Hqo))).
  destruct o as [k|k|k|k| | | |k w|k w|kws]; cbn [op_keys] in *; cbn [mo_step object_step].
  - destruct (Hl k ltac:(cbn; auto)) as (-> & _). cbn. auto.
  - destruct (Hl k ltac:(cbn; auto)) as (_ & -> & _). cbn. auto.
  - destruct (Hl k ltac:(cbn; auto)) as (Hg & _). unfold mo_contains_key, contains_key. rewrite Hg. cbn.
    rewrite has_entry_of. split; auto. now destruct (entry_of eqb borrow p k).
  - destruct (Hl k ltac:(cbn; auto)) as (Hg & _). unfold mo_index, index_of. rewrite Hg. cbn.
    split; auto. now destruct (entry_of eqb borrow p k).
  - cbn. split; auto. f_equal. rewrite Hlen. unfold zlen. now rewrite (Permutation_length HP).
  - cbn. split; auto. f_equal. rewrite Hlen. unfold zlen.
    rewrite <- (Permutation_length HP). destruct p; reflexivity.
  - assert (Hz' : zlen (mo_entries mo m) < 2 ^ 64) by (rewrite <- (zlen_perm _ _ HP); auto).
    pose proof (fun it a l => it_at_cons pr (mo_entries mo m) it a l Hz') as Hcons.
    rewrite (R_fold (it_next pr) (it_at (mo_entries mo m)) (it_at_nil pr (mo_entries mo m)) Hcons _ (mo_entries mo m));
      [|apply it_at_new|lia].
    assert (Hf : forall (l acc : list (K * V)), fold_left (fun acc e => acc ++ [e]) l acc = acc ++ l).
    { induction l as [|x l IH]; intros acc; cbn; [now rewrite app_nil_r|]. now rewrite IH, <- app_assoc. }
    rewrite Hf. cbn. split; auto. now apply Permutation_sym.
  - destruct (Hl k ltac:(cbn; auto)) as (_ & _ & -> & _). rewrite (shown_present p m k H).
    destruct (find_pos _ (mo_entries mo m)) as [i|] eqn:F; cbn [fst snd].
    + split; [reflexivity|]. apply (shown_write p m k i w H); auto. apply Hk. cbn. auto.
    + split; [reflexivity|]. rewrite assign_absent; auto.
      pose proof (shown_present p m k H) as Hp. rewrite F, has_entry_of in Hp.
      destruct (entry_of eqb borrow p k); congruence.
  - destruct (Hl k ltac:(cbn; auto)) as (_ & _ & Hm & _). rewrite (shown_present p m k H).
    unfold mo_index_mut, index_of. rewrite Hm. cbn [bind].
    destruct (find_pos _ (mo_entries mo m)) as [i|] eqn:F; cbn [fst snd unwrap].
    + split; [reflexivity|]. apply (shown_write p m k i w H); auto. apply Hk. cbn. auto.
    + split; [reflexivity|]. exact H.
  - destruct (get_many_ok p m (map fst kws) H Hk) as [(ps & -> & Hdk & HF)|(-> & Hr)].
    + assert (Hp : forallb (has_entry eqb borrow p) (map fst kws) = true).
      { apply forallb_forall. intros k Hin. clear - HF Hin H Heq Hs. induction HF; [contradiction|].
        destruct Hin as [ <- |Hin]; auto. rewrite (shown_present p m _ H). now rewrite H0. }
      rewrite (proj2 (all_different_spec eqb (map fst kws)) Hdk), Hp. cbn [andb fst snd]. split; [reflexivity|].
      destruct (entries_write_all ps (map snd kws) m) as (W1 & W2).
      split; [|split; [auto|split]].
      * rewrite W1, (write_assigns eqb borrow Heq kws ps (mo_entries mo m) (shown_distinct p m H) HF).
        now apply assigns_perm.
      * rewrite <- (map_map fst borrow), assigns_keys, map_map. exact Hd.
      * unfold zlen in *. rewrite <- (map_length fst), assigns_keys, map_length. auto.
    + assert (Hn : all_different eqb (map fst kws) && forallb (has_entry eqb borrow p) (map fst kws) = false).
      { apply andb_false_iff. destruct Hr as [Hr|(k & Hin & Hg)].
        - left. destruct (all_different _ _) eqn:A; auto. now apply all_different_spec in A.
        - right. destruct (forallb _ _) eqn:F; auto. rewrite forallb_forall in F. specialize (F k Hin).
          rewrite (shown_present p m k H), Hg in F. discriminate. }
      rewrite Hn. cbn [fst snd]. split; [reflexivity|exact H].
Qed.

Lemma mo_run_simulates : forall os p m, shows p m -> queries D os ->
  Forall2 same_obs (mo_run pr eqb mo m os) (object_run eqb borrow p os).
Proof.
  unfold queries. induction os as [|o os IH]; intros p m H Hk; cbn [mo_run object_run]; [constructor|].
  destruct (mo_step_simulates p m o H) as (H1 & H2); [intros k; apply Hk; cbn; auto|].
  destruct (mo_step pr eqb mo m o) as [b m'], (object_step eqb borrow p o) as [b' p']. cbn [fst snd] in *.
  constructor; auto. apply IH; auto. intros o' k Ho. apply Hk. cbn. auto.
Qed.
End Simulation.

(** ** The seven maps *)

Lemma get_of_get_at {K V} (es : list (K * V)) (f : K * V -> bool) r :
  r = Ok (find_pos f es) -> (r' <- r ;; deref es r') = Ok (option_map snd (find f es)).
Proof. intros ->. cbn [bind]. apply deref_find_pos. Qed.

Lemma write_entry_fst_in {K V} i (v : V) (l : list (K * V)) e :
  In e (write_entry i v l) -> exists e', In e' l /\ fst e' = fst e.
Proof.
  intros H. apply (in_map fst) in H. rewrite write_entry_keys in H. apply in_map_iff in H.
  destruct H as (e' & H1 & H2). eauto.
Qed.

Lemma sm_searches {K V Q} (eqb : Q -> Q -> bool) (borrow : K -> Q) :
  searches eqb borrow (sm_object (V := V) eqb borrow) (fun _ => True) (fun _ => True).
Proof.
  split; [|auto]. intros m q _ _. cbn. split; [auto|]. split; [|auto].
  apply deref_find_pos.
Qed.

Lemma cm_searches {K V Q BH} (eqb : Q -> Q -> bool) (borrow : K -> Q) hash_key (hash_query : BH -> Q -> Z) bh :
  equivalence eqb ->
  (forall k, hash_key bh k = hash_query bh (borrow k)) ->
  (forall a b, eqb a b = true -> hash_query bh a = hash_query bh b) ->
  searches eqb borrow (cm_object (V := V) eqb borrow hash_query) (fun _ => True)
    (fun m => table_ok (hash_key bh) (cm_table m) /\ cm_bh m = bh).
Proof.
  intros He Hkq Hq. split; [|split; [|split]]; auto.
  - intros m q (Hok & Hb) _. cbn.
    assert (Hok' : table_ok (hash_key (cm_bh m)) (cm_table m)) by now rewrite Hb.
    destruct (cm_lookup_ok eqb borrow hash_key hash_query m q Hok') as (H1 & H2 & H3).
    { intros e _ H. rewrite Hb, Hkq. symmetry. now apply Hq. }
    split; auto. split; auto. unfold cm_get. now apply get_of_get_at.
  - intros m i w (Hok & Hb). cbn. split; auto. apply (table_ok_write (hash_key bh) (cm_table m)); auto.
    apply write_entry_keys.
Qed.

Lemma im_searches {V} :
  searches Z.eqb (fun k => k) (im_object (V := V)) (fun _ => True) (fun m => table_ok int_code (im_table m)).
Proof.
  split; [|split; [|split]]; auto.
  - intros m q Hok _. cbn. destruct (im_lookup_ok m q Hok) as (H1 & H2 & H3).
    split; auto. split; auto. unfold im_get. now apply get_of_get_at.
  - intros m i w Hok. cbn. apply (table_ok_write int_code (im_table m)); auto. apply write_entry_keys.
Qed.

Lemma irm_searches {V} pr ty :
  searches Z.eqb (fun k => k) (irm_object (V := V) pr ty) (fun _ => True) (irm_ok ty).
Proof.
  split; [|split; [|split]]; auto.
  - intros m q Hok _. cbn. destruct (irm_lookup_ok pr ty m q Hok) as (H1 & H2 & H3).
    split; auto. split; auto. unfold irm_get. now apply get_of_get_at.
  - intros m i w (H1 & H2 & H3 & H4 & H5 & H6). unfold irm_ok. cbn [mo_write irm_object irm_entries irm_min irm_max].
    unfold zlen in *. rewrite write_entry_keys, write_entry_length. repeat (split; auto).
    intros C. apply H1. apply length_zero_iff_nil. rewrite <- (write_entry_length i w). now rewrite C.
Qed.

Lemma lm_searches {K V Q} (eqb : Q -> Q -> bool) (borrow : K -> Q) len_key len_query :
  (forall k, len_key k = len_query (borrow k)) ->
  (forall a b, eqb a b = true -> len_query a = len_query b) ->
  searches eqb borrow (lm_object (V := V) eqb borrow len_query) (fun _ => True)
    (fun m => table_ok len_key (lm_table m)).
Proof.
  intros Hkq Hq. split; [|split; [|split]]; auto.
  - intros m q Hok _. cbn. destruct (lm_lookup_ok eqb borrow len_key len_query m q Hok) as (H1 & H2 & H3).
    { intros k H. rewrite Hkq. symmetry. now apply Hq. }
    split; auto. split; auto. unfold lm_get. now apply get_of_get_at.
  - intros m i w Hok. cbn. apply (table_ok_write len_key (lm_table m)); auto. apply write_entry_keys.
Qed.

Lemma lsm_searches {V BH} (hw : BH -> bytes -> Z) :
  searches bytes_eqb (fun k => k) (lsm_object (V := V) hw) (fun _ => True) (left_map_ok hw).
Proof.
  split; [|split; [|split]]; auto.
  - intros m q Hok _. cbn. destruct (lsm_lookup_ok hw m q Hok) as (H1 & H2 & H3).
    split; auto. split; auto. unfold lsm_get. now apply get_of_get_at.
  - intros m i w (H1 & H2 & H3). unfold left_map_ok. cbn [mo_write lsm_object write_slice_map slm_table slm_start slm_end slm_bh].
    split; [|split; auto].
    + apply (table_ok_write _ (slm_table m)); auto. apply write_entry_keys.
    + intros e He. destruct (write_entry_fst_in _ _ _ _ He) as (e' & He' & <-). auto.
Qed.

Lemma rsm_searches {V BH} (hw : BH -> bytes -> Z) E :
  searches bytes_eqb (fun k => k) (rsm_object (V := V) hw E) (fun q => zlen q < 2 ^ 64) (right_map_ok hw).
Proof.
  split; [|split; [|split]]; auto.
  - intros m q Hok Hq. cbn. destruct (rsm_lookup_ok hw E m q Hok Hq) as (H1 & H2 & H3).
    split; auto. split; auto. unfold rsm_get. now apply get_of_get_at.
  - intros m i w (H1 & H2 & H3). unfold right_map_ok. cbn [mo_write rsm_object write_slice_map slm_table slm_start slm_end slm_bh].
    split; [|split; auto].
    + apply (table_ok_write _ (slm_table m)); auto. apply write_entry_keys.
    + intros e He. destruct (write_entry_fst_in _ _ _ _ He) as (e' & He' & <-). auto.
Qed.

Lemma fits_small S_ty n : fits S_ty n -> n < 2 ^ 64.
Proof. intros (_ & _ & _ & H). lia. Qed.

Lemma NoDup_bytes (l : list (list Z)) : NoDup l -> distinct bytes_eqb l.
Proof.
  induction 1 as [|x l Hx Hl IH]; cbn; auto. split; auto. intros y Hy.
  destruct (bytes_eqb x y) eqn:E; auto. apply bytes_eqb_eq in E. subst. contradiction.
Qed.

Lemma scanning_map_history :
  forall (K V Q : Type) (pr : profile) (eqb : Q -> Q -> bool) (borrow : K -> Q) (payload : list (K * V)),
  equivalence eqb -> zlen payload < 2 ^ 64 -> distinct eqb (map (fun e => borrow (fst e)) payload) ->
  forall history : list (op Q V),
  Forall2 same_obs (mo_run pr eqb (sm_object eqb borrow) (sm_from_vec payload) history)
                   (object_run eqb borrow payload history).
Proof.
  intros K V Q pr eqb borrow payload He Hz Hd history.
  apply (mo_run_simulates pr eqb borrow _ _ _ He (sm_searches eqb borrow)).
  - split; [apply Permutation_refl|]. auto.
  - intros o q _ _. exact I.
Qed.

Lemma common_map_history :
  forall (K V Q BH : Type) (eqb : Q -> Q -> bool) (borrow : K -> Q)
         (hash_key : BH -> K -> Z) (hash_query : BH -> Q -> Z)
         (E : env) (S_ty : int_type) (payload : list (K * V)) (bh : BH),
  env_ok E -> fits S_ty (zlen payload) -> equivalence eqb ->
  (forall k, hash_key bh k = hash_query bh (borrow k)) ->
  (forall a b, eqb a b = true -> hash_query bh a = hash_query bh b) ->
  distinct eqb (map (fun e => borrow (fst e)) payload) ->
  exists m, cm_from_vec hash_key E S_ty payload bh = Ok m /\
  forall history : list (op Q V),
  Forall2 same_obs (mo_run (prof E) eqb (cm_object eqb borrow hash_query) m history)
                   (object_run eqb borrow payload history).
Proof.
  intros K V Q BH eqb borrow hk hq E S_ty payload bh HE HF He Hkq Hq Hd.
  destruct (cm_from_vec_ok hk E S_ty payload bh HE HF) as (m & Hm & HP & Hok & Hb).
  exists m. split; auto. intros history.
  apply (mo_run_simulates (prof E) eqb borrow _ _ _ He (cm_searches eqb borrow hk hq bh He Hkq Hq)).
  - split; [exact HP|]. split; auto. split; auto. eapply fits_small; eauto.
  - intros o q _ _. exact I.
Qed.

Lemma integer_map_history :
  forall (V : Type) (E : env) (S_ty : int_type) (payload : list (Z * V)),
  env_ok E -> fits S_ty (zlen payload) -> NoDup (map fst payload) ->
  exists m, im_from_vec E S_ty payload = Ok m /\
  forall history : list (op Z V),
  Forall2 same_obs (mo_run (prof E) Z.eqb im_object m history)
                   (object_run Z.eqb (fun k => k) payload history).
Proof.
  intros V E S_ty payload HE HF Hd.
  destruct (im_from_vec_ok E S_ty payload HE HF) as (m & Hm & HP & Hok).
  exists m. split; auto. intros history. apply map_eq_distinct_Z in Hd.
  apply (mo_run_simulates (prof E) Z.eqb (fun k => k) _ _ _ Z_equiv im_searches).
  - split; [exact HP|]. split; auto. split; auto. eapply fits_small; eauto.
  - intros o q _ _. exact I.
Qed.

Lemma range_map_history :
  forall (V : Type) (pr : profile) (ty : int_type) (payload : list (Z * V)),
  1 <= bits ty -> payload <> [] -> NoDup (map fst payload) -> zlen payload < 2 ^ 64 ->
  (forall x y, In x (map fst payload) -> In y (map fst payload) -> x - y <= imax ty) ->
  consecutive (map fst payload) ->
  exists m, irm_from_vec pr ty payload = Ok m /\
  forall history : list (op Z V),
  Forall2 same_obs (mo_run pr Z.eqb (irm_object pr ty) m history)
                   (object_run Z.eqb (fun k => k) payload history).
Proof.
  intros V pr ty payload Hb Hne Hd Hz Hsp Hcons.
  assert (Hne' : map fst payload <> []) by (destruct payload; [congruence|discriminate]).
  destruct (min_max_exist _ Hne') as (mn & mx & Hmn & Hmx).
  pose proof (proj2 (consecutive_iff _ mn mx Hne' Hd Hmn Hmx) Hcons) as Hlen. rewrite zlen_map in Hlen.
  destruct (irm_from_vec_ok pr ty payload mn mx Hb Hne Hmn Hmx) as (m & Hm & He & Hok); auto.
  { apply Hsp; [apply Hmx|apply Hmn]. }
  { lia. }
  exists m. split; auto. intros history. pose proof (proj1 (map_eq_distinct_Z _) Hd) as Hd'.
  apply (mo_run_simulates pr Z.eqb (fun k => k) _ _ _ Z_equiv (irm_searches pr ty)).
  - split; [cbn; rewrite He; apply stable_sort_perm|]. split; [now apply Hok|]. auto.
  - intros o q _ _. exact I.
Qed.

Lemma length_map_history :
  forall (K V Q : Type) (eqb : Q -> Q -> bool) (borrow : K -> Q) (len_key : K -> Z) (len_query : Q -> Z)
         (E : env) (S_ty : int_type) (payload : list (K * V)),
  env_ok E -> fits S_ty (zlen payload) -> equivalence eqb ->
  (forall k, len_key k = len_query (borrow k)) ->
  (forall a b, eqb a b = true -> len_query a = len_query b) ->
  distinct eqb (map (fun e => borrow (fst e)) payload) ->
  exists m, lm_from_vec len_key E S_ty payload = Ok m /\
  forall history : list (op Q V),
  Forall2 same_obs (mo_run (prof E) eqb (lm_object eqb borrow len_query) m history)
                   (object_run eqb borrow payload history).
Proof.
  intros K V Q eqb borrow lk lq E S_ty payload HE HF He Hkq Hq Hd.
  destruct (lm_from_vec_ok lk E S_ty payload HE HF) as (m & Hm & HP & Hok).
  exists m. split; auto. intros history.
  apply (mo_run_simulates (prof E) eqb borrow _ _ _ He (lm_searches eqb borrow lk lq Hkq Hq)).
  - split; [exact HP|]. split; auto. split; auto. eapply fits_small; eauto.
  - intros o q _ _. exact I.
Qed.

Lemma left_slice_map_history :
  forall (V BH : Type) (hash_write : BH -> list Z -> Z) (E : env) (S_ty : int_type)
         (payload : list (list Z * V)) (a b : Z) (bh : BH),
  env_ok E -> fits S_ty (zlen payload) -> 0 <= a <= b ->
  (forall k, In k (map fst payload) -> b <= zlen k) -> NoDup (map fst payload) ->
  exists m, lsm_from_vec hash_write E S_ty payload a b bh = Ok m /\
  forall history : list (op (list Z) V),
  Forall2 same_obs (mo_run (prof E) bytes_eqb (lsm_object hash_write) m history)
                   (object_run bytes_eqb (fun k => k) payload history).
Proof.
  intros V BH hw E S_ty payload a b bh HE HF Hab Hk Hd.
  destruct (lsm_from_vec_ok hw E S_ty payload a b bh HE HF Hab) as (m & Hm & HP & Hok & _).
  { intros e He. apply Hk. now apply in_map. }
  exists m. split; auto. intros history.
  apply (mo_run_simulates (prof E) bytes_eqb (fun k => k) _ _ _ bytes_equiv (lsm_searches hw)).
  - split; [exact HP|]. split; auto. split; [now apply NoDup_bytes|]. eapply fits_small; eauto.
  - intros o q _ _. exact I.
Qed.

(** Right slices need the range reversed; see [right_slice_forward_unusable]. *)
Lemma right_slice_map_history :
  forall (V BH : Type) (hash_write : BH -> list Z -> Z) (E : env) (S_ty : int_type)
         (payload : list (list Z * V)) (a b : Z) (bh : BH),
  env_ok E -> fits S_ty (zlen payload) -> 0 <= b <= a ->
  (forall k, In k (map fst payload) -> a <= zlen k < 2 ^ 64) -> NoDup (map fst payload) ->
  exists m, rsm_from_vec hash_write E S_ty payload a b bh = Ok m /\
  forall history : list (op (list Z) V), queries (fun q => zlen q < 2 ^ 64) history ->
  Forall2 same_obs (mo_run (prof E) bytes_eqb (rsm_object hash_write E) m history)
                   (object_run bytes_eqb (fun k => k) payload history).
Proof.
  intros V BH hw E S_ty payload a b bh HE HF Hab Hk Hd.
  destruct (rsm_from_vec_ok hw E S_ty payload a b bh HE HF Hab) as (m & Hm & HP & Hok & _).
  { intros e He. apply Hk. now apply in_map. }
  exists m. split; auto. intros history Hq.
  apply (mo_run_simulates (prof E) bytes_eqb (fun k => k) _ _ _ bytes_equiv (rsm_searches hw E)); auto.
  split; [exact HP|]. split; auto. split; [now apply NoDup_bytes|]. eapply fits_small; eauto.
Qed.
