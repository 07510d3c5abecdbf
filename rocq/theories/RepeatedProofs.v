(** Maps with repeated keys: every operation goes to the first of the entries with the key. *)
From Coq Require Import List ZArith Bool Arith Lia Permutation.
From Verif Require Import Spec MapSpec Base BaseLemmas EqbLists HashTable HashTableProofs Maps MapsProofs IntProofs
  FrozenMap FrozenMapProofs BuildSound FrozenMapFacts Iterators IterSpec IteratorProofs HistorySpec ObjectSpec History HistoryProofs MapObjects
  ComponentTheorems MapTheorems MapObjectProofs RepeatedSpec.
Import ListNotations.
Open Scope Z_scope.

Section First.
Context {K V Q : Type}.
Variable eqb : Q -> Q -> bool.
Variable borrow : K -> Q.
Implicit Types (p : list (K * V)) (q : Q).
Notation nm := (@names K V Q eqb borrow).
Notation assign_first := (@assign_first K V Q eqb borrow).

Lemma has_find_pos p q :
  existsb (fun e => eqb q (borrow (fst e))) p = match find_pos (nm q) p with Some _ => true | None => false end.
Proof.
  induction p as [|e p IH]; cbn; auto. unfold names at 1. destruct (eqb q (borrow (fst e))); auto. cbn.
  rewrite IH. now destruct (find_pos _ p).
Qed.

Lemma assign_first_keys p q w : map fst (assign_first p q w) = map fst p.
Proof. induction p as [|e p IH]; cbn; auto. destruct (eqb q _); cbn; auto. now rewrite IH. Qed.

Lemma assign_first_absent p q w : find_pos (nm q) p = None -> assign_first p q w = p.
Proof.
  induction p as [|e p IH]; cbn; auto. unfold names at 1. destruct (eqb q _); [discriminate|].
  destruct (find_pos _ p); [discriminate|]. intros _. now rewrite IH.
Qed.

Lemma write_assign_first p q i w : find_pos (nm q) p = Some i -> write_entry i w p = assign_first p q w.
Proof.
  revert i. induction p as [|x p IH]; cbn; intros i H; [discriminate|]. unfold names in H at 1.
  destruct (eqb q (borrow (fst x))) eqn:Ex.
  - now injection H as <-.
  - destruct (find_pos _ p) as [j|] eqn:F; [|discriminate]. injection H as <-.
    rewrite <- (IH j eq_refl). unfold write_entry. cbn [nth_error]. destruct (nth_error p j); reflexivity.
Qed.

Lemma write_assign_firsts : forall qws ps p,
  Forall2 (fun q i => find_pos (nm q) p = Some i) (map fst qws) ps ->
  fold_left (fun p0 pw => write_entry (fst pw) (snd pw) p0) (combine ps (map snd qws)) p =
  fold_left (fun p qw => assign_first p (fst qw) (snd qw)) qws p.
Proof.
  induction qws as [|[q w] qws IH]; intros ps p H; cbn [map fst snd] in *.
  - inversion H. reflexivity.
  - inversion H as [|q' i qs ps' Hk Hks]; subst. cbn [combine fold_left fst snd].
    rewrite (write_assign_first p q i w Hk). apply IH.
    clear - Hks. induction Hks; constructor; auto.
    rewrite <- H. apply (find_pos_bkeys eqb borrow). apply assign_first_keys.
Qed.

Lemma assign_firsts_length : forall qws p,
  length (fold_left (fun p qw => assign_first p (fst qw) (snd qw)) qws p) = length p.
Proof.
  induction qws as [|kw kws IH]; cbn; intros p; auto. rewrite IH, <- (map_length fst), assign_first_keys. apply map_length.
Qed.
End First.

Section Simulation.
Context {M K V Q : Type}.
Variable pr : profile.
Variable eqb : Q -> Q -> bool.
Variable borrow : K -> Q.
Variable mo : map_object M K V Q.
Variable D : Q -> Prop.
Variable inv : M -> Prop.
Notation nm := (@names K V Q eqb borrow).
Hypothesis Hs : searches eqb borrow mo D inv.
Implicit Types m : M.

Lemma first_many m qs : inv m -> (forall q, In q qs -> D q) ->
  (exists ps, mo_get_many_mut eqb mo m qs = Ok (Some ps) /\ distinct eqb qs /\
     Forall2 (fun q i => find_pos (nm q) (mo_entries mo m) = Some i) qs ps) \/
  (mo_get_many_mut eqb mo m qs = Ok None /\
     (~ distinct eqb qs \/ exists q, In q qs /\ find_pos (nm q) (mo_entries mo m) = None)).
Proof.
  intros H Hq. unfold mo_get_many_mut, get_many_mut.
  destruct (has_duplicate_key eqb [] qs) eqn:Hd.
  { right. split; auto. left. intros Hdist.
    assert (has_duplicate_key eqb [] qs = false); [|congruence].
    apply has_duplicate_key_spec. split; auto. intros s k []. }
  apply has_duplicate_key_spec in Hd. destruct Hd as (Hd & _).
  destruct (get_each_spec (mo_get_at mo m) (fun q => find_pos (nm q) (mo_entries mo m)) qs)
    as [(ps & -> & HF)|(-> & k & Hik & Hf)]; eauto 10.
  intros k Hik. now destruct (proj1 Hs m k H (Hq k Hik)) as (G & _).
Qed.

Lemma first_step_ok m o : inv m -> zlen (mo_entries mo m) < 2 ^ 64 -> (forall q, In q (op_keys o) -> D q) ->
  fst (mo_step pr eqb mo m o) = fst (first_step eqb borrow (mo_entries mo m) o) /\
  mo_entries mo (snd (mo_step pr eqb mo m o)) = snd (first_step eqb borrow (mo_entries mo m) o) /\
  inv (snd (mo_step pr eqb mo m o)).
Proof.
  intros Hi Hz Hk. pose proof Hs as (_ & Hlen & Hw & Hwi).
  assert (Hl : forall q, In q (op_keys o) -> _) by (intros q Hqo; exact (proj1 Hs m q Hi (Hk q Hqo))).
  destruct o as [k|k|k|k| | | |k w|k w|kws]; cbn [op_keys] in *; cbn [mo_step first_step].
  - destruct (Hl k ltac:(cbn; auto)) as (_ & -> & _). cbn. auto.
  - destruct (Hl k ltac:(cbn; auto)) as (_ & _ & _ & ->). cbn. auto.
  - destruct (Hl k ltac:(cbn; auto)) as (_ & Hg & _). unfold mo_contains_key, contains_key. rewrite Hg. cbn.
    split; auto. f_equal. rewrite has_find_pos, find_find_pos. destruct (find_pos _ (mo_entries mo m)) as [i|] eqn:F; auto.
    destruct (find_pos_some _ _ _ F) as (x & -> & _). reflexivity.
  - destruct (Hl k ltac:(cbn; auto)) as (_ & Hg & _). unfold mo_index, index_of. rewrite Hg. cbn [bind].
    split; auto. unfold names. cbn. now destruct (find _ (mo_entries mo m)).
  - cbn. split; auto. now rewrite Hlen.
  - cbn. split; auto. f_equal. rewrite Hlen. unfold zlen. now destruct (mo_entries mo m).
  - pose proof (fun it a l => it_at_cons pr (mo_entries mo m) it a l Hz) as Hcons.
    rewrite (R_fold (it_next pr) (it_at (mo_entries mo m)) (it_at_nil pr (mo_entries mo m)) Hcons _ (mo_entries mo m));
      [|apply it_at_new|lia].
    assert (Hf : forall (l acc : list (K * V)), fold_left (fun acc e => acc ++ [e]) l acc = acc ++ l).
    { induction l as [|x l IH]; intros acc; cbn; [now rewrite app_nil_r|]. now rewrite IH, <- app_assoc. }
    rewrite Hf. cbn. auto.
  - destruct (Hl k ltac:(cbn; auto)) as (_ & _ & -> & _). rewrite has_find_pos.
    destruct (find_pos _ (mo_entries mo m)) as [i|] eqn:F; cbn [fst snd watch].
    + split; [reflexivity|]. split; [|auto]. rewrite Hw. now apply write_assign_first.
    + split; [reflexivity|]. split; [|auto]. symmetry. now apply assign_first_absent.
  - destruct (Hl k ltac:(cbn; auto)) as (_ & _ & Hm & _). rewrite has_find_pos.
    unfold mo_index_mut, index_of. rewrite Hm. cbn [bind].
    destruct (find_pos _ (mo_entries mo m)) as [i|] eqn:F; cbn [fst snd unwrap watch].
    + split; [reflexivity|]. split; [|auto]. rewrite Hw. now apply write_assign_first.
    + auto.
  - destruct (first_many m (map fst kws) Hi Hk) as [(ps & -> & Hdk & HF)|(-> & Hr)].
    + assert (Hp : forallb (fun q => existsb (fun e => eqb q (borrow (fst e))) (mo_entries mo m)) (map fst kws) = true).
      { apply forallb_forall. intros k Hin. clear - HF Hin. induction HF as [|? ? ? ? E HF IH]; [contradiction|].
        destruct Hin as [ <- |Hin]; auto. rewrite has_find_pos. now rewrite E. }
      rewrite (proj2 (all_different_spec eqb (map fst kws)) Hdk), Hp. cbn [andb fst snd]. split; [reflexivity|].
      destruct (entries_write_all eqb borrow mo D inv Hs ps (map snd kws) m) as (W1 & W2). split; [|auto].
      rewrite W1. now apply write_assign_firsts.
    + assert (Hn : all_different eqb (map fst kws) &&
                   forallb (fun q => existsb (fun e => eqb q (borrow (fst e))) (mo_entries mo m)) (map fst kws) = false).
      { apply andb_false_iff. destruct Hr as [Hr|(k & Hin & Hg)].
        - left. destruct (all_different _ _) eqn:A; auto. now apply all_different_spec in A.
        - right. destruct (forallb _ _) eqn:F; auto. rewrite forallb_forall in F. specialize (F k Hin).
          rewrite has_find_pos, Hg in F. discriminate. }
      rewrite Hn. cbn [fst snd watch]. auto.
Qed.

Lemma first_step_length (p : list (K * V)) (o : op Q V) : zlen (snd (first_step eqb borrow p o)) = zlen p.
Proof.
  destruct o; cbn [first_step snd]; auto.
  - unfold zlen. now rewrite <- (map_length fst), assign_first_keys, map_length.
  - destruct (existsb _ p); cbn [snd]; auto. unfold zlen. now rewrite <- (map_length fst), assign_first_keys, map_length.
  - destruct (_ && _); cbn [snd]; auto. unfold zlen. now rewrite assign_firsts_length.
Qed.

Lemma first_run_ok : forall os m, inv m -> zlen (mo_entries mo m) < 2 ^ 64 -> queries D os ->
  mo_run pr eqb mo m os = first_run eqb borrow (mo_entries mo m) os.
Proof.
  unfold queries. induction os as [|o os IH]; intros m Hi Hz Hk; cbn [mo_run first_run]; [reflexivity|].
  destruct (first_step_ok m o Hi Hz) as (H1 & H2 & H3); [intros k; apply Hk; cbn; auto|].
  pose proof (first_step_length (mo_entries mo m) o) as Hlen.
  destruct (mo_step pr eqb mo m o) as [b m'], (first_step eqb borrow (mo_entries mo m) o) as [b' p']. cbn [fst snd] in *.
  subst b' p'. f_equal. apply IH; auto; [lia|]. intros o' k Ho. apply Hk. cbn. auto.
Qed.
End Simulation.

(** ** C96 *)

Lemma repeated_scanning :
  forall (K V Q : Type) (pr : profile) (eqb : Q -> Q -> bool) (borrow : K -> Q) (payload : list (K * V)),
  zlen payload < 2 ^ 64 ->
  laid_out eqb borrow (fun _ => True) payload payload (mo_run pr eqb (sm_object eqb borrow) (sm_from_vec payload)).
Proof.
  intros K V Q pr eqb borrow payload Hz. split; [apply Permutation_refl|]. intros history Hq.
  now apply (first_run_ok pr eqb borrow _ _ _ (sm_searches eqb borrow) history (sm_from_vec payload)).
Qed.

Lemma repeated_common :
  forall (K V Q BH : Type) (eqb : Q -> Q -> bool) (borrow : K -> Q)
         (hash_key : BH -> K -> Z) (hash_query : BH -> Q -> Z)
         (E : env) (S_ty : int_type) (payload : list (K * V)) (bh : BH),
  env_ok E -> fits S_ty (zlen payload) -> equivalence eqb ->
  (forall k, hash_key bh k = hash_query bh (borrow k)) ->
  (forall a b, eqb a b = true -> hash_query bh a = hash_query bh b) ->
  exists m es, cm_from_vec hash_key E S_ty payload bh = Ok m /\
  laid_out eqb borrow (fun _ => True) payload es (mo_run (prof E) eqb (cm_object eqb borrow hash_query) m).
Proof.
  intros K V Q BH eqb borrow hk hq E S_ty payload bh HE HF He Hkq Hq.
  destruct (cm_from_vec_ok hk E S_ty payload bh HE HF) as (m & Hm & HP & Hok & Hb).
  exists m, (entries (cm_table m)). split; auto. split; auto. intros history Hd.
  apply (first_run_ok (prof E) eqb borrow _ _ _ (cm_searches eqb borrow hk hq bh He Hkq Hq) history m); auto.
  cbn. rewrite <- (zlen_perm _ _ HP). eapply fits_small; eauto.
Qed.

Lemma repeated_integer :
  forall (V : Type) (E : env) (S_ty : int_type) (payload : list (Z * V)),
  env_ok E -> fits S_ty (zlen payload) ->
  exists m es, im_from_vec E S_ty payload = Ok m /\
  laid_out Z.eqb (fun k => k) (fun _ => True) payload es (mo_run (prof E) Z.eqb im_object m).
Proof.
  intros V E S_ty payload HE HF. destruct (im_from_vec_ok E S_ty payload HE HF) as (m & Hm & HP & Hok).
  exists m, (entries (im_table m)). split; auto. split; auto. intros history Hd.
  apply (first_run_ok (prof E) Z.eqb (fun k => k) _ _ _ im_searches history m); auto.
  cbn. rewrite <- (zlen_perm _ _ HP). eapply fits_small; eauto.
Qed.

Lemma repeated_length :
  forall (K V Q : Type) (eqb : Q -> Q -> bool) (borrow : K -> Q) (len_key : K -> Z) (len_query : Q -> Z)
         (E : env) (S_ty : int_type) (payload : list (K * V)),
  env_ok E -> fits S_ty (zlen payload) ->
  (forall k, len_key k = len_query (borrow k)) ->
  (forall a b, eqb a b = true -> len_query a = len_query b) ->
  exists m es, lm_from_vec len_key E S_ty payload = Ok m /\
  laid_out eqb borrow (fun _ => True) payload es (mo_run (prof E) eqb (lm_object eqb borrow len_query) m).
Proof.
  intros K V Q eqb borrow lk lq E S_ty payload HE HF Hkq Hq.
  destruct (lm_from_vec_ok lk E S_ty payload HE HF) as (m & Hm & HP & Hok).
  exists m, (entries (lm_table m)). split; auto. split; auto. intros history Hd.
  apply (first_run_ok (prof E) eqb borrow _ _ _ (lm_searches eqb borrow lk lq Hkq Hq) history m); auto.
  cbn. rewrite <- (zlen_perm _ _ HP). eapply fits_small; eauto.
Qed.

Lemma repeated_left_slice :
  forall (V BH : Type) (hash_write : BH -> list Z -> Z) (E : env) (S_ty : int_type)
         (payload : list (list Z * V)) (a b : Z) (bh : BH),
  env_ok E -> fits S_ty (zlen payload) -> 0 <= a <= b ->
  (forall k, In k (map fst payload) -> b <= zlen k) ->
  exists m es, lsm_from_vec hash_write E S_ty payload a b bh = Ok m /\
  laid_out bytes_eqb (fun k => k) (fun _ => True) payload es (mo_run (prof E) bytes_eqb (lsm_object hash_write) m).
Proof.
  intros V BH hw E S_ty payload a b bh HE HF Hab Hk.
  destruct (lsm_from_vec_ok hw E S_ty payload a b bh HE HF Hab) as (m & Hm & HP & Hok & _).
  { intros e He. apply Hk. now apply in_map. }
  exists m, (entries (slm_table m)). split; auto. split; auto. intros history Hd.
  apply (first_run_ok (prof E) bytes_eqb (fun k => k) _ _ _ (lsm_searches hw) history m); auto.
  cbn. rewrite <- (zlen_perm _ _ HP). eapply fits_small; eauto.
Qed.

Lemma repeated_right_slice :
  forall (V BH : Type) (hash_write : BH -> list Z -> Z) (E : env) (S_ty : int_type)
         (payload : list (list Z * V)) (a b : Z) (bh : BH),
  env_ok E -> fits S_ty (zlen payload) -> 0 <= b <= a ->
  (forall k, In k (map fst payload) -> a <= zlen k < 2 ^ 64) ->
  exists m es, rsm_from_vec hash_write E S_ty payload a b bh = Ok m /\
  laid_out bytes_eqb (fun k => k) (fun q => zlen q < 2 ^ 64) payload es (mo_run (prof E) bytes_eqb (rsm_object hash_write E) m).
Proof.
  intros V BH hw E S_ty payload a b bh HE HF Hab Hk.
  destruct (rsm_from_vec_ok hw E S_ty payload a b bh HE HF Hab) as (m & Hm & HP & Hok & _).
  { intros e He. apply Hk. now apply in_map. }
  exists m, (entries (slm_table m)). split; auto. split; auto. intros history Hd.
  apply (first_run_ok (prof E) bytes_eqb (fun k => k) _ _ _ (rsm_searches hw E) history m); auto.
  cbn. rewrite <- (zlen_perm _ _ HP). eapply fits_small; eauto.
Qed.

(** FrozenMap as one more map of this kind. *)
Definition fm_object {O V} (eqbO : O -> O -> bool) (E : env) : map_object (map_types O V) (key O) V (key O) :=
  {| mo_entries := fm_iter;
     mo_len := fm_len;
     mo_get_at := fm_get_at eqbO E;
     mo_get := fm_get eqbO E;
     mo_get_mut := fm_get_mut eqbO E;
     mo_get_key_value := fm_get_key_value eqbO E;
     mo_write := fm_write |}.

Lemma fm_run_object {O V} (eqbO : O -> O -> bool) (E : env) : forall os (m : map_types O V),
  run eqbO E m os = mo_run (prof E) (key_eqb eqbO) (fm_object eqbO E) m os.
Proof.
  induction os as [|o os IH]; intros m; [reflexivity|]. cbn [run mo_run].
  assert (H : step eqbO E m o = mo_step (prof E) (key_eqb eqbO) (fm_object eqbO E) m o) by (destruct o; reflexivity).
  rewrite H. destruct (mo_step _ _ _ m o). now rewrite IH.
Qed.

Lemma fm_searches {O V} (eqbO : O -> O -> bool) (E : env) kd (bh : hasher O) :
  lawful_hash eqbO bh ->
  searches (key_eqb eqbO) (fun k => k) (fm_object (V := V) eqbO E) (has_kind kd) (fun m => fm_inv kd bh m /\ fm_exact m).
Proof.
  intros Hl. pose proof (lawful_respects eqbO bh Hl) as Hr. split; [|split; [|split]].
  - intros m q (Hi & Hx) Hk. destruct (fm_lookup_exact eqbO E kd bh m q Hi Hx Hr Hk) as (H0 & H1 & H2 & H3).
    cbn [mo_get_at mo_get mo_get_mut mo_get_key_value mo_entries fm_object]. auto.
  - intros m. apply fm_len_iter.
  - intros m i w. apply fm_iter_write.
  - intros m i w (Hi & Hx). split; [now apply fm_write_inv|now apply fm_write_exact].
Qed.

Lemma repeated_frozen_map :
  forall (O V : Type) (eqbO : O -> O -> bool) (E : env) (kd : kind) (bh : hasher O)
         (payload : list (key O * V)) (m : map_types O V),
  env_ok E -> equivalence eqbO -> lawful_hash eqbO bh ->
  countable (prof E) (zlen payload) -> zlen payload < 2 ^ 64 -> typed kd payload ->
  (kd = KindU32 -> ~ full_span payload) ->
  fm_new E kd payload bh = Ok m ->
  exists es, laid_out (key_eqb eqbO) (fun k => k) (has_kind kd) payload es (run eqbO E m).
Proof.
  intros O V eqbO E kd bh payload m HE He Hl Hc Hz Ht Hsp Hm.
  destruct (built_sound eqbO E HE kd payload bh m Hc Ht Hm) as (HP & Hi & Hx & Hr).
  assert (Hex : fm_exact m).
  { destruct m; try exact I. destruct (Hr I) as (Hkd & Hfs). exfalso. now apply (Hsp Hkd). }
  exists (fm_iter m). split; auto. intros history Hq. rewrite fm_run_object.
  apply (first_run_ok (prof E) (key_eqb eqbO) (fun k => k) _ _ _ (fm_searches eqbO E kd bh Hl) history m); auto.
  cbn. rewrite <- (zlen_perm _ _ HP). exact Hz.
Qed.
