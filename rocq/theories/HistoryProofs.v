(** A built FrozenMap with distinct keys behaves like the abstract map. *)
From Coq Require Import List ZArith Bool Arith Lia Permutation.
From Verif Require Import Spec MapSpec Base BaseLemmas EqbLists HashTable Maps FrozenMap FrozenMapProofs
  FrozenMapFacts BuildSound Iterators IterSpec IteratorProofs HistorySpec History.
Import ListNotations.
Open Scope Z_scope.

(** ** Association lists with distinct keys *)

Section Assoc.
Context {K V : Type}.
Variable eqb : K -> K -> bool.
Hypothesis Heq : equivalence eqb.
Implicit Types (p q : list (K * V)).

Lemma distinct_entry_unique p e e' : distinct eqb (map fst p) -> In e p -> In e' p ->
  eqb (fst e) (fst e') = true -> e = e'.
Proof.
  induction p as [|x p IH]; cbn; [tauto|]. intros (H1 & H2) He He' Hk.
  destruct He as [ -> |He], He' as [ <- |He']; auto.
  - rewrite H1 in Hk; [discriminate|]. now apply in_map.
  - apply (eq_sym_ok _ Heq) in Hk. rewrite H1 in Hk; [discriminate|]. now apply in_map.
Qed.

Lemma lookup_perm p q k : distinct eqb (map fst p) -> Permutation p q -> lookup eqb p k = lookup eqb q k.
Proof.
  intros Hd HP. unfold lookup.
  destruct (find _ p) as [e|] eqn:Fp, (find _ q) as [e'|] eqn:Fq; auto.
  - apply find_some in Fp, Fq. destruct Fp as (Hp & Kp), Fq as (Hq & Kq). f_equal.
    apply (distinct_entry_unique p); auto.
    + now apply (Permutation_in _ (Permutation_sym HP)).
    + apply (eq_trans_ok _ Heq) with k; auto. now apply (eq_sym_ok _ Heq).
  - apply find_some in Fp. destruct Fp as (Hp & Kp). apply (Permutation_in _ HP) in Hp.
    now rewrite (find_none _ _ Fq e Hp) in Kp.
  - apply find_some in Fq. destruct Fq as (Hq & Kq). apply (Permutation_in _ (Permutation_sym HP)) in Hq.
    now rewrite (find_none _ _ Fp e' Hq) in Kq.
Qed.

Lemma present_lookup p k : present eqb p k = match lookup eqb p k with Some _ => true | None => false end.
Proof.
  unfold present, lookup. induction p as [|e p IH]; cbn; auto. destruct (eqb k (fst e)); auto.
Qed.

Lemma update_keys p k w : map fst (update eqb p k w) = map fst p.
Proof. unfold update. rewrite map_map. apply map_ext. intros e. now destruct (eqb k (fst e)). Qed.

Lemma update_absent p k w : lookup eqb p k = None -> update eqb p k w = p.
Proof.
  intros H. unfold update. rewrite <- (map_id p) at 2. apply map_ext_in. intros e He.
  now rewrite (find_none _ _ H e He).
Qed.

Lemma write_update p k i w : distinct eqb (map fst p) ->
  find_pos (fun e => eqb k (fst e)) p = Some i -> write_entry i w p = update eqb p k w.
Proof.
  revert i. induction p as [|x p IH]; cbn; intros i Hd H; [discriminate|]. destruct Hd as (H1 & H2).
  destruct (eqb k (fst x)) eqn:Ex.
  - injection H as <-. cbn. f_equal. symmetry. rewrite <- (map_id p) at 2. apply map_ext_in.
    intros e He. destruct (eqb k (fst e)) eqn:Ee; auto. exfalso.
    assert (eqb (fst x) (fst e) = true).
    { apply (eq_trans_ok _ Heq) with k; auto. now apply (eq_sym_ok _ Heq). }
    rewrite H1 in H; [discriminate|]. now apply in_map.
  - destruct (find_pos _ p) as [j|] eqn:F; [|discriminate]. injection H as <-.
    change (write_entry (S j) w (x :: p) = x :: update eqb p k w).
    rewrite <- (IH j H2 eq_refl). unfold write_entry. cbn [nth_error].
    destruct (nth_error p j); reflexivity.
Qed.

Lemma find_pos_keys p q k : map fst p = map fst q ->
  find_pos (fun e => eqb k (fst e)) p = find_pos (fun e => eqb k (fst e)) q.
Proof.
  intros H. rewrite <- !(find_pos_map fst (eqb k)). now rewrite H.
Qed.

Lemma write_updates : forall kws ps q, distinct eqb (map fst q) ->
  Forall2 (fun k i => find_pos (fun e => eqb k (fst e)) q = Some i) (map fst kws) ps ->
  fold_left (fun q pw => write_entry (fst pw) (snd pw) q) (combine ps (map snd kws)) q =
  fold_left (fun q kw => update eqb q (fst kw) (snd kw)) kws q.
Proof.
  induction kws as [|[k w] kws IH]; intros ps q Hd H; cbn [map fst snd] in *.
  - inversion H. reflexivity.
  - inversion H as [|k' i ks ps' Hk Hks]; subst. cbn [combine fold_left fst snd].
    rewrite (write_update q k i w Hd Hk). apply IH; [now rewrite update_keys|].
    clear - Hks. induction Hks; constructor; auto.
    rewrite <- H. apply find_pos_keys. apply update_keys.
Qed.

Lemma updates_perm : forall kws p q, Permutation p q ->
  Permutation (fold_left (fun p kw => update eqb p (fst kw) (snd kw)) kws p)
              (fold_left (fun p kw => update eqb p (fst kw) (snd kw)) kws q).
Proof. induction kws as [|kw kws IH]; cbn; intros p q H; auto. apply IH. now apply Permutation_map. Qed.

Lemma updates_keys : forall kws p,
  map fst (fold_left (fun p kw => update eqb p (fst kw) (snd kw)) kws p) = map fst p.
Proof. induction kws as [|kw kws IH]; cbn; intros p; auto. now rewrite IH, update_keys. Qed.

Lemma all_different_spec (l : list K) : all_different eqb l = true <-> distinct eqb l.
Proof.
  induction l as [|k l IH]; cbn; [tauto|]. rewrite andb_true_iff, negb_true_iff, IH.
  split; intros (H1 & H2); split; auto.
  - intros k' Hk'. destruct (eqb k k') eqn:E; auto.
    assert (existsb (eqb k) l = true) by (apply existsb_exists; eauto). congruence.
  - destruct (existsb (eqb k) l) eqn:E; auto. apply existsb_exists in E. destruct E as (x & Hx & E).
    now rewrite H1 in E.
Qed.
End Assoc.

Section Simulation.
Context {O V : Type}.
Variable eqbO : O -> O -> bool.
Variable E : env.
Variable kd : kind.
Variable bh : hasher O.
Hypothesis Heq : equivalence eqbO.
Hypothesis Hlaw : lawful_hash eqbO bh.
Notation keq := (key_eqb eqbO).
Implicit Types (m : map_types O V) (p : list (key O * V)).

(** The abstract map [p] describes [m]. *)
Definition describes p m : Prop :=
  Permutation p (fm_iter m) /\ fm_inv kd bh m /\ fm_exact m /\ distinct keq (map fst p) /\
  zlen p < 2 ^ 64.

Lemma Hkeq : equivalence keq. Proof. now apply key_eqb_equiv. Qed.

Lemma described_lookup p m k : describes p m -> has_kind kd k ->
  fm_get eqbO E m k = Ok (option_map snd (lookup keq p k)) /\
  fm_get_key_value eqbO E m k = Ok (lookup keq p k) /\
  fm_get_mut eqbO E m k = Ok (find_pos (fun e => keq k (fst e)) (fm_iter m)).
Proof.
  intros (HP & Hi & Hx & Hd & _) Hk. pose proof (lawful_respects eqbO bh Hlaw) as Hr.
  destruct (fm_lookup_exact eqbO E kd bh m k Hi Hx Hr Hk) as (_ & H1 & H2 & H3).
  rewrite (lookup_perm keq Hkeq p (fm_iter m) k Hd HP). auto.
Qed.

Lemma iter_distinct p m : describes p m -> distinct keq (map fst (fm_iter m)).
Proof.
  intros (HP & _ & _ & Hd & _). eapply distinct_perm; [apply Hkeq|apply Permutation_map, HP|exact Hd].
Qed.

Lemma described_write p m k i w : describes p m -> has_kind kd k ->
  find_pos (fun e => keq k (fst e)) (fm_iter m) = Some i -> describes (update keq p k w) (fm_write i w m).
Proof.
  intros H Hk Hf. pose proof (iter_distinct p m H) as Hd'. destruct H as (HP & Hi & Hx & Hd & Hz).
  split; [|split; [|split; [|split]]].
  - rewrite fm_iter_write, (write_update keq Hkeq (fm_iter m) k i w Hd' Hf). now apply Permutation_map.
  - now apply fm_write_inv.
  - now apply fm_write_exact.
  - now rewrite update_keys.
  - unfold update. now rewrite zlen_map.
Qed.

Lemma iter_write_all ps ws m :
  fm_iter (write_all ps ws m) = fold_left (fun q pw => write_entry (fst pw) (snd pw) q) (combine ps ws) (fm_iter m) /\
  (fm_inv kd bh m -> fm_inv kd bh (write_all ps ws m)) /\ (fm_exact m -> fm_exact (write_all ps ws m)).
Proof.
  unfold write_all. generalize (combine ps ws) as l. intros l. revert m. induction l as [|[i w] l IH]; intros m; cbn [fold_left fst snd]; auto.
  destruct (IH (fm_write i w m)) as (H1 & H2 & H3). split; [now rewrite H1, fm_iter_write|]. split.
  - intros Hi. apply H2. now apply fm_write_inv.
  - intros Hx. apply H3. now apply fm_write_exact.
Qed.

Lemma present_find_pos p m k : describes p m ->
  present keq p k = match find_pos (fun e => keq k (fst e)) (fm_iter m) with Some _ => true | None => false end.
Proof.
  intros H. rewrite present_lookup. destruct H as (HP & _ & _ & Hd & _).
  rewrite (lookup_perm keq Hkeq p (fm_iter m) k Hd HP). unfold lookup. rewrite find_find_pos.
  destruct (find_pos _ (fm_iter m)) as [i|] eqn:F; auto.
  destruct (find_pos_some _ _ _ F) as (x & -> & _). reflexivity.
Qed.

Lemma step_simulates p m o : describes p m -> (forall k, In k (op_keys o) -> has_kind kd k) ->
  same_obs (fst (step eqbO E m o)) (fst (abstract_step keq p o)) /\
  describes (snd (abstract_step keq p o)) (snd (step eqbO E m o)).
Proof.
  intros H Hk. pose proof H as (HP & Hi & Hx & Hd & Hz).
  assert (Hl : forall k, In k (op_keys o) -> _) by (intros k Hko; exact (described_lookup p m k H (Hk k Hko))).
  destruct o as [k|k|k|k| | | |k w|k w|kws]; cbn [op_keys] in *; cbn [step abstract_step].
  - destruct (Hl k ltac:(cbn; auto)) as (-> & _). cbn. auto.
  - destruct (Hl k ltac:(cbn; auto)) as (_ & -> & _). cbn. auto.
  - destruct (Hl k ltac:(cbn; auto)) as (Hg & _). unfold fm_contains_key, contains_key. rewrite Hg. cbn.
    rewrite present_lookup. split; auto. now destruct (lookup keq p k).
  - destruct (Hl k ltac:(cbn; auto)) as (Hg & _). unfold fm_index, index_of. rewrite Hg. cbn.
    split; auto. now destruct (lookup keq p k).
  - cbn. split; auto. f_equal. rewrite fm_len_iter. unfold zlen. now rewrite (Permutation_length HP).
  - cbn. split; auto. f_equal. unfold fm_is_empty. rewrite fm_len_iter. unfold zlen.
    rewrite <- (Permutation_length HP). destruct p; reflexivity.
  - assert (Hz' : zlen (fm_iter m) < 2 ^ 64) by (rewrite <- (zlen_perm _ _ HP); auto).
    pose proof (fun it a l => it_at_cons (prof E) (fm_iter m) it a l Hz') as Hcons.
    rewrite (R_fold (it_next (prof E)) (it_at (fm_iter m)) (it_at_nil (prof E) (fm_iter m)) Hcons _ (fm_iter m));
      [|apply it_at_new|lia].
    assert (Hf : forall (l acc : list (key O * V)), fold_left (fun acc e => acc ++ [e]) l acc = acc ++ l).
    { induction l as [|x l IH]; intros acc; cbn; [now rewrite app_nil_r|]. now rewrite IH, <- app_assoc. }
    rewrite Hf. cbn. split; auto. now apply Permutation_sym.
  - destruct (Hl k ltac:(cbn; auto)) as (_ & _ & ->). rewrite (present_find_pos p m k H).
    destruct (find_pos _ (fm_iter m)) as [i|] eqn:F; cbn [fst snd].
    + split; [reflexivity|]. apply (described_write p m k i w H); auto. apply Hk. cbn. auto.
    + split; [reflexivity|]. rewrite update_absent; auto.
      pose proof (present_find_pos p m k H) as Hp. rewrite F, present_lookup in Hp.
      destruct (lookup keq p k); congruence.
  - destruct (Hl k ltac:(cbn; auto)) as (_ & _ & Hm). rewrite (present_find_pos p m k H).
    unfold fm_index_mut, index_of. rewrite Hm. cbn [bind].
    destruct (find_pos _ (fm_iter m)) as [i|] eqn:F; cbn [fst snd unwrap].
    + split; [reflexivity|]. apply (described_write p m k i w H); auto. apply Hk. cbn. auto.
    + split; [reflexivity|]. exact H.
  - destruct (get_many_mut_spec eqbO E kd m (map fst kws) Heq (fm_inv_safe _ _ _ Hi) Hk) as (r & -> & Hr).
    destruct r as [ps|].
    + destruct Hr as (Hdk & Hnd & HF).
      assert (HF' : Forall2 (fun k i => find_pos (fun e => keq k (fst e)) (fm_iter m) = Some i) (map fst kws) ps).
      { clear - HF Hl. induction HF as [|k i ks is (e & _ & _ & Hg) HF IH]; constructor.
        - destruct (Hl k ltac:(cbn; auto)) as (_ & _ & Hm). rewrite Hm in Hg. congruence.
        - apply IH. intros k' Hk'. apply Hl. cbn. auto. }
      assert (Hp : forallb (present keq p) (map fst kws) = true).
      { apply forallb_forall. intros k Hin. clear - HF' Hin H Heq. induction HF'; [contradiction|].
        destruct Hin as [ <- |Hin]; auto. rewrite (present_find_pos p m _ H). now rewrite H0. }
      rewrite (proj2 (all_different_spec keq (map fst kws)) Hdk), Hp. cbn [andb fst snd]. split; [reflexivity|].
      destruct (iter_write_all ps (map snd kws) m) as (W1 & W2 & W3).
      split; [|split; [auto|split; [auto|split]]].
      * rewrite W1, (write_updates keq Hkeq kws ps (fm_iter m) (iter_distinct p m H) HF'). now apply updates_perm.
      * now rewrite updates_keys.
      * unfold zlen in *. rewrite <- (map_length fst), updates_keys, map_length. auto.
    + assert (Hn : all_different keq (map fst kws) && forallb (present keq p) (map fst kws) = false).
      { apply andb_false_iff. destruct Hr as [Hr|(k & Hin & Hg)].
        - left. destruct (all_different _ _) eqn:A; auto. now apply all_different_spec in A.
        - right. destruct (forallb _ _) eqn:F; auto. rewrite forallb_forall in F. specialize (F k Hin).
          destruct (Hl k Hin) as (Hg' & _). rewrite Hg in Hg'. rewrite present_lookup in F.
          destruct (lookup keq p k); discriminate. }
      rewrite Hn. cbn [fst snd]. split; [reflexivity|exact H].
Qed.

Lemma run_simulates : forall os p m, describes p m ->
  (forall o k, In o os -> In k (op_keys o) -> has_kind kd k) ->
  Forall2 same_obs (run eqbO E m os) (abstract_run keq p os).
Proof.
  induction os as [|o os IH]; intros p m H Hk; cbn [run abstract_run]; [constructor|].
  destruct (step_simulates p m o H) as (H1 & H2); [intros k; apply Hk; cbn; auto|].
  destruct (step eqbO E m o) as [b m'], (abstract_step keq p o) as [b' p']. cbn [fst snd] in *.
  constructor; auto. apply IH; auto. intros o' k Ho. apply Hk. cbn. auto.
Qed.
End Simulation.

(** C38 *)
Lemma history_refinement :
  forall (O V : Type) (eqbO : O -> O -> bool) (E : env) (kd : kind) (bh : hasher O)
         (payload : list (key O * V)) (m : map_types O V) (history : list (op (key O) V)),
  env_ok E -> equivalence eqbO -> lawful_hash eqbO bh ->
  countable (prof E) (zlen payload) -> zlen payload < 2 ^ 64 -> typed kd payload ->
  distinct (key_eqb eqbO) (map fst payload) ->
  fm_new E kd payload bh = Ok m ->
  (forall o k, In o history -> In k (op_keys o) -> has_kind kd k) ->
  Forall2 same_obs (run eqbO E m history) (abstract_run (key_eqb eqbO) payload history).
Proof.
  intros O V eqbO E kd bh payload m history HE He Hl Hc Hz Ht Hd Hm Hk.
  destruct (built_sound eqbO E HE kd payload bh m Hc Ht Hm) as (HP & Hi & Hx & Hr).
  apply (run_simulates eqbO E kd bh He Hl); auto. unfold describes. auto 10.
Qed.
