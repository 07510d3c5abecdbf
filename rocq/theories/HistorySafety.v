(** No history of calls on a built FrozenMap goes wrong, whatever its size and however
    equality and hashing behave. *)
From Coq Require Import List ZArith Bool Arith Lia Permutation.
From Verif Require Import Spec MapSpec Base BaseLemmas HashTable Maps FrozenMap FrozenMapProofs
  FrozenMapFacts BuildSound Iterators IterSpec IteratorProofs HistorySpec History.
Import ListNotations.
Open Scope Z_scope.

Section Safety.
Context {O V : Type}.
Variable eqbO : O -> O -> bool.
Variable E : env.
Variable kd : kind.
Variable payload : list (key O * V).
Hypothesis Hsize : zlen payload < 2 ^ 64.
Notation keq := (key_eqb eqbO).
Implicit Types (m : map_types O V) (written : list V).

Definition tracks written m : Prop :=
  fm_safe kd m /\ Permutation (map fst (fm_iter m)) (map fst payload) /\
  incl (map snd (fm_iter m)) (map snd payload ++ written).

Lemma tracks_len written m : tracks written m -> zlen (fm_iter m) = zlen payload.
Proof.
  intros (_ & H & _). apply zlen_perm in H. now rewrite !zlen_map in H.
Qed.

Lemma tracks_more written ws m : tracks written m -> tracks (written ++ ws) m.
Proof.
  intros (H1 & H2 & H3). split; auto. split; auto. intros v Hv. apply H3 in Hv.
  rewrite app_assoc. apply in_or_app. auto.
Qed.

Lemma tracks_write written m i w : In w written -> tracks written m -> tracks written (fm_write i w m).
Proof.
  intros Hw (H1 & H2 & H3). split; [now apply fm_write_safe|].
  rewrite fm_iter_write. split; [now rewrite write_entry_keys|].
  intros v Hv. apply in_map_iff in Hv. destruct Hv as (e & <- & He).
  apply In_nth_error in He. destruct He as (j & He). rewrite nth_error_write_entry in He.
  destruct (Nat.eqb i j).
  - destruct (nth_error (fm_iter m) j); [|discriminate]. injection He as <-. apply in_or_app. auto.
  - apply H3. apply in_map. eapply nth_error_In; eauto.
Qed.

Lemma tracks_write_all written : forall ps ws m, incl ws written -> tracks written m ->
  tracks written (write_all ps ws m).
Proof.
  unfold write_all. induction ps as [|p ps IH]; intros ws m Hw H; [exact H|].
  destruct ws as [|w ws]; [exact H|]. cbn [combine fold_left fst snd]. apply IH.
  - intros v Hv. apply Hw. now right.
  - apply tracks_write; auto. apply Hw. now left.
Qed.

Lemma tracks_entry written m i e : tracks written m -> nth_error (fm_iter m) i = Some e ->
  In (fst e) (map fst payload) /\ In (snd e) (map snd payload ++ written).
Proof.
  intros (_ & H2 & H3) He. apply nth_error_In in He. split.
  - apply (Permutation_in _ H2). now apply in_map.
  - apply H3. now apply in_map.
Qed.

Lemma step_sane written m o : tracks written m -> (forall k, In k (op_keys o) -> has_kind kd k) ->
  sane payload written o (fst (step eqbO E m o)) /\
  tracks (written ++ op_writes o) (snd (step eqbO E m o)).
Proof.
  intros H Hk. pose proof (tracks_len _ _ H) as Hlen. pose proof H as (Hs & HP & HI).
  assert (Hl : forall k, In k (op_keys o) -> _)
    by (intros k Hko; exact (fm_lookup_safe eqbO E kd m k Hs (Hk k Hko))).
  assert (Hsame : tracks (written ++ []) m) by now apply tracks_more.
  destruct o as [k|k|k|k| | | |k w|k w|kws]; cbn [op_keys op_writes] in *; cbn [step].
  - destruct (Hl k ltac:(cbn; auto)) as (r & _ & _ & -> & _ & Hr). cbn [observe fst snd sane]. split; auto.
    destruct r as [i|]; cbn [at_pos option_map]; auto.
    destruct (Hr i eq_refl) as (e & He & _). rewrite He. apply (tracks_entry _ _ _ _ H He).
  - destruct (Hl k ltac:(cbn; auto)) as (r & _ & _ & _ & -> & Hr). cbn [observe fst snd sane]. split; auto.
    destruct r as [i|]; cbn [at_pos option_map]; auto.
    destruct (Hr i eq_refl) as (e & He & _). rewrite He. apply (tracks_entry _ _ _ _ H He).
  - destruct (Hl k ltac:(cbn; auto)) as (r & _ & _ & Hg & _ & Hr).
    unfold fm_contains_key, contains_key. rewrite Hg. cbn. auto.
  - destruct (Hl k ltac:(cbn; auto)) as (r & _ & _ & Hg & _ & Hr).
    unfold fm_index, index_of. rewrite Hg. cbn [bind fst snd]. split; auto.
    destruct r as [i|]; cbn [at_pos option_map unwrap observe sane]; auto.
    destruct (Hr i eq_refl) as (e & He & _). rewrite He. apply (tracks_entry _ _ _ _ H He).
  - cbn [fst snd sane]. split; auto. rewrite fm_len_iter, Hlen. reflexivity.
  - cbn [fst snd sane]. split; auto. unfold fm_is_empty. rewrite fm_len_iter, Hlen, Z.eqb_eq.
    unfold zlen. destruct payload; cbn; split; intros; try discriminate; auto; lia.
  - assert (Hz' : zlen (fm_iter m) < 2 ^ 64) by lia.
    pose proof (fun it a l => it_at_cons (prof E) (fm_iter m) it a l Hz') as Hcons.
    rewrite (R_fold (it_next (prof E)) (it_at (fm_iter m)) (it_at_nil (prof E) (fm_iter m)) Hcons _ (fm_iter m));
      [|apply it_at_new|lia].
    assert (Hf : forall (l acc : list (key O * V)), fold_left (fun acc e => acc ++ [e]) l acc = acc ++ l).
    { induction l as [|x l IH]; intros acc; cbn; [now rewrite app_nil_r|]. now rewrite IH, <- app_assoc. }
    rewrite Hf. cbn [app observe fst snd sane]. auto.
  - destruct (Hl k ltac:(cbn; auto)) as (r & _ & -> & _ & _ & Hr).
    destruct r as [i|]; cbn [observe fst snd sane].
    + split; auto. apply tracks_write; [apply in_or_app; right; now left|now apply tracks_more].
    + split; auto. now apply tracks_more.
  - destruct (Hl k ltac:(cbn; auto)) as (r & _ & Hm & _ & _ & Hr).
    unfold fm_index_mut, index_of. rewrite Hm. cbn [bind].
    destruct r as [i|]; cbn [unwrap observe fst snd sane].
    + split; auto. apply tracks_write; [apply in_or_app; right; now left|now apply tracks_more].
    + split; auto. now apply tracks_more.
  - assert (Hr : exists r, fm_get_many_mut eqbO E m (map fst kws) = Ok r).
    { unfold fm_get_many_mut, get_many_mut. destruct (has_duplicate_key _ _ _); [eauto|].
      set (f := fun k => match fm_get_at eqbO E m k with Ok r => r | _ => None end).
      destruct (get_each_spec (fm_get_at eqbO E m) f (map fst kws)) as [(ps & -> & _)|(-> & _)]; eauto.
      intros k Hik. unfold f. destruct (Hl k Hik) as (r & -> & _). reflexivity. }
    destruct Hr as ([ps|] & ->); cbn [observe fst snd sane]; split; auto.
    + apply tracks_write_all; [apply incl_appr, incl_refl|now apply tracks_more].
    + now apply tracks_more.
Qed.

Lemma run_sane : forall os written m, tracks written m ->
  (forall o k, In o os -> In k (op_keys o) -> has_kind kd k) ->
  sane_run payload written os (run eqbO E m os).
Proof.
  induction os as [|o os IH]; intros written m H Hk; cbn [run sane_run]; [exact I|].
  destruct (step_sane written m o H) as (H1 & H2); [intros k; apply Hk; cbn; auto|].
  destruct (step eqbO E m o) as [b m']. cbn [fst snd] in *. cbn [sane_run].
  split; auto. apply IH; auto. intros o' k Ho. apply Hk. cbn. auto.
Qed.
End Safety.

(** C66 *)
Lemma history_never_goes_wrong :
  forall (O V : Type) (eqbO : O -> O -> bool) (E : env) (kd : kind) (bh : hasher O)
         (payload : list (key O * V)) (m : map_types O V) (history : list (op (key O) V)),
  env_ok E -> zlen payload < 2 ^ 64 -> typed kd payload ->
  fm_new E kd payload bh = Ok m ->
  (forall o k, In o history -> In k (op_keys o) -> has_kind kd k) ->
  sane_run payload [] history (run eqbO E m history).
Proof.
  intros O V eqbO E kd bh payload m history HE Hz Ht Hm Hk.
  destruct (built_safe eqbO E HE kd payload bh m Ht Hm) as (HP & Hs & _).
  apply (run_sane eqbO E kd payload Hz); auto. split; auto. split.
  - apply Permutation_sym. now apply Permutation_map.
  - rewrite app_nil_r. intros v Hv. apply (Permutation_in _ (Permutation_sym (Permutation_map snd HP))). exact Hv.
Qed.
