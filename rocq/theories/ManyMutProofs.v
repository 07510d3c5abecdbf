(** [get_many_mut] neither reads uninitialized cells nor writes outside its array. *)
From Coq Require Import List ZArith Bool Arith Lia.
From Verif Require Import Spec Base Maps ManyMut.
Import ListNotations.

Section Proofs.
Context {Q : Type}.
Variable eqb : Q -> Q -> bool.
Variable get_at : Q -> res (option nat).

Lemma row_spec keys i js ki : nth_error keys i = Some ki -> (forall j, In j js -> (j < length keys)%nat) ->
  exists b, row_has_duplicate eqb keys i js = Ok b /\
    (b = true <-> exists j kj, In j js /\ nth_error keys j = Some kj /\ eqb kj ki = true).
Proof.
  intros Hi. induction js as [|j js IH]; intros Hj; cbn [row_has_duplicate].
  - exists false. split; auto. split; [discriminate|]. intros (? & ? & [] & _).
  - destruct (nth_error keys j) as [kj|] eqn:Ej.
    2:{ apply nth_error_None in Ej. specialize (Hj j (or_introl eq_refl)). lia. }
    unfold key_at. rewrite Ej, Hi. cbn [bind]. destruct (eqb kj ki) eqn:Eq.
    + exists true. split; auto. split; auto. intros _. exists j, kj. cbn. auto.
    + destruct IH as (b & Hb & Hiff); [intros; apply Hj; now right|]. exists b. split; auto. rewrite Hiff.
      split; intros (j' & k' & H1 & H2 & H3); exists j', k'; cbn [In] in *; [tauto|].
      destruct H1 as [<-|H1]; [|tauto]. rewrite Ej in H2. injection H2 as <-. congruence.
Qed.
Lemma rows_spec keys is : (forall i, In i is -> (i < length keys)%nat) ->
  exists b, rows_have_duplicate eqb keys is = Ok b /\
    (b = true <-> exists i j ki kj, In i is /\ (j < i)%nat /\ nth_error keys i = Some ki /\
       nth_error keys j = Some kj /\ eqb kj ki = true).
Proof.
  induction is as [|i is IH]; intros Hi; cbn [rows_have_duplicate].
  - exists false. split; auto. split; [discriminate|]. intros (? & ? & ? & ? & [] & _).
  - destruct (nth_error keys i) as [ki|] eqn:Ei.
    2:{ apply nth_error_None in Ei. specialize (Hi i (or_introl eq_refl)). lia. }
    destruct (row_spec keys i (seq 0 i) ki Ei) as (b & Hb & Hiff).
    { intros j Hj. apply in_seq in Hj. specialize (Hi i (or_introl eq_refl)). lia. }
    rewrite Hb. cbn [bind]. destruct b.
    + exists true. split; auto. split; auto. intros _. destruct (proj1 Hiff eq_refl) as (j & kj & H1 & H2 & H3).
      apply in_seq in H1. exists i, j, ki, kj. cbn [In]. repeat split; auto; lia.
    + destruct IH as (c & Hc & Hc'); [intros; apply Hi; now right|]. exists c. split; auto. rewrite Hc'.
      split.
      * intros (i' & j & k1 & k2 & H1 & H2). exists i', j, k1, k2. cbn [In]. tauto.
      * intros (i' & j & k1 & k2 & [<-|H1] & H2 & H3 & H4 & H5); [|exists i', j, k1, k2; tauto].
        enough (false = true) by discriminate. apply Hiff. exists j, k2. rewrite in_seq.
        rewrite Ei in H3. injection H3 as <-. repeat split; auto; lia.
Qed.

Lemma write_cell_next done r n :
  write_cell (map Some done ++ repeat None (S n)) (length done) r = Ok (map Some (done ++ [r]) ++ repeat None n).
Proof.
  induction done as [|d done IH]; cbn [map app length write_cell repeat]; auto.
  cbn [repeat] in IH. rewrite IH. reflexivity.
Qed.
Lemma assume_init_all rs : assume_init (map Some rs) = Ok rs.
Proof. induction rs as [|r rs IH]; cbn; auto. now rewrite IH. Qed.

Lemma fill_spec keys done :
  (filled <- fill get_at (map Some done ++ uninit (length keys)) (length done) keys ;;
   match filled with None => Ok None | Some p => rs <- assume_init p ;; Ok (Some rs) end) =
  (r <- get_each get_at keys ;; Ok (option_map (app done) r)).
Proof.
  revert done. induction keys as [|k keys IH]; intros done; cbn [fill get_each length].
  - unfold uninit. cbn [repeat bind option_map]. rewrite !app_nil_r, assume_init_all. reflexivity.
  - destruct (get_at k) as [[r|]| | |]; cbn [bind option_map]; auto.
    unfold uninit in *. rewrite write_cell_next. cbn [bind].
    specialize (IH (done ++ [r])). rewrite app_length, Nat.add_1_r in IH. rewrite IH.
    destruct (get_each get_at keys) as [[l|]| | |]; cbn [bind option_map]; auto. now rewrite <- app_assoc.
Qed.

Lemma has_duplicate_key_spec seen keys :
  has_duplicate_key eqb seen keys = true <->
  exists i ki, nth_error keys i = Some ki /\
    ((exists k, In k seen /\ eqb k ki = true) \/ (exists j kj, (j < i)%nat /\ nth_error keys j = Some kj /\ eqb kj ki = true)).
Proof.
  revert seen. induction keys as [|k keys IH]; intros seen; cbn [has_duplicate_key].
  - split; [discriminate|]. intros ([|i] & ki & H & _); discriminate.
  - rewrite orb_true_iff, existsb_exists, IH. split.
    + intros [(x & H1 & H2)|(i & ki & H1 & H2)].
      * exists 0%nat, k. split; auto. left. eauto.
      * exists (S i), ki. split; auto. destruct H2 as [(x & H2 & H3)|(j & kj & H2 & H3 & H4)].
        -- rewrite in_app_iff in H2. destruct H2 as [H2|[<-|[]]]; [left; eauto|]. right. exists 0%nat, k. repeat split; auto; lia.
        -- right. exists (S j), kj. repeat split; auto; lia.
    + intros ([|i] & ki & H1 & H2); cbn [nth_error] in H1.
      * injection H1 as <-. left. destruct H2 as [(x & H2 & H3)|(j & kj & H2 & _)]; [eauto|lia].
      * right. exists i, ki. split; auto. destruct H2 as [(x & H2 & H3)|([|j] & kj & H2 & H3 & H4)].
        -- left. exists x. rewrite in_app_iff. auto.
        -- cbn in H3. injection H3 as <-. left. exists k. rewrite in_app_iff. cbn. auto.
        -- right. exists j, kj. repeat split; auto; lia.
Qed.

Lemma many_mut_equal keys : get_many_mut_in_memory eqb get_at keys = get_many_mut eqb get_at keys.
Proof.
  unfold get_many_mut_in_memory, get_many_mut.
  destruct (rows_spec keys (seq 0 (length keys))) as (b & Hb & Hiff).
  { intros i Hi. apply in_seq in Hi. lia. }
  rewrite Hb. cbn [bind]. replace (has_duplicate_key eqb [] keys) with b.
  2:{ apply eq_true_iff_eq. rewrite Hiff, has_duplicate_key_spec. split.
      - intros (i & j & ki & kj & H1 & H2 & H3 & H4 & H5). exists i, ki. split; auto. right. eauto.
      - intros (i & ki & H1 & [(x & [] & _)|(j & kj & H2 & H3 & H4)]). exists i, j, ki, kj.
        repeat split; auto. apply in_seq. assert (i < length keys)%nat by (apply nth_error_Some; congruence). lia. }
  destruct b; auto. pose proof (fill_spec keys []) as H. cbn [map app length] in H. rewrite H.
  destruct (get_each get_at keys) as [[l|]| | |]; reflexivity.
Qed.
End Proofs.

Lemma in_memory_found {Q} (eqb : Q -> Q -> bool) get_at keys ps :
  get_many_mut_in_memory eqb get_at keys = Ok (Some ps) -> Forall2 (fun k p => get_at k = Ok (Some p)) keys ps.
Proof.
  rewrite many_mut_equal. unfold get_many_mut. destruct (has_duplicate_key eqb [] keys); [discriminate|].
  revert ps. induction keys as [|k keys IH]; intros ps; cbn [get_each].
  - intros [= <-]. constructor.
  - destruct (get_at k) as [[r|]| | |] eqn:Er; cbn [bind]; try discriminate.
    destruct (get_each get_at keys) as [[l|]| | |]; cbn [bind]; try discriminate. intros [= <-]. constructor; auto.
Qed.

(** C64 *)
Lemma get_many_mut_memory :
  forall (Q : Type) (eqb : Q -> Q -> bool) (get_at : Q -> res (option nat)) (keys : list Q),
  (forall k, In k keys -> exists o, get_at k = Ok o) ->
  (exists r, get_many_mut_in_memory eqb get_at keys = Ok r) /\
  (forall ps, get_many_mut_in_memory eqb get_at keys = Ok (Some ps) <->
     (forall i j ki kj, (j < i)%nat -> nth_error keys i = Some ki -> nth_error keys j = Some kj -> eqb kj ki = false) /\
     Forall2 (fun k p => get_at k = Ok (Some p)) keys ps) /\
  get_many_mut_in_memory eqb get_at keys = get_many_mut eqb get_at keys.
Proof.
  intros Q eqb get_at keys Hok. split; [|split; [|apply many_mut_equal]].
  - rewrite many_mut_equal. unfold get_many_mut. destruct (has_duplicate_key eqb [] keys); eauto.
    induction keys as [|k keys IH]; cbn [get_each]; eauto.
    destruct (Hok k (or_introl eq_refl)) as ([r|] & ->); cbn [bind]; eauto.
    destruct IH as ([l|] & ->); cbn [bind]; eauto. intros; apply Hok; now right.
  - intros ps. split.
    + intros H. split; [|now apply in_memory_found with eqb].
      rewrite many_mut_equal in H. unfold get_many_mut in H.
      destruct (has_duplicate_key eqb [] keys) eqn:Ed; [discriminate|].
      intros i j ki kj Hji Hi Hj. destruct (eqb kj ki) eqn:E; auto.
      enough (has_duplicate_key eqb [] keys = true) by congruence. apply has_duplicate_key_spec. eauto 10.
    + intros (Hd & Hf). rewrite many_mut_equal. unfold get_many_mut.
      destruct (has_duplicate_key eqb [] keys) eqn:Ed.
      * apply has_duplicate_key_spec in Ed. destruct Ed as (i & ki & H1 & [(x & [] & _)|(j & kj & H2 & H3 & H4)]).
        rewrite (Hd i j ki kj) in H4 by auto. discriminate.
      * clear - Hf. induction Hf as [|k p keys ps H _ IH]; cbn [get_each]; auto. rewrite H. cbn [bind]. now rewrite IH.
Qed.
