(** Proofs about the references into a map (Borrows.v). *)
From Coq Require Import List ZArith Bool Arith Lia.
From Verif Require Import Base BaseLemmas HashTable Maps FrozenMap Borrows BorrowSpec.
Import ListNotations.
Local Open Scope nat_scope.

Local Notation own t := {| permits := Unique; tag := t |}.
Local Notation share t := {| permits := Shared; tag := t |}.

(** ** Stacks *)

Definition stack_ok (box f : nat) (s : stack) : Prop :=
  exists above, s = above ++ [own box] /\ Forall (fun g => tag g <> box /\ tag g < f) above /\ box < f.

Lemma read_with_in t g s : In g s -> tag g = t -> read_with t s <> None.
Proof.
  induction s as [|x s IH]; cbn; [tauto|]. intros H Hg.
  destruct (Nat.eqb_spec (tag x) t); [discriminate|].
  destruct H as [->|H]; [congruence|]. specialize (IH H Hg).
  destruct (read_with t s); [|congruence]. destruct (permits x); discriminate.
Qed.

Lemma read_with_incl t : forall s s', read_with t s = Some s' -> incl s' s.
Proof.
  induction s as [|x s IH]; cbn; intros s' H; [discriminate|].
  destruct (tag x =? t); [inversion H; apply incl_refl|].
  destruct (read_with t s) as [r|]; [|discriminate]. specialize (IH r eq_refl).
  destruct (permits x); inversion H; subst.
  - now apply incl_tl.
  - apply incl_cons; [left; auto|now apply incl_tl].
Qed.

Lemma read_with_shared t g : forall s s', read_with t s = Some s' -> permits g = Shared -> In g s -> In g s'.
Proof.
  induction s as [|x s IH]; cbn; intros s' H Hg Hin; [tauto|].
  destruct (tag x =? t); [inversion H; subst; exact Hin|].
  destruct (read_with t s) as [r|]; [|discriminate].
  destruct Hin as [->|Hin].
  - rewrite Hg in H. inversion H. now left.
  - specialize (IH r eq_refl Hg Hin). destruct (permits x); inversion H; subst; cbn; auto.
Qed.

Lemma read_with_bottom t b : forall a s', read_with t (a ++ [b]) = Some s' ->
  exists a', s' = a' ++ [b] /\ incl a' a.
Proof.
  induction a as [|x a IH]; intros s' H; cbn in H.
  - destruct (tag b =? t); [|discriminate]. inversion H. exists []. split; auto. now intros ? [].
  - destruct (tag x =? t); [inversion H; exists (x :: a); split; [auto|apply incl_refl]|].
    destruct (read_with t (a ++ [b])) as [r|]; [|discriminate]. destruct (IH r eq_refl) as (a' & -> & Hi).
    destruct (permits x); inversion H; subst.
    + exists a'. split; auto. now apply incl_tl.
    + exists (x :: a'). split; auto. apply incl_cons; [left; auto|now apply incl_tl].
Qed.

Lemma write_with_bottom t b : forall a s', write_with t (a ++ [b]) = Some s' ->
  exists a', s' = a' ++ [b] /\ incl a' a.
Proof.
  induction a as [|x a IH]; intros s' H; cbn in H.
  - destruct (permits b); [|discriminate]. destruct (tag b =? t); [|discriminate]. inversion H.
    exists []. split; auto. now intros ? [].
  - assert (H' : s' = (x :: a) ++ [b] \/ write_with t (a ++ [b]) = Some s').
    { destruct (permits x); auto. destruct (tag x =? t); auto. inversion H. auto. }
    destruct H' as [->|H']; [exists (x :: a); split; [auto|apply incl_refl]|].
    destruct (IH _ H') as (a' & -> & Hi). exists a'. split; auto. now apply incl_tl.
Qed.

Lemma kept box f (a a' : stack) : incl a' a -> box < f -> Forall (fun g => tag g <> box /\ tag g < f) a ->
  stack_ok box f (a' ++ [own box]).
Proof.
  intros Hi Hb Ha. exists a'. repeat split; auto. rewrite Forall_forall in *. intros g Hg. apply Ha. now apply Hi.
Qed.

Lemma read_with_ok box f t s s' : stack_ok box f s -> read_with t s = Some s' -> stack_ok box f s'.
Proof.
  intros (a & -> & Ha & Hb) H. destruct (read_with_bottom _ _ _ _ H) as (a' & -> & Hi). eapply kept; eauto.
Qed.

Lemma write_with_ok box f t s s' : stack_ok box f s -> write_with t s = Some s' -> stack_ok box f s'.
Proof.
  intros (a & -> & Ha & Hb) H. destruct (write_with_bottom _ _ _ _ H) as (a' & -> & Hi). eapply kept; eauto.
Qed.

Lemma push_ok box f p s : stack_ok box f s -> stack_ok box (S f) ({| permits := p; tag := f |} :: s).
Proof.
  intros (a & -> & Ha & Hb). exists ({| permits := p; tag := f |} :: a). repeat split; [|lia].
  constructor; cbn; [lia|]. eapply Forall_impl; [|exact Ha]. cbn. lia.
Qed.

Lemma later_ok box f f' s : f <= f' -> stack_ok box f s -> stack_ok box f' s.
Proof.
  intros Hf (a & -> & Ha & Hb). exists a. repeat split; [|lia]. eapply Forall_impl; [|exact Ha]. cbn. lia.
Qed.

Lemma tags_below box f s g : stack_ok box f s -> In g s -> tag g < f.
Proof.
  intros (a & -> & Ha & Hb) H. apply in_app_iff in H as [H|[<-|[]]]; [|exact Hb].
  rewrite Forall_forall in Ha. now apply Ha.
Qed.

Lemma box_reads box f s : stack_ok box f s -> read_with box s <> None.
Proof.
  intros (a & -> & _ & _). apply (read_with_in _ (own box)); auto. apply in_or_app. right. now left.
Qed.

Lemma box_writes box f s : stack_ok box f s -> write_with box s <> None.
Proof.
  intros (a & -> & Ha & _). induction a as [|x a IH]; cbn; [now rewrite Nat.eqb_refl|].
  inversion Ha as [|? ? (Hx & _) Ha']; subst. destruct (permits x); auto.
  destruct (Nat.eqb_spec (tag x) box); [congruence|auto].
Qed.

Lemma write_refused t s : (forall g, In g s -> tag g = t -> permits g = Shared) -> write_with t s = None.
Proof.
  induction s as [|x s IH]; cbn; intros H; auto.
  destruct (permits x) eqn:Hx; [|apply IH; auto].
  destruct (Nat.eqb_spec (tag x) t) as [e|_]; [|apply IH; auto].
  specialize (H x (or_introl eq_refl) e). congruence.
Qed.

Lemma top_reads t p s : read_with t ({| permits := p; tag := t |} :: s) = Some ({| permits := p; tag := t |} :: s).
Proof. cbn. now rewrite Nat.eqb_refl. Qed.
Lemma top_writes t s : write_with t (own t :: s) = Some (own t :: s).
Proof. cbn. now rewrite Nat.eqb_refl. Qed.

(** ** Cells *)

Definition index (c : cell) : nat := match c with KeyOf i | ValueOf i => i end.

Lemma cell_eqb_spec c d : reflect (c = d) (cell_eqb c d).
Proof.
  destruct c as [i|i], d as [j|j]; cbn; try (constructor; discriminate);
    destruct (Nat.eqb_spec i j); constructor; congruence.
Qed.

Lemma in_entry c i : In c (entry_cells i) <-> index c = i.
Proof. destruct c; cbn; intuition; subst; auto; try congruence. Qed.

Lemma in_slice c lo n : In c (slice_cells lo n) <-> lo <= index c < lo + n.
Proof.
  unfold slice_cells. rewrite in_flat_map. split.
  - intros (i & H & Hc). apply in_entry in Hc. apply in_seq in H. lia.
  - intros H. exists (index c). split; [apply in_seq; lia|now apply in_entry].
Qed.

Lemma entry_nodup i : NoDup (entry_cells i).
Proof. constructor; [intros [H|[]]; discriminate|]. constructor; [intros []|constructor]. Qed.

Lemma slice_nodup lo n : NoDup (slice_cells lo n).
Proof.
  revert lo. induction n as [|n IH]; intros lo; [constructor|].
  assert (H1 : forall c, index c = lo -> ~ In c (slice_cells (S lo) n)) by (intros c Hc H; apply in_slice in H; lia).
  change (slice_cells lo (S n)) with (KeyOf lo :: ValueOf lo :: slice_cells (S lo) n).
  constructor; [intros [H|H]; [discriminate|now apply (H1 (KeyOf lo))]|].
  constructor; [now apply H1|apply IH].
Qed.

Lemma touch_ok f : forall cs st, NoDup cs -> (forall c, In c cs -> f (st c) <> None) ->
  exists st', touch f cs st = Ok st' /\ (forall c, In c cs -> f (st c) = Some (st' c)) /\
    (forall c, ~ In c cs -> st' c = st c).
Proof.
  induction cs as [|c cs IH]; intros st Hn Hf; cbn [touch].
  - exists st. repeat split; auto. intros c [].
  - inversion Hn as [|? ? Hc Hn']; subst.
    destruct (f (st c)) as [s|] eqn:Es; [|exfalso; apply (Hf c); cbn; auto].
    assert (Hother : forall d, In d cs -> (if cell_eqb c d then s else st d) = st d).
    { intros d Hd. destruct (cell_eqb_spec c d); [subst; tauto|auto]. }
    destruct (IH (fun d => if cell_eqb c d then s else st d) Hn') as (st' & H1 & H2 & H3).
    { intros d Hd. rewrite Hother by exact Hd. apply Hf. now right. }
    exists st'. split; [exact H1|]. split.
    + intros d [<-|Hd].
      * rewrite Es, (H3 c Hc). now destruct (cell_eqb_spec c c).
      * rewrite <- (H2 d Hd). now rewrite Hother.
    + intros d Hd. rewrite H3 by (intros H; apply Hd; now right).
      destruct (cell_eqb_spec c d); [subst; exfalso; apply Hd; now left|auto].
Qed.

Lemma touch_refused f c cs st : f (st c) = None -> touch f (c :: cs) st = UB Aliasing.
Proof. intros H. cbn. now rewrite H. Qed.

(** ** Heaps *)

Definition heap_ok (box n : nat) (h : heap) : Prop := forall c, index c < n -> stack_ok box (fresh h) (stacks h c).

Lemma boxed_ok box n : heap_ok box n (boxed box n).
Proof.
  intros c Hc. exists []. cbn [boxed stacks fresh]. repeat split; [|constructor|lia].
  destruct c; cbn [index] in Hc; now rewrite (proj2 (Nat.ltb_lt _ _) Hc).
Qed.

(** Only shared grants added, none lost. *)
Definition only_reads (h h' : heap) : Prop :=
  fresh h <= fresh h' /\
  (forall c g, In g (stacks h c) -> permits g = Shared -> In g (stacks h' c)) /\
  (forall c g, In g (stacks h' c) -> In g (stacks h c) \/ (permits g = Shared /\ fresh h <= tag g)).

Lemma only_reads_refl h : only_reads h h.
Proof. repeat split; auto. Qed.
Lemma only_reads_trans a b c : only_reads a b -> only_reads b c -> only_reads a c.
Proof.
  intros (H1 & H2 & H3) (G1 & G2 & G3). repeat split; [lia|auto|].
  intros x g Hg. destruct (G3 x g Hg) as [Hb|(Hs & Ht)]; [auto|]. right. split; [auto|lia].
Qed.

Section Steps.
Variables box n : nat.

Lemma borrow_ok t cs h : heap_ok box n h -> NoDup cs ->
  (forall c, In c cs -> index c < n /\ read_with t (stacks h c) <> None) ->
  exists h', borrow t cs h = Ok (fresh h, h') /\ heap_ok box n h' /\ only_reads h h' /\
    (forall c, In c cs -> exists s, read_with t (stacks h c) = Some s /\ stacks h' c = share (fresh h) :: s) /\
    (forall c, ~ In c cs -> stacks h' c = stacks h c) /\ fresh h' = S (fresh h).
Proof.
  intros Hh Hn Hc. unfold borrow.
  destruct (touch_ok (fun s => option_map (cons (share (fresh h))) (read_with t s)) cs (stacks h) Hn)
    as (st & -> & H1 & H2).
  { intros c Hi. destruct (Hc c Hi) as (_ & Hr). destruct (read_with t (stacks h c)); [discriminate|congruence]. }
  cbn [bind]. eexists. split; [reflexivity|]. cbn [stacks fresh].
  assert (Hin : forall c, In c cs -> exists s, read_with t (stacks h c) = Some s /\ st c = share (fresh h) :: s).
  { intros c Hi. specialize (H1 c Hi). destruct (read_with t (stacks h c)) as [s|]; [|discriminate].
    inversion H1. exists s. auto. }
  assert (Hdec : forall c, In c cs \/ ~ In c cs).
  { intros c. destruct (in_dec (fun a b => reflect_dec _ _ (cell_eqb_spec a b)) c cs); auto. }
  split; [|split; [|auto]].
  - intros c Hi. cbn [stacks fresh]. destruct (Hdec c) as [Hd|Hd].
    + destruct (Hin c Hd) as (s & Hs & ->). apply push_ok. exact (read_with_ok _ _ _ _ _ (Hh c Hi) Hs).
    + rewrite (H2 c Hd). apply (later_ok _ (fresh h)); [lia|auto].
  - split; [cbn; lia|]. cbn [stacks fresh]. split; intros c g Hg.
    + intros Hp. destruct (Hdec c) as [Hd|Hd]; [|now rewrite H2].
      destruct (Hin c Hd) as (s & Hs & ->). right. exact (read_with_shared _ _ _ _ Hs Hp Hg).
    + destruct (Hdec c) as [Hd|Hd]; [|rewrite H2 in Hg; auto].
      destruct (Hin c Hd) as (s & Hs & He). rewrite He in Hg. destruct Hg as [<-|Hg]; [right; cbn; auto|].
      left. exact (read_with_incl _ _ _ Hs g Hg).
Qed.

Lemma borrow_mut_ok t cs h : heap_ok box n h -> NoDup cs ->
  (forall c, In c cs -> index c < n /\ write_with t (stacks h c) <> None) ->
  exists h', borrow_mut t cs h = Ok (fresh h, h') /\ heap_ok box n h' /\
    (forall c, In c cs -> exists s, stacks h' c = own (fresh h) :: s) /\
    (forall c, ~ In c cs -> stacks h' c = stacks h c) /\ fresh h' = S (fresh h).
Proof.
  intros Hh Hn Hc. unfold borrow_mut.
  destruct (touch_ok (fun s => option_map (cons (own (fresh h))) (write_with t s)) cs (stacks h) Hn)
    as (st & -> & H1 & H2).
  { intros c Hi. destruct (Hc c Hi) as (_ & Hr). destruct (write_with t (stacks h c)); [discriminate|congruence]. }
  cbn [bind]. eexists. split; [reflexivity|]. cbn [stacks fresh].
  assert (Hin : forall c, In c cs -> exists s, write_with t (stacks h c) = Some s /\ st c = own (fresh h) :: s).
  { intros c Hi. specialize (H1 c Hi). destruct (write_with t (stacks h c)) as [s|]; [|discriminate].
    inversion H1. exists s. auto. }
  split; [|split; [|auto]].
  - intros c Hi. cbn [stacks fresh].
    destruct (in_dec (fun a b => reflect_dec _ _ (cell_eqb_spec a b)) c cs) as [Hd|Hd].
    + destruct (Hin c Hd) as (s & Hs & ->). apply push_ok. exact (write_with_ok _ _ _ _ _ (Hh c Hi) Hs).
    + rewrite (H2 c Hd). apply (later_ok _ (fresh h)); [lia|auto].
  - intros c Hi. destruct (Hin c Hi) as (s & _ & ->). eauto.
Qed.

Lemma read_ok t c h : heap_ok box n h -> index c < n -> read_with t (stacks h c) <> None ->
  exists h', read t [c] h = Ok h' /\ heap_ok box n h' /\ only_reads h h' /\
    read_with t (stacks h c) = Some (stacks h' c) /\
    (forall d, d <> c -> stacks h' d = stacks h d) /\ fresh h' = fresh h.
Proof.
  intros Hh Hi Hr. unfold read.
  destruct (touch_ok (read_with t) [c] (stacks h)) as (st & -> & H1 & H2).
  { constructor; [intros []|constructor]. } { intros d [<-|[]]. exact Hr. }
  cbn [bind]. eexists. split; [reflexivity|]. cbn [stacks fresh].
  specialize (H1 c (or_introl eq_refl)).
  assert (H2' : forall d, d <> c -> st d = stacks h d) by (intros d Hd; apply H2; intros [->|[]]; congruence).
  split; [|split; [|auto]].
  - intros d Hd. cbn [stacks fresh]. destruct (cell_eqb_spec d c) as [->|Hn].
    + exact (read_with_ok _ _ _ _ _ (Hh c Hi) H1).
    + rewrite (H2' d Hn). auto.
  - split; [cbn; lia|]. cbn [stacks fresh]. split; intros d g Hg.
    + intros Hp. destruct (cell_eqb_spec d c) as [->|Hn]; [|now rewrite H2'].
      exact (read_with_shared _ _ _ _ H1 Hp Hg).
    + left. destruct (cell_eqb_spec d c) as [->|Hn]; [|rewrite H2' in Hg; auto].
      exact (read_with_incl _ _ _ H1 g Hg).
Qed.

Lemma write_ok t c h : heap_ok box n h -> index c < n -> write_with t (stacks h c) <> None ->
  exists h', write t [c] h = Ok h' /\ heap_ok box n h' /\ write_with t (stacks h c) = Some (stacks h' c).
Proof.
  intros Hh Hi Hr. unfold write.
  destruct (touch_ok (write_with t) [c] (stacks h)) as (st & -> & H1 & H2).
  { constructor; [intros []|constructor]. } { intros d [<-|[]]. exact Hr. }
  cbn [bind]. eexists. split; [reflexivity|]. cbn [stacks fresh].
  specialize (H1 c (or_introl eq_refl)). split; [|exact H1].
  intros d Hd. cbn [stacks fresh]. destruct (cell_eqb_spec d c) as [->|Hn].
  - exact (write_with_ok _ _ _ _ _ (Hh c Hi) H1).
  - rewrite H2 by (intros [->|[]]; congruence). auto.
Qed.

(** ** Searches *)

Lemma shared_readable t h c : In (share t) (stacks h c) -> read_with t (stacks h c) <> None.
Proof. intros H. exact (read_with_in _ _ _ H eq_refl). Qed.

Lemma single (c : cell) : NoDup [c].
Proof. constructor; [intros []|constructor]. Qed.

(** What a shared search leaves: the reference found is readable and only readable. *)
Definition found (h h' : heap) (pos : option nat) (r : option value_ref) : Prop :=
  match pos with
  | None => r = None
  | Some i => exists v, r = Some (v, i) /\ In (share v) (stacks h' (ValueOf i)) /\ fresh h <= v < fresh h'
  end.

Lemma search_ok t : forall answers i h, heap_ok box n h -> i + length answers <= n ->
  (forall c, i <= index c < i + length answers -> In (share t) (stacks h c)) ->
  exists r h', search t i answers h = Ok (r, h') /\ heap_ok box n h' /\ only_reads h h' /\
    found h h' (option_map (fun j => i + j) (find_pos (fun b => b) answers)) r.
Proof.
  induction answers as [|b answers IH]; intros i h Hh Hn Ht; cbn [search].
  - exists None, h. repeat split; auto.
  - cbn [length] in *.
    destruct (borrow_ok t (entry_cells i) h Hh (entry_nodup i)) as (h1 & -> & O1 & R1 & G1 & _ & F1).
    { intros c Hc. apply in_entry in Hc. split; [lia|]. apply shared_readable, Ht. lia. }
    cbn [bind].
    assert (E1 : forall c, index c = i -> In (share (fresh h)) (stacks h1 c)).
    { intros c Hc. destruct (G1 c (proj2 (in_entry c i) Hc)) as (s & _ & ->). now left. }
    destruct (borrow_ok (fresh h) [KeyOf i] h1 O1 (single _)) as (h2 & -> & O2 & R2 & G2 & _ & F2).
    { intros c [<-|[]]. split; [cbn; lia|]. apply shared_readable, E1. reflexivity. }
    cbn [bind].
    destruct (read_ok (fresh h1) (KeyOf i) h2 O2) as (h3 & -> & O3 & R3 & _ & _ & F3); [cbn; lia| |].
    { apply shared_readable. destruct (G2 (KeyOf i) (or_introl eq_refl)) as (s & _ & ->). now left. }
    cbn [bind]. assert (R : only_reads h h3) by eauto using only_reads_trans.
    destruct b; cbn [find_pos].
    + destruct (borrow_ok (fresh h) [ValueOf i] h3 O3 (single _)) as (h4 & -> & O4 & R4 & G4 & _ & F4).
      { intros c [<-|[]]. split; [cbn; lia|]. apply shared_readable.
        apply (only_reads_trans _ _ _ R2 R3); [apply E1|]; reflexivity. }
      cbn [bind]. exists (Some (fresh h3, i)), h4. split; [reflexivity|]. split; [exact O4|].
      split; [eauto using only_reads_trans|]. cbn [option_map found]. rewrite Nat.add_0_r.
      exists (fresh h3). repeat split; [|rewrite F3, F2, F1; lia|lia].
      destruct (G4 (ValueOf i) (or_introl eq_refl)) as (s & _ & ->). now left.
    + destruct (IH (S i) h3 O3) as (r & h' & -> & O' & R' & Hf); [lia| |].
      { intros c Hc. apply R; [apply Ht; lia|reflexivity]. }
      exists r, h'. split; [reflexivity|]. split; [exact O'|]. split; [eauto using only_reads_trans|].
      destruct (find_pos (fun b => b) answers) as [j|]; cbn [option_map found] in *; [|exact Hf].
      destruct Hf as (v & -> & Hv & Hb). replace (i + S j) with (S i + j) by lia.
      exists v. repeat split; auto; [|lia]. destruct R as (Rf & _). lia.
Qed.

Lemma search_mut_ok t : forall answers i h, heap_ok box n h -> i + length answers <= n ->
  (forall c, i <= index c < i + length answers -> exists s, stacks h c = own t :: s) ->
  exists r h', search_mut t i answers h = Ok (r, h') /\ heap_ok box n h' /\
    match option_map (fun j => i + j) (find_pos (fun b => b) answers) with
    | None => r = None
    | Some p => exists v s, r = Some (v, p) /\ stacks h' (ValueOf p) = own v :: s
    end.
Proof.
  induction answers as [|b answers IH]; intros i h Hh Hn Ht; cbn [search_mut].
  - exists None, h. repeat split; auto.
  - cbn [length] in *.
    destruct (borrow_mut_ok t (entry_cells i) h Hh (entry_nodup i)) as (h1 & -> & O1 & G1 & K1 & F1).
    { intros c Hc. apply in_entry in Hc. split; [lia|]. destruct (Ht c) as (s & ->); [lia|]. now rewrite top_writes. }
    cbn [bind].
    assert (E1 : forall c, index c = i -> exists s, stacks h1 c = own (fresh h) :: s).
    { intros c Hc. exact (G1 c (proj2 (in_entry c i) Hc)). }
    destruct (borrow_ok (fresh h) [KeyOf i] h1 O1 (single _)) as (h2 & -> & O2 & _ & G2 & K2 & F2).
    { intros c [<-|[]]. split; [cbn; lia|]. destruct (E1 (KeyOf i) eq_refl) as (s & ->). now rewrite top_reads. }
    cbn [bind].
    destruct (read_ok (fresh h1) (KeyOf i) h2 O2) as (h3 & -> & O3 & _ & _ & K3 & F3); [cbn; lia| |].
    { apply shared_readable. destruct (G2 (KeyOf i) (or_introl eq_refl)) as (s & _ & ->). now left. }
    cbn [bind].
    assert (K : forall c, c <> KeyOf i -> stacks h3 c = stacks h1 c).
    { intros c Hc. rewrite (K3 c Hc). apply K2. intros [e|[]]. now apply Hc. }
    destruct b; cbn [find_pos].
    + destruct (borrow_mut_ok (fresh h) [ValueOf i] h3 O3 (single _)) as (h4 & -> & O4 & G4 & _ & _).
      { intros c [<-|[]]. split; [cbn; lia|]. rewrite K by discriminate.
        destruct (E1 (ValueOf i) eq_refl) as (s & ->). now rewrite top_writes. }
      cbn [bind]. exists (Some (fresh h3, i)), h4. split; [reflexivity|]. split; [exact O4|].
      cbn [option_map]. rewrite Nat.add_0_r.
      destruct (G4 (ValueOf i) (or_introl eq_refl)) as (s & Hs). exists (fresh h3), s. auto.
    + destruct (IH (S i) h3 O3) as (r & h' & -> & O' & Hf); [lia| |].
      { intros c Hc. rewrite K, K1 by (try (intros H; apply in_entry in H); destruct c; cbn in *; try lia; intros H; inversion H; lia).
        apply Ht. lia. }
      exists r, h'. split; [reflexivity|]. split; [exact O'|].
      destruct (find_pos (fun b => b) answers) as [j|]; cbn [option_map] in *; [|exact Hf].
      replace (i + S j) with (S i + j) by lia. exact Hf.
Qed.

Definition lookup_pos (l : lookup) : option nat :=
  match l with
  | Probe lo answers => option_map (fun j => lo + j) (find_pos (fun b => b) answers)
  | At i => Some i
  | Missing => None
  end.
Definition lookup_in (l : lookup) : Prop :=
  match l with Probe lo answers => lo + length answers <= n | At i => i < n | Missing => True end.

Lemma lookup_pos_in l i : lookup_in l -> lookup_pos l = Some i -> i < n.
Proof.
  destruct l as [lo answers|j|]; cbn; intros H E; try congruence.
  destruct (find_pos (fun b => b) answers) as [j|] eqn:Ej; [|discriminate]. inversion E; subst.
  apply find_pos_some in Ej. destruct Ej as (x & Hx & _). assert (j < length answers) by (apply nth_error_Some; congruence). lia.
Qed.

Lemma get_ref_ok l h : heap_ok box n h -> lookup_in l ->
  exists r h', get_ref box l h = Ok (r, h') /\ heap_ok box n h' /\ only_reads h h' /\ found h h' (lookup_pos l) r.
Proof.
  intros Hh Hl. destruct l as [lo answers|i|]; cbn [get_ref lookup_pos lookup_in] in *.
  - destruct (borrow_ok box (slice_cells lo (length answers)) h Hh (slice_nodup _ _)) as (h1 & -> & O1 & R1 & G1 & _ & F1).
    { intros c Hc. apply in_slice in Hc. split; [lia|]. apply (box_reads _ (fresh h)), Hh. lia. }
    cbn [bind].
    destruct (search_ok (fresh h) answers lo h1 O1 Hl) as (r & h' & -> & O' & R' & Hf).
    { intros c Hc. destruct (G1 c (proj2 (in_slice c _ _) Hc)) as (s & _ & ->). now left. }
    exists r, h'. split; [reflexivity|]. split; [exact O'|]. split; [eauto using only_reads_trans|].
    destruct (find_pos (fun b => b) answers) as [j|]; cbn [option_map found] in *; [|exact Hf].
    destruct Hf as (v & -> & Hv & Hb). exists v. repeat split; auto; lia.
  - destruct (borrow_ok box [ValueOf i] h Hh (single _)) as (h1 & -> & O1 & R1 & G1 & _ & F1).
    { intros c [<-|[]]. split; [exact Hl|]. apply (box_reads _ (fresh h)), Hh. exact Hl. }
    cbn [bind]. exists (Some (fresh h, i)), h1. split; [reflexivity|]. split; [exact O1|]. split; [exact R1|].
    exists (fresh h). repeat split; [|lia|lia].
    destruct (G1 (ValueOf i) (or_introl eq_refl)) as (s & _ & ->). now left.
  - exists None, h. repeat split; auto.
Qed.

Lemma get_mut_ref_ok l h : heap_ok box n h -> lookup_in l ->
  exists r h', get_mut_ref box l h = Ok (r, h') /\ heap_ok box n h' /\
    match lookup_pos l with
    | None => r = None
    | Some p => exists v s, r = Some (v, p) /\ stacks h' (ValueOf p) = own v :: s
    end.
Proof.
  intros Hh Hl. destruct l as [lo answers|i|]; cbn [get_mut_ref lookup_pos lookup_in] in *.
  - destruct (borrow_mut_ok box (slice_cells lo (length answers)) h Hh (slice_nodup _ _)) as (h1 & -> & O1 & G1 & _ & _).
    { intros c Hc. apply in_slice in Hc. split; [lia|]. apply (box_writes _ (fresh h)), Hh. lia. }
    cbn [bind].
    destruct (search_mut_ok (fresh h) answers lo h1 O1 Hl) as (r & h' & -> & O' & Hf).
    { intros c Hc. exact (G1 c (proj2 (in_slice c _ _) Hc)). }
    exists r, h'. auto.
  - destruct (borrow_mut_ok box [ValueOf i] h Hh (single _)) as (h1 & -> & O1 & G1 & _ & _).
    { intros c [<-|[]]. split; [exact Hl|]. apply (box_writes _ (fresh h)), Hh. exact Hl. }
    cbn [bind]. exists (Some (fresh h, i)), h1. split; [reflexivity|]. split; [exact O1|].
    destruct (G1 (ValueOf i) (or_introl eq_refl)) as (s & Hs). exists (fresh h), s. auto.
  - exists None, h. auto.
Qed.

(** ** Uses of the references *)

Lemma accesses_ok v p : p < n -> forall acts h s, heap_ok box n h -> stacks h (ValueOf p) = own v :: s ->
  exists h', accesses (v, p) acts h = Ok h' /\ heap_ok box n h'.
Proof.
  intros Hp. induction acts as [|w acts IH]; intros h s Hh Hs; cbn [accesses]; [eauto|].
  assert (H : exists h', (if w then write_value (v, p) h else read_value (v, p) h) = Ok h' /\
                heap_ok box n h' /\ stacks h' (ValueOf p) = own v :: s).
  { destruct w; unfold write_value, read_value; cbn [fst snd].
    - destruct (write_ok v (ValueOf p) h Hh Hp) as (h' & H1 & H2 & H3); [now rewrite Hs, top_writes|].
      rewrite Hs, top_writes in H3. inversion H3. eauto.
    - destruct (read_ok v (ValueOf p) h Hh Hp) as (h' & H1 & H2 & _ & H3 & _); [now rewrite Hs, top_reads|].
      rewrite Hs, top_reads in H3. inversion H3. eauto. }
  destruct H as (h' & -> & H1 & H2). cbn [bind]. eauto.
Qed.

Definition readable (h : heap) (r : value_ref) : Prop := snd r < n /\ In (share (fst r)) (stacks h (ValueOf (snd r))).

Lemma readable_later h h' r : only_reads h h' -> readable h r -> readable h' r.
Proof. intros R (H1 & H2). split; auto. apply R; auto. Qed.

Lemma reads_ok rs : forall order h, heap_ok box n h -> Forall (readable h) rs ->
  exists h', reads rs order h = Ok h' /\ heap_ok box n h' /\ only_reads h h'.
Proof.
  induction order as [|i order IH]; intros h Hh Hr; cbn [reads]; [eauto using only_reads_refl|].
  destruct (nth_error rs i) as [r|] eqn:Er; cbn [bind].
  - assert (Hi := proj1 (Forall_forall _ _) Hr r (nth_error_In _ _ Er)). destruct Hi as (Hp & Hi).
    destruct (read_ok (fst r) (ValueOf (snd r)) h Hh Hp (shared_readable _ _ _ Hi)) as (h' & H1 & H2 & H3 & _).
    unfold read_value. rewrite H1. cbn [bind].
    destruct (IH h' H2) as (h'' & -> & G1 & G2); [|eauto using only_reads_trans].
    eapply Forall_impl; [|exact Hr]. intros a. now apply readable_later.
  - exact (IH h Hh Hr).
Qed.
End Steps.

(** ** FrozenMap *)

Section Facade.
Context {O V : Type}.
Variable eqbO : O -> O -> bool.
Variable E : env.
Variable box : nat.
Variable m : map_types O V.
Notation n := (length (fm_iter m)).

Lemma sub_fits {A} a b (l : list A) : range_ok a b l = true -> (Z.to_nat a + length (sub a b l) <= length l)%nat.
Proof.
  intros H. apply range_ok_iff in H as (Ha & Hb). unfold sub. rewrite firstn_length, skipn_length. unfold zlen in Hb. lia.
Qed.

Lemma ht_lookup_ok {K} (t : hash_table K V) range matches r : ht_probe t range matches = Ok r ->
  exists l, ht_lookup t range matches = Ok l /\ lookup_pos l = r /\ lookup_in (length (entries t)) l.
Proof.
  unfold ht_probe, ht_lookup, slice_unchecked. intros H.
  destruct (range_ok (fst range) (snd range) (entries t)) eqn:Hr; cbn [bind] in *; [|discriminate].
  eexists. split; [reflexivity|]. cbn [lookup_pos lookup_in]. rewrite find_pos_map. split; [congruence|].
  rewrite map_length. apply sub_fits. exact Hr.
Qed.

Lemma fm_lookup_ok k r : fm_get_at eqbO E m k = Ok r ->
  exists l, fm_lookup eqbO E m k = Ok l /\ lookup_pos l = r /\ lookup_in n l.
Proof.
  intros H.
  destruct m as [m'|m'|m'|m'|m'|m'|m'|m'|m'|m'|m']; cbn [fm_lookup fm_get_at fm_iter] in *;
    rewrite ?map_length; unfold cm_get_at, im_get_at, lsm_get_at, rsm_get_at, lm_get_at in H; cbn [bind] in *;
  repeat match goal with
  | H : bind ?x _ = Ok _ |- _ => destruct x; cbn [bind] in *; try discriminate
  end; try exact (ht_lookup_ok _ _ _ _ H).
  - inversion H; subst. eexists. split; [reflexivity|]. cbn [lookup_pos lookup_in]. rewrite find_pos_map, map_length.
    split; [|auto]. unfold id_key. now destruct (find_pos _ _).
  - destruct (irm_get_at (prof E) u32 m' a) as [o| | |] eqn:Eo; try discriminate. cbn [bind]. inversion H; subst.
    eexists. split; [reflexivity|]. split; [now destruct r|]. destruct r as [i|]; cbn [position lookup_in]; [|auto].
    unfold irm_get_at in Eo. destruct (_ && _)%bool; [|discriminate].
    destruct (arith _ _ _) as [d| | |]; cbn [bind] in Eo; try discriminate.
    destruct (to_usize d) as [x|]; [|discriminate]. unfold index_checked in Eo.
    destruct (Z.leb 0 x); cbn [bind] in Eo; [|discriminate].
    destruct (nth_error (irm_entries m') (Z.to_nat x)) eqn:En; cbn [bind] in Eo; [|discriminate].
    inversion Eo; subst. apply nth_error_Some. congruence.
Qed.

Lemma fm_get_mut_at k : fm_get_mut eqbO E m k = fm_get_at eqbO E m k.
Proof. destruct m; reflexivity. Qed.

Definition searchable (k : key O) : Prop := exists r, fm_get_at eqbO E m k = Ok r.

Lemma fm_get_ref_ok k r h : heap_ok box n h -> fm_get_at eqbO E m k = Ok r ->
  exists v h', fm_get_ref eqbO E box m k h = Ok (v, h') /\ heap_ok box n h' /\ only_reads h h' /\ found h h' r v /\
    (forall i, r = Some i -> i < n).
Proof.
  intros Hh H. destruct (fm_lookup_ok k r H) as (l & Hl & Hp & Hi). unfold fm_get_ref. rewrite Hl. cbn [bind].
  destruct (get_ref_ok box n l h Hh Hi) as (v & h' & H1 & H2 & H3 & H4). rewrite Hp in H4.
  exists v, h'. repeat (split; [assumption|]). intros i ->. exact (lookup_pos_in _ _ _ Hi Hp).
Qed.

Lemma fm_get_mut_ref_ok k r h : heap_ok box n h -> fm_get_at eqbO E m k = Ok r ->
  exists v h', fm_get_mut_ref eqbO E box m k h = Ok (v, h') /\ heap_ok box n h' /\
    match r with
    | None => v = None
    | Some p => p < n /\ exists t s, v = Some (t, p) /\ stacks h' (ValueOf p) = own t :: s
    end.
Proof.
  intros Hh H. destruct (fm_lookup_ok k r H) as (l & Hl & Hp & Hi). unfold fm_get_mut_ref. rewrite Hl. cbn [bind].
  destruct (get_mut_ref_ok box n l h Hh Hi) as (v & h' & H1 & H2 & H3). rewrite Hp in H3.
  exists v, h'. split; [assumption|]. split; [assumption|]. destruct r as [p|]; [|exact H3].
  split; [exact (lookup_pos_in _ _ _ Hi Hp)|exact H3].
Qed.

Lemma gets_ok : forall ks h, heap_ok box n h -> Forall searchable ks ->
  exists rs h', gets eqbO E box m ks h = Ok (rs, h') /\ heap_ok box n h' /\ only_reads h h' /\ Forall (readable n h') rs.
Proof.
  induction ks as [|k ks IH]; intros h Hh Hk; cbn [gets].
  - exists [], h. repeat split; auto; apply only_reads_refl.
  - inversion Hk as [|? ? (r & Hr) Hk']; subst.
    destruct (fm_get_ref_ok k r h Hh Hr) as (v & h1 & -> & O1 & R1 & F1 & Hn). cbn [bind fst snd].
    destruct (IH h1 O1 Hk') as (rs & h' & -> & O' & R' & F'). cbn [bind fst snd].
    eexists _, h'. split; [reflexivity|]. split; [exact O'|]. split; [eauto using only_reads_trans|].
    destruct r as [i|]; cbn [found] in F1.
    + destruct F1 as (t & -> & Ht & _). constructor; [|exact F'].
      apply (readable_later n h1); [exact R'|]. split; [cbn; now apply Hn|exact Ht].
    + subst v. exact F'.
Qed.

Lemma run_uses_ok : forall us h, heap_ok box n h ->
  (forall u k, In u us -> In k (keys_used u) -> searchable k) ->
  exists h', run_uses eqbO E box m us h = Ok h' /\ heap_ok box n h'.
Proof.
  induction us as [|u us IH]; intros h Hh Hu; cbn [run_uses]; [eauto|].
  assert (H : exists h', run_use eqbO E box m u h = Ok h' /\ heap_ok box n h').
  { destruct u as [ks order|k acts]; cbn [run_use].
    - destruct (gets_ok ks h Hh) as (rs & h1 & -> & O1 & R1 & F1).
      { apply Forall_forall. intros k Hk. apply (Hu (Gets ks order)); [now left|exact Hk]. }
      cbn [bind fst snd]. destruct (reads_ok box n rs order h1 O1 F1) as (h' & H1 & H2 & _). eauto.
    - destruct (Hu (GetMut k acts) k) as (r & Hr); [now left|now left|].
      destruct (fm_get_mut_ref_ok k r h Hh Hr) as (v & h1 & -> & O1 & F1). cbn [bind fst snd].
      destruct r as [p|]; [|subst v; eauto]. destruct F1 as (Hp & t & s & -> & Hs).
      exact (accesses_ok box n t p Hp acts h1 s O1 Hs). }
  destruct H as (h' & -> & O'). cbn [bind]. apply IH; auto. intros u' k Hi. apply Hu. now right.
Qed.

Lemma each_ref_ok : forall keys h ps, heap_ok box n h -> get_each (fm_get_at eqbO E m) keys = Ok ps ->
  exists rs h', fm_get_each_ref eqbO E box m keys h = Ok (rs, h') /\ heap_ok box n h' /\ only_reads h h' /\
    option_map (map snd) rs = ps /\
    forall l, rs = Some l -> Forall (fun r => readable n h' r /\ fresh h <= fst r) l.
Proof.
  induction keys as [|k keys IH]; intros h ps Hh H; cbn [get_each fm_get_each_ref] in *.
  - inversion H. exists (Some []), h. repeat split; auto; try apply only_reads_refl. intros l Hl. inversion Hl. constructor.
  - destruct (fm_get_at eqbO E m k) as [r| | |] eqn:Er; cbn [bind] in H; try discriminate.
    destruct (fm_get_ref_ok k r h Hh Er) as (v & h1 & -> & O1 & R1 & F1 & Hn). cbn [bind].
    destruct r as [i|]; cbn [found] in F1.
    + destruct F1 as (t & -> & Ht & Hf).
      destruct (get_each (fm_get_at eqbO E m) keys) as [qs| | |] eqn:Eq; cbn [bind] in H; try discriminate.
      destruct (IH h1 qs O1 eq_refl) as (rs & h' & -> & O' & R' & P' & F'). cbn [bind]. inversion H; subst ps.
      eexists _, h'. split; [reflexivity|]. split; [exact O'|]. split; [eauto using only_reads_trans|].
      split; [subst qs; now destruct rs|]. intros l Hl. destruct rs as [l'|]; [|discriminate]. inversion Hl; subst l.
      destruct R1 as (Rf & _). constructor.
      * split; [|cbn; lia]. apply (readable_later n h1); [exact R'|]. split; [cbn; now apply Hn|exact Ht].
      * eapply Forall_impl; [|apply F'; reflexivity]. cbn. intros a (A1 & A2). split; [exact A1|lia].
    + subst v. inversion H. exists None, h1. repeat split; auto; try apply R1. discriminate.
Qed.

Lemma write_refused_later h h' r : heap_ok box n h -> only_reads h h' -> readable n h' r -> fresh h <= fst r ->
  write_value r h' = UB Aliasing.
Proof.
  intros Hh (_ & _ & R) (Hn & _) Hf. unfold write_value, write. rewrite touch_refused; [reflexivity|].
  apply write_refused. intros g Hg Ht. destruct (R _ _ Hg) as [Ho|(Hs & _)]; [|exact Hs].
  exfalso. assert (Hb := tags_below _ _ _ _ (Hh (ValueOf (snd r)) Hn) Ho). lia.
Qed.
End Facade.

(** ** Theorems *)

(** Any sequence of [get], [get_mut] and accesses through the references they return obeys the
    aliasing rules. *)
Lemma references_usable :
  forall (O V : Type) (eqbO : O -> O -> bool) (E : env) (box : nat) (m : map_types O V) (us : list use),
  (forall u k, In u us -> In k (keys_used u) -> exists r, fm_get_at eqbO E m k = Ok r) ->
  exists h, run_uses eqbO E box m us (boxed box (length (fm_iter m))) = Ok h.
Proof.
  intros O V eqbO E box m us H.
  destruct (run_uses_ok eqbO E box m us _ (boxed_ok box _) H) as (h & H1 & _). eauto.
Qed.

(** They point to the entries found. *)
Lemma references_found :
  forall (O V : Type) (eqbO : O -> O -> bool) (E : env) (box : nat) (m : map_types O V) (us : list use)
    (h : heap) (k : key O) (r : option nat),
  (forall u k, In u us -> In k (keys_used u) -> exists r, fm_get_at eqbO E m k = Ok r) ->
  run_uses eqbO E box m us (boxed box (length (fm_iter m))) = Ok h ->
  fm_get_mut eqbO E m k = Ok r ->
  (exists v h', fm_get_ref eqbO E box m k h = Ok (v, h') /\ option_map snd v = r) /\
  (exists v h', fm_get_mut_ref eqbO E box m k h = Ok (v, h') /\ option_map snd v = r).
Proof.
  intros O V eqbO E box m us h k r H Hu Hr. rewrite fm_get_mut_at in Hr.
  destruct (run_uses_ok eqbO E box m us _ (boxed_ok box _) H) as (h0 & H1 & H2).
  assert (h0 = h) by congruence. subst h0. split.
  - destruct (fm_get_ref_ok eqbO E box m k r h H2 Hr) as (v & h' & G1 & _ & _ & G2 & _). exists v, h'. split; [exact G1|].
    destruct r as [i|]; cbn [found] in G2; [destruct G2 as (t & -> & _)|subst v]; reflexivity.
  - destruct (fm_get_mut_ref_ok eqbO E box m k r h H2 Hr) as (v & h' & G1 & _ & G2). exists v, h'. split; [exact G1|].
    destruct r as [i|]; [destruct G2 as (_ & t & s & -> & _)|subst v]; reflexivity.
Qed.

(** The references returned by [get_many_mut] point to the right entries and may be read, but a
    write through any of them is undefined behaviour. *)
Lemma many_mut_unwritable :
  forall (O V : Type) (eqbO : O -> O -> bool) (E : env) (box : nat) (m : map_types O V) (us : list use)
    (h : heap) (keys : list (key O)) (ps : option (list nat)),
  (forall u k, In u us -> In k (keys_used u) -> exists r, fm_get_at eqbO E m k = Ok r) ->
  run_uses eqbO E box m us (boxed box (length (fm_iter m))) = Ok h ->
  fm_get_many_mut eqbO E m keys = Ok ps ->
  exists found h', fm_get_many_mut_ref eqbO E box m keys h = Ok (found, h') /\ option_map (map snd) found = ps /\
    forall rs, found = Some rs ->
      (forall order, exists h'', reads rs order h' = Ok h'') /\
      forall r, In r rs -> write_value r h' = UB Aliasing.
Proof.
  intros O V eqbO E box m us h keys ps H Hu Hm.
  destruct (run_uses_ok eqbO E box m us _ (boxed_ok box _) H) as (h0 & H1 & H2).
  assert (h0 = h) by congruence. subst h0. clear H1.
  unfold fm_get_many_mut, get_many_mut in Hm. unfold fm_get_many_mut_ref.
  destruct (has_duplicate_key (key_eqb eqbO) [] keys).
  { inversion Hm. exists None, h. repeat split; discriminate. }
  destruct (each_ref_ok eqbO E box m keys h _ H2 Hm) as (rs & h' & G1 & G2 & G3 & G4 & G5).
  exists rs, h'. split; [exact G1|]. split; [exact G4|]. clear G4. intros l ->. specialize (G5 l eq_refl). split.
  - intros order. destruct (reads_ok box _ l order h' G2) as (h'' & K & _); [|eauto].
    eapply Forall_impl; [|exact G5]. cbn. tauto.
  - intros r Hr. rewrite Forall_forall in G5. destruct (G5 r Hr) as (A1 & A2).
    exact (write_refused_later box m h h' r H2 G3 A1 A2).
Qed.

(** So a program that writes through what [get_many_mut] returned has undefined behaviour. *)
Lemma many_mut_write_refuted :
  exists (m : map_types Z Z) (r : value_ref) (h : heap), forall (E : env) (bh : hasher Z),
    fm_new E KindU32 [(KU32 7, 70%Z)] bh = Ok m /\
    fm_get_many_mut_ref Z.eqb E 0 m [KU32 7] (boxed 0 1) = Ok (Some [r], h) /\
    write_value r h = UB Aliasing.
Proof.
  eexists _, _, _. intros E bh. split; [reflexivity|]. split; reflexivity.
Qed.
