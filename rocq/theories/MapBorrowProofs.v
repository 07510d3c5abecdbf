(** Programs using the references of specialized maps, [get_key_value] and iterators obey the
    aliasing rules; [get_many_mut] does not. *)
From Coq Require Import List ZArith Bool Arith Lia.
From Verif Require Import Base BaseLemmas HashTable Maps FrozenMap Borrows BorrowSpec BorrowProofs MapBorrows MapBorrowSpec.
Import ListNotations.
Local Open Scope nat_scope.

Local Notation share v := {| permits := Shared; tag := v |}.
Local Notation own v := {| permits := Unique; tag := v |}.

Section Steps.
Variables box n : nat.

Definition legible (h : heap) (r : cell_ref) : Prop := index (snd r) < n /\ In (share (fst r)) (stacks h (snd r)).

Lemma legible_later h h' r : only_reads h h' -> legible h r -> legible h' r.
Proof. intros R (H1 & H2). split; auto. apply R; auto. Qed.

Lemma pair_refs_ok t i h : heap_ok box n h -> i < n ->
  (forall c, index c = i -> read_with t (stacks h c) <> None) ->
  exists k v h', pair_refs t i h = Ok ((k, KeyOf i), (v, ValueOf i), h') /\ heap_ok box n h' /\ only_reads h h' /\
    legible h' (k, KeyOf i) /\ legible h' (v, ValueOf i).
Proof.
  intros Hh Hi Ht. unfold pair_refs.
  destruct (borrow_ok box n t [KeyOf i] h Hh (single _)) as (h1 & -> & O1 & R1 & G1 & K1 & F1).
  { intros c [<-|[]]. split; [exact Hi|]. now apply Ht. }
  cbn [bind].
  destruct (borrow_ok box n t [ValueOf i] h1 O1 (single _)) as (h2 & -> & O2 & R2 & G2 & K2 & F2).
  { intros c [<-|[]]. split; [exact Hi|]. rewrite K1 by (intros [e|[]]; discriminate). now apply Ht. }
  cbn [bind]. eexists _, _, h2. split; [reflexivity|]. split; [exact O2|]. split; [eauto using only_reads_trans|].
  split.
  - apply (legible_later h1); [exact R2|]. split; [exact Hi|]. cbn [fst snd].
    destruct (G1 (KeyOf i) (or_introl eq_refl)) as (s & _ & ->). now left.
  - split; [exact Hi|]. cbn [fst snd]. destruct (G2 (ValueOf i) (or_introl eq_refl)) as (s & _ & ->). now left.
Qed.

(** What a search for a pair leaves. *)
Definition found_pair (h' : heap) (pos : option nat) (r : option (cell_ref * cell_ref)) : Prop :=
  match pos with
  | None => r = None
  | Some i => exists k v, r = Some ((k, KeyOf i), (v, ValueOf i)) /\ legible h' (k, KeyOf i) /\ legible h' (v, ValueOf i)
  end.

Lemma search_pair_ok t : forall answers i h, heap_ok box n h -> i + length answers <= n ->
  (forall c, i <= index c < i + length answers -> In (share t) (stacks h c)) ->
  exists r h', search_pair t i answers h = Ok (r, h') /\ heap_ok box n h' /\ only_reads h h' /\
    found_pair h' (option_map (fun j => i + j) (find_pos (fun b => b) answers)) r.
Proof.
  induction answers as [|b answers IH]; intros i h Hh Hn Ht; cbn [search_pair].
  - exists None, h. repeat split; auto.
  - cbn [length] in *.
    destruct (borrow_ok box n t (entry_cells i) h Hh (entry_nodup i)) as (h1 & -> & O1 & R1 & G1 & _ & F1).
    { intros c Hc. apply in_entry in Hc. split; [lia|]. apply shared_readable, Ht. lia. }
    cbn [bind].
    assert (E1 : forall c, index c = i -> In (share (fresh h)) (stacks h1 c)).
    { intros c Hc. destruct (G1 c (proj2 (in_entry c i) Hc)) as (s & _ & ->). now left. }
    destruct (borrow_ok box n (fresh h) [KeyOf i] h1 O1 (single _)) as (h2 & -> & O2 & R2 & G2 & _ & F2).
    { intros c [<-|[]]. split; [cbn; lia|]. apply shared_readable, E1. reflexivity. }
    cbn [bind].
    destruct (read_ok box n (fresh h1) (KeyOf i) h2 O2) as (h3 & -> & O3 & R3 & _ & _ & F3); [cbn; lia| |].
    { apply shared_readable. destruct (G2 (KeyOf i) (or_introl eq_refl)) as (s & _ & ->). now left. }
    cbn [bind]. assert (R : only_reads h h3) by eauto using only_reads_trans.
    destruct b; cbn [find_pos].
    + destruct (pair_refs_ok (fresh h) i h3 O3) as (k & v & h4 & -> & O4 & R4 & Lk & Lv); [lia| |].
      { intros c Hc. apply shared_readable, (only_reads_trans _ _ _ R2 R3); [now apply E1|reflexivity]. }
      cbn [bind]. eexists _, h4. split; [reflexivity|]. split; [exact O4|].
      split; [eauto using only_reads_trans|]. cbn [option_map found_pair]. rewrite Nat.add_0_r. eauto.
    + destruct (IH (S i) h3 O3) as (r & h' & -> & O' & R' & Hf); [lia| |].
      { intros c Hc. apply R; [apply Ht; lia|reflexivity]. }
      exists r, h'. split; [reflexivity|]. split; [exact O'|]. split; [eauto using only_reads_trans|].
      destruct (find_pos (fun b => b) answers) as [j|]; cbn [option_map found_pair] in *; [|exact Hf].
      replace (i + S j) with (S i + j) by lia. exact Hf.
Qed.

Lemma get_pair_ref_ok l h : heap_ok box n h -> lookup_in n l ->
  exists r h', get_pair_ref box l h = Ok (r, h') /\ heap_ok box n h' /\ only_reads h h' /\ found_pair h' (lookup_pos l) r.
Proof.
  intros Hh Hl. destruct l as [lo answers|i|]; cbn [get_pair_ref lookup_pos lookup_in] in *.
  - destruct (borrow_ok box n box (slice_cells lo (length answers)) h Hh (slice_nodup _ _)) as (h1 & -> & O1 & R1 & G1 & _ & F1).
    { intros c Hc. apply in_slice in Hc. split; [lia|]. apply (box_reads _ (fresh h)), Hh. lia. }
    cbn [bind].
    destruct (search_pair_ok (fresh h) answers lo h1 O1 Hl) as (r & h' & -> & O' & R' & Hf).
    { intros c Hc. destruct (G1 c (proj2 (in_slice c _ _) Hc)) as (s & _ & ->). now left. }
    exists r, h'. split; [reflexivity|]. split; [exact O'|]. split; [eauto using only_reads_trans|exact Hf].
  - destruct (pair_refs_ok box i h Hh Hl) as (k & v & h1 & -> & O1 & R1 & Lk & Lv).
    { intros c Hc. apply (box_reads _ (fresh h)), Hh. lia. }
    cbn [bind]. eexists _, h1. split; [reflexivity|]. split; [exact O1|]. split; [exact R1|]. cbn. eauto.
  - exists None, h. repeat split; auto; apply only_reads_refl.
Qed.

(** Iterators *)
Definition walker_ok (h : heap) (w : walker) (p : nat) : Prop :=
  w_size w = n /\ w_index w = p /\ forall c, index c < n -> In (share (w_slice w)) (stacks h c).

Lemma walker_later h h' w p : only_reads h h' -> walker_ok h w p -> walker_ok h' w p.
Proof. intros R (H1 & H2 & H3). repeat split; auto. intros c Hc. apply R; auto. Qed.

Lemma walker_new_ok h : heap_ok box n h ->
  exists w h', walker_new box n h = Ok (w, h') /\ heap_ok box n h' /\ only_reads h h' /\ walker_ok h' w 0.
Proof.
  intros Hh. unfold walker_new.
  destruct (borrow_ok box n box (slice_cells 0 n) h Hh (slice_nodup _ _)) as (h1 & -> & O1 & R1 & G1 & _ & F1).
  { intros c Hc. apply in_slice in Hc. split; [lia|]. apply (box_reads _ (fresh h)), Hh. lia. }
  cbn [bind]. eexists _, h1. split; [reflexivity|]. split; [exact O1|]. split; [exact R1|].
  split; [reflexivity|]. split; [reflexivity|]. intros c Hc. cbn [w_slice].
  destruct (G1 c) as (s & _ & ->); [apply in_slice; lia|]. now left.
Qed.

Lemma walker_next_ok w p h : heap_ok box n h -> walker_ok h w p ->
  exists r w' h', walker_next w h = Ok (r, w', h') /\ heap_ok box n h' /\ only_reads h h' /\
    if p <? n then walker_ok h' w' (S p) /\ found_pair h' (Some p) r else w' = w /\ r = None.
Proof.
  intros Hh (Hs & Hi & Hw). unfold walker_next. rewrite Hs, Hi. destruct (p <? n) eqn:Hp.
  - apply Nat.ltb_lt in Hp.
    destruct (borrow_ok box n (w_slice w) (entry_cells p) h Hh (entry_nodup p)) as (h1 & -> & O1 & R1 & G1 & _ & F1).
    { intros c Hc. apply in_entry in Hc. split; [lia|]. apply shared_readable, Hw. lia. }
    cbn [bind].
    destruct (pair_refs_ok (fresh h) p h1 O1 Hp) as (k & v & h2 & -> & O2 & R2 & Lk & Lv).
    { intros c Hc. apply shared_readable. destruct (G1 c (proj2 (in_entry c p) Hc)) as (s & _ & ->). now left. }
    cbn [bind]. eexists _, _, h2. split; [reflexivity|]. split; [exact O2|].
    assert (R := only_reads_trans _ _ _ R1 R2). split; [exact R|]. split.
    + split; [reflexivity|]. split; [reflexivity|]. intros c Hc. cbn [w_slice]. apply R; auto.
    + cbn. eauto.
  - eexists None, w, h. split; [reflexivity|]. split; [exact Hh|]. split; [apply only_reads_refl|auto].
Qed.

(** Programs *)
Context {Q : Type}.
Variable get_at : Q -> res (option nat).
Variable look : Q -> res lookup.
Hypothesis looks : forall q r, get_at q = Ok r -> exists l, look q = Ok l /\ lookup_pos l = r /\ lookup_in n l.
Variable find : Q -> option nat.

Definition sight_ok (h : heap) (s : sight) (at_ : list nat) : Prop :=
  Forall (legible h) (refs s) /\ Forall2 (walker_ok h) (walkers s) at_.

Lemma sight_later h h' s a : only_reads h h' -> sight_ok h s a -> sight_ok h' s a.
Proof.
  intros R (H1 & H2). split.
  - eapply Forall_impl; [|exact H1]. intros r. now apply legible_later.
  - induction H2; constructor; auto. now apply (walker_later h).
Qed.

Lemma sight_add h rs ws a new : sight_ok h {| refs := rs; walkers := ws |} a -> Forall (legible h) new ->
  sight_ok h {| refs := rs ++ new; walkers := ws |} a.
Proof. intros (H1 & H2) H. split; [|exact H2]. now apply Forall_app. Qed.

Lemma forall2_nth {A B} (P : A -> B -> Prop) : forall l l' i, Forall2 P l l' ->
  match nth_error l i, nth_error l' i with Some a, Some b => P a b | None, None => True | _, _ => False end.
Proof. induction l; intros l' i H; inversion H; subst; destruct i; cbn; auto. now apply IHl. Qed.

Lemma forall2_replaced {A B} (P : A -> B -> Prop) a b : P a b -> forall l l' i, Forall2 P l l' ->
  Forall2 P (replaced i a l) (replaced i b l').
Proof. intros Hab l l' i H. revert i. induction H; intros [|i]; cbn; constructor; auto. Qed.

Lemma replaced_same {A} : forall (l : list A) i a, nth_error l i = Some a -> replaced i a l = l.
Proof. induction l as [|b l IH]; intros [|i] a H; cbn in *; try discriminate; [congruence|]. now rewrite IH. Qed.

Lemma cells_app (a b : list cell_ref) : map snd (a ++ b) = map snd a ++ map snd b.
Proof. apply map_app. Qed.

Lemma pair_list_found h' pos r : found_pair h' pos r ->
  Forall (legible h') (pair_list r) /\
  map snd (pair_list r) = match pos with Some i => [KeyOf i; ValueOf i] | None => [] end.
Proof.
  destruct pos as [i|]; cbn [found_pair].
  - intros (k & v & -> & H1 & H2). cbn. auto.
  - intros ->. cbn. auto.
Qed.

Lemma share_ok : forall acts s h a, heap_ok box n h -> sight_ok h s a ->
  (forall q, In q (asks (Sharing acts)) -> get_at q = Ok (find q)) ->
  exists s' h', MapBorrowSpec.share look box n acts s h = Ok (s', h') /\ heap_ok box n h' /\
    map snd (refs s') = map snd (refs s) ++ obtained find n acts a.
Proof.
  induction acts as [|x acts IH]; intros s h a Hh Hs Hq; cbn [MapBorrowSpec.share].
  - exists s, h. cbn [obtained]. now rewrite app_nil_r.
  - assert (Hq' : forall q, In q (asks (Sharing acts)) -> get_at q = Ok (find q)).
    { intros q Hi. apply Hq. cbn [asks flat_map] in *. apply in_or_app. now right. }
    assert (Hx : forall q, (x = Look q \/ x = LookPair q) -> get_at q = Ok (find q)).
    { intros q Hx. apply Hq. cbn [asks flat_map]. apply in_or_app. left. destruct Hx; subst x; now left. }
    destruct x as [q|q| |i|i|i]; cbn [share_step obtained].
    + destruct (looks q _ (Hx q (or_introl eq_refl))) as (l & -> & Hp & Hl). cbn [bind].
      destruct (get_ref_ok box n l h Hh Hl) as (r & h1 & -> & O1 & R1 & F1). rewrite Hp in F1. cbn [bind fst snd].
      set (new := match r with Some v => [of_value v] | None => [] end).
      assert (HN : Forall (legible h1) new /\ map snd new = match find q with Some i => [ValueOf i] | None => [] end).
      { unfold new. destruct (find q) as [i|] eqn:Ef; cbn [found] in F1.
        - destruct F1 as (v & -> & Hv & _). cbn. split; auto. constructor; auto.
          split; [cbn; eapply lookup_pos_in; eauto|exact Hv].
        - subst r. cbn. auto. }
      destruct HN as (N1 & N2).
      destruct (IH {| refs := refs s ++ new; walkers := walkers s |} h1 a O1) as (s' & h' & -> & O' & M'); auto.
      { apply sight_add; auto. destruct s. now apply (sight_later h). }
      exists s', h'. repeat (split; auto). rewrite M'. cbn [refs]. now rewrite cells_app, N2, app_assoc.
    + destruct (looks q _ (Hx q (or_intror eq_refl))) as (l & -> & Hp & Hl). cbn [bind].
      destruct (get_pair_ref_ok l h Hh Hl) as (r & h1 & -> & O1 & R1 & F1). rewrite Hp in F1. cbn [bind fst snd].
      destruct (pair_list_found _ _ _ F1) as (N1 & N2).
      destruct (IH {| refs := refs s ++ pair_list r; walkers := walkers s |} h1 a O1) as (s' & h' & -> & O' & M'); auto.
      { apply sight_add; auto. destruct s. now apply (sight_later h). }
      exists s', h'. repeat (split; auto). rewrite M'. cbn [refs]. now rewrite cells_app, N2, app_assoc.
    + destruct (walker_new_ok h Hh) as (w & h1 & -> & O1 & R1 & W1). cbn [bind fst snd].
      destruct (IH {| refs := refs s; walkers := walkers s ++ [w] |} h1 (a ++ [0]) O1) as (s' & h' & -> & O' & M'); auto.
      { destruct (sight_later _ _ _ _ R1 Hs) as (S1 & S2). split; [exact S1|]. cbn [walkers].
        apply Forall2_app; auto. }
      exists s', h'. auto.
    + pose proof (forall2_nth _ _ _ i (proj2 Hs)) as Hn.
      destruct (nth_error (walkers s) i) as [w|] eqn:Ew, (nth_error a i) as [p|]; try contradiction; [|cbn [bind]; now apply IH].
      destruct (walker_next_ok w p h Hh Hn) as (r & w' & h1 & -> & O1 & R1 & F1). cbn [bind fst snd].
      destruct (sight_later _ _ _ _ R1 Hs) as (S1 & S2). destruct (p <? n).
      * destruct F1 as (W & F). destruct (pair_list_found _ _ _ F) as (N1 & N2).
        destruct (IH {| refs := refs s ++ pair_list r; walkers := replaced i w' (walkers s) |} h1 (replaced i (S p) a) O1)
          as (s' & h' & -> & O' & M'); auto.
        { split; [now apply Forall_app|]. now apply forall2_replaced. }
        exists s', h'. repeat (split; auto). rewrite M'. cbn [refs]. rewrite cells_app, N2, <- app_assoc. reflexivity.
      * destruct F1 as (-> & ->).
        destruct (IH {| refs := refs s ++ pair_list None; walkers := replaced i w (walkers s) |} h1 a O1)
          as (s' & h' & -> & O' & M'); auto.
        { rewrite (replaced_same _ _ _ Ew). cbn [pair_list]. rewrite app_nil_r. now split. }
        exists s', h'. repeat (split; auto). rewrite M'. cbn. now rewrite app_nil_r.
    + pose proof (forall2_nth _ _ _ i (proj2 Hs)) as Hn.
      destruct (nth_error (walkers s) i) as [w|], (nth_error a i) as [p|]; try contradiction; [|cbn [bind]; now apply IH].
      cbn [bind fst snd]. destruct (IH {| refs := refs s; walkers := walkers s ++ [w] |} h (a ++ [p]) Hh) as (s' & h' & -> & O' & M'); auto.
      { destruct Hs as (S1 & S2). split; [exact S1|]. apply Forall2_app; auto. }
      exists s', h'. auto.
    + destruct (nth_error (refs s) i) as [r|] eqn:Er; [|cbn [bind]; now apply IH].
      destruct (proj1 (Forall_forall _ _) (proj1 Hs) r (nth_error_In _ _ Er)) as (L1 & L2).
      destruct (read_ok box n (fst r) (snd r) h Hh L1 (shared_readable _ _ _ L2)) as (h1 & H1 & O1 & R1 & _).
      unfold read_cell. rewrite H1. cbn [bind fst snd]. apply IH; auto. now apply (sight_later h).
Qed.

Lemma run_phases_ok : forall ps h, heap_ok box n h ->
  (forall p q, In p ps -> In q (asks p) -> get_at q = Ok (find q)) ->
  exists h', run_phases look box n ps h = Ok (map (obtained_in find n) ps, h') /\ heap_ok box n h'.
Proof.
  induction ps as [|p ps IH]; intros h Hh Hq; cbn [run_phases map]; [eauto|].
  assert (H : exists h', run_phase look box n p h = Ok (obtained_in find n p, h') /\ heap_ok box n h').
  { destruct p as [acts|q acts]; cbn [run_phase obtained_in].
    - destruct (share_ok acts {| refs := []; walkers := [] |} h [] Hh) as (s' & h' & -> & O' & M').
      { split; constructor. } { intros q Hi. apply (Hq (Sharing acts)); [now left|exact Hi]. }
      cbn [bind fst snd]. rewrite M'. cbn [refs map app]. eauto.
    - destruct (looks q _ (Hq (Mutating q acts) q (or_introl eq_refl) (or_introl eq_refl))) as (l & -> & Hp & Hl).
      cbn [bind]. destruct (get_mut_ref_ok box n l h Hh Hl) as (v & h1 & -> & O1 & F1). cbn [bind fst snd].
      rewrite Hp in F1. destruct (find q) as [i|] eqn:Ef; [|subst v; eauto]. destruct F1 as (t & s & -> & Hs).
      assert (Hi : i < n) by (eapply lookup_pos_in; eauto).
      destruct (accesses_ok box n t i Hi acts h1 s O1 Hs) as (h' & -> & O'). cbn [bind snd]. eauto. }
  destruct H as (h1 & -> & O1). cbn [bind fst snd].
  destruct (IH h1 O1) as (h' & -> & O'). { intros p' q Hi. apply Hq. now right. }
  cbn [bind fst snd]. eauto.
Qed.

Lemma each_ok : forall qs h is, heap_ok box n h -> get_each get_at qs = Ok is ->
  exists rs h', each_ref look box qs h = Ok (rs, h') /\ heap_ok box n h' /\ only_reads h h' /\
    option_map (map snd) rs = is /\
    forall l, rs = Some l -> Forall (fun r => readable n h' r /\ fresh h <= fst r) l.
Proof.
  induction qs as [|q qs IH]; intros h is Hh H; cbn [get_each each_ref] in *.
  - inversion H. exists (Some []), h. repeat split; auto; try apply only_reads_refl. intros l Hl. inversion Hl. constructor.
  - destruct (get_at q) as [r| | |] eqn:Er; cbn [bind] in H; try discriminate.
    destruct (looks q r Er) as (l & -> & Hp & Hl). cbn [bind].
    destruct (get_ref_ok box n l h Hh Hl) as (v & h1 & -> & O1 & R1 & F1). cbn [bind]. rewrite Hp in F1.
    destruct r as [i|]; cbn [found] in F1.
    + destruct F1 as (t & -> & Ht & Hf).
      destruct (get_each get_at qs) as [js| | |] eqn:Eq; cbn [bind] in H; try discriminate.
      destruct (IH h1 js O1 eq_refl) as (rs & h' & -> & O' & R' & P' & F'). cbn [bind]. inversion H; subst is.
      eexists _, h'. split; [reflexivity|]. split; [exact O'|]. split; [eauto using only_reads_trans|].
      split; [subst js; now destruct rs|]. intros l' Hl'. destruct rs as [l''|]; [|discriminate]. inversion Hl'; subst l'.
      destruct R1 as (Rf & _). constructor.
      * split; [|cbn; lia]. apply (readable_later n h1); [exact R'|]. split; [cbn; eapply lookup_pos_in; eauto|exact Ht].
      * eapply Forall_impl; [|apply F'; reflexivity]. cbn. intros a (A1 & A2). split; [exact A1|lia].
    + subst v. inversion H. exists None, h1. repeat split; auto; try apply R1. discriminate.
Qed.

Lemma shared_unwritable h h' r : heap_ok box n h -> only_reads h h' -> readable n h' r -> fresh h <= fst r ->
  write_value r h' = UB Aliasing.
Proof.
  intros Hh (_ & _ & R) (Hn & _) Hf. unfold write_value, write. rewrite touch_refused; [reflexivity|].
  apply write_refused. intros g Hg Ht. destruct (R _ _ Hg) as [Ho|(Hs & _)]; [|exact Hs].
  exfalso. assert (Hb := tags_below _ _ _ _ (Hh (ValueOf (snd r)) Hn) Ho). lia.
Qed.
End Steps.

Lemma looks_sound {Q} (eqb : Q -> Q -> bool) get_at look n :
  (forall q r, get_at q = Ok r -> exists l, look q = Ok l /\ lookup_pos l = r /\ lookup_in n l) ->
  sound_references eqb get_at look n.
Proof.
  intros looks box find ps Hq.
  destruct (run_phases_ok box n get_at look looks find ps _ (boxed_ok box n) Hq) as (h & H1 & H2).
  exists h. split; [exact H1|]. intros qs is Hm. unfold get_many_mut in Hm. unfold many_mut_ref.
  destruct (has_duplicate_key eqb [] qs).
  { inversion Hm. exists None, h. repeat split; discriminate. }
  destruct (each_ok box n get_at look looks qs h _ H2 Hm) as (rs & h' & G1 & G2 & G3 & G4 & G5).
  exists rs, h'. split; [exact G1|]. split; [exact G4|]. clear G4. intros l ->. specialize (G5 l eq_refl). split.
  - intros order. destruct (reads_ok box n l order h' G2) as (h'' & K & _); [|eauto].
    eapply Forall_impl; [|exact G5]. cbn. tauto.
  - intros r Hr. rewrite Forall_forall in G5. destruct (G5 r Hr) as (A1 & A2).
    exact (shared_unwritable box n h h' r H2 G3 A1 A2).
Qed.

(** ** Theorems *)

Lemma probe_looks {K V} (t : hash_table K V) (info : res (Z * Z)) matches r :
  (range <- info ;; ht_probe t range matches) = Ok r ->
  exists l, (range <- info ;; ht_lookup t range matches) = Ok l /\ lookup_pos l = r /\ lookup_in (length (entries t)) l.
Proof.
  destruct info as [range| | |]; cbn [bind]; try discriminate. exact (ht_lookup_ok t range matches r).
Qed.

(** The seven specialized maps, whatever they contain, whatever equality and hashing answer. *)
Lemma special_references :
  forall (K V Q BH : Type) (eqb : Q -> Q -> bool) (borrow : K -> Q) (hash_query : BH -> Q -> Z) (len_query : Q -> Z)
    (hash_write : BH -> bytes -> Z) (E : env) (pr : profile) (ty : int_type),
  (forall m : scanning_map K V,
     sound_references eqb (sm_get_at eqb borrow m) (sm_look eqb borrow m) (length (sm_entries m))) /\
  (forall m : common_map K V BH,
     sound_references eqb (cm_get_at eqb borrow hash_query m) (cm_look eqb borrow hash_query m)
       (length (entries (cm_table m)))) /\
  (forall m : integer_map V,
     sound_references Z.eqb (im_get_at m) (im_look m) (length (entries (im_table m)))) /\
  (forall m : integer_range_map V,
     sound_references Z.eqb (irm_get_at pr ty m) (irm_look pr ty m) (length (irm_entries m))) /\
  (forall m : length_map K V,
     sound_references eqb (lm_get_at eqb borrow len_query m) (lm_look eqb borrow len_query m)
       (length (entries (lm_table m)))) /\
  (forall m : slice_map V BH,
     sound_references bytes_eqb (lsm_get_at hash_write m) (lsm_look hash_write m) (length (entries (slm_table m)))) /\
  (forall m : slice_map V BH,
     sound_references bytes_eqb (rsm_get_at hash_write E m) (rsm_look hash_write E m) (length (entries (slm_table m)))).
Proof.
  intros. repeat apply conj; intros m; apply looks_sound; intros q r H.
  - unfold sm_get_at in H. inversion H. eexists. split; [reflexivity|]. cbn [lookup_pos lookup_in].
    rewrite find_pos_map, map_length. split; [|auto]. now destruct (find_pos _ _).
  - exact (probe_looks _ _ _ r H).
  - exact (probe_looks _ _ _ r H).
  - unfold irm_look. rewrite H. cbn [bind]. eexists. split; [reflexivity|]. split; [now destruct r|].
    destruct r as [i|]; cbn [position lookup_in]; [|auto].
    unfold irm_get_at in H. destruct (_ && _)%bool; [|discriminate].
    destruct (arith _ _ _) as [d| | |]; cbn [bind] in H; try discriminate.
    destruct (to_usize d) as [x|]; [|discriminate]. unfold index_checked in H.
    destruct (Z.leb 0 x); cbn [bind] in H; [|discriminate].
    destruct (nth_error (irm_entries m) (Z.to_nat x)) eqn:En; cbn [bind] in H; [|discriminate].
    inversion H; subst. apply nth_error_Some. congruence.
  - exact (probe_looks _ _ _ r H).
  - exact (probe_looks _ _ _ r H).
  - exact (probe_looks _ _ _ r H).
Qed.

(** FrozenMap *)
Lemma facade_references :
  forall (O V : Type) (eqbO : O -> O -> bool) (E : env) (m : map_types O V),
  sound_references (key_eqb eqbO) (fm_get_at eqbO E m) (fm_lookup eqbO E m) (length (fm_iter m)).
Proof. intros. apply looks_sound. exact (fm_lookup_ok eqbO E m). Qed.
