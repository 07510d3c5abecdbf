(** Programs that use iterators see the items still to come. *)
From Coq Require Import List ZArith Bool Arith Lia.
From Verif Require Import Spec MapSpec SetSpec IterSpec Base BaseLemmas HashTable Maps FrozenMap Iterators IteratorProofs
  SetOps SetOpsProofs DebugModel DebugProofs IteratorUse IteratorUseSpec.
Import ListNotations.
Open Scope Z_scope.

(** ** Simulation *)

(** The iterator that behaves as it should. *)
Definition ideal {A} (c : manner A) : iterator (list A * list A) A := {|
  i_next := fun s => Ok (deliver s);
  i_len := option_map (fun len s => Ok (len (fst s) (snd s))) (c_len c);
  i_size_hint := fun s => Ok (c_hint c (fst s) (snd s));
  i_count := fun s => match c_count c (fst s) (snd s) with Some n => Ok n | None => Panic POverflow end;
  i_fold := fun B f b s => Ok (fold_left f (snd s) b);
  i_fmt := fun s => Ok (snd s)
|}.

Lemma put_replaced {X} (x : X) l : forall i, nth_error l i <> None -> put i x l = replaced i x l.
Proof.
  induction l as [|y l IH]; intros [|i] H; cbn in *; try congruence; try reflexivity. unfold replaced in *. cbn [firstn skipn app].
  now rewrite IH.
Qed.

Lemma ideal_sees {A B} (c : manner A) (os : list (iter_op A B)) : forall pool,
  iter_run (ideal c) pool os = should_see c pool os.
Proof.
  induction os as [|o os IH]; intros pool; [reflexivity|]. cbn [iter_run should_see].
  assert (Hs : iter_step (ideal c) pool o =
    match nth_error pool (subject o) with
    | Some (Some (gone, rest)) => (reply c o gone rest, thereafter o gone rest pool)
    | _ => (NotAllowed, pool)
    end).
  { destruct o as [i|i|i|i|i|i f b|i]; cbn [iter_step subject]; unfold use_at; destruct (nth_error pool i) as [[[gone rest]|]|] eqn:Hn; auto;
      assert (Hi : nth_error pool i <> None) by congruence; cbn [ideal i_next i_len i_size_hint i_count i_fold i_fmt reply thereafter hear fst snd].
    - destruct (deliver (gone, rest)) as [o' s'] eqn:Hd. rewrite put_replaced by auto. cbn [snd].
      f_equal. destruct rest; cbn in Hd; injection Hd as <- _; reflexivity.
    - destruct (c_len c); reflexivity.
    - rewrite put_replaced by auto. destruct (c_count c gone rest); reflexivity.
    - rewrite put_replaced by auto. reflexivity. }
  rewrite Hs. destruct (nth_error pool (subject o)) as [[[gone rest]|]|]; now rewrite IH.
Qed.

Section Simulation.
Context {St A : Type}.
Variable I : iterator St A.
Variable c : manner A.
Notation J := (ideal c).
Variable R : St -> list A * list A -> Prop.
Hypothesis Rnext : forall s p, R s p -> exists s', i_next I s = Ok (fst (deliver p), s') /\ R s' (snd (deliver p)).
Hypothesis Rlen : forall s p, R s p ->
  match i_len I, i_len J with Some f, Some g => f s = g p | None, None => True | _, _ => False end.
Hypothesis Rhint : forall s p, R s p -> i_size_hint I s = i_size_hint J p.
Hypothesis Rcount : forall s p, R s p -> i_count I s = i_count J p.
Hypothesis Rfold : forall s p, R s p -> forall B f b, i_fold I B f b s = i_fold J B f b p.
Hypothesis Rfmt : forall s p, R s p -> i_fmt I s = i_fmt J p.

Definition both (x : option St) (y : option (list A * list A)) : Prop :=
  match x, y with Some s, Some p => R s p | None, None => True | _, _ => False end.

Lemma both_nth pool pool' i : Forall2 both pool pool' ->
  match nth_error pool i, nth_error pool' i with
  | Some x, Some y => both x y
  | None, None => True
  | _, _ => False
  end.
Proof.
  intros H. revert i. induction H as [|x y l l' Hx _ IH]; intros [|i]; cbn; auto. apply IH.
Qed.

Lemma both_put pool pool' x y i : Forall2 both pool pool' -> both x y -> Forall2 both (put i x pool) (put i y pool').
Proof.
  intros H Hx. revert i. induction H as [|x' y' l l' H' HF IH]; intros [|i]; cbn [put]; constructor; auto.
Qed.

Lemma simulated {B} (os : list (iter_op A B)) : forall pool pool', Forall2 both pool pool' ->
  iter_run I pool os = iter_run J pool' os.
Proof.
  induction os as [|o os IH]; intros pool pool' HP; cbn [iter_run]; auto.
  assert (Hs : fst (iter_step I pool o) = fst (iter_step J pool' o) /\
               Forall2 both (snd (iter_step I pool o)) (snd (iter_step J pool' o))).
  { assert (Hu : forall i (f : St -> heard A B * list (option St)) (g : list A * list A -> heard A B * list (option (list A * list A))),
      (forall s p, R s p -> fst (f s) = fst (g p) /\ Forall2 both (snd (f s)) (snd (g p))) ->
      fst (use_at pool i f) = fst (use_at pool' i g) /\ Forall2 both (snd (use_at pool i f)) (snd (use_at pool' i g))).
    { intros i f g Hfg. unfold use_at. pose proof (both_nth pool pool' i HP) as Hn.
      destruct (nth_error pool i) as [[s|]|], (nth_error pool' i) as [[p|]|]; cbn [both] in Hn; try contradiction;
        cbn [fst snd]; auto. }
    destruct o as [i|i|i|i|i|i f b|i]; cbn [iter_step]; apply Hu; intros s p H; cbn [fst snd].
    - destruct (Rnext s p H) as (s' & Hs & H'). rewrite Hs. cbn [ideal i_next].
      destruct (deliver p) as [o p']. cbn [fst snd] in *. split; auto. now apply both_put.
    - split; auto. apply Forall2_app; auto.
    - specialize (Rlen s p H). destruct (i_len I), (i_len J); try contradiction; auto. rewrite Rlen. auto.
    - now rewrite (Rhint s p H).
    - rewrite (Rcount s p H). split; auto. now apply both_put.
    - rewrite (Rfold s p H). split; auto. now apply both_put.
    - now rewrite (Rfmt s p H). }
  destruct (iter_step I pool o) as [h q], (iter_step J pool' o) as [h' q']. cbn [fst snd] in Hs.
  destruct Hs as [-> Hq]. now rewrite (IH q q' Hq).
Qed.

Lemma simulated_from s items : R s ([], items) -> sees I s c items.
Proof. intros H B os. rewrite <- ideal_sees. apply simulated. constructor; auto. Qed.
End Simulation.

(** ** Folding *)

Lemma fold_yields {St A B} (next : St -> res (option A * St)) (f : B -> A -> B) s L :
  yields next s L -> forall fuel b, (length L < fuel)%nat -> fold_iter next fuel f b s = Ok (fold_left f L b).
Proof.
  induction 1 as [s s' H|s a s' l H _ IH]; intros [|fuel] b Hf; cbn [length] in Hf; try lia; cbn [fold_iter fold_left];
    rewrite H; cbn [bind fst snd]; auto. apply IH. lia.
Qed.

Lemma fold_count {A} (l : list A) : forall n, fold_left (fun n _ => n + 1) l n = n + zlen l.
Proof. induction l as [|a l IH]; intros n; cbn [fold_left]; [unfold zlen; cbn; lia|]. rewrite IH, zlen_cons. lia. Qed.

(** ** The iterators over entries *)

Section Entries.
Context {K V : Type}.
Variable pr : profile.
Variable es : list (K * V).
Hypothesis Hlen : zlen es < 2 ^ 64.

Definition along {B} (g : K * V -> B) (it : iter (K * V)) (p : list B * list B) : Prop :=
  exists left, it_at es it left /\ snd p = map g left /\ zlen (fst p) = it_index it.

Lemma along_new {B} (g : K * V -> B) : along g (it_new es) ([], map g es).
Proof. exists es. split; [apply it_at_new|auto]. Qed.

Lemma along_index (it : iter (K * V)) a left : it_at es it (a :: left) ->
  forall it', it_next pr it = Ok (Some a, it') -> it_at es it' left /\ it_index it' = it_index it + 1.
Proof.
  intros H it' Hn. destruct (it_at_cons pr es it a left Hlen H) as (it'' & Hn' & H').
  rewrite Hn in Hn'. injection Hn' as <-. split; auto.
  apply it_at_inj in H, H'. rewrite zlen_cons in H. lia.
Qed.

Lemma along_next {B} (g : K * V -> B) it p : along g it p ->
  exists it', (r <- it_next pr it ;; Ok (option_map g (fst r), snd r)) = Ok (fst (deliver p), it') /\
    along g it' (snd (deliver p)).
Proof.
  intros (left & H & Hp & Hi). destruct p as [gone l]. cbn [fst snd] in *. subst l. unfold deliver. cbn [fst snd].
  destruct left as [|a left]; cbn [map].
  - destruct (it_at_nil pr es it H) as (it' & Hn & H'). rewrite Hn. cbn [bind fst snd option_map].
    exists it'. split; auto. exists []. split; auto. split; auto. cbn [fst].
    apply it_at_inj in H, H'. lia.
  - destruct (it_at_cons pr es it a left Hlen H) as (it' & Hn & H').
    destruct (along_index it a left H it' Hn) as (_ & Hx). rewrite Hn. cbn [bind fst snd option_map].
    exists it'. split; auto. exists left. split; auto. split; auto. cbn [fst].
    rewrite zlen_app, zlen_cons. unfold zlen at 2. cbn. lia.
Qed.

Lemma along_sizes {B} (g : K * V -> B) it p : along g it p ->
  it_len pr it = Ok (zlen (snd p)) /\ it_size_hint pr it = Ok (zlen (snd p), Some (zlen (snd p))) /\
  it_count pr it = Ok (zlen (snd p)) /\ (length (snd p) < enough it)%nat.
Proof.
  intros (left & H & Hp & Hi). rewrite Hp. unfold zlen at 1 2 3 4. rewrite map_length.
  destruct (it_at_len pr es it left Hlen H) as (H1 & H2 & H3).
  split; [exact H1|]. split; [exact H2|]. split; [exact H3|].
  unfold enough. destruct H as (He & _ & Hl). rewrite He, Hl, skipn_length. lia.
Qed.

Lemma along_yields {B} (g : K * V -> B) it p : along g it p ->
  yields (fun it => r <- it_next pr it ;; Ok (option_map g (fst r), snd r)) it (snd p).
Proof.
  intros (left & H & Hp & _).
  apply (R_yields _ (mapped es g) (mapped_nil pr es g) (mapped_cons pr es Hlen g)).
  exists left. auto.
Qed.

Lemma along_fold {B C} (g : K * V -> B) (f : C -> B -> C) b it p : along g it p ->
  fold_iter (it_next pr) (enough it) (fun acc e => f acc (g e)) b it = Ok (fold_left f (snd p) b).
Proof.
  intros H. pose proof (along_sizes g it p H) as (_ & _ & _ & Hf). destruct H as (left & H & Hp & _).
  pose proof (R_fold (it_next pr) (it_at es) (it_at_nil pr es) (fun it a l => it_at_cons pr es it a l Hlen)
                (fun acc e => f acc (g e)) left it b (enough it) H) as HF.
  rewrite HF.
  - f_equal. rewrite Hp. clear. revert b. induction left as [|e left IH]; intros b; cbn; auto.
  - rewrite Hp, map_length in Hf. lia.
Qed.

Lemma see_iter : sees (iter_iterator pr) (it_new es) exact_iterator es.
Proof.
  rewrite <- (map_id es) at 2.
  apply simulated_from with (R := along (fun e => e)); [| | | | | |apply along_new]; unfold exact_iterator, ideal;
    cbn [iter_iterator i_next i_len i_size_hint i_count i_fold i_fmt c_len c_hint c_count option_map]; auto; intros it p H;
    try destruct (along_sizes _ it p H) as (H1 & H2 & H3 & H4); auto.
  - destruct (along_next _ it p H) as (it' & Hn & H'). exists it'. rewrite it_next_id in Hn. auto.
  - intros B f b. apply (along_fold (fun e => e) f b it p H).
  - apply DebugProofs.collect_yields; auto. apply (yields_ext _ _ (it_next_id pr)). apply (along_yields _ it p H).
Qed.

Lemma see_keys : sees (keys_iterator pr) (it_new es) exact_iterator (map fst es).
Proof.
  apply simulated_from with (R := along fst); [| | | | | |apply along_new]; unfold exact_iterator, ideal;
    cbn [keys_iterator i_next i_len i_size_hint i_count i_fold i_fmt c_len c_hint c_count option_map]; auto; intros it p H;
    try destruct (along_sizes _ it p H) as (H1 & H2 & H3 & H4); auto.
  - apply (along_next fst it p H).
  - intros B f b. apply (along_fold fst f b it p H).
  - apply DebugProofs.collect_yields; auto. apply (along_yields fst it p H).
Qed.

Lemma see_values : sees (values_iterator pr) (it_new es) exact_iterator (map snd es).
Proof.
  apply simulated_from with (R := along snd); [| | | | | |apply along_new]; unfold exact_iterator, ideal;
    cbn [values_iterator i_next i_len i_size_hint i_count i_fold i_fmt c_len c_hint c_count option_map]; auto; intros it p H;
    try destruct (along_sizes _ it p H) as (H1 & H2 & H3 & H4); auto.
  - apply (along_next snd it p H).
  - intros B f b. apply (along_fold snd f b it p H).
  - apply DebugProofs.collect_yields; auto. apply (along_yields snd it p H).
Qed.
End Entries.

Lemma see_set {T} pr (es : list (T * unit)) : zlen es < 2 ^ 64 ->
  sees (set_iterator pr) (it_new es) (miscounting_iterator pr) (map fst es).
Proof.
  intros Hlen.
  apply simulated_from with (R := along es fst); [| | | | | |apply along_new]; unfold miscounting_iterator, ideal;
    cbn [set_iterator i_next i_len i_size_hint i_count i_fold i_fmt c_len c_hint c_count option_map]; auto; intros it p H;
    try destruct (along_sizes pr es Hlen _ it p H) as (H1 & H2 & H3 & H4); auto.
  - apply (along_next pr es Hlen fst it p H).
  - destruct H as (left & Ha & Hp & Hi).
    rewrite (set_it_count_spec pr es it left Hlen Ha), <- Hi.
    assert (Hz : zlen left = zlen (snd p)) by (rewrite Hp; unfold zlen; now rewrite map_length).
    rewrite Hz. pose proof (zlen_nonneg (fst p)). pose proof (zlen_nonneg (snd p)).
    apply it_at_inj in Ha.
    assert (zlen (fst p) < 2 ^ 64) by lia.
    assert (Hm : imin usize = 0) by reflexivity. assert (HM : imax usize = 2 ^ 64 - 1) by reflexivity.
    destruct (Z.leb_spec (zlen (fst p)) (zlen (snd p))).
    + apply arith_ok. rewrite Hm, HM. lia.
    + unfold arith, in_type. rewrite Hm, HM.
      destruct (Z.leb_spec 0 (zlen (snd p) - zlen (fst p))); [lia|]. cbn [andb].
      destruct pr; auto. f_equal. unfold wrap. change (signed usize) with false. change (bits usize) with 64. cbn [andb].
      rewrite <- (Z.mod_add _ 1) by lia. apply Z.mod_small. lia.
  - intros B f b. apply fold_yields; auto. apply (along_yields pr es Hlen fst it p H).
  - apply DebugProofs.collect_yields; auto. apply (along_yields pr es Hlen fst it p H).
Qed.

(** ** IntoIter *)

Lemma into_yields {T} (s : list (T * unit)) : yields into_iter_next s (map fst s).
Proof. induction s as [|e s IH]; cbn [map]; econstructor; [reflexivity|reflexivity|exact IH]. Qed.

Lemma see_into {T} (es : list (T * unit)) : sees into_iterator (into_iter_new es) exact_iterator (map fst es).
Proof.
  apply simulated_from with (R := fun s p => snd p = map fst s); unfold exact_iterator, ideal;
    cbn [into_iterator i_next i_len i_size_hint i_count i_fold i_fmt c_len c_hint c_count option_map snd]; auto; intros s p H; auto;
    assert (Hz : zlen (snd p) = zlen s) by (rewrite H; unfold zlen; now rewrite map_length).
  - destruct p as [gone l]. cbn [snd] in *. subst l. destruct s as [|e s]; cbn; eauto.
  - unfold number_left. rewrite Hz. reflexivity.
  - unfold exactly_left. rewrite Hz. reflexivity.
  - unfold number_left. rewrite Hz. reflexivity.
  - intros B f b. rewrite H. apply fold_yields; [apply into_yields|rewrite map_length; lia].
  - rewrite H. apply DebugProofs.collect_yields; [apply into_yields|rewrite map_length; lia].
Qed.

(** ** The set operations *)

Lemma calls_snoc {St A} (next : St -> res (option A * St)) n : forall s os s',
  calls next n s = Ok (os, s') ->
  calls next (S n) s = (r <- next s' ;; Ok (os ++ [fst r], snd r)).
Proof.
  induction n as [|n IH]; intros s os s' H.
  - cbn in H. injection H as <- <-. cbn [calls]. destruct (next s) as [[o t]| | |]; reflexivity.
  - cbn [calls] in H. apply bind_ok in H. destruct H as ([o t] & Hn & H). cbn [fst snd] in H.
    apply bind_ok in H. destruct H as ([os' u] & Hc & H). injection H as <- <-.
    change (calls next (S (S n)) s) with (r <- next s ;; rest <- calls next (S n) (snd r) ;; Ok (fst r :: fst rest, snd rest)).
    rewrite Hn. cbn [bind fst snd]. rewrite (IH _ _ _ Hc). cbn [fst snd].
    destruct (next u) as [[o' v]| | |]; reflexivity.
Qed.

Lemma results_snoc {A} (L : list A) : forall n, results (S n) L = results n L ++ [nth_error L n].
Proof.
  intros n. revert L. induction n as [|n IH]; intros [|a L]; cbn [results nth_error app]; auto.
  - f_equal. specialize (IH []). cbn [results] in IH. rewrite IH. now destruct n.
  - f_equal. apply IH.
Qed.

Lemma delivers_next {T St} (next : St -> res (option T * St)) st L : delivers next st L ->
  forall n s, calls next n st = Ok (results n L, s) ->
  yields next s (skipn n L) /\
  exists s', next s = Ok (nth_error L n, s') /\ calls next (S n) st = Ok (results (S n) L, s').
Proof.
  intros [_ HD] n s Hc. destruct (HD n) as (s0 & Hc0 & Hy). rewrite Hc in Hc0. injection Hc0 as <-. split; auto.
  destruct (HD (S n)) as (s' & Hc' & _). exists s'. split; auto.
  rewrite (calls_snoc next n st _ s Hc), results_snoc in Hc'.
  destruct (next s) as [[o t]| | |]; try discriminate. cbn [bind fst snd] in Hc'.
  injection Hc' as Ho <-. apply app_inj_tail in Ho. destruct Ho as [_ ->]. reflexivity.
Qed.

Lemma deliver_skipn {A} (L : list A) n : deliver (firstn n L, skipn n L) =
  (nth_error L n, (firstn (S n) L, skipn (S n) L)).
Proof.
  revert L. induction n as [|n IH]; intros [|a L]; auto. specialize (IH L).
  unfold deliver in *. cbn [firstn skipn snd fst nth_error] in *.
  destruct (skipn n L) as [|b l]; injection IH as <- H1 H2; [rewrite <- H1, <- H2|rewrite <- H1, <- H2]; reflexivity.
Qed.

Lemma see_operation {T St} (next : St -> res (option T * St)) st L hint fuel :
  delivers next st L -> (length L < fuel)%nat ->
  sees (operation_iterator next hint fuel) st (vague_iterator hint) L.
Proof.
  intros HD Hf.
  apply simulated_from with
    (R := fun s p => exists n, calls next n st = Ok (results n L, s) /\ p = (firstn n L, skipn n L));
    unfold vague_iterator, ideal;
    cbn [operation_iterator i_next i_len i_size_hint i_count i_fold i_fmt c_len c_hint c_count option_map]; auto.
  - intros s p (n & Hc & ->). destruct (delivers_next next st L HD n s Hc) as (_ & s' & Hn & Hc').
    exists s'. rewrite deliver_skipn. cbn [fst snd]. split; auto. now exists (S n).
  - intros s p (n & Hc & ->). destruct (delivers_next next st L HD n s Hc) as (Hy & _). cbn [snd fst].
    rewrite (fold_yields next _ s _ Hy) by (rewrite skipn_length; lia). now rewrite fold_count.
  - intros s p (n & Hc & ->) B f b. destruct (delivers_next next st L HD n s Hc) as (Hy & _). cbn [snd].
    apply (fold_yields next _ s _ Hy). rewrite skipn_length. lia.
  - intros s p (n & Hc & ->). destruct (delivers_next next st L HD n s Hc) as (Hy & _). cbn [snd].
    apply (DebugProofs.collect_yields next s _ Hy). rewrite skipn_length. lia.
  - exists O. split; auto.
Qed.

(** ** C83 *)

Lemma iterator_programs :
  forall (K V T : Type) (pr : profile) (entries : list (K * V)) (items : list (T * unit)),
  zlen entries < 2 ^ 64 -> zlen items < 2 ^ 64 ->
  sees (iter_iterator pr) (it_new entries) exact_iterator entries /\
  sees (keys_iterator pr) (keys_new entries) exact_iterator (map fst entries) /\
  sees (values_iterator pr) (values_new entries) exact_iterator (map snd entries) /\
  sees (set_iterator pr) (it_new items) (miscounting_iterator pr) (map fst items) /\
  sees into_iterator (into_iter_new items) exact_iterator (map fst items).
Proof.
  intros K V T pr entries items H1 H2. split; [now apply see_iter|]. split; [now apply see_keys|].
  split; [now apply see_values|]. split; [now apply see_set|apply see_into].
Qed.

Lemma operation_programs :
  forall (T : Type) (eqb : T -> T -> bool) (D : T -> Prop) (s1 s2 : set_impl T),
  equivalence eqb -> lawful_set eqb D s1 -> lawful_set eqb D s2 ->
  let n1 := zlen (s_items s1) in
  let n2 := zlen (s_items s2) in
  let sum := if n1 + n2 <? 2 ^ 64 then Some (n1 + n2) else None in
  exists U I X M,
    sees (union_iterator s1 s2) (pair_new s1 s2) (vague_iterator (n1, sum)) U /\
    sees (intersection_iterator s1 s2) (pair_new s1 s2) (vague_iterator (0, Some (Z.max n1 n2))) I /\
    sees (symmetric_difference_iterator s1 s2) (pair_new s1 s2) (vague_iterator (0, sum)) X /\
    sees (difference_iterator s1 s2) (difference_new s1 s2) (vague_iterator (0, Some n1)) M /\
    (forall x, member eqb U x <-> member eqb (s_items s1) x \/ member eqb (s_items s2) x) /\
    (forall x, member eqb I x <-> member eqb (s_items s1) x /\ member eqb (s_items s2) x) /\
    (forall x, member eqb X x <->
       (member eqb (s_items s1) x /\ ~ member eqb (s_items s2) x) \/
       (member eqb (s_items s2) x /\ ~ member eqb (s_items s1) x)) /\
    (forall x, member eqb M x <-> member eqb (s_items s1) x /\ ~ member eqb (s_items s2) x) /\
    (distinct eqb (s_items s1) -> distinct eqb (s_items s2) ->
     distinct eqb U /\ distinct eqb I /\ distinct eqb X /\ distinct eqb M).
Proof.
  intros T eqb D s1 s2 He L1 L2. cbv zeta.
  assert (Hn1 : s_len s1 = zlen (s_items s1)) by apply L1.
  assert (Hn2 : s_len s2 = zlen (s_items s2)) by apply L2.
  assert (Hs : checked_add (s_len s1) (s_len s2) =
    if zlen (s_items s1) + zlen (s_items s2) <? 2 ^ 64 then Some (zlen (s_items s1) + zlen (s_items s2)) else None).
  { rewrite Hn1, Hn2. unfold checked_add, in_type. change (imin usize) with 0. change (imax usize) with (2 ^ 64 - 1).
    pose proof (zlen_nonneg (s_items s1)). pose proof (zlen_nonneg (s_items s2)).
    destruct (Z.leb_spec 0 (zlen (s_items s1) + zlen (s_items s2))); [|lia]. cbn [andb].
    destruct (Z.leb_spec (zlen (s_items s1) + zlen (s_items s2)) (2 ^ 64 - 1)),
      (Z.ltb_spec (zlen (s_items s1) + zlen (s_items s2)) (2 ^ 64)); auto; lia. }
  exists (union_list eqb s1 s2), (intersection_list eqb s1 s2), (symmetric_list eqb s1 s2), (difference_list eqb s1 s2).
  assert (Hp : forall L : list T, zlen L <= s_len s1 + s_len s2 -> (length L < pair_fuel s1 s2)%nat).
  { intros L HL. rewrite Hn1, Hn2 in HL. unfold pair_fuel. unfold zlen in HL. lia. }
  pose proof (zlen_nonneg (s_items s1)) as P1. pose proof (zlen_nonneg (s_items s2)) as P2.
  split; [|split; [|split; [|split; [|split; [|split; [|split; [|split]]]]]]].
  - unfold union_iterator, union_size_hint. rewrite Hs, Hn1. apply see_operation; [now apply (union_delivers eqb He D)|].
    apply Hp, (union_length eqb D s1 s2 L1 L2).
  - unfold intersection_iterator, intersection_size_hint. rewrite Hn1, Hn2.
    apply see_operation; [now apply (intersection_delivers eqb He D)|].
    apply Hp. pose proof (intersection_length eqb D s1 s2 L1 L2). lia.
  - unfold symmetric_difference_iterator, symmetric_difference_size_hint. rewrite Hs.
    apply see_operation; [now apply (symmetric_delivers eqb He D)|]. apply Hp, (symmetric_length eqb D s1 s2 L1 L2).
  - unfold difference_iterator, difference_size_hint. rewrite Hn1.
    apply see_operation; [now apply (difference_delivers eqb He D)|].
    apply Hp. pose proof (difference_length eqb D s1 s2 L1). lia.
  - apply union_member. all: auto.
  - apply intersection_member. all: auto.
  - apply symmetric_member. all: auto.
  - apply difference_member. all: auto.
  - intros D1 D2. split; [|split; [|split]].
    + now apply union_distinct.
    + now apply intersection_distinct.
    + now apply symmetric_distinct.
    + now apply difference_distinct.
Qed.
