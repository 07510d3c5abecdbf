(** Lemmas about the vocabulary of Base.v. *)
From Coq Require Import List ZArith Bool Lia Permutation Sorted.
From Verif Require Import Base.
Import ListNotations.
Open Scope Z_scope.

Lemma zlen_nil {A} : zlen (@nil A) = 0.
Proof. reflexivity. Qed.

Lemma zlen_cons {A} (a : A) l : zlen (a :: l) = zlen l + 1.
Proof. unfold zlen. cbn [length]. lia. Qed.

Lemma zlen_app {A} (l l' : list A) : zlen (l ++ l') = zlen l + zlen l'.
Proof. unfold zlen. rewrite app_length. lia. Qed.

Lemma zlen_nonneg {A} (l : list A) : 0 <= zlen l.
Proof. unfold zlen. lia. Qed.

Lemma zlen_map {A B} (f : A -> B) l : zlen (map f l) = zlen l.
Proof. unfold zlen. now rewrite map_length. Qed.

Lemma zlen_perm {A} (l l' : list A) : Permutation l l' -> zlen l = zlen l'.
Proof. intros H. unfold zlen. now rewrite (Permutation_length H). Qed.

Lemma zlen_rev {A} (l : list A) : zlen (rev l) = zlen l.
Proof. unfold zlen. now rewrite rev_length. Qed.

Lemma zlen_0 {A} (l : list A) : zlen l = 0 -> l = [].
Proof. destruct l; auto. rewrite zlen_cons. pose proof (zlen_nonneg l). lia. Qed.

Lemma zlen_repeat {A} (a : A) n : zlen (repeat a n) = Z.of_nat n.
Proof. unfold zlen. now rewrite repeat_length. Qed.

(** ** sub *)

Lemma range_ok_iff {A} a b (l : list A) : range_ok a b l = true <-> 0 <= a <= b /\ b <= zlen l.
Proof. unfold range_ok. rewrite !andb_true_iff, !Z.leb_le. lia. Qed.

Lemma sub_app_l {A} a b (l l' : list A) :
  0 <= a <= b -> b <= zlen l -> sub a b (l ++ l') = sub a b l.
Proof.
  intros Ha Hb. unfold sub, zlen in *.
  rewrite skipn_app. rewrite firstn_app.
  replace (Z.to_nat (b - a) - length (skipn (Z.to_nat a) l))%nat with O
    by (rewrite skipn_length; lia).
  rewrite firstn_O, app_nil_r. reflexivity.
Qed.

Lemma sub_app_r {A} (l l' : list A) : sub (zlen l) (zlen l + zlen l') (l ++ l') = l'.
Proof.
  unfold sub, zlen. rewrite skipn_app.
  rewrite skipn_all2 by lia.
  replace (Z.to_nat (Z.of_nat (length l)) - length l)%nat with O by lia.
  cbn [skipn app]. rewrite firstn_all2; [reflexivity | lia].
Qed.

Lemma sub_map {A B} (f : A -> B) a b l : sub a b (map f l) = map f (sub a b l).
Proof. unfold sub. now rewrite skipn_map, firstn_map. Qed.

Lemma sub_split {A} a b (l : list A) :
  0 <= a <= b -> b <= zlen l ->
  exists pre post, l = pre ++ sub a b l ++ post /\ zlen pre = a /\ zlen (sub a b l) = b - a.
Proof.
  intros Ha Hb. unfold sub.
  exists (firstn (Z.to_nat a) l), (skipn (Z.to_nat (b - a)) (skipn (Z.to_nat a) l)).
  split; [|split].
  - now rewrite !firstn_skipn.
  - unfold zlen in *. rewrite firstn_length. lia.
  - unfold zlen in *. rewrite firstn_length, skipn_length. lia.
Qed.

(** ** filter *)

Lemma filter_none {A} (p : A -> bool) l : (forall x, In x l -> p x = false) -> filter p l = [].
Proof.
  induction l; cbn; intros H; auto.
  rewrite (H a) by auto. apply IHl. auto.
Qed.

Lemma filter_all {A} (p : A -> bool) l : (forall x, In x l -> p x = true) -> filter p l = l.
Proof.
  induction l; cbn; intros H; auto.
  rewrite (H a) by auto. f_equal. auto.
Qed.

Lemma filter_nil_iff {A} (p : A -> bool) l :
  filter p l = [] <-> (forall x, In x l -> p x = false).
Proof.
  split.
  - intros H x Hx. destruct (p x) eqn:E; auto.
    assert (In x (filter p l)) by (apply filter_In; auto). rewrite H in H0. destruct H0.
  - apply filter_none.
Qed.

Lemma filter_map_comm {A B} (f : A -> B) (p : B -> bool) l :
  filter p (map f l) = map f (filter (fun x => p (f x)) l).
Proof. induction l; cbn; auto. destruct (p (f a)); cbn; congruence. Qed.

(** ** find / find_pos *)

Lemma find_pos_none {A} (p : A -> bool) l :
  find_pos p l = None <-> (forall x, In x l -> p x = false).
Proof.
  induction l; cbn; [intuition|].
  destruct (p a) eqn:E.
  - split; [discriminate|]. intros H. rewrite (H a) in E by auto. discriminate.
  - destruct (find_pos p l); cbn.
    + split; [discriminate|]. intros H. exfalso.
      assert (Some n = None) by (apply IHl; auto). discriminate.
    + split; auto. intros _ x [<-|Hx]; auto. apply IHl; auto.
Qed.

Lemma find_pos_some {A} (p : A -> bool) l i :
  find_pos p l = Some i ->
  exists x, nth_error l i = Some x /\ p x = true /\
    (forall j y, (j < i)%nat -> nth_error l j = Some y -> p y = false).
Proof.
  revert i. induction l; cbn; intros i H; [discriminate|].
  destruct (p a) eqn:E.
  - injection H as <-. exists a. repeat split; auto. intros; lia.
  - destruct (find_pos p l) eqn:F; cbn in H; [|discriminate].
    injection H as <-. destruct (IHl _ eq_refl) as (x & Hx & Px & Hj).
    exists x. repeat split; auto. intros [|j] y Hj' Hy.
    + cbn in Hy. congruence.
    + apply (Hj j); [lia|auto].
Qed.

Lemma find_pos_app {A} (p : A -> bool) l l' :
  find_pos p (l ++ l') =
  match find_pos p l with
  | Some i => Some i
  | None => option_map (fun i => (length l + i)%nat) (find_pos p l')
  end.
Proof.
  induction l; cbn.
  - now destruct (find_pos p l').
  - destruct (p a); auto. rewrite IHl.
    destruct (find_pos p l); auto. now destruct (find_pos p l').
Qed.

Lemma find_pos_map {A B} (f : A -> B) (p : B -> bool) l :
  find_pos p (map f l) = find_pos (fun x => p (f x)) l.
Proof. induction l; cbn; auto. destruct (p (f a)); auto. now rewrite IHl. Qed.

Lemma find_map {A B} (f : A -> B) (p : B -> bool) l :
  find p (map f l) = option_map f (find (fun x => p (f x)) l).
Proof. induction l; cbn; auto. now destruct (p (f a)). Qed.

Lemma find_app {A} (p : A -> bool) l l' :
  find p (l ++ l') = match find p l with Some x => Some x | None => find p l' end.
Proof. induction l; cbn; auto. now destruct (p a). Qed.

Lemma find_find_pos {A} (p : A -> bool) l :
  find p l = match find_pos p l with Some i => nth_error l i | None => None end.
Proof.
  induction l; cbn; auto. destruct (p a); auto. rewrite IHl.
  now destruct (find_pos p l).
Qed.

Lemma find_none_iff {A} (p : A -> bool) l :
  find p l = None <-> (forall x, In x l -> p x = false).
Proof.
  split.
  - intros H x Hx. destruct (p x) eqn:E; auto. now rewrite (find_none _ _ H x Hx) in E.
  - induction l; cbn; intros H; auto. rewrite (H a); auto.
Qed.

(** ** set_nth, write_entry *)

Lemma set_nth_length {A} i (a : A) l : length (set_nth i a l) = length l.
Proof. revert i; induction l; destruct i; cbn; auto. Qed.

Lemma nth_error_set_nth {A} i (a : A) l j :
  nth_error (set_nth i a l) j =
  if Nat.eqb i j then match nth_error l j with Some _ => Some a | None => None end
  else nth_error l j.
Proof.
  revert i j; induction l; destruct i, j; cbn; auto.
  destruct (Nat.eqb i j); auto.
Qed.

Lemma write_entry_length {K V} i (v : V) (l : list (K * V)) :
  length (write_entry i v l) = length l.
Proof. unfold write_entry. destruct (nth_error l i); auto using set_nth_length. Qed.

Lemma map_fst_set_nth {K V} i (k : K) (v : V) (l : list (K * V)) w :
  nth_error l i = Some (k, w) -> map fst (set_nth i (k, v) l) = map fst l.
Proof.
  revert i; induction l; destruct i; cbn; intros H; try discriminate.
  - injection H as ->. reflexivity.
  - f_equal. auto.
Qed.

Lemma write_entry_keys {K V} i (v : V) (l : list (K * V)) :
  map fst (write_entry i v l) = map fst l.
Proof.
  unfold write_entry. destruct (nth_error l i) as [[k w]|] eqn:E; auto.
  cbn. eapply map_fst_set_nth; eauto.
Qed.

Lemma nth_error_write_entry {K V} i (v : V) (l : list (K * V)) j :
  nth_error (write_entry i v l) j =
  if Nat.eqb i j then option_map (fun e => (fst e, v)) (nth_error l j) else nth_error l j.
Proof.
  unfold write_entry. destruct (nth_error l i) eqn:E.
  - rewrite nth_error_set_nth. destruct (Nat.eqb_spec i j); auto. subst.
    now rewrite E.
  - destruct (Nat.eqb_spec i j); auto. subst. now rewrite E.
Qed.

Lemma find_pos_keys {K V W} (p : K -> bool) (l : list (K * V)) (l' : list (K * W)) :
  map fst l = map fst l' ->
  find_pos (fun e => p (fst e)) l = find_pos (fun e => p (fst e)) l'.
Proof.
  intros H. rewrite <- (find_pos_map fst p l), <- (find_pos_map fst p l'). now rewrite H.
Qed.

(** ** Outcomes *)

Lemma bind_ok {A B} (x : res A) (f : A -> res B) b :
  bind x f = Ok b <-> exists a, x = Ok a /\ f a = Ok b.
Proof.
  destruct x; cbn; split; intros H; try discriminate; eauto;
    destruct H as (a' & H & H'); try discriminate.
  injection H as ->. auto.
Qed.

Lemma mapM_ok {A B} (f : A -> res B) (g : A -> B) l :
  (forall x, In x l -> f x = Ok (g x)) -> mapM f l = Ok (map g l).
Proof.
  induction l; cbn; intros H; auto.
  rewrite (H a) by auto. cbn. rewrite IHl by auto. reflexivity.
Qed.

Lemma mapM_ok_inv {A B} (f : A -> res B) l l' :
  mapM f l = Ok l' -> Forall2 (fun a b => f a = Ok b) l l'.
Proof.
  revert l'; induction l; cbn; intros l' H.
  - injection H as <-. constructor.
  - apply bind_ok in H. destruct H as (b & Hb & H).
    apply bind_ok in H. destruct H as (bs & Hbs & H). injection H as <-. constructor; auto.
Qed.

Lemma arith_ok pr t z : imin t <= z <= imax t -> arith pr t z = Ok z.
Proof. intros H. unfold arith, in_type. destruct (_ && _) eqn:E; auto. lia. Qed.

Lemma num_cast_ok t z : imin t <= z <= imax t -> num_cast t z = Some z.
Proof. intros H. unfold num_cast, in_type. destruct (_ && _) eqn:E; auto. lia. Qed.

Lemma to_usize_ok z : 0 <= z < 2 ^ 64 -> to_usize z = Some z.
Proof.
  intros H. unfold to_usize, in_type. change (imin usize) with 0.
  change (imax usize) with (2 ^ 64 - 1). destruct (_ && _) eqn:E; auto. lia.
Qed.

Lemma to_usize_some z z' : to_usize z = Some z' -> z' = z /\ 0 <= z < 2 ^ 64.
Proof.
  unfold to_usize, in_type. change (imin usize) with 0.
  change (imax usize) with (2 ^ 64 - 1). destruct (_ && _) eqn:E; [|discriminate].
  intros H; injection H as <-. lia.
Qed.

(** ** Sorting *)

Lemma insert_by_perm {A} (key : A -> Z) x l : Permutation (x :: l) (insert_by key x l).
Proof.
  induction l; cbn; auto.
  destruct (key x <=? key a); auto.
  rewrite perm_swap. now constructor.
Qed.

Lemma stable_sort_perm {A} (key : A -> Z) l : Permutation l (stable_sort key l).
Proof.
  induction l; cbn; auto.
  rewrite <- insert_by_perm. now constructor.
Qed.

Lemma insert_by_sorted {A} (key : A -> Z) x l :
  sorted_by key l -> sorted_by key (insert_by key x l).
Proof.
  unfold sorted_by. induction l; cbn; intros H.
  - repeat constructor.
  - inversion H; subst. destruct (Z.leb_spec (key x) (key a)).
    + constructor; auto. constructor; auto.
      eapply Forall_impl; [|eassumption]. cbn. intros; lia.
    + constructor; auto.
      eapply Permutation_Forall; [apply insert_by_perm|].
      constructor; auto. lia.
Qed.

Lemma stable_sort_sorted {A} (key : A -> Z) l : sorted_by key (stable_sort key l).
Proof. induction l; cbn; [constructor|]. now apply insert_by_sorted. Qed.

Lemma StronglySorted_app_inv {A} (R : A -> A -> Prop) l l' :
  StronglySorted R (l ++ l') ->
  StronglySorted R l /\ StronglySorted R l' /\ (forall x y, In x l -> In y l' -> R x y).
Proof.
  induction l; cbn; intros H.
  - repeat split; auto; [constructor|]. intros x y [].
  - inversion H; subst. destruct (IHl H2) as (H4 & H5 & H6).
    rewrite Forall_app in H3. destruct H3. rewrite Forall_forall in *.
    repeat split; auto.
    + constructor; auto. now rewrite Forall_forall.
    + intros x y [<-|Hx] Hy; auto.
Qed.

Lemma StronglySorted_rev {A} (R : A -> A -> Prop) l :
  StronglySorted R l -> StronglySorted (fun x y => R y x) (rev l).
Proof.
  induction 1; cbn; [constructor|].
  assert (forall y, In y (rev l) -> R a y).
  { intros y Hy. rewrite Forall_forall in H0. apply H0. now apply in_rev. }
  clear H H0. revert IHStronglySorted H1. generalize (rev l). clear.
  induction l; cbn; intros Hs H.
  - repeat constructor.
  - inversion Hs; subst. constructor.
    + apply IHl; auto.
    + rewrite Forall_app. split; auto.
Qed.
