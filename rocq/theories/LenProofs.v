(** Lengths of the types of the standard library, and maps and sets that use them as hash codes. *)
From Coq Require Import List ZArith Bool Lia Permutation.
From Verif Require Import Base BaseLemmas EqbLists HashTable Maps MapObjects MapObjectProofs SetOps Sets SetObjects SetObjectProofs
  Spec MapSpec SetSpec HistorySpec ObjectSpec LenModel LenSpec.
Import ListNotations.
Open Scope Z_scope.

Section Values.
Context {A B : Type}.
Variable eqA : A -> A -> bool.
Variable eqB : B -> B -> bool.
Hypothesis HA : equivalence eqA.
Hypothesis HB : equivalence eqB.

Lemma len_holds : forall t (v : len_value A B), value_of eqA t v -> exists n, holds v n /\ len_of t v = Z.of_nat n.
Proof.
  induction t; intros v Hv; destruct v; cbn [value_of] in Hv; try contradiction; cbn [holds len_of std_len to_bytes pointee];
    try (eexists; split; reflexivity); auto;
    destruct Hv as (c & -> & _); exists (length c); (split; [eauto|]);
    rewrite removelast_app by discriminate; cbn [removelast]; now rewrite app_nil_r.
Qed.

Lemma same_refl (v : len_value A B) : same_value eqA eqB v v.
Proof.
  induction v as [b|b|l|l|l|v IH]; cbn [same_value]; auto.
  - induction l; constructor; auto. apply HA.
  - intros x. reflexivity.
  - split; intros k w Hk; exists w; (split; [exact Hk|apply HB]).
Qed.

Lemma same_sym : forall v w : len_value A B, same_value eqA eqB v w -> same_value eqA eqB w v.
Proof.
  induction v as [b|b|l|l|l|v IH]; intros [b'|b'|l'|l'|l'|w] H; cbn [same_value] in *; try contradiction; auto.
  - induction H; constructor; auto. now apply HA.
  - intros x. symmetry. apply H.
  - destruct H as (H1 & H2). split; intros k w Hk.
    + destruct (H2 k w Hk) as (w' & K1 & K2). exists w'. split; [exact K1|now apply HB].
    + destruct (H1 k w Hk) as (w' & K1 & K2). exists w'. split; [exact K1|now apply HB].
Qed.

Lemma same_trans : forall u v w : len_value A B, same_value eqA eqB u v -> same_value eqA eqB v w -> same_value eqA eqB u w.
Proof.
  induction u as [b|b|l|l|l|u IH]; intros [b'|b'|l'|l'|l'|v] [b''|b''|l''|l''|l''|w] H G; cbn [same_value] in *;
    try contradiction; try congruence.
  - revert l'' G. induction H as [|x y l l' Hxy H IH]; intros l'' G; inversion G; subst; constructor; auto.
    now apply (eq_trans_ok _ HA x y).
  - intros x. now rewrite (H x).
  - destruct H as (H1 & H2), G as (G1 & G2). split; intros k x Hk.
    + destruct (H1 k x Hk) as (y & K1 & K2). destruct (G1 k y K1) as (z & K3 & K4).
      exists z. split; [exact K3|]. now apply (eq_trans_ok _ HB x y).
    + destruct (G2 k x Hk) as (y & K1 & K2). destruct (H2 k y K1) as (z & K3 & K4).
      exists z. split; [exact K3|]. now apply (eq_trans_ok _ HB z y).
  - now apply (IH v).
Qed.

Lemma covers_length l l' : distinct eqA l -> distinct eqA l' ->
  (forall x, In x l -> member eqA l' x) -> (forall x, In x l' -> member eqA l x) -> length l = length l'.
Proof.
  intros D D' H H'.
  destruct (pigeonhole eqA HA l l' D H) as (L1 & _). destruct (pigeonhole eqA HA l' l D' H') as (L2 & _). lia.
Qed.

Lemma in_member l x : In x l -> member eqA l x.
Proof. intros H. exists x. split; [exact H|apply HA]. Qed.

Lemma supplied_member (p : list (A * B)) k w : supplied eqA p k w -> member eqA (map fst p) k.
Proof. intros (k' & H1 & H2). exists k'. split; [exact (in_map fst _ _ H1)|exact H2]. Qed.

Lemma set_length l l' : distinct eqA l -> distinct eqA l' -> (forall x, member eqA l x <-> member eqA l' x) ->
  length l = length l'.
Proof. intros D D' H. apply covers_length; auto; intros x Hx; apply H; now apply in_member. Qed.

Lemma map_length_same (p p' : list (A * B)) : distinct eqA (map fst p) -> distinct eqA (map fst p') ->
  same_map eqA eqB p p' -> length p = length p'.
Proof.
  intros D D' (H1 & H2). rewrite <- (map_length fst p), <- (map_length fst p').
  apply covers_length; auto; intros x Hx; apply in_map_iff in Hx as ((k & y) & <- & Hx); cbn [fst].
  - destruct (H1 k y) as (z & K & _); [exists k; split; [exact Hx|apply HA]|]. exact (supplied_member _ _ _ K).
  - destruct (H2 k y) as (z & K & _); [exists k; split; [exact Hx|apply HA]|]. exact (supplied_member _ _ _ K).
Qed.

Lemma same_len : forall t (v w : len_value A B), value_of eqA t v -> value_of eqA t w -> same_value eqA eqB v w ->
  len_of t v = len_of t w.
Proof.
  induction t; intros v w Hv Hw H; destruct v; cbn [value_of] in Hv; try contradiction; destruct w; cbn [value_of] in Hw;
    try contradiction; cbn [len_of std_len to_bytes pointee same_value] in *; try (now subst); auto; unfold zlen; f_equal;
    try (clear Hv Hw; induction H; cbn; congruence); try (now apply set_length); try (now apply map_length_same).
Qed.

Lemma sized_equivalence t (eqb : sized eqA t -> sized eqA t -> bool) : tells_equal eqA eqB eqb -> equivalence eqb.
Proof.
  intros H. split.
  - intros a. apply H, same_refl.
  - intros a b K. apply H, same_sym, H, K.
  - intros a b c K1 K2. apply H. eapply same_trans; apply H; eassumption.
Qed.
End Values.

(** ** Theorems *)

(** [len] is the number of bytes, items or pairs, and [is_empty] says whether it is zero.  Equal values
    have equal lengths. *)
Lemma lengths :
  forall (A B : Type) (eqA : A -> A -> bool) (eqB : B -> B -> bool) (t : len_type) (v : len_value A B),
  value_of eqA t v ->
  (exists n, holds v n /\ len_of t v = Z.of_nat n /\ (len_is_empty t v = true <-> n = O)) /\
  (equivalence eqA -> equivalence eqB ->
   forall w, value_of eqA t w -> same_value eqA eqB v w -> len_of t v = len_of t w).
Proof.
  intros A B eqA eqB t v Hv. split.
  - destruct (len_holds eqA t v Hv) as (n & H1 & H2). exists n. split; [exact H1|]. split; [exact H2|].
    unfold len_is_empty. rewrite H2, Z.eqb_eq. lia.
  - intros HA HB w Hw H. exact (same_len eqA eqB HA t v w Hv Hw H).
Qed.

(** A [LengthMap] with keys of any of these types. *)
Lemma length_map_of_values :
  forall (A B V : Type) (eqA : A -> A -> bool) (eqB : B -> B -> bool) (t : len_type)
    (eqb : sized (B := B) eqA t -> sized eqA t -> bool) (E : env) (S_ty : int_type) (payload : list (sized eqA t * V)),
  env_ok E -> fits S_ty (zlen payload) -> equivalence eqA -> equivalence eqB -> tells_equal eqA eqB eqb ->
  distinct eqb (map fst payload) ->
  exists m, lm_from_vec (sized_len eqA t) E S_ty payload = Ok m /\
  forall history : list (op (sized eqA t) V),
  Forall2 same_obs (mo_run (prof E) eqb (lm_object eqb (fun k => k) (sized_len eqA t)) m history)
                   (object_run eqb (fun k => k) payload history).
Proof.
  intros A B V eqA eqB t eqb E S_ty payload HE HF HA HB Hd Hp.
  apply length_map_history; auto.
  - exact (sized_equivalence eqA eqB HA HB t eqb Hd).
  - intros (a & Ha) (b & Hb) H. apply Hd in H. exact (same_len eqA eqB HA t a b Ha Hb H).
Qed.

(** Keys in a [Box], [Rc] or [Arc], asked for by what they point to. *)
Lemma len_pointee {A B} p t (v : len_value A B) : points_to p t -> len_of p v = len_of t (pointee v).
Proof. intros [->|[->| ->]]; reflexivity. Qed.

Lemma length_map_of_pointers :
  forall (A B V : Type) (eqA : A -> A -> bool) (eqB : B -> B -> bool) (p t : len_type) (Hpt : points_to p t)
    (eqb : sized (B := B) eqA t -> sized eqA t -> bool) (E : env) (S_ty : int_type) (payload : list (sized eqA p * V)),
  env_ok E -> fits S_ty (zlen payload) -> equivalence eqA -> equivalence eqB -> tells_equal eqA eqB eqb ->
  distinct eqb (map (fun e => sized_pointee eqA p t Hpt (fst e)) payload) ->
  exists m, lm_from_vec (sized_len eqA p) E S_ty payload = Ok m /\
  forall history : list (op (sized eqA t) V),
  Forall2 same_obs (mo_run (prof E) eqb (lm_object eqb (sized_pointee eqA p t Hpt) (sized_len eqA t)) m history)
                   (object_run eqb (sized_pointee eqA p t Hpt) payload history).
Proof.
  intros A B V eqA eqB p t Hpt eqb E S_ty payload HE HF HA HB Hd Hp.
  apply length_map_history; auto.
  - exact (sized_equivalence eqA eqB HA HB t eqb Hd).
  - intros (v & Hv). unfold sized_len, sized_pointee. cbn [proj1_sig]. now apply len_pointee.
  - intros (a & Ha) (b & Hb) H. apply Hd in H. exact (same_len eqA eqB HA t a b Ha Hb H).
Qed.

(** A [LengthSet] with items of any of these types. *)
Lemma length_set_of_values :
  forall (A B : Type) (eqA : A -> A -> bool) (eqB : B -> B -> bool) (t : len_type)
    (eqb : sized (B := B) eqA t -> sized eqA t -> bool) (E : env) (S_ty : int_type) (items : list (sized eqA t)),
  env_ok E -> fits S_ty (zlen items) -> equivalence eqA -> equivalence eqB -> tells_equal eqA eqB eqb ->
  exists s, ls_from_vec (sized_len eqA t) E S_ty items = Ok s /\
    lawful_set eqb (fun _ => True) (ls_as_set eqb (sized_len eqA t) s) /\
    forall x, member eqb (s_items (ls_as_set eqb (sized_len eqA t) s)) x <-> member eqb items x.
Proof.
  intros A B eqA eqB t eqb E S_ty items HE HF HA HB Hd.
  assert (Hq : forall a b, eqb a b = true -> sized_len eqA t a = sized_len eqA t b).
  { intros (a & Ha) (b & Hb) H. apply Hd in H. exact (same_len eqA eqB HA t a b Ha Hb H). }
  destruct (length_set_exact _ _ eqb (fun x => x) (sized_len eqA t) (sized_len eqA t) E S_ty items HE HF
              (fun _ => eq_refl) Hq) as (s & Hs & HP & _).
  exists s. split; [exact Hs|].
  destruct (length_set_lawful _ eqb (sized_len eqA t) E S_ty items s HE HF (sized_equivalence eqA eqB HA HB t eqb Hd) Hq Hs)
    as (L & _).
  split; [exact L|]. intros x. cbn [ls_as_set s_items]. split; intros (y & Hy & He); exists y; (split; [|exact He]).
  - exact (Permutation_in _ (Permutation_sym HP) Hy).
  - exact (Permutation_in _ HP Hy).
Qed.
