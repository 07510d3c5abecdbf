(** Proofs about iterators. *)
From Coq Require Import List ZArith Bool Arith Lia.
From Verif Require Import Spec Base BaseLemmas HashTable Maps IntProofs FrozenMap Iterators IterSpec.
Import ListNotations.
Open Scope Z_scope.

(** ** A state that stands for a list of items still to come *)

Section Generic.
Context {St A : Type}.
Variable next : St -> res (option A * St).
(** [R s l]: the items still to come from [s] are [l]. *)
Variable R : St -> list A -> Prop.
Hypothesis Rnil : forall s, R s [] -> exists s', next s = Ok (None, s') /\ R s' [].
Hypothesis Rcons : forall s a l, R s (a :: l) -> exists s', next s = Ok (Some a, s') /\ R s' l.

Lemma R_yields l : forall s, R s l -> yields next s l.
Proof.
  induction l as [|a l IH]; intros s H.
  - destruct (Rnil s H) as (s' & Hs & _). now apply yields_end with s'.
  - destruct (Rcons s a l H) as (s' & Hs & H'). apply yields_item with s'; auto.
Qed.

Lemma R_calls n : forall s l, R s l ->
  exists s', calls next n s = Ok (results n l, s') /\ R s' (skipn n l).
Proof.
  induction n as [|n IH]; intros s l H; cbn [calls results].
  - exists s. auto.
  - destruct l as [|a l].
    + destruct (Rnil s H) as (s' & Hs & H'). rewrite Hs. cbn [bind fst snd].
      destruct (IH s' [] H') as (s'' & Hc & H''). rewrite Hc. cbn [bind fst snd].
      exists s''. rewrite skipn_nil in *. auto.
    + destruct (Rcons s a l H) as (s' & Hs & H'). rewrite Hs. cbn [bind fst snd].
      destruct (IH s' l H') as (s'' & Hc & H''). rewrite Hc. cbn [bind fst snd].
      exists s''. auto.
Qed.

Lemma R_fold {B} (f : B -> A -> B) : forall l s acc fuel, R s l -> (length l < fuel)%nat ->
  fold_iter next fuel f acc s = Ok (fold_left f l acc).
Proof.
  induction l as [|a l IH]; intros s acc fuel H Hf; destruct fuel as [|fuel];
    cbn [length] in Hf; try lia; cbn [fold_iter fold_left].
  - destruct (Rnil s H) as (s' & Hs & _). now rewrite Hs.
  - destruct (Rcons s a l H) as (s' & Hs & H'). rewrite Hs. cbn [bind fst snd].
    apply IH; auto. lia.
Qed.
End Generic.

(** ** Iter *)

Section Iter.
Context {A : Type}.
Variable pr : profile.
Implicit Types (it : iter A) (l : list A).

(** [n] items of [entries] were consumed. *)
Definition it_at (entries : list A) it (l : list A) : Prop :=
  it_entries it = entries /\ 0 <= it_index it <= zlen entries /\
  l = skipn (Z.to_nat (it_index it)) entries.

Lemma it_at_new entries : it_at entries (it_new entries) entries.
Proof. unfold it_at, it_new. cbn. pose proof (zlen_nonneg entries). split; auto. split; [lia|auto]. Qed.

Lemma it_at_nil entries it : it_at entries it [] -> exists it', it_next pr it = Ok (None, it') /\ it_at entries it' [].
Proof.
  intros (He & Hi & Hl). exists it. split; [|unfold it_at; auto].
  unfold it_next. rewrite He. destruct (Z.ltb_spec (it_index it) (zlen entries)); auto.
  exfalso. symmetry in Hl. apply (f_equal (@length A)) in Hl. rewrite skipn_length in Hl.
  unfold zlen in *. cbn in Hl. lia.
Qed.

Lemma skipn_cons_inv (a : A) l n entries : a :: l = skipn n entries ->
  nth_error entries n = Some a /\ l = skipn (S n) entries.
Proof.
  revert entries. induction n as [|n IH]; intros entries H.
  - cbn in H. subst. auto.
  - destruct entries as [|e es]; [discriminate|]. cbn in H. apply IH in H. cbn [nth_error]. tauto.
Qed.

Lemma it_at_cons entries it a l : zlen entries < 2 ^ 64 -> it_at entries it (a :: l) ->
  exists it', it_next pr it = Ok (Some a, it') /\ it_at entries it' l.
Proof.
  intros Hlen (He & Hi & Hl). apply skipn_cons_inv in Hl. destruct Hl as (Ha & Hl).
  assert (it_index it < zlen entries).
  { assert (Z.to_nat (it_index it) < length entries)%nat by (apply nth_error_Some; congruence).
    unfold zlen. lia. }
  unfold it_next. rewrite He. destruct (Z.ltb_spec (it_index it) (zlen entries)); [|lia].
  rewrite (index_checked_ok entries (it_index it) a Ha) by lia. cbn [bind].
  rewrite arith_ok by (change (imin usize) with 0; change (imax usize) with (2 ^ 64 - 1); lia).
  cbn [bind]. eexists. split; [reflexivity|]. unfold it_at. cbn [it_entries it_index].
  split; auto. split; [lia|]. rewrite Hl. f_equal. lia.
Qed.

Lemma it_at_len entries it l : zlen entries < 2 ^ 64 -> it_at entries it l ->
  it_len pr it = Ok (zlen l) /\ it_size_hint pr it = Ok (zlen l, Some (zlen l)) /\ it_count pr it = Ok (zlen l).
Proof.
  intros Hlen (He & Hi & Hl).
  assert (Hz : zlen entries - it_index it = zlen l).
  { subst l. unfold zlen. rewrite skipn_length. unfold zlen in *. lia. }
  assert (Hl' : it_len pr it = Ok (zlen l)).
  { unfold it_len. rewrite He, Hz. apply arith_ok. change (imin usize) with 0.
    change (imax usize) with (2 ^ 64 - 1). pose proof (zlen_nonneg l). lia. }
  split; auto. unfold it_size_hint, it_count. rewrite Hl'. auto.
Qed.

Lemma it_at_inj entries it l : it_at entries it l -> zlen l = zlen entries - it_index it.
Proof. intros (He & Hi & ->). unfold zlen in *. rewrite skipn_length. lia. Qed.

(** The count of a set iterator. *)
Lemma set_it_count_spec entries it l : zlen entries < 2 ^ 64 -> it_at entries it l ->
  set_it_count pr it = arith pr usize (zlen l - it_index it).
Proof.
  intros Hlen H. unfold set_it_count. destruct (it_at_len entries it l Hlen H) as (-> & _). reflexivity.
Qed.
End Iter.

(** ** Keys and Values *)

Section KeysValues.
Context {K V : Type}.
Variable pr : profile.
Variable entries : list (K * V).
Hypothesis Hlen : zlen entries < 2 ^ 64.

Definition mapped {B} (g : K * V -> B) (it : iter (K * V)) (l : list B) : Prop :=
  exists es, it_at entries it es /\ l = map g es.

Lemma mapped_nil {B} (g : K * V -> B) it : mapped g it [] ->
  exists it', (r <- it_next pr it ;; Ok (option_map g (fst r), snd r)) = Ok (None, it') /\ mapped g it' [].
Proof.
  intros (es & H & Hm). destruct es; [|discriminate].
  destruct (it_at_nil pr entries it H) as (it' & Hn & H'). rewrite Hn. cbn [bind fst snd option_map].
  exists it'. split; auto. exists []. auto.
Qed.
Lemma mapped_cons {B} (g : K * V -> B) it b l : mapped g it (b :: l) ->
  exists it', (r <- it_next pr it ;; Ok (option_map g (fst r), snd r)) = Ok (Some b, it') /\ mapped g it' l.
Proof.
  intros (es & H & Hm). destruct es as [|e es]; [discriminate|]. cbn in Hm. injection Hm as -> ->.
  destruct (it_at_cons pr entries it e es Hlen H) as (it' & Hn & H'). rewrite Hn. cbn [bind fst snd option_map].
  exists it'. split; auto. exists es. auto.
Qed.
Lemma mapped_new {B} (g : K * V -> B) : mapped g (it_new entries) (map g entries).
Proof. exists entries. split; auto. apply it_at_new. Qed.

(** Everything about an iterator that presents the entries through [g]. *)
Definition exact_iter {B} (g : K * V -> B) (next : iter (K * V) -> res (option B * iter (K * V))) : Prop :=
  forall n, exists it,
    calls next n (it_new entries) = Ok (results n (map g entries), it) /\
    yields next it (skipn n (map g entries)) /\
    it_len pr it = Ok (zlen entries - Z.min (Z.of_nat n) (zlen entries)) /\
    it_size_hint pr it = Ok (zlen entries - Z.min (Z.of_nat n) (zlen entries),
                             Some (zlen entries - Z.min (Z.of_nat n) (zlen entries))) /\
    it_count pr it = Ok (zlen entries - Z.min (Z.of_nat n) (zlen entries)).

Lemma mapped_exact {B} (g : K * V -> B) :
  exact_iter g (fun it => r <- it_next pr it ;; Ok (option_map g (fst r), snd r)).
Proof.
  intros n.
  destruct (R_calls _ (mapped g) (mapped_nil g) (mapped_cons g) n _ _ (mapped_new g)) as (it & Hc & Hm).
  exists it. split; auto. split.
  { exact (R_yields _ (mapped g) (mapped_nil g) (mapped_cons g) _ _ Hm). }
  destruct Hm as (es & Ha & Hes).
  destruct (it_at_len pr entries it es Hlen Ha) as (H1 & H2 & H3).
  assert (zlen es = zlen entries - Z.min (Z.of_nat n) (zlen entries)) as <-; auto.
  apply (f_equal (@length B)) in Hes. rewrite map_length, skipn_length, map_length in Hes.
  unfold zlen. lia.
Qed.
End KeysValues.

Lemma calls_ext {St A} (f g : St -> res (option A * St)) n s : (forall s, f s = g s) -> calls f n s = calls g n s.
Proof.
  intros H. revert s. induction n as [|n IH]; intros s; cbn [calls]; auto. rewrite H.
  destruct (g s); cbn [bind]; auto. now rewrite IH.
Qed.
Lemma yields_ext {St A} (f g : St -> res (option A * St)) : (forall s, f s = g s) ->
  forall s l, yields f s l -> yields g s l.
Proof.
  intros H s l Hy. induction Hy as [s s' Hn|s a s' l Hn Hy IH]; rewrite H in Hn; econstructor; eauto.
Qed.

Lemma it_next_id {A} pr (it : iter A) :
  (r <- it_next pr it ;; Ok (option_map (fun a => a) (fst r), snd r)) = it_next pr it.
Proof. destruct (it_next pr it) as [[[a|] s]| | |]; reflexivity. Qed.

Lemma map_iter_exact {K V} pr (entries : list (K * V)) : zlen entries < 2 ^ 64 ->
  exact_iter pr entries (fun e => e) (it_next pr).
Proof.
  intros Hlen n. destruct (mapped_exact pr entries Hlen (fun e => e) n) as (it & Hc & Hy & Hrest).
  rewrite map_id in *. exists it.
  rewrite (calls_ext _ _ n _ (it_next_id pr)) in Hc. apply (yields_ext _ _ (it_next_id pr)) in Hy. auto.
Qed.

Lemma keys_iter_exact {K V} pr (entries : list (K * V)) : zlen entries < 2 ^ 64 ->
  exact_iter pr entries fst (keys_next pr).
Proof. intros. now apply mapped_exact. Qed.
Lemma values_iter_exact {K V} pr (entries : list (K * V)) : zlen entries < 2 ^ 64 ->
  exact_iter pr entries snd (values_next pr).
Proof. intros. now apply mapped_exact. Qed.

Lemma keys_values_fold {K V B} pr (entries : list (K * V)) (f : B -> K -> B) (g : B -> V -> B) init n os it :
  zlen entries < 2 ^ 64 ->
  calls (it_next pr) n (it_new entries) = Ok (os, it) ->
  keys_fold pr f init it = Ok (fold_left f (map fst (skipn n entries)) init) /\
  values_fold pr g init it = Ok (fold_left g (map snd (skipn n entries)) init).
Proof.
  intros Hlen Hc.
  pose proof (fun it a l => it_at_cons pr entries it a l Hlen) as Hcons.
  destruct (R_calls (it_next pr) (it_at entries) (it_at_nil pr entries) Hcons n _ _ (it_at_new entries)) as (it' & Hc' & Ha).
  rewrite Hc in Hc'. injection Hc' as -> ->.
  assert (Hf : (length (skipn n entries) < S (length (it_entries it')))%nat).
  { destruct Ha as (-> & _). rewrite skipn_length. lia. }
  unfold keys_fold, values_fold.
  rewrite !(R_fold (it_next pr) (it_at entries) (it_at_nil pr entries) Hcons _ (skipn n entries)) by auto.
  assert (Hm : forall (X : Type) (h : K * V -> X) (k : B -> X -> B) l acc,
    fold_left (fun a e => k a (h e)) l acc = fold_left k (map h l) acc).
  { intros X h k l. induction l; intros acc; cbn; auto. }
  now rewrite !Hm.
Qed.

(** The (miscounting) count of set iterators. *)
Lemma set_count_after {T} pr (entries : list (T * unit)) n os it :
  zlen entries < 2 ^ 64 ->
  calls (keys_next pr) n (it_new entries) = Ok (os, it) ->
  let k := Z.min (Z.of_nat n) (zlen entries) in
  set_it_count pr it = arith pr usize (zlen entries - 2 * k).
Proof.
  intros Hlen Hc k.
  destruct (R_calls _ (mapped entries fst) (mapped_nil pr entries fst) (mapped_cons pr entries Hlen fst)
              n _ _ (mapped_new entries fst)) as (it' & Hc' & es & Ha & Hes).
  change (fun it => r <- it_next pr it;; Ok (option_map fst (fst r), snd r)) with (@keys_next T unit pr) in Hc'.
  rewrite Hc in Hc'. injection Hc' as -> ->.
  rewrite (set_it_count_spec pr entries it' es Hlen Ha). f_equal.
  pose proof (it_at_inj entries it' es Ha) as H1.
  apply (f_equal (@length T)) in Hes. rewrite map_length, skipn_length, map_length in Hes.
  unfold k, zlen in *. lia.
Qed.

(** ** IntoIter *)

Lemma into_iter_exact {T} (entries : list (T * unit)) n :
  calls into_iter_next n (into_iter_new entries) =
    Ok (results n (map fst entries), skipn n entries) /\
  yields into_iter_next (skipn n entries) (skipn n (map fst entries)).
Proof.
  set (R := fun (s : list (T * unit)) l => l = map fst s).
  assert (Hnil : forall s, R s [] -> exists s', into_iter_next s = Ok (None, s') /\ R s' []).
  { intros s H. destruct s; [|discriminate]. exists []. auto. }
  assert (Hcons : forall s a l, R s (a :: l) -> exists s', into_iter_next s = Ok (Some a, s') /\ R s' l).
  { intros s a l H. destruct s as [|e s]; [discriminate|]. unfold R in *. cbn in H. injection H as -> ->.
    exists s. auto. }
  split.
  - unfold into_iter_new. revert entries. induction n as [|n IH]; intros entries; [reflexivity|].
    cbn [calls]. destruct entries as [|e es]; cbn [into_iter_next bind fst snd map results skipn].
    + rewrite IH. cbn [bind fst snd map]. now rewrite skipn_nil.
    + rewrite IH. reflexivity.
  - apply (R_yields _ R Hnil Hcons). unfold R. now rewrite skipn_map.
Qed.
