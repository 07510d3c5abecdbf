(** What the public constructors build. *)
From Coq Require Import List ZArith Bool Arith Lia Permutation.
From Verif Require Import Spec MapSpec SetSpec IterSpec Base BaseLemmas EqbLists HashTable Maps FrozenMap FrozenMapProofs
  FrozenMapFacts BuildSound Iterators IteratorProofs SetOps SetOpsProofs Sets FrozenSet FrozenSetProofs
  MapTheorems ComponentTheorems SetTheorems HistorySpec History HistoryProofs Determinism SetAlgebra FrozenSetAlgebra Constructors.
Import ListNotations.
Open Scope Z_scope.

Lemma vec_from_iter_yields {St A} (next : St -> res (option A * St)) s L :
  yields next s L -> forall fuel, (length L < fuel)%nat -> vec_from_iter next fuel s = Ok L.
Proof.
  induction 1 as [s s' H|s a s' l H _ IH]; intros [|fuel] Hf; cbn [length] in Hf; try lia; cbn [vec_from_iter].
  - now rewrite H.
  - rewrite H. cbn [bind fst snd]. rewrite IH by lia. reflexivity.
Qed.
Lemma list_next_yields {A} (l : list A) : yields list_next l l.
Proof. induction l as [|x l IH]; econstructor; cbn; eauto. Qed.

(** C55: every constructor builds the map of the entries it is given, in that order. *)
Lemma map_constructors :
  forall (O V St : Type) (E : env) (kd : kind) (bh : hasher O) (payload : list (key O * V))
         (next : St -> res (option (key O * V) * St)) (iter : St) (fuel : nat),
  yields next iter payload -> (length payload < fuel)%nat ->
  let m := fm_new E kd payload bh in
  fm_from_vec_with_hasher E kd payload bh = m /\ fm_with_hasher E kd payload bh = m /\
  fm_from_iter_with_hasher E kd next fuel iter bh = m /\
  fm_from_vec E kd bh payload = m /\ fm_from E kd bh payload = m /\ fm_from_iter E kd bh next fuel iter = m.
Proof.
  intros O V St E kd bh payload next iter fuel Hy Hf m.
  unfold fm_from_vec_with_hasher, fm_with_hasher, fm_from_vec, fm_from, fm_from_iter, fm_from_iter_with_hasher.
  rewrite (vec_from_iter_yields _ _ _ (list_next_yields payload)) by lia.
  rewrite (vec_from_iter_yields _ _ _ Hy) by auto. repeat split; reflexivity.
Qed.
Lemma set_constructors :
  forall (O St : Type) (E : env) (kd : kind) (bh : hasher O) (payload : list (key O))
         (next : St -> res (option (key O) * St)) (iter : St) (fuel : nat),
  yields next iter payload -> (length payload < fuel)%nat ->
  let s := fs_new E kd payload bh in
  fs_from_vec_with_hasher E kd payload bh = s /\ fs_with_hasher E kd payload bh = s /\
  fs_from_iter_with_hasher E kd next fuel iter bh = s /\
  fs_from_vec E kd bh payload = s /\ fs_from E kd bh payload = s /\ fs_from_iter E kd bh next fuel iter = s.
Proof.
  intros O St E kd bh payload next iter fuel Hy Hf s.
  unfold fs_from_vec_with_hasher, fs_with_hasher, fs_from_vec, fs_from, fs_from_iter, fs_from_iter_with_hasher.
  rewrite (vec_from_iter_yields _ _ _ (list_next_yields payload)) by lia.
  rewrite (vec_from_iter_yields _ _ _ Hy) by auto. repeat split; reflexivity.
Qed.

(** C56: a map collected from the (cloned) entries of a map equals it and behaves the same. *)
Lemma map_round_trip :
  forall (O V : Type) (eqbO : O -> O -> bool) (veq : V -> V -> bool) (E : env) (kd : kind) (bh bh' : hasher O)
         (payload : list (key O * V)) (m : map_types O V) (fuel : nat),
  env_ok E -> equivalence eqbO -> equivalence veq -> lawful_hash eqbO bh -> lawful_hash eqbO bh' ->
  zlen payload < 2 ^ 31 -> typed kd payload -> distinct (key_eqb eqbO) (map fst payload) ->
  fm_new E kd payload bh = Ok m -> zlen payload < Z.of_nat fuel ->
  let copied := fm_from_iter_with_hasher E kd (it_next (prof E)) fuel (fm_iter_new m) bh' in
  (forall m', copied = Ok m' ->
     fm_eq eqbO E veq m m' = Ok true /\ fm_eq eqbO E veq m' m = Ok true /\
     forall history, (forall o k, In o history -> In k (op_keys o) -> has_kind kd k) ->
       Forall2 same_obs (run eqbO E m history) (run eqbO E m' history)) /\
  (kd <> KindString -> exists m', copied = Ok m').
Proof.
  intros O V eqbO veq E kd bh bh' payload m fuel HE He Hv Hl Hl' Hn Ht Hd Hm Hf copied.
  pose proof (fm_new_perm E HE kd payload bh m Hm) as HP.
  assert (Hz : zlen (fm_iter m) = zlen payload) by (symmetry; now apply zlen_perm).
  assert (Hc : copied = fm_new E kd (fm_iter m) bh').
  { destruct (map_iter_exact (prof E) (fm_iter m) ltac:(lia) 0%nat) as (it & Hit & Hy & _).
    cbn [calls skipn] in Hit, Hy. rewrite map_id in Hy. injection Hit as <-.
    unfold copied, fm_from_iter_with_hasher. rewrite (vec_from_iter_yields _ _ _ Hy); [reflexivity|].
    unfold zlen in *. lia. }
  assert (Ht' : typed kd (fm_iter m)).
  { intros e Hin. apply Ht. now apply (Permutation_in _ (Permutation_sym HP)). }
  assert (Hd' : distinct (key_eqb eqbO) (map fst (fm_iter m))).
  { apply (distinct_perm _ (key_eqb_equiv eqbO He) (map fst payload)); auto. now apply Permutation_map. }
  assert (C : forall n, n < 2 ^ 31 -> countable (prof E) n) by (intros n H; right; lia).
  assert (Cm : countable (prof E) (zlen (fm_iter m))) by (apply C; lia).
  rewrite Hc. clear Hc copied. split.
  - intros m' Hm'.
    destruct (map_eq_equivalence O V eqbO veq E kd bh bh' bh' payload (fm_iter m) (fm_iter m) m m' m' HE He Hv Hl Hl' Hl'
      (C _ Hn) Cm Cm Ht Ht' Ht' Hd Hd' Hd' Hm Hm' Hm') as (_ & Hs & _ & Hp).
    specialize (Hp HP). split; auto. split; [now rewrite <- Hs|]. intros history Hk.
    apply (observations_determined O V eqbO E E kd bh bh' payload (fm_iter m) m m' history); auto; lia.
  - intros Hkd. destruct kd; [|congruence|].
    + destruct (map_new_u32_total O V E bh' (fm_iter m) HE) as (m' & Hm' & _); [lia|exact Ht'|eauto].
    + apply map_new_other_total; auto. lia.
Qed.

(** C56: a FrozenSet collected from a set operation. *)
Lemma set_from_operation :
  forall (O : Type) (eqbO : O -> O -> bool) (E : env) (kd : kind) (bh1 bh2 bh : hasher O)
         (items1 items2 : list (key O)) (s1 s2 : set_types O) (fuel : nat),
  env_ok E -> equivalence eqbO -> lawful_hash eqbO bh1 -> lawful_hash eqbO bh2 -> lawful_hash eqbO bh ->
  zlen items1 + zlen items2 < 2 ^ 31 ->
  (forall x, In x items1 -> has_kind kd x) -> (forall x, In x items2 -> has_kind kd x) ->
  distinct (key_eqb eqbO) items1 -> distinct (key_eqb eqbO) items2 ->
  fs_new E kd items1 bh1 = Ok s1 -> fs_new E kd items2 bh2 = Ok s2 -> zlen items1 + zlen items2 < Z.of_nat fuel ->
  let a := fs_as_set eqbO E s1 in
  let b := fs_as_set eqbO E s2 in
  let in1 := member (key_eqb eqbO) items1 in
  let in2 := member (key_eqb eqbO) items2 in
  let holds s (P : key O -> Prop) :=
    distinct (key_eqb eqbO) (fs_items s) /\ (forall x, member (key_eqb eqbO) (fs_items s) x <-> P x) /\
    forall x, has_kind kd x -> exists r, fs_contains eqbO E s x = Ok r /\ (r = true <-> P x) in
  let collected {St} (next : St -> res (option (key O) * St)) st (P : key O -> Prop) :=
    let result := fs_from_iter_with_hasher E kd next fuel st bh in
    (forall s, result = Ok s -> holds s P) /\ (kd <> KindString -> exists s, result = Ok s) in
  collected (union_next a b) (pair_new a b) (fun x => in1 x \/ in2 x) /\
  collected (intersection_next a b) (pair_new a b) (fun x => in1 x /\ in2 x) /\
  collected (difference_next a b) (difference_new a b) (fun x => in1 x /\ ~ in2 x) /\
  collected (symmetric_difference_next a b) (pair_new a b) (fun x => (in1 x /\ ~ in2 x) \/ (in2 x /\ ~ in1 x)).
Proof.
  intros O eqbO E kd bh1 bh2 bh items1 items2 s1 s2 fuel HE He Hl1 Hl2 Hl Hn Ht1 Ht2 Hd1 Hd2 Hs1 Hs2 Hf a b in1 in2 holds collected.
  assert (N1 : 0 <= zlen items1) by (unfold zlen; lia). assert (N2 : 0 <= zlen items2) by (unfold zlen; lia).
  assert (C : forall n, n < 2 ^ 31 -> countable (prof E) n) by (intros n H; right; lia).
  assert (C1 : countable (prof E) (zlen items1)) by (apply C; lia).
  assert (C2 : countable (prof E) (zlen items2)) by (apply C; lia).
  destruct (frozen_set_algebra O eqbO E kd bh1 bh2 items1 items2 s1 s2 HE He Hl1 Hl2 C1 C2
    Ht1 Ht2 Hd1 Hd2 Hs1 Hs2) as (U & I & D & S & _).
  pose proof (key_eqb_equiv eqbO He) as Hk.
  assert (Hgen : forall St (next : St -> res (option (key O) * St)) st P L,
    yields next st L -> distinct (key_eqb eqbO) L -> (forall x, In x L -> In x items1 \/ In x items2) ->
    (forall x, member (key_eqb eqbO) L x <-> P x) ->
    collected St next st P).
  { intros St next st P L Hy HdL HiL HP. unfold collected.
    assert (HlenL : (length L <= length items1 + length items2)%nat).
    { rewrite <- app_length. apply (pigeonhole (key_eqb eqbO) Hk L (items1 ++ items2) HdL).
      intros x Hx. exists x. split; [apply in_or_app; auto|]. now apply Hk. }
    assert (CL : countable (prof E) (zlen L)) by (apply C; unfold zlen in *; lia).
    unfold fs_from_iter_with_hasher. rewrite (vec_from_iter_yields _ _ _ Hy) by (unfold zlen in *; lia).
    cbn [bind].
    assert (HtL : forall x, In x L -> has_kind kd x) by (intros x Hx; destruct (HiL x Hx); auto).
    split; [intros s Hs|apply (set_new_total O E kd bh L HE); auto; unfold zlen in *; lia].
    destruct (frozen_set_lawful O eqbO E kd bh L s HE He Hl CL HtL (fun _ => HdL) Hs) as (Ls & Ds).
    destruct (fs_get_spec eqbO E kd bh L s HE He Hl CL HtL (fun _ => HdL) Hs) as (HPL & _).
    specialize (Ds HdL). cbn [fs_as_set s_items] in Ds.
    assert (HM : forall x, member (key_eqb eqbO) (fs_items s) x <-> P x).
    { intros x. rewrite <- HP. symmetry. now apply member_perm. }
    split; [exact Ds|]. split; [exact HM|]. intros x Hx.
    destruct (SetSpec.ls_contains _ _ _ Ls x Hx) as (r & Hr & Hb). exists r. split; [exact Hr|]. rewrite Hb. apply HM. }
  destruct U as (u & Yu & Du & Iu & Mu). destruct I as (i & Yi & Di & Ii & Mi).
  destruct D as (d & Yd & Dd & Id & Md). destruct S as (sd & Ys & Ds & Is & Ms).
  split; [eapply Hgen; eauto|]. split; [eapply Hgen; eauto|]. split; eapply Hgen; eauto.
Qed.

(** The restriction to keys other than String is needed: the hasher of the copy decides whether
    constructing it panics. *)
Lemma map_round_trip_refuted :
  exists (E : env) (payload : list (key Z * Z)) (bh bh' : hasher Z) (m : map_types Z Z),
  env_ok E /\ typed KindString payload /\ distinct (key_eqb Z.eqb) (map fst payload) /\
  lawful_hash Z.eqb bh /\ lawful_hash Z.eqb bh' /\ fm_new E KindString payload bh = Ok m /\
  fm_from_iter_with_hasher E KindString (it_next (prof E)) 9 (fm_iter_new m) bh' = Panic PIndexOutOfBounds.
Proof.
  set (E := {| prof := Checked; usort := @stable_sort |}).
  set (payload := map (fun s => (@KStr Z s, 7)) [[88;97]; [88;98]; [88;99]; [88;100]; [88;101;101]]).
  set (h := fun s : list Z => fold_left (fun a b => a * 257 + b) s 0).
  set (bh := {| hash_one := fun _ : key Z => 0; hash_one_slice := h; hash_write := h |}).
  set (bh' := {| hash_one := fun _ : key Z => 0; hash_one_slice := fun _ => 5; hash_write := fun _ => 5 |}).
  assert (H : match fm_new E KindString payload bh with
              | Ok m => fm_from_iter_with_hasher E KindString (it_next (prof E)) 9 (fm_iter_new m) bh' = Panic PIndexOutOfBounds
              | _ => False end) by (vm_compute; reflexivity).
  destruct (fm_new E KindString payload bh) as [m| | |] eqn:Hm; try contradiction.
  exists E, payload, bh, bh', m.
  split. { intros A key l. split; [apply stable_sort_perm|apply stable_sort_sorted]. }
  split. { intros x Hx. cbn in Hx. repeat destruct Hx as [<-|Hx]; try contradiction; cbn; unfold zlen; cbn; lia. }
  split. { cbn. repeat split; intros k' Hk; repeat destruct Hk as [<-|Hk]; try contradiction; reflexivity. }
  split. { intros a b _. reflexivity. } split. { intros a b _. reflexivity. } auto.
Qed.
