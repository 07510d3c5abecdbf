(** Every constructor of a specialized collection builds the same as [from_vec]. *)
From Coq Require Import List ZArith Bool Arith Lia Permutation.
From Verif Require Import Spec MapSpec SetSpec IterSpec Base BaseLemmas EqbLists HashTable Maps Sets SetOps
  CapacityProofs ComponentTheorems SetTheorems SetObjects SetObjectProofs Constructors ConstructorProofs SpecializedConstructors.
Import ListNotations.
Open Scope Z_scope.

Lemma unit_next_yields {St T} (next : St -> res (option T * St)) s L :
  yields next s L -> yields (unit_next next) s (with_unit L).
Proof.
  induction 1 as [s s' H|s a s' l H _ IH]; cbn [with_unit map]; econstructor; eauto;
    unfold unit_next; rewrite H; reflexivity.
Qed.
Lemma collect_array {A} (l : list A) : vec_from_iter list_next (S (length l)) l = Ok l.
Proof. apply (vec_from_iter_yields _ _ _ (list_next_yields l)). lia. Qed.
Lemma collect_unit_array {T} (l : list T) : vec_from_iter (unit_next list_next) (S (length l)) l = Ok (with_unit l).
Proof.
  apply (vec_from_iter_yields _ _ _ (unit_next_yields _ _ _ (list_next_yields l))).
  unfold with_unit. rewrite map_length. lia.
Qed.
Lemma collect_unit {St T} (next : St -> res (option T * St)) s L fuel :
  yields next s L -> (length L < fuel)%nat -> vec_from_iter (unit_next next) fuel s = Ok (with_unit L).
Proof.
  intros Y Hf. apply (vec_from_iter_yields _ _ _ (unit_next_yields _ _ _ Y)).
  unfold with_unit. now rewrite map_length.
Qed.

(** C62 *)
Lemma specialized_map_constructors :
  forall (K V BH St StZ StB : Type) (hash_key : BH -> K -> Z) (len_key : K -> Z) (hash_write : BH -> bytes -> Z)
         (E : env) (S_ty ty : int_type) (bh : BH) (a b : Z) (fuel : nat)
         (payload : list (K * V)) (ints : list (Z * V)) (strings : list (bytes * V))
         (next : St -> res (option (K * V) * St)) (iter : St)
         (nextZ : StZ -> res (option (Z * V) * StZ)) (iterZ : StZ)
         (nextB : StB -> res (option (bytes * V) * StB)) (iterB : StB),
  yields next iter payload -> yields nextZ iterZ ints -> yields nextB iterB strings ->
  (length payload < fuel)%nat -> (length ints < fuel)%nat -> (length strings < fuel)%nat ->
  (sm_from payload = Ok (sm_from_vec payload) /\ sm_from_iter next fuel iter = Ok (sm_from_vec payload)) /\
  (let m := cm_from_vec hash_key E S_ty payload bh in
   cm_with_hasher hash_key E S_ty payload bh = m /\ cm_from_iter_with_hasher hash_key E S_ty next fuel iter bh = m /\
   cm_from_vec_random hash_key E S_ty bh payload = m /\ cm_from hash_key E S_ty bh payload = m /\
   cm_from_iter hash_key E S_ty bh next fuel iter = m) /\
  (let m := im_from_vec E S_ty ints in im_from E S_ty ints = m /\ im_from_iter E S_ty nextZ fuel iterZ = m) /\
  (let m := irm_from_vec (prof E) ty ints in
   irm_from (prof E) ty ints = m /\ irm_from_iter (prof E) ty nextZ fuel iterZ = m) /\
  (let m := lm_from_vec len_key E u8 payload in lm_from len_key E payload = m /\ lm_from_iter len_key E next fuel iter = m) /\
  (255 < zlen payload ->
   lm_from len_key E payload = Panic PCapacity /\ lm_from_iter len_key E next fuel iter = Panic PCapacity) /\
  (forall make, make = lsm_from_vec hash_write E S_ty \/ make = rsm_from_vec hash_write E S_ty ->
   let m := make strings a b bh in
   slm_with_hasher make strings a b bh = m /\ slm_from_iter_with_hasher make nextB fuel iterB a b bh = m /\
   slm_from_vec_random make bh strings a b = m /\ slm_from make bh strings a b = m /\
   slm_from_iter make bh nextB fuel iterB a b = m).
Proof.
  intros K V BH St StZ StB hk lk hw E S_ty ty bh a b fuel payload ints strings next iter nextZ iterZ nextB iterB
    Y YZ YB F FZ FB.
  unfold sm_from, sm_from_iter, cm_with_hasher, cm_from_iter_with_hasher, cm_from_vec_random, cm_from, cm_from_iter,
    cm_from_vec_random, im_from, im_from_iter, irm_from, irm_from_iter, lm_from, lm_from_iter, slm_with_hasher,
    slm_from_iter_with_hasher, slm_from_vec_random, slm_from, slm_from_iter, slm_with_hasher, slm_from_iter_with_hasher.
  rewrite !collect_array, (vec_from_iter_yields _ _ _ Y), (vec_from_iter_yields _ _ _ YZ), (vec_from_iter_yields _ _ _ YB) by auto.
  cbn [bind]. split; [split; reflexivity|]. split; [repeat split; reflexivity|]. split; [split; reflexivity|].
  split; [split; reflexivity|]. split; [split; reflexivity|]. split.
  - intros Hn. assert (H : lm_from_vec lk E u8 payload = Panic PCapacity).
    { apply lm_from_vec_capacity_panic; [|exact Hn]. vm_compute. split; congruence. }
    split; exact H.
  - intros make _. repeat split; reflexivity.
Qed.

Lemma specialized_set_constructors :
  forall (T BH St StZ StB : Type) (hash_key : BH -> T -> Z) (len_key : T -> Z) (hash_write : BH -> bytes -> Z)
         (E : env) (S_ty ty : int_type) (bh : BH) (a b : Z) (fuel : nat)
         (items : list T) (ints : list Z) (strings : list bytes)
         (next : St -> res (option T * St)) (iter : St)
         (nextZ : StZ -> res (option Z * StZ)) (iterZ : StZ)
         (nextB : StB -> res (option bytes * StB)) (iterB : StB),
  yields next iter items -> yields nextZ iterZ ints -> yields nextB iterB strings ->
  (length items < fuel)%nat -> (length ints < fuel)%nat -> (length strings < fuel)%nat ->
  (let s := Ok (ss_from_vec items) in
   ss_collect items = s /\ ss_from items = s /\ ss_from_iter next fuel iter = s) /\
  (let s := cs_from_vec hash_key E S_ty items bh in
   cs_from_vec_with_hasher hash_key E S_ty items bh = s /\ cs_with_hasher hash_key E S_ty items bh = s /\
   cs_from_iter_with_hasher hash_key E S_ty next fuel iter bh = s /\ cs_from_vec_random hash_key E S_ty bh items = s /\
   cs_from hash_key E S_ty bh items = s /\ cs_from_iter hash_key E S_ty bh next fuel iter = s) /\
  (let s := is_from_vec E S_ty ints in
   is_collect E S_ty ints = s /\ is_from E S_ty ints = s /\ is_from_iter E S_ty nextZ fuel iterZ = s) /\
  (let s := irs_from_vec (prof E) ty ints in
   irs_collect (prof E) ty ints = s /\ irs_from (prof E) ty ints = s /\ irs_from_iter (prof E) ty nextZ fuel iterZ = s) /\
  (let s := ls_from_vec len_key E S_ty items in
   ls_collect len_key E S_ty items = s /\ ls_from len_key E S_ty items = s /\
   ls_from_iter len_key E S_ty next fuel iter = s) /\
  (forall make_map make_set,
   (make_map = lsm_from_vec hash_write E S_ty /\ make_set = lss_from_vec hash_write E S_ty) \/
   (make_map = rsm_from_vec hash_write E S_ty /\ make_set = rss_from_vec hash_write E S_ty) ->
   let s := make_set strings a b bh in
   sls_from_vec_with_hasher make_map strings a b bh = s /\ sls_with_hasher make_map strings a b bh = s /\
   sls_from_iter_with_hasher make_map nextB fuel iterB a b bh = s /\
   sls_from_vec_random make_map bh strings a b = s /\ sls_from make_map bh strings a b = s /\
   sls_from_iter make_map bh nextB fuel iterB a b = s).
Proof.
  intros T BH St StZ StB hk lk hw E S_ty ty bh a b fuel items ints strings next iter nextZ iterZ nextB iterB
    Y YZ YB F FZ FB.
  pose proof (collect_unit _ _ _ fuel Y F) as U. pose proof (collect_unit _ _ _ fuel YB FB) as UB'.
  pose proof (vec_from_iter_yields _ _ _ Y fuel F) as W. pose proof (vec_from_iter_yields _ _ _ YZ fuel FZ) as WZ.
  split; [|split; [|split; [|split; [|split]]]].
  - unfold ss_from, ss_from_iter. rewrite collect_array, W. cbn [bind]. unfold ss_collect, sm_from_iter.
    rewrite collect_unit_array. repeat split; reflexivity.
  - unfold cs_from_vec_random, cs_from_vec_with_hasher, cs_with_hasher, cs_from_iter_with_hasher, cs_from, cs_from_iter,
      cm_from_iter_with_hasher. rewrite collect_unit_array, U. repeat split; reflexivity.
  - unfold is_from, is_from_iter. rewrite collect_array, WZ. cbn [bind]. unfold is_collect, im_from_iter.
    rewrite collect_unit_array. repeat split; reflexivity.
  - unfold irs_from, irs_from_iter. rewrite collect_array, WZ. cbn [bind]. unfold irs_collect, irm_from_iter.
    rewrite collect_unit_array. repeat split; reflexivity.
  - unfold ls_from, ls_from_iter. rewrite collect_array, W. cbn [bind]. unfold ls_collect.
    rewrite collect_unit_array. repeat split; reflexivity.
  - intros mm ms Hm s.
    unfold sls_from, sls_from_iter, sls_from_vec_random, sls_with_hasher, sls_from_iter_with_hasher.
    rewrite collect_array. cbn [bind]. unfold sls_from_vec_with_hasher, slm_from_iter_with_hasher.
    rewrite collect_unit_array, UB'. cbn [bind].
    destruct Hm as [[-> ->]|[-> ->]]; repeat split; reflexivity.
Qed.
