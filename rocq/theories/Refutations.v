(** Claims a reader of the documentation would expect and that the code does not satisfy:
    concrete witnesses.  Unless said otherwise the failure happens for every hasher and
    every environment (both overflow profiles, every unstable sort). *)
From Coq Require Import List ZArith Bool Arith Lia Permutation.
From Verif Require Import Spec MapSpec SetSpec Base BaseLemmas EqbLists HashTable IntKeyAnalyzer SliceKeyAnalyzer
  Maps FrozenMap FrozenMapProofs Iterators IterSpec SetOps Sets FrozenSet FrozenMapFacts MapTheorems.
Import ListNotations.
Open Scope Z_scope.

(** Entries with u32 keys, all with value 7. *)
Definition u32_payload (keys : list Z) : list (key Z * Z) := map (fun k => (KU32 k, 7)) keys.
(** Entries with String keys. *)
Definition string_payload (keys : list (list Z)) : list (key Z * Z) := map (fun k => (KStr k, 7)) keys.

(** ** C06: String construction *)

Lemma repeated_few (l l' : list Z) : incl l l' -> (length l - length l' <= repeated l)%nat.
Proof.
  intros H. unfold repeated.
  assert (length (nodup Z.eq_dec l) <= length l')%nat; [|lia].
  apply NoDup_incl_length; [apply NoDup_nodup|]. intros x Hx. apply H. now apply nodup_In in Hx.
Qed.

Lemma few_windows {T} (h : list T -> Z) (w : list T -> list T) (keys ws : list (list T)) :
  (forall s, In s keys -> In (w s) ws) -> (length keys < 20 * (length keys - length ws))%nat ->
  ~ distinctive h w keys.
Proof.
  intros H Hl Hd. unfold distinctive in Hd.
  pose proof (repeated_few (map (fun s => h (w s)) keys) (map h ws)) as Hr. rewrite !map_length in Hr.
  assert (incl (map (fun s => h (w s)) keys) (map h ws)); [|specialize (Hr H0); lia].
  intros x Hx. apply in_map_iff in Hx. destruct Hx as (s & <- & Hs). apply in_map. now apply H.
Qed.

(** "XXA" "XXB" "XXC" "XXD" "XXX" "XXXE" *)
Definition ub_keys : list (list Z) :=
  [[88;88;65]; [88;88;66]; [88;88;67]; [88;88;68]; [88;88;88]; [88;88;88;69]].

(** All sixteen strings of length four over a and b, and "aaaaa". *)
Definition panic_keys : list (list Z) :=
  flat_map (fun a => flat_map (fun b => flat_map (fun c => map (fun d => [a;b;c;d]) [97;98]) [97;98]) [97;98]) [97;98]
  ++ [[97;97;97;97;97]].

Lemma ub_keys_trouble h : string_trouble h ub_keys.
Proof.
  split; [cbn; lia|]. split; [|split; [|split]].
  - intros (_ & H). specialize (H 3%nat). cbn in H. lia.
  - exists [88;88;65], [88;88;88;69]. cbn. repeat split; auto 10; lia.
  - intros s Hs ->. cbn in Hs. intuition discriminate.
  - intros (i & Hi & Hd). pose proof (Hi [88;88;65] ltac:(cbn; auto)) as H3. cbn in H3.
    assert (i = 0 \/ i = 1 \/ i = 2)%nat as [ -> |[ -> | -> ]] by lia; revert Hd.
    + apply (few_windows h _ _ [[88]]); [|cbn; lia]. intros s Hs. cbn in Hs. intuition subst; cbn; auto.
    + apply (few_windows h _ _ [[88]]); [|cbn; lia]. intros s Hs. cbn in Hs. intuition subst; cbn; auto.
    + apply (few_windows h _ _ [[65];[66];[67];[68];[88]]); [|cbn; lia].
      intros s Hs. cbn in Hs. intuition subst; cbn; auto 10.
Qed.

Lemma panic_keys_trouble h : string_panic h panic_keys.
Proof.
  assert (Hw1 : forall w : list Z -> list Z, (forall s, In s panic_keys -> In (w s) [[97];[98]]) ->
    ~ distinctive h w panic_keys).
  { intros w Hw. apply (few_windows h w _ [[97];[98]]); auto. cbn. lia. }
  assert (Hlen : forall i l, (forall s, In s panic_keys -> (i + l <= length s)%nat) -> (i + l <= 4)%nat).
  { intros i l H. apply (H [97;97;97;97]). cbn. auto. }
  split; [split; [cbn; lia|split; [|split; [|split]]]|split; [|split]].
  - intros (_ & H). specialize (H 4%nat). cbn in H. lia.
  - exists [97;97;97;97], [97;97;97;97;97]. repeat split; cbn; auto 20.
  - intros s Hs ->. cbn in Hs. intuition discriminate.
  - intros (i & Hi & Hd). apply Hlen in Hi. revert Hd. apply Hw1.
    assert (i = 0 \/ i = 1 \/ i = 2 \/ i = 3)%nat as [ -> |[ -> |[ -> | -> ]]] by lia;
      intros s Hs; cbn in Hs; intuition subst; cbn; auto.
  - intros (i & Hi & Hd). apply Hlen in Hi. revert Hd. apply Hw1.
    assert (i = 0 \/ i = 1 \/ i = 2 \/ i = 3)%nat as [ -> |[ -> |[ -> | -> ]]] by lia;
      intros s Hs; cbn in Hs; intuition subst; cbn; auto.
  - intros s Hs. cbn in Hs. intuition subst; cbn; lia.
  - intros (i & Hi & Hd). apply Hlen in Hi. revert Hd.
    apply (few_windows h _ _ [[97;97];[97;98];[98;97];[98;98]]); [|cbn; lia].
    assert (i = 0 \/ i = 1 \/ i = 2)%nat as [ -> |[ -> | -> ]] by lia;
      intros s Hs; cbn in Hs; intuition subst; cbn; auto.
Qed.

Lemma str_keys_payload keys : str_keys (string_payload keys) = keys.
Proof. unfold str_keys, string_payload. rewrite map_map. apply map_id. Qed.

Lemma string_payload_typed keys : (forall s, In s keys -> zlen s < 2 ^ 64) -> typed KindString (string_payload keys).
Proof. intros H e He. apply in_map_iff in He. destruct He as (s & <- & Hs). now apply H. Qed.

Lemma string_payload_distinct eqbO keys : distinct bytes_eqb keys ->
  distinct (key_eqb eqbO) (map fst (string_payload keys)).
Proof.
  unfold string_payload. rewrite map_map. cbn [fst]. induction keys as [|k keys IH]; cbn; auto.
  intros (H1 & H2). split; auto. intros k' Hk'. apply in_map_iff in Hk'. destruct Hk' as (s & <- & Hs). now apply H1.
Qed.

(** With any hasher that tells single bytes apart, construction from six distinct short
    strings is undefined behaviour. *)
Lemma string_construction_ub_refuted :
  exists payload : list (key Z * Z),
    typed KindString payload /\ distinct (key_eqb Z.eqb) (map fst payload) /\
    forall (E : env) (bh : hasher Z), env_ok E ->
      (forall a b, hash_one_slice bh [a] = hash_one_slice bh [b] -> a = b) ->
      fm_new E KindString payload bh = UB OutOfBounds.
Proof.
  exists (string_payload ub_keys). split; [|split].
  - apply string_payload_typed. intros s Hs. cbn in Hs. intuition subst; reflexivity.
  - apply string_payload_distinct. cbn. intuition subst; reflexivity.
  - intros E bh HE Hinj.
    assert (Ht : typed KindString (string_payload ub_keys)).
    { apply string_payload_typed. intros s Hs. cbn in Hs. intuition subst; reflexivity. }
    assert (Hub : string_ub (hash_one_slice bh) ub_keys).
    { split; [apply ub_keys_trouble|]. exists 0%nat. split.
      - intros s Hs. cbn in Hs. intuition subst; cbn; lia.
      - unfold distinctive, repeated. rewrite nodup_fixed_point; [lia|].
        rewrite <- map_map. change (map (right_win 0) ub_keys) with [[65];[66];[67];[68];[88];[69]].
        cbn [map]. repeat constructor; cbn [In];
          intros H; repeat destruct H as [H|H]; auto; apply Hinj in H; discriminate. }
    assert (H := fun n => map_new_string_outcome _ _ E bh _ HE n Ht). specialize (H eq_refl). cbv zeta in H.
    rewrite str_keys_payload in H. destruct H as [(_ & H)|[(H & _)|(H & _)]]; auto.
    + exfalso. destruct H as (_ & H & _), Hub as (_ & Hub). auto.
    + contradiction.
Qed.

(** Whatever the hasher, construction from these seventeen distinct strings panics. *)
Lemma string_construction_panic_refuted :
  exists payload : list (key Z * Z),
    typed KindString payload /\ distinct (key_eqb Z.eqb) (map fst payload) /\
    forall (E : env) (bh : hasher Z), env_ok E ->
      fm_new E KindString payload bh = Panic PIndexOutOfBounds.
Proof.
  assert (Ht : typed KindString (string_payload panic_keys)).
  { apply string_payload_typed. intros s Hs. cbn in Hs. intuition subst; reflexivity. }
  exists (string_payload panic_keys). split; [exact Ht|split].
  - apply string_payload_distinct. cbn. intuition subst; reflexivity.
  - intros E bh HE. pose proof (panic_keys_trouble (hash_one_slice bh)) as Hp.
    assert (H := fun n => map_new_string_outcome _ _ E bh _ HE n Ht). specialize (H eq_refl). cbv zeta in H.
    rewrite str_keys_payload in H. destruct H as [(H & _)|[(_ & H)|(_ & H & _)]]; auto.
    + exfalso. destruct H as (_ & H), Hp as (_ & Hp & _). auto.
    + contradiction.
Qed.

(** ** C09, C21, C22: duplicate u32 keys *)

Ltac run E := let pr := fresh "pr" in let us := fresh "us" in destruct E as [pr us]; destruct pr.

Lemma duplicate_u32_phantom_refuted :
  exists payload : list (key Z * Z), typed KindU32 payload /\
    forall (E : env) (bh : hasher Z), exists m k,
      fm_new E KindU32 payload bh = Ok m /\ has_kind KindU32 k /\
      not_supplied (key_eqb Z.eqb) payload k /\
      fm_contains_key Z.eqb E m k = Ok true /\ fm_get Z.eqb E m k <> Ok None.
Proof.
  exists (u32_payload [0;0;2;3]). split.
  - intros e He. cbn in He. intuition subst; cbn; lia.
  - intros E bh. exists (MU32Range {| irm_min := 0; irm_max := 3; irm_entries := [(0,7);(0,7);(2,7);(3,7)] |}), (KU32 1).
    run E; (split; [reflexivity|split; [cbn; lia|split; [|split; [reflexivity|discriminate]]]]);
      intros k' v H; cbn in H; repeat destruct H as [[= <- <-]|H]; tauto || reflexivity.
Qed.

Lemma duplicate_range_detection_refuted :
  exists keys : list Z, (forall k, In k keys -> imin u32 <= k <= imax u32) /\ ~ consecutive keys /\
    forall pr, analyze_int_keys pr u32 keys = Ok IntRange.
Proof.
  exists [0;0;2;3]. split; [|split].
  - intros k H. cbn in H. cbn. lia.
  - intros (a & HP). assert (H : NoDup [0;0;2;3]).
    { eapply Permutation_NoDup; [apply Permutation_sym, HP|]. apply FinFun.Injective_map_NoDup; [|apply seq_NoDup].
      intros x y. lia. }
    inversion H. cbn in *. tauto.
  - intros []; reflexivity.
Qed.

Lemma duplicate_range_map_refuted :
  exists payload : list (Z * Z), ~ consecutive (map fst payload) /\
    forall pr, exists m, irm_from_vec pr u32 payload = Ok m /\ irm_get pr u32 m 1 = Ok (Some 8).
Proof.
  exists [(0,7);(0,8);(2,7);(3,7)]. split.
  - intros (a & HP). assert (H : NoDup [0;0;2;3]).
    { eapply Permutation_NoDup; [apply Permutation_sym, HP|]. apply FinFun.Injective_map_NoDup; [|apply seq_NoDup].
      intros x y. lia. }
    inversion H. cbn in *. tauto.
  - intros []; eexists; split; reflexivity.
Qed.

(** ** C12: an Eq that is reflexive and symmetric but not transitive *)

Definition near (a b : Z) : bool := Z.abs (a - b) <=? 1.

Lemma get_many_mut_aliases_refuted :
  exists (eqbO : Z -> Z -> bool) (payload : list (key Z * Z)) (keys : list (key Z)),
    (forall a, eqbO a a = true) /\ (forall a b, eqbO a b = eqbO b a) /\
    distinct (key_eqb eqbO) (map fst payload) /\ distinct (key_eqb eqbO) keys /\
    forall (E : env) (bh : hasher Z), exists m p,
      fm_new E KindOther payload bh = Ok m /\
      fm_get_many_mut eqbO E m keys = Ok (Some [p; p]).
Proof.
  exists near, [(KOther 1, 7)], [KOther 0; KOther 2]. split; [|split; [|split; [|split]]].
  - intros a. unfold near. now rewrite Z.sub_diag.
  - intros a b. unfold near. f_equal. lia.
  - cbn. tauto.
  - cbn. intuition subst; reflexivity.
  - intros E bh. do 2 eexists. split; reflexivity.
Qed.

(** ** C14: equality with duplicate keys is not symmetric *)

Lemma map_eq_not_symmetric_refuted :
  exists p1 p2 : list (key Z * Z), typed KindU32 p1 /\ typed KindU32 p2 /\
    forall (E : env) (bh : hasher Z), exists m1 m2,
      fm_new E KindU32 p1 bh = Ok m1 /\ fm_new E KindU32 p2 bh = Ok m2 /\
      fm_eq Z.eqb E Z.eqb m1 m2 = Ok true /\ fm_eq Z.eqb E Z.eqb m2 m1 = Ok false.
Proof.
  exists (u32_payload [1;1]), (u32_payload [1;2]). split; [|split].
  - intros e He. cbn in He. intuition subst; cbn; lia.
  - intros e He. cbn in He. intuition subst; cbn; lia.
  - intros E bh. do 2 eexists. repeat split; reflexivity.
Qed.

(** ** C27: count of a set iterator *)

Lemma set_count_refuted :
  exists entries : list (Z * unit), forall pr, exists os it,
    calls (keys_next pr) 1 (it_new entries) = Ok (os, it) /\
    yields (keys_next pr) it [2] /\ set_it_count pr it = Ok 0.
Proof.
  exists [(1, tt); (2, tt)]. intros pr. destruct pr; (do 2 eexists; split; [reflexivity|split; [|reflexivity]]);
    (eapply yields_item; [reflexivity|eapply yields_end; reflexivity]).
Qed.

(** ** C31: size hint of a union in progress *)

Lemma union_size_hint_refuted :
  exists s1 s2 : set_impl Z,
    lawful_set Z.eqb (fun _ => True) s1 /\ lawful_set Z.eqb (fun _ => True) s2 /\
    distinct Z.eqb (s_items s1) /\ distinct Z.eqb (s_items s2) /\
    exists os st, calls (union_next s1 s2) 1 (pair_new s1 s2) = Ok (os, st) /\
      yields (union_next s1 s2) st [] /\ ~ within 0 (union_size_hint s1 s2).
Proof.
  assert (Hl : forall l, lawful_set Z.eqb (fun _ => True) (hash_set_of Z.eqb l)).
  { intros l. constructor; cbn; auto. intros x _. eexists. split; [reflexivity|]. now rewrite existsb_exists. }
  exists (hash_set_of Z.eqb [1]), (hash_set_of Z.eqb []). split; auto. split; auto.
  split; [cbn; tauto|]. split; [cbn; tauto|].
  do 2 eexists. split; [reflexivity|]. split; [eapply yields_end; reflexivity|].
  unfold within. intros (H & _). apply H. reflexivity.
Qed.

(** ** C32: is_subset with duplicates *)

Lemma subset_duplicates_refuted :
  exists i1 i2 : list (key Z),
    (forall x, member (key_eqb Z.eqb) i1 x <-> member (key_eqb Z.eqb) i2 x) /\
    forall (E : env) (bh : hasher Z), exists s1 s2,
      fs_new E KindU32 i1 bh = Ok s1 /\ fs_new E KindU32 i2 bh = Ok s2 /\
      is_subset (fs_as_set Z.eqb E s1) (fs_as_set Z.eqb E s2) = Ok false /\
      fs_eq Z.eqb E s1 s2 = Ok false.
Proof.
  exists [KU32 1; KU32 1], [KU32 1]. split.
  - intros x. unfold member. cbn. firstorder.
  - intros E bh. do 2 eexists. repeat split; reflexivity.
Qed.
