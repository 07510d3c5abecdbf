(** The examples in the documentation hold, for every random state. *)
From Coq Require Import List ZArith Bool Lia Permutation.
From Verif Require Import Base BaseLemmas EqbLists HashTable Maps FrozenMap FrozenMapFacts Iterators SetOps Sets FrozenSet
  Constructors SpecializedConstructors StdSets Spec IterSpec MapSpec SetSpec SizeSpec HistorySpec History StdSetSpec ProjectTests DocExamples
  MapsProofs HistoryProofs ConstructorProofs SpecializedConstructorProofs ComponentTheorems MapTheorems SetTheorems SetObjectProofs StdSetProofs.
Import ListNotations.
Open Scope Z_scope.

Lemma datum_eqb_eq a b : datum_eqb a b = true <-> a = b.
Proof.
  destruct a, b; cbn [datum_eqb]; rewrite ?andb_true_iff, ?bytes_eqb_eq, ?Z.eqb_eq; split; intros H; try discriminate;
    first [intuition congruence | injection H; auto].
Qed.

Lemma datum_equiv : equivalence datum_eqb.
Proof. split; intros *; rewrite !datum_eqb_eq; congruence. Qed.

Lemma datum_hash (bh : hasher datum) : lawful_hash datum_eqb bh.
Proof. intros a b H. apply datum_eqb_eq in H. now subst. Qed.

Lemma doc_key_eqb_eq (a b : key datum) : key_eqb datum_eqb a b = true <-> a = b.
Proof.
  destruct a, b; cbn [key_eqb]; rewrite ?Z.eqb_eq, ?bytes_eqb_eq, ?datum_eqb_eq; split; congruence.
Qed.

(** What has to be checked about an example. *)
Definition kind_ok (kd : kind) (k : key datum) : bool :=
  match kd, k with
  | KindU32, KU32 x => (0 <=? x) && (x <? 2 ^ 32)
  | KindString, KStr s => zlen s <? 2 ^ 64
  | KindOther, KOther _ => true
  | _, _ => false
  end.
Lemma kind_ok_has kd k : kind_ok kd k = true -> has_kind kd k.
Proof. destruct kd, k; cbn [kind_ok has_kind]; try discriminate; auto; lia. Qed.
Definition apart : list (key datum) -> bool :=
  fix go l := match l with [] => true | k :: l' => forallb (fun k' => negb (key_eqb datum_eqb k k')) l' && go l' end.
Lemma apart_distinct l : apart l = true -> distinct (key_eqb datum_eqb) l.
Proof.
  induction l as [|k l IH]; cbn [apart distinct]; auto. intros H. apply andb_prop in H. destruct H as (H1 & H2).
  split; auto. intros k' Hk'. rewrite forallb_forall in H1. specialize (H1 k' Hk'). now apply negb_true_iff in H1.
Qed.

(** Strings are no trouble if they are few or not all four of the same length. *)
Definition fine (kd : kind) (keys : list (key datum)) : bool :=
  match kd with
  | KindString =>
      (zlen keys <=? 3) ||
      ((zlen keys =? 4) && existsb (fun k => existsb (fun k' => negb (zlen (str_of k) =? zlen (str_of k'))) keys) keys)
  | _ => true
  end.

Lemma fine_untroubled h keys : fine KindString keys = true -> ~ string_trouble h (map str_of keys).
Proof.
  intros Hf (Hn & Hl & _). rewrite map_length in Hn. cbn [fine] in Hf. apply orb_prop in Hf. unfold zlen in *. destruct Hf as [Hf|Hf]; [lia|].
  apply andb_prop in Hf. destruct Hf as (H4 & Hf). apply Z.eqb_eq in H4. apply Hl. split; [rewrite map_length; lia|].
  intros L. apply existsb_exists in Hf. destruct Hf as (k & Hk & Hf). apply existsb_exists in Hf. destruct Hf as (k' & Hk' & Hf).
  assert (Hlt : forall k, In k keys -> length (str_of k) <> L ->
    (length (filter (fun s => Nat.eqb (length s) L) (map str_of keys)) < length keys)%nat).
  { clear. intros k Hk Hd. induction keys as [|a keys IH]; [easy|]. cbn [map filter].
    assert (Hle : forall l : list (key datum), (length (filter (fun s => Nat.eqb (length s) L) (map str_of l)) <= length l)%nat).
    { clear. induction l as [|x l IH]; cbn; [lia|]. destruct (Nat.eqb _ L); cbn; lia. }
    destruct Hk as [->|Hk].
    - destruct (Nat.eqb_spec (length (str_of k)) L); [contradiction|]. cbn. specialize (Hle keys). lia.
    - specialize (IH Hk). destruct (Nat.eqb _ L); cbn; lia. }
  destruct (Nat.eq_dec (length (str_of k)) L) as [E1|E1]; [|specialize (Hlt k Hk E1); lia].
  destruct (Nat.eq_dec (length (str_of k')) L) as [E2|E2]; [|specialize (Hlt k' Hk' E2); lia].
  rewrite negb_true_iff in Hf. lia.
Qed.

Section Documentation.
Variable E : env.
Variable rs : hasher datum.
Hypothesis HE : env_ok E.

Lemma doc_map_built kd (payload : list (key datum * datum)) :
  forallb (kind_ok kd) (map fst payload) && fine kd (map fst payload) && (zlen payload <? 2 ^ 20) &&
    match kd with KindU32 => false | _ => true end = true ->
  typed kd payload /\ zlen payload < 2 ^ 20 /\ exists m, fm_new E kd payload rs = Ok m.
Proof.
  rewrite !andb_true_iff. intros (((Hk & Hf) & Hn) & Hu). apply Z.ltb_lt in Hn.
  assert (Ht : typed kd payload).
  { intros e He. rewrite forallb_forall in Hk. apply kind_ok_has, Hk, in_map, He. }
  split; auto. split; auto. destruct kd; [discriminate| |].
  - destruct (map_new_string_outcome datum datum E rs payload HE ltac:(lia) Ht) as [(H & _)|[(H & _)|(_ & _ & H)]]; auto;
      destruct H as (H & _); exfalso; unfold str_keys in H; apply (fine_untroubled (hash_one_slice rs) (map fst payload) Hf);
      now rewrite map_map.
  - apply (map_new_other_total datum datum E rs payload); auto. lia.
Qed.

Lemma doc_set_built kd (items : list (key datum)) :
  forallb (kind_ok kd) items && fine kd items && (zlen items <? 2 ^ 20) &&
    match kd with KindU32 => false | _ => true end = true ->
  (forall x, In x items -> has_kind kd x) /\ zlen items < 2 ^ 20 /\ exists s, fs_new E kd items rs = Ok s.
Proof.
  rewrite !andb_true_iff. intros (((Hk & Hf) & Hn) & Hu). apply Z.ltb_lt in Hn.
  assert (Ht : forall x, In x items -> has_kind kd x).
  { intros e He. rewrite forallb_forall in Hk. apply kind_ok_has, Hk, He. }
  split; auto. split; auto. destruct (set_new_total datum E kd rs items HE ltac:(lia) Ht) as (H1 & H2).
  destruct kd; [discriminate| |apply H1; discriminate].
  destruct (H2 eq_refl) as [(H & _)|[(H & _)|(_ & _ & H)]]; auto; destruct H as (H & _); exfalso;
    apply (fine_untroubled (hash_one_slice rs) items Hf); exact H.
Qed.
End Documentation.

(** ** Maps *)

Definition example_ok (ex : map_example) : bool :=
  let kd := me_kind ex in let payload := me_payload ex in
  forallb (kind_ok kd) (map fst payload) && fine kd (map fst payload) && (zlen payload <? 2 ^ 20) &&
    match kd with KindU32 => false | _ => true end && apart (map fst payload) &&
    forallb (fun o => forallb (kind_ok kd) (op_keys o)) (map fst (me_story ex)).

Lemma map_documentation :
  forall (E : env) (rs : hasher datum), env_ok E ->
  Forall (fun ex => let kd := me_kind ex in let payload := me_payload ex in
    exists m,
      Forall (eq (Ok m)) [fm_from E kd rs payload; fm_from_vec E kd rs payload; fm_with_hasher E kd payload rs;
                          fm_from_vec_with_hasher E kd payload rs;
                          fm_from_iter_with_hasher E kd list_next (S (length payload)) payload rs] /\
      Forall2 same_obs (run datum_eqb E m (map fst (me_story ex))) (map snd (me_story ex)) /\
      exists entries, Permutation payload entries /\
        yields (it_next (prof E)) (fm_iter_new m) entries /\
        yields (keys_next (prof E)) (fm_keys_new m) (map fst entries) /\
        yields (values_next (prof E)) (fm_values_new m) (map snd entries)) map_examples.
Proof.
  intros E rs HE.
  assert (G : Forall (fun ex => example_ok ex = true /\
    abstract_run (key_eqb datum_eqb) (me_payload ex) (map fst (me_story ex)) = map snd (me_story ex)) map_examples).
  { unfold map_examples. repeat constructor; vm_compute; reflexivity. }
  revert G. apply Forall_impl. intros ex (Hok & Hr). unfold example_ok in Hok. cbv zeta in *.
  rewrite andb_true_iff in Hok. destruct Hok as (Hok & Ho). rewrite andb_true_iff in Hok. destruct Hok as (Hok & Hd).
  destruct (doc_map_built E rs HE (me_kind ex) (me_payload ex) Hok) as (Ht & Hn & m & Hm). exists m. split.
  - destruct (map_constructors datum datum _ E (me_kind ex) rs (me_payload ex) list_next (me_payload ex) (S (length (me_payload ex))))
      as (H1 & H2 & H3 & H4 & H5 & H6); [apply list_next_yields|lia|].
    repeat constructor; congruence.
  - split; [|destruct (map_content datum datum E (me_kind ex) rs (me_payload ex) m HE ltac:(lia) Hm) as (es & H1 & H2 & H3 & H4 & _);
      now exists es].
    rewrite <- Hr. apply (history_refinement datum datum datum_eqb E (me_kind ex) rs); auto using datum_equiv, datum_hash, apart_distinct.
    + right. lia.
    + lia.
    + intros o k Io Ik. rewrite forallb_forall in Ho. specialize (Ho o Io). rewrite forallb_forall in Ho. now apply kind_ok_has, Ho.
Qed.

Lemma library_references :
  forall (E : env) (rs : hasher datum) (m : map_types datum datum),
  env_ok E -> fm_from E KindString rs libraries = Ok m ->
  exists p q, fm_get_many_mut datum_eqb E m wanted_libraries = Ok (Some [p; q]) /\ p <> q /\
    option_map snd (nth_error (fm_iter m) p) = Some (Number 1807) /\
    option_map snd (nth_error (fm_iter m) q) = Some (Number 1800).
Proof.
  intros E rs m HE Hm. unfold fm_from, fm_from_iter_with_hasher in Hm. rewrite collect_array in Hm. cbn [bind] in Hm.
  assert (Ht : typed KindString libraries) by (intros e He; apply kind_ok_has; revert e He; apply Forall_forall; repeat constructor).
  assert (Hd : distinct (key_eqb datum_eqb) (map fst libraries)) by (apply apart_distinct; vm_compute; reflexivity).
  assert (Hw : forall k, In k wanted_libraries -> has_kind KindString k).
  { intros k Hk. apply kind_ok_has. revert k Hk. apply Forall_forall. repeat constructor. }
  assert (Hg : Forall2 (fun k v => fm_get datum_eqb E m k = Ok (Some (Number v))) wanted_libraries [1807; 1800]).
  { assert (G : forall k v, In k wanted_libraries -> In (k, Number v) libraries -> fm_get datum_eqb E m k = Ok (Some (Number v))).
    { intros k v Hk Hin. apply (map_get_exact datum datum datum_eqb E KindString rs libraries m); auto using datum_equiv, datum_hash.
      - right. reflexivity.
      - exists k. split; auto. now apply doc_key_eqb_eq. }
    repeat constructor; apply G; cbn; auto. }
  inversion Hg as [|k1 v1 ks1 vs1 G1 Hg' X1 X2]; subst. inversion Hg' as [|k2 v2 ks2 vs2 G2 _ X3 X4]; subst. clear Hg Hg'.
  destruct (map_get_many_mut datum datum datum_eqb E KindString rs libraries m HE datum_equiv Ht Hm wanted_libraries Hw)
    as [(_ & [H|(k & Hk & H)])|(ps & H1 & _ & H2 & H3)].
  - exfalso. apply H, apart_distinct. vm_compute. reflexivity.
  - exfalso. destruct Hk as [<-|[<-|[]]]; congruence.
  - inversion H3 as [|k1 p ks ps1 (_ & e1 & N1 & F1) H4 X1 X2]; subst. inversion H4 as [|k2 q ks2 ps2 (_ & e2 & N2 & F2) H5 X3 X4]; subst.
    inversion H5; subst. exists p, q. split; auto. split.
    + inversion H2 as [|? ? Hni]; subst. intros ->. apply Hni. now left.
    + rewrite N1, N2. cbn. split; congruence.
Qed.

(** ** Sets *)

Lemma set_documentation :
  forall (E : env) (rs : hasher datum), env_ok E ->
  Forall (fun ex => let kd := se_kind ex in let items := se_items ex in
    exists s,
      Forall (eq (Ok s)) [fs_from E kd rs items; fs_from_vec E kd rs items; fs_with_hasher E kd items rs;
                          fs_from_vec_with_hasher E kd items rs;
                          fs_from_iter_with_hasher E kd list_next (S (length items)) items rs] /\
      fs_len s = zlen items /\ fs_is_empty s = false /\
      Forall (fun x => fs_contains datum_eqb E s x = Ok true /\ fs_get datum_eqb E s x = Ok (Some x)) (se_held ex) /\
      Forall (fun x => fs_contains datum_eqb E s x = Ok false /\ fs_get datum_eqb E s x = Ok None) (se_missing ex) /\
      exists L, yields (keys_next (prof E)) (it_new (with_unit (fs_items s))) L /\ Permutation items L) set_examples.
Proof.
  intros E rs HE.
  assert (G : Forall (fun ex => let kd := se_kind ex in let items := se_items ex in
    forallb (kind_ok kd) items && fine kd items && (zlen items <? 2 ^ 20) && match kd with KindU32 => false | _ => true end = true /\
    apart items = true /\ items <> [] /\
    forallb (fun x => kind_ok kd x && existsb (key_eqb datum_eqb x) items) (se_held ex) = true /\
    forallb (fun x => kind_ok kd x && negb (existsb (key_eqb datum_eqb x) items)) (se_missing ex) = true) set_examples).
  { unfold set_examples. repeat (apply Forall_cons; [cbv zeta; split; [vm_compute; reflexivity|]; split; [vm_compute; reflexivity|];
      split; [discriminate|]; split; vm_compute; reflexivity|]). apply Forall_nil. }
  revert G. apply Forall_impl. intros ex. cbv zeta. set (kd := se_kind ex). set (items := se_items ex).
  intros (Hok & Hd & Hne & Hh & Hm). destruct (doc_set_built E rs HE kd items Hok) as (Ht & Hn & s & Hs). exists s. split.
  { destruct (set_constructors datum _ E kd rs items list_next items (S (length items)))
      as (H1 & H2 & H3 & H4 & H5 & H6); [apply list_next_yields|lia|]. repeat constructor; congruence. }
  destruct (frozen_set_exact datum datum_eqb E kd rs items s) as (HP & Hy & Hlen & Hem & Hx);
    auto using datum_equiv, datum_hash, apart_distinct; [right; lia|lia|].
  split; auto. split; [destruct (fs_is_empty s); tauto|].
  assert (Hmem : forall x, member (key_eqb datum_eqb) items x <-> existsb (key_eqb datum_eqb x) items = true).
  { intros x. unfold member. rewrite existsb_exists. reflexivity. }
  rewrite forallb_forall in Hh, Hm. split; [|split].
  - apply Forall_forall. intros x Hin. specialize (Hh x Hin). apply andb_prop in Hh. destruct Hh as (Hk & He).
    apply Hmem in He. destruct (Hx x (kind_ok_has kd x Hk)) as [(_ & H1 & y & H2 & _ & H3)|(H1 & _)]; [|contradiction].
    apply doc_key_eqb_eq in H3. subst. auto.
  - apply Forall_forall. intros x Hin. specialize (Hm x Hin). apply andb_prop in Hm. destruct Hm as (Hk & He).
    apply negb_true_iff in He. destruct (Hx x (kind_ok_has kd x Hk)) as [(H1 & _)|(_ & H1 & H2)]; auto.
    apply Hmem in H1. congruence.
  - eauto.
Qed.

Lemma common_set_documentation :
  forall (BH : Type) (hash : BH -> Z -> Z) (E : env) (rs : BH), env_ok E ->
  let items := [1; 2; 3] in
  exists s,
    Forall (eq (Ok s)) [cs_from hash E u8 rs items; cs_from_vec_random hash E u8 rs items; cs_with_hasher hash E u8 items rs;
                        cs_from_vec_with_hasher hash E u8 items rs;
                        cs_from_iter_with_hasher hash E u8 list_next (S (length items)) items rs] /\
    cs_len s = 3 /\
    map (cs_contains Z.eqb (fun x => x) hash s) [1; 4] = [Ok true; Ok false] /\
    map (cs_get Z.eqb (fun x => x) hash s) [2; 4] = [Ok (Some 2); Ok None].
Proof.
  intros BH hash E rs HE items.
  destruct (common_set_exact Z Z BH Z.eqb (fun x => x) hash hash E u8 items rs) as (s & Hs & _ & Hl & Hx); auto.
  - repeat split; first [reflexivity | discriminate].
  - apply Z_equiv.
  - intros a b H. apply Z.eqb_eq in H. now subst.
  - exists s. split.
    { destruct (specialized_set_constructors Z BH _ _ _ hash (fun _ => 0) (fun _ _ => 0) E u8 u8 rs 0 0 (S (length items)) items [] []
        list_next items list_next [] list_next []) as (_ & H & _); try apply list_next_yields; try (cbn; lia).
      cbv zeta in H. destruct H as (H1 & H2 & H3 & H4 & H5 & _). repeat constructor; congruence. }
    split; auto.
    assert (Hc : forall q, In q items -> cs_contains Z.eqb (fun x => x) hash s q = Ok true /\ cs_get Z.eqb (fun x => x) hash s q = Ok (Some q)).
    { intros q Hq. destruct (Hx q I) as [(x & _ & H1 & H2 & H3)|(H1 & _)].
      - apply Z.eqb_eq in H1. subst. auto.
      - specialize (H1 q Hq). now rewrite Z.eqb_refl in H1. }
    assert (H4 : cs_contains Z.eqb (fun x => x) hash s 4 = Ok false /\ cs_get Z.eqb (fun x => x) hash s 4 = Ok None).
    { destruct (Hx 4 I) as [(x & Hin & H1 & _)|(_ & H1 & H2)]; auto. cbn in Hin. destruct Hin as [<-|[<-|[<-|[]]]]; discriminate. }
    cbn [map]. rewrite (proj1 (Hc 1 (or_introl eq_refl))), (proj2 (Hc 2 (or_intror (or_introl eq_refl)))), (proj1 H4), (proj2 H4). auto.
Qed.

Lemma number_in n l : In (i32_key n) (map i32_key l) <-> In n l.
Proof.
  rewrite in_map_iff. split; [intros (m & H & Hin); now injection H as <-|]. intros H. now exists n.
Qed.

(** Membership of a value is a matter of numbers, and false if it is none. *)
Lemma numbers_only (P : key datum -> Prop) :
  (forall n, P (i32_key n)) -> (forall x, (forall l, In x (map i32_key l) <-> False) -> P x) -> forall x, P x.
Proof.
  intros H1 H2 x. assert (Hno : (forall n, x <> i32_key n) -> P x).
  { intros Hx. apply H2. intros l. rewrite in_map_iff. split; [intros (m & H & _); now apply (Hx m)|easy]. }
  destruct x as [| |[n| | |]]; try (now apply Hno). apply H1.
Qed.

Ltac few := repeat (constructor; [cbn; intuition discriminate|]); constructor.

Lemma algebra_documentation :
  forall (E : env) (rs : hasher datum) (hash : key datum -> Z) (b : list (key datum)), env_ok E ->
  hash_set (key_eqb datum_eqb) hash (map (fun n => SInsert (i32_key n)) [4; 2; 3; 4]) b ->
  exists a, fs_from E KindOther rs (map i32_key [1; 2; 3]) = Ok a /\
    let s1 := fs_as_set datum_eqb E a in
    let s2 := std_hash_set (key_eqb datum_eqb) hash b in
    let prints {St} (next : set_impl (key datum) -> set_impl (key datum) -> St -> res (option (key datum) * St)) new numbers :=
      exists L, yields (next s1 s2) (new s1 s2) L /\ Permutation (map i32_key numbers) L in
    prints union_next pair_new [1; 2; 3; 4] /\ prints symmetric_difference_next pair_new [1; 4] /\
    prints difference_next difference_new [1] /\ prints intersection_next pair_new [2; 3].
Proof.
  intros E rs hash b HE Hb.
  destruct (doc_set_built E rs HE KindOther (map i32_key [1; 2; 3]) eq_refl) as (Ht & Hn & s & Hs).
  exists s. split; [unfold fs_from; rewrite collect_array; exact Hs|]. cbv zeta.
  assert (Hd : distinct (key_eqb datum_eqb) (map i32_key [1; 2; 3])) by (apply apart_distinct; vm_compute; reflexivity).
  pose proof (key_eqb_equiv datum_eqb datum_equiv) as Heq.
  destruct (frozen_set_lawful datum datum_eqb E KindOther rs (map i32_key [1; 2; 3]) s) as (L1 & D1);
    auto using datum_equiv, datum_hash; [right; vm_compute; reflexivity|]. specialize (D1 Hd).
  destruct (frozen_set_exact datum datum_eqb E KindOther rs (map i32_key [1; 2; 3]) s) as (HP & _);
    auto using datum_equiv, datum_hash; [right; vm_compute; reflexivity|].
  destruct (hash_set_operand (key datum) (key_eqb datum_eqb) hash (has_kind KindOther)
    (map (fun n => SInsert (i32_key n)) [4; 2; 3; 4]) b) as (L2 & D2 & _ & M2); auto.
  { intros x y H. apply doc_key_eqb_eq in H. now subst. }
  { intros x Hx. cbn in Hx. repeat (destruct Hx as [<-|Hx]; [exact I|]). destruct Hx. }
  assert (M1 : forall x, member (key_eqb datum_eqb) (s_items (fs_as_set datum_eqb E s)) x <-> In x (map i32_key [1; 2; 3])).
  { intros x. cbn [fs_as_set s_items]. split.
    - intros (y & Hy & Hxy). apply doc_key_eqb_eq in Hxy. subst y. now apply (Permutation_in _ (Permutation_sym HP)).
    - intros Hx. exists x. split; [now apply (Permutation_in _ HP)|now apply doc_key_eqb_eq]. }
  assert (M3 : forall x, member (key_eqb datum_eqb) (s_items (std_hash_set (key_eqb datum_eqb) hash b)) x <-> In x (map i32_key [2; 3; 4])).
  { intros x. cbn [std_hash_set s_items]. rewrite M2. cbn [held map fold_left]. rewrite !orb_true_iff, !doc_key_eqb_eq.
    revert x. apply numbers_only.
    - intros n. rewrite (number_in n [2; 3; 4]). cbn [In]. unfold i32_key.
      assert (Hi : forall m, KOther (Number n) = KOther (Number m) <-> n = m) by (split; congruence).
      rewrite !Hi. cbn. intuition.
    - intros x Hx. rewrite (Hx [2; 3; 4]). specialize (Hx [2; 3; 4]). cbn in Hx. intuition (try discriminate; subst; tauto). }
  assert (HL : forall L ns, distinct (key_eqb datum_eqb) L -> NoDup ns ->
    (forall x, member (key_eqb datum_eqb) L x <-> In x (map i32_key ns)) -> Permutation (map i32_key ns) L).
  { intros L ns HdL Hns HM. apply NoDup_Permutation.
    - apply FinFun.Injective_map_NoDup; auto. intros m n H. now injection H.
    - clear HM. induction L as [|x L IH]; constructor; destruct HdL as (H1 & H2); auto.
      intros Hx. specialize (H1 x Hx). now rewrite (proj2 (doc_key_eqb_eq x x) eq_refl) in H1.
    - intros x. rewrite <- HM. split; [|intros Hx; exists x; split; [auto|now apply doc_key_eqb_eq]].
      intros (y & Hy & Hxy). apply doc_key_eqb_eq in Hxy. now subst. }
  destruct (union_exact (key_eqb datum_eqb) _ _ _ Heq L1 L2 D1 D2) as (U & YU & DU & _ & MU).
  destruct (symmetric_difference_exact (key_eqb datum_eqb) _ _ _ Heq L1 L2 D1 D2) as (S & YS & DS & _ & MS).
  destruct (difference_exact (key_eqb datum_eqb) _ _ _ Heq L1 L2 D1) as (F & YF & DF & _ & MF).
  destruct (intersection_exact (key_eqb datum_eqb) _ _ _ Heq L1 L2 D1 D2) as (I' & YI & DI & _ & MI).
  split; [|split; [|split]].
  - exists U. split; auto. apply HL; auto; [few|]. intros x. rewrite MU, M1, M3. revert x. apply numbers_only;
    [intros n; rewrite !number_in; cbn [In]; lia|intros x Hx; rewrite !Hx; tauto].
  - exists S. split; auto. apply HL; auto; [few|]. intros x. rewrite MS, M1, M3. revert x. apply numbers_only;
    [intros n; rewrite !number_in; cbn [In]; lia|intros x Hx; rewrite !Hx; tauto].
  - exists F. split; auto. apply HL; auto; [few|]. intros x. rewrite MF, M1, M3. revert x. apply numbers_only;
    [intros n; rewrite !number_in; cbn [In]; lia|intros x Hx; rewrite !Hx; tauto].
  - exists I'. split; auto. apply HL; auto; [few|]. intros x. rewrite MI, M1, M3. revert x. apply numbers_only;
    [intros n; rewrite !number_in; cbn [In]; lia|intros x Hx; rewrite !Hx; tauto].
Qed.
