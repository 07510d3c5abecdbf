(** What [Debug] prints. *)
From Coq Require Import List ZArith Bool Arith Lia Permutation.
From Coq Require Ascii String.
Import String.StringSyntax.
Delimit Scope string_scope with string.
From Verif Require Import Spec MapSpec SetSpec IterSpec Base BaseLemmas EqbLists HashTable Maps FrozenMap
  BuildSound Iterators IteratorProofs SetOps SetOpsProofs Sets SetObjects FrozenSet FrozenSetProofs FrozenMapFacts MapTheorems
  ComponentTheorems SetTheorems DebugModel.
Import ListNotations.
Open Scope Z_scope.

Lemma map_pair_id {A B} (l : list (A * B)) : map (fun x => (fst x, snd x)) l = l.
Proof. induction l as [|[] l IH]; cbn; congruence. Qed.

Lemma fm_fmt_iter {O V} (m : map_types O V) : fm_fmt m = DMap (fm_iter m).
Proof.
  destruct m; cbn [fm_fmt fm_iter]; unfold sm_fmt, cm_fmt, im_fmt, irm_fmt, slm_fmt, lm_fmt, ht_fmt;
    rewrite map_pair_id; reflexivity.
Qed.

Lemma collect_yields {St A} (next : St -> res (option A * St)) s L :
  yields next s L -> forall fuel, (length L < fuel)%nat -> collect next fuel s = Ok L.
Proof.
  induction 1 as [s s' H|s a s' l H _ IH]; intros [|fuel] Hf; cbn [length] in Hf; try lia; cbn [collect].
  - now rewrite H.
  - rewrite H. cbn [bind fst snd]. rewrite IH by lia. reflexivity.
Qed.

(** C50: a map prints its entries, each once, in the order of iteration. *)
Lemma map_debug :
  forall (O V : Type) (E : env) (kd : kind) (bh : hasher O) (payload : list (key O * V)) (m : map_types O V),
  env_ok E -> zlen payload < 2 ^ 64 -> fm_new E kd payload bh = Ok m ->
  exists es, fm_fmt m = DMap es /\ Permutation payload es /\ yields (it_next (prof E)) (fm_iter_new m) es.
Proof.
  intros O V E kd bh payload m HE Hn Hm. exists (fm_iter m). split; [apply fm_fmt_iter|].
  pose proof (fm_new_perm E HE kd payload bh m Hm) as HP. split; auto.
  assert (Hlen : zlen (fm_iter m) < 2 ^ 64) by (rewrite <- (zlen_perm _ _ HP); lia).
  destruct (map_iter_exact (prof E) _ Hlen 0%nat) as (it & Hc & Hy & _). cbn [calls skipn] in Hc, Hy.
  rewrite map_id in Hy. injection Hc as <-. exact Hy.
Qed.

Lemma table_perm {K V} E S_ty (payload : list (K * V)) hash (a : Z * Z) t :
  env_ok E -> ht_new E S_ty payload (fst a) hash = Ok t -> Permutation payload (entries t).
Proof. intros HE H. eapply ht_new_perm; eauto. Qed.

Lemma cm_perm {K V BH} (hash : BH -> K -> Z) E S_ty (payload : list (K * V)) bh m :
  env_ok E -> cm_from_vec hash E S_ty payload bh = Ok m -> Permutation payload (entries (cm_table m)).
Proof.
  intros HE H. unfold cm_from_vec in H. apply bind_ok in H. destruct H as (a & _ & H).
  apply bind_ok in H. destruct H as (t & H & Hm). injection Hm as <-. eapply table_perm; eauto.
Qed.
Lemma im_perm {V} E S_ty (payload : list (Z * V)) m :
  env_ok E -> im_from_vec E S_ty payload = Ok m -> Permutation payload (entries (im_table m)).
Proof.
  intros HE H. unfold im_from_vec in H. apply bind_ok in H. destruct H as (a & _ & H).
  apply bind_ok in H. destruct H as (t & H & Hm). injection Hm as <-. eapply table_perm; eauto.
Qed.
Lemma lm_perm {K V} (len : K -> Z) E S_ty (payload : list (K * V)) m :
  env_ok E -> lm_from_vec len E S_ty payload = Ok m -> Permutation payload (entries (lm_table m)).
Proof.
  intros HE H. unfold lm_from_vec in H. apply bind_ok in H. destruct H as (a & _ & H).
  apply bind_ok in H. destruct H as (t & H & Hm). injection Hm as <-. eapply table_perm; eauto.
Qed.
Lemma lsm_perm {V BH} (hw : BH -> bytes -> Z) E S_ty (payload : list (bytes * V)) a b bh m :
  env_ok E -> lsm_from_vec hw E S_ty payload a b bh = Ok m -> Permutation payload (entries (slm_table m)).
Proof.
  intros HE H. unfold lsm_from_vec in H. apply bind_ok in H. destruct H as (cs & _ & H).
  apply bind_ok in H. destruct H as (an & _ & H).
  apply bind_ok in H. destruct H as (t & H & Hm). injection Hm as <-. eapply table_perm; eauto.
Qed.
Lemma rsm_perm {V BH} (hw : BH -> bytes -> Z) E S_ty (payload : list (bytes * V)) a b bh m :
  env_ok E -> rsm_from_vec hw E S_ty payload a b bh = Ok m -> Permutation payload (entries (slm_table m)).
Proof.
  intros HE H. unfold rsm_from_vec in H. apply bind_ok in H. destruct H as (cs & _ & H).
  apply bind_ok in H. destruct H as (an & _ & H).
  apply bind_ok in H. destruct H as (t & H & Hm). injection Hm as <-. eapply table_perm; eauto.
Qed.

(** C50: so do the specialized maps, each with the entries it was built from. *)
Lemma specialized_map_debug :
  forall (K V BH : Type) (hash : BH -> K -> Z) (len : K -> Z) (hw : BH -> bytes -> Z) (E : env)
         (S_ty ty : int_type) (payload : list (K * V)) (ints : list (Z * V)) (strings : list (bytes * V))
         (a b : Z) (bh : BH),
  env_ok E ->
  sm_fmt (sm_from_vec payload) = DMap payload /\
  (forall m, cm_from_vec hash E S_ty payload bh = Ok m -> exists es, cm_fmt m = DMap es /\ Permutation payload es) /\
  (forall m, lm_from_vec len E S_ty payload = Ok m -> exists es, lm_fmt m = DMap es /\ Permutation payload es) /\
  (forall m, im_from_vec E S_ty ints = Ok m -> exists es, im_fmt m = DMap es /\ Permutation ints es) /\
  (forall m, irm_from_vec (prof E) ty ints = Ok m -> exists es, irm_fmt m = DMap es /\ Permutation ints es) /\
  (forall m, lsm_from_vec hw E S_ty strings a b bh = Ok m -> exists es, slm_fmt m = DMap es /\ Permutation strings es) /\
  (forall m, rsm_from_vec hw E S_ty strings a b bh = Ok m -> exists es, slm_fmt m = DMap es /\ Permutation strings es).
Proof.
  intros K V BH hash len hw E S_ty ty payload ints strings a b bh HE.
  unfold sm_fmt, cm_fmt, im_fmt, irm_fmt, slm_fmt, lm_fmt, ht_fmt.
  split; [now rewrite map_pair_id|].
  repeat split; intros m Hm; eexists; (split; [reflexivity|]); rewrite map_pair_id.
  - eapply cm_perm; eauto.
  - eapply lm_perm; eauto.
  - eapply im_perm; eauto.
  - eapply irm_from_vec_perm; eauto.
  - eapply lsm_perm; eauto.
  - eapply rsm_perm; eauto.
Qed.

(** C50: a CommonSet prints a list of its items, every other set a map from its items to [()]. *)
Lemma set_debug :
  forall (T BH : Type) (hash : BH -> T -> Z) (len : T -> Z) (hw : BH -> bytes -> Z) (E : env)
         (S_ty ty : int_type) (items : list T) (ints : list Z) (strings : list bytes) (a b : Z) (bh : BH),
  env_ok E ->
  ss_fmt (ss_from_vec items) = DMap (map (fun x => (x, tt)) items) /\
  (forall s, cs_from_vec hash E S_ty items bh = Ok s -> exists l, cs_fmt s = DList l /\ Permutation items l) /\
  (forall s, ls_from_vec len E S_ty items = Ok s ->
     exists l, ls_fmt s = DMap (map (fun x => (x, tt)) l) /\ Permutation items l) /\
  (forall s, is_from_vec E S_ty ints = Ok s ->
     exists l, is_fmt s = DMap (map (fun x => (x, tt)) l) /\ Permutation ints l) /\
  (forall s, irs_from_vec (prof E) ty ints = Ok s ->
     exists l, irs_fmt s = DMap (map (fun x => (x, tt)) l) /\ Permutation ints l) /\
  (forall s, lss_from_vec hw E S_ty strings a b bh = Ok s ->
     exists l, sls_fmt s = DMap (map (fun x => (x, tt)) l) /\ Permutation strings l) /\
  (forall s, rss_from_vec hw E S_ty strings a b bh = Ok s ->
     exists l, sls_fmt s = DMap (map (fun x => (x, tt)) l) /\ Permutation strings l).
Proof.
  intros T BH hash len hw E S_ty ty items ints strings a b bh HE.
  destruct (specialized_map_debug T unit BH hash len hw E S_ty ty (with_unit items) (with_unit ints) (with_unit strings) a b bh HE)
    as (H1 & _ & H3 & H4 & H5 & H6 & H7).
  assert (Hw : forall A (d : debug_out A unit) l, (exists es, d = DMap es /\ Permutation (with_unit l) es) ->
     exists l', d = DMap (map (fun x => (x, tt)) l') /\ Permutation l l').
  { intros A d l (es & -> & HP). exists (map fst es). rewrite (unit_entries es) at 1. split; [reflexivity|].
    apply (Permutation_map fst) in HP. now rewrite with_unit_keys in HP. }
  split; [exact H1|]. split.
  { intros s Hs. exists (cs_items s). split; [reflexivity|]. apply cm_perm in Hs; auto.
    apply (Permutation_map fst) in Hs. rewrite with_unit_keys in Hs. exact Hs. }
  split; [intros s Hs; apply Hw, (H3 s Hs)|]. split; [intros s Hs; apply Hw, (H4 s Hs)|].
  split; [intros s Hs; apply Hw, (H5 s Hs)|]. split; [intros s Hs; apply Hw, (H6 s Hs)|].
  intros s Hs; apply Hw, (H7 s Hs).
Qed.

(** Iterators print the items still to come and stay where they are. *)
Lemma iterators_debug :
  forall (K V : Type) (pr : profile) (entries : list (K * V)) (n fuel : nat),
  zlen entries < 2 ^ 64 -> (length entries < fuel)%nat ->
  (exists it, calls (it_next pr) n (it_new entries) = Ok (results n entries, it) /\
     iter_fmt (it_next pr) fuel it = Ok (DList (skipn n entries))) /\
  (exists it, calls (keys_next pr) n (keys_new entries) = Ok (results n (map fst entries), it) /\
     iter_fmt (keys_next pr) fuel it = Ok (DList (skipn n (map fst entries)))) /\
  (exists it, calls (values_next pr) n (values_new entries) = Ok (results n (map snd entries), it) /\
     iter_fmt (values_next pr) fuel it = Ok (DList (skipn n (map snd entries)))).
Proof.
  intros K V pr entries n fuel Hlen Hf.
  destruct (map_iterators_exact K V pr entries n Hlen) as
    ((i1 & H1 & Y1 & _) & (i2 & H2 & Y2 & _) & (i3 & H3 & Y3 & _)).
  unfold iter_fmt. split; [|split].
  - exists i1. split; auto. rewrite (collect_yields _ _ _ Y1) by (rewrite skipn_length; lia). reflexivity.
  - exists i2. split; auto. rewrite (collect_yields _ _ _ Y2) by (rewrite skipn_length, map_length; lia). reflexivity.
  - exists i3. split; auto. rewrite (collect_yields _ _ _ Y3) by (rewrite skipn_length, map_length; lia). reflexivity.
Qed.

(** The iterators of the set operations print the items of the operation. *)
Lemma set_operations_debug :
  forall (T : Type) (eqb : T -> T -> bool) (D : T -> Prop) (s1 s2 : set_impl T) (fuel : nat),
  equivalence eqb -> lawful_set eqb D s1 -> lawful_set eqb D s2 ->
  distinct eqb (s_items s1) -> distinct eqb (s_items s2) ->
  (length (s_items s1) + length (s_items s2) < fuel)%nat ->
  (exists L, iter_fmt (union_next s1 s2) fuel (pair_new s1 s2) = Ok (DList L) /\ distinct eqb L /\
     forall x, member eqb L x <-> member eqb (s_items s1) x \/ member eqb (s_items s2) x) /\
  (exists L, iter_fmt (intersection_next s1 s2) fuel (pair_new s1 s2) = Ok (DList L) /\ distinct eqb L /\
     forall x, member eqb L x <-> member eqb (s_items s1) x /\ member eqb (s_items s2) x) /\
  (exists L, iter_fmt (difference_next s1 s2) fuel (difference_new s1 s2) = Ok (DList L) /\ distinct eqb L /\
     forall x, member eqb L x <-> member eqb (s_items s1) x /\ ~ member eqb (s_items s2) x) /\
  (exists L, iter_fmt (symmetric_difference_next s1 s2) fuel (pair_new s1 s2) = Ok (DList L) /\ distinct eqb L /\
     forall x, member eqb L x <->
       (member eqb (s_items s1) x /\ ~ member eqb (s_items s2) x) \/
       (member eqb (s_items s2) x /\ ~ member eqb (s_items s1) x)).
Proof.
  intros T eqb D s1 s2 fuel He L1 L2 H1 H2 Hf. unfold iter_fmt.
  destruct (union_delivers eqb He D s1 s2 L1 L2) as (Yu & _).
  pose proof (union_length eqb D s1 s2 L1 L2) as Nu.
  destruct (intersection_delivers eqb He D s1 s2 L1 L2) as (Yi & _).
  pose proof (intersection_length eqb D s1 s2 L1 L2) as Ni.
  destruct (difference_delivers eqb He D s1 s2 L1 L2) as (Yd & _).
  pose proof (difference_length eqb D s1 s2 L1) as Nd.
  destruct (symmetric_delivers eqb He D s1 s2 L1 L2) as (Ys & _).
  pose proof (symmetric_length eqb D s1 s2 L1 L2) as Ns.
  rewrite (SetSpec.ls_len _ _ _ L1) in *. rewrite (SetSpec.ls_len _ _ _ L2) in *. unfold zlen in *.
  split; [|split; [|split]].
  - exists (union_list eqb s1 s2). rewrite (collect_yields _ _ _ Yu) by lia. split; auto.
    split; [now apply union_distinct|]. intros x. now apply union_member.
  - exists (intersection_list eqb s1 s2). rewrite (collect_yields _ _ _ Yi) by lia. split; auto.
    split; [now apply intersection_distinct|]. intros x. now apply intersection_member.
  - exists (difference_list eqb s1 s2). rewrite (collect_yields _ _ _ Yd) by lia. split; auto.
    split; [now apply difference_distinct|]. intros x. now apply difference_member.
  - exists (symmetric_list eqb s1 s2). rewrite (collect_yields _ _ _ Ys) by lia. split; auto.
    split; [now apply symmetric_distinct|]. intros x. now apply symmetric_member.
Qed.

(** The bytes of a string. *)
Definition text (s : String.string) : list Z :=
  map (fun c => Z.of_N (Ascii.N_of_ascii c)) (String.list_ascii_of_string s).

(** It is false that equal sets print alike: a ScanningSet prints [{..}], an equal CommonSet
    [[..]]. *)
Lemma set_debug_refuted :
  exists (E : env) (items : list Z) (s1 : scanning_set Z) (s2 : common_set Z unit),
  env_ok E /\ NoDup items /\ ss_from_vec items = s1 /\
  cs_from_vec (fun (_ : unit) x => x) E u8 items tt = Ok s2 /\
  set_eq (ss_as_set Z.eqb s1) (cs_as_set Z.eqb (fun _ x => x) s2) = Ok true /\
  forall show,
    plain_text show show_unit (ss_fmt s1) =
      text "{"%string ++ show 1 ++ text ": (), "%string ++ show 2 ++ text ": (), "%string ++ show 3 ++ text ": ()}"%string /\
    plain_text show show_unit (cs_fmt s2) =
      text "["%string ++ show 2 ++ text ", "%string ++ show 1 ++ text ", "%string ++ show 3 ++ text "]"%string /\
    plain_text show show_unit (ss_fmt s1) <> plain_text show show_unit (cs_fmt s2).
Proof.
  set (E := {| prof := Checked; usort := @stable_sort |}).
  assert (H : match cs_from_vec (fun (_ : unit) x => x) E u8 [1; 2; 3] tt with
              | Ok s2 => set_eq (ss_as_set Z.eqb (ss_from_vec [1; 2; 3])) (cs_as_set Z.eqb (fun _ x => x) s2) = Ok true /\
                         cs_fmt s2 = DList [2; 1; 3]
              | _ => False end) by (vm_compute; split; reflexivity).
  destruct (cs_from_vec _ E u8 [1; 2; 3] tt) as [s2| | |] eqn:H1; try contradiction. destruct H as (H2 & H3).
  exists E, [1; 2; 3], (ss_from_vec [1; 2; 3]), s2.
  split. { intros A key l. split; [apply stable_sort_perm|apply stable_sort_sorted]. }
  split. { repeat constructor; cbn; lia. }
  split; auto. split; auto. split; auto. intros show. rewrite H3. cbn -[app]. split; [|split].
  - cbn [app]. repeat (rewrite <- !app_assoc; cbn [app]). reflexivity.
  - cbn [app]. repeat (rewrite <- !app_assoc; cbn [app]). reflexivity.
  - cbn. congruence.
Qed.
