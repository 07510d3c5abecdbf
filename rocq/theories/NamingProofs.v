(** Proofs about the choice by type name. *)
From Coq Require Import List ZArith Bool Lia.
From Coq Require String.
From Verif Require Import Base FrozenMap FrozenSet Spec MapSpec Naming NamingSpec.
Import ListNotations.
Open Scope Z_scope.

Lemma other_not_u32 : forall (O : Type) (k : key O), has_kind KindOther k -> as_u32 k = UB WrongType.
Proof. intros O [n|s|o] H; simpl in *; try contradiction; reflexivity. Qed.

Lemma other_not_string : forall (O : Type) (k : key O), has_kind KindOther k -> as_string k = UB WrongType.
Proof. intros O [n|s|o] H; simpl in *; try contradiction; reflexivity. Qed.

Lemma name_map_mistaken :
  forall (O V : Type) (E : env) (name : naming) (kd : kind) (bh : hasher O) (payload : list (key O * V)),
  typed kd payload -> mistaken name kd (length payload) ->
  fm_new_by_name E name kd payload bh = UB WrongType.
Proof.
  intros O V E name kd bh payload Ht (Hn & Hk & Hnm). subst kd.
  unfold fm_new_by_name.
  destruct (Z.ltb_spec (zlen payload) 4) as [Hl|_]; [unfold zlen in Hl; lia|].
  destruct payload as [|[k v] payload]; [simpl in Hn; lia|].
  assert (Hk : has_kind KindOther k) by (apply (Ht (k, v)); left; reflexivity).
  destruct (String.eqb_spec (name KindOther) (name KindU32)) as [_|Hne].
  { unfold fm_new_u32_map, payload_as_u32. simpl. rewrite other_not_u32 by exact Hk. reflexivity. }
  destruct (String.eqb_spec (name KindOther) (name KindString)) as [_|Hne'].
  { unfold fm_new_string_map, payload_as_string. simpl. rewrite other_not_string by exact Hk. reflexivity. }
  destruct Hnm; contradiction.
Qed.

Lemma name_set_mistaken :
  forall (O : Type) (E : env) (name : naming) (kd : kind) (bh : hasher O) (items : list (key O)),
  (forall x, In x items -> has_kind kd x) -> mistaken name kd (length items) ->
  fs_new_by_name E name kd items bh = UB WrongType.
Proof.
  intros O E name kd bh items Ht (Hn & Hk & Hnm). subst kd.
  unfold fs_new_by_name.
  destruct (Z.ltb_spec (zlen items) 4) as [Hl|_]; [unfold zlen in Hl; lia|].
  destruct items as [|k items]; [simpl in Hn; lia|].
  assert (Hk : has_kind KindOther k) by (apply Ht; left; reflexivity).
  destruct (String.eqb_spec (name KindOther) (name KindU32)) as [_|Hne].
  { unfold fs_new_u32_set, items_as_u32. simpl. rewrite other_not_u32 by exact Hk. reflexivity. }
  destruct (String.eqb_spec (name KindOther) (name KindString)) as [_|Hne'].
  { unfold fs_new_string_set, items_as_string. simpl. rewrite other_not_string by exact Hk. reflexivity. }
  destruct Hnm; contradiction.
Qed.

(** Which branch the two tests take. *)
Lemma name_tests :
  forall (A : Type) (name : naming) (kd : kind) (n : nat) (a b c : A),
  standard name -> (4 <= n)%nat -> ~ mistaken name kd n ->
  (if String.eqb (name kd) (name KindU32) then a else if String.eqb (name kd) (name KindString) then b else c) =
  match kd with KindU32 => a | KindString => b | KindOther => c end.
Proof.
  intros A name kd n a b c Hs Hn Hm. unfold standard, mistaken in *.
  destruct kd.
  - rewrite String.eqb_refl. reflexivity.
  - destruct (String.eqb_spec (name KindString) (name KindU32)) as [He|_];
      [destruct Hs as [H1 H2]; rewrite H1, H2 in He; discriminate He|].
    rewrite String.eqb_refl. reflexivity.
  - destruct (String.eqb_spec (name KindOther) (name KindU32)) as [He|_]; [exfalso; apply Hm; auto|].
    destruct (String.eqb_spec (name KindOther) (name KindString)) as [He|_]; [exfalso; apply Hm; auto|].
    reflexivity.
Qed.

Lemma names_decide :
  forall (O V : Type) (E : env) (name : naming) (kd : kind) (bh : hasher O),
  standard name ->
  (forall payload : list (key O * V), typed kd payload ->
     (mistaken name kd (length payload) -> fm_new_by_name E name kd payload bh = UB WrongType) /\
     (~ mistaken name kd (length payload) -> fm_new_by_name E name kd payload bh = fm_new E kd payload bh)) /\
  (forall items : list (key O), (forall x, In x items -> has_kind kd x) ->
     (mistaken name kd (length items) -> fs_new_by_name E name kd items bh = UB WrongType) /\
     (~ mistaken name kd (length items) -> fs_new_by_name E name kd items bh = fs_new E kd items bh)).
Proof.
  intros O V E name kd bh Hs. split.
  - intros payload Ht. split; [apply name_map_mistaken; exact Ht|].
    intros Hm. unfold fm_new_by_name, fm_new.
    destruct (Z.ltb_spec (zlen payload) 4) as [_|Hl]; [reflexivity|].
    apply (name_tests (res (@map_types O V)) name kd (length payload)); [exact Hs| unfold zlen in Hl; lia | exact Hm].
  - intros items Ht. split; [apply name_set_mistaken; exact Ht|].
    intros Hm. unfold fs_new_by_name, fs_new.
    destruct (Z.ltb_spec (zlen items) 4) as [_|Hl]; [reflexivity|].
    apply (name_tests (res (@set_types O)) name kd (length items)); [exact Hs| unfold zlen in Hl; lia | exact Hm].
Qed.

Lemma same_name_refuted :
  exists (name : naming) (payload : list (key Z * Z)),
    standard name /\
    typed KindOther payload /\ distinct (key_eqb Z.eqb) (map fst payload) /\
    forall (E : env) (bh : hasher Z), fm_new_by_name E name KindOther payload bh = UB WrongType.
Proof.
  exists colliding.
  exists [(KOther 1, 10); (KOther 2, 20); (KOther 3, 30); (KOther 4, 40)].
  split; [split; reflexivity|]. split.
  { intros e [<-|[<-|[<-|[<-|[]]]]]; exact I. }
  split.
  { simpl; repeat split; intros k' H; repeat (destruct H as [<-|H]; [reflexivity|]); destruct H. }
  intros E bh. reflexivity.
Qed.
