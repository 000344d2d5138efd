(** Proofs about src/attachment.cpp. *)

From Coq Require Import Ascii String List NArith ZArith Bool Lia ZifyBool ZifyNat ZifyN.
From Verif Require Import Base Lib ModelUtil ModelBase64 ModelAttachment SpecText SpecBase64 SpecAttachment
  ProofText ProofBase64.
Import ListNotations.

Lemma find_last_none : forall c s, find_last_of c s = None <-> ~ In c s.
Proof.
  induction s as [|x s IH]; simpl; [tauto|].
  destruct (find_last_of c s).
  - split; [discriminate|]. intros H. exfalso. apply H. right.
    destruct (in_dec ascii_dec c s); [assumption|]. apply IH in n0. discriminate.
  - destruct (Ascii.eqb x c) eqn:E.
    + apply Ascii.eqb_eq in E. split; [discriminate|tauto].
    + apply Ascii.eqb_neq in E. tauto.
Qed.

Lemma find_last_app : forall c p e, ~ In c e -> find_last_of c (p ++ c :: e) = Some (length p).
Proof.
  intros c p e H. induction p as [|x p IH]; simpl.
  - apply find_last_none in H. rewrite H, Ascii.eqb_refl. reflexivity.
  - rewrite IH. reflexivity.
Qed.

Lemma skipn_app_cons : forall {A} (p : list A) x e, skipn (S (length p)) (p ++ x :: e) = e.
Proof. intros A p x e. induction p; simpl; auto. Qed.

Lemma extension_spec : forall f e, extension_of f e -> extension f = toUpper e.
Proof.
  intros f e [(p & -> & H)|[H ->]]; unfold extension.
  - rewrite find_last_app by assumption. rewrite skipn_app_cons. reflexivity.
  - apply find_last_none in H. rewrite H. reflexivity.
Qed.

Lemma extension_exists : forall f, exists e, extension_of f e.
Proof.
  intros f. destruct (in_dec ascii_dec "."%char f) as [H|H]; [|exists f; right; auto].
  induction f as [|x f IH]; [destruct H|].
  destruct (in_dec ascii_dec "."%char f) as [H'|H'].
  - destruct (IH H') as (e & [(p & -> & Hn)|[Hn _]]); [|contradiction].
    exists e. left. exists (x :: p). auto.
  - destruct H as [->|H]; [|contradiction]. exists f. left. exists []. auto.
Qed.

Fixpoint assoc (k : str) (l : list (str * str)) : str :=
  match l with
  | [] => []
  | (x, v) :: r => if str_eqb k x then v else assoc k r
  end.

Lemma assoc_in : forall l k v, NoDup (map fst l) -> In (k, v) l -> assoc k l = v.
Proof.
  induction l as [|[x y] l IH]; intros k v Hn H; [destruct H|]. simpl in *.
  inversion Hn; subst. destruct H as [H|H].
  - inversion H; subst. rewrite str_eqb_refl. reflexivity.
  - destruct (str_eqb k x) eqn:E; [|auto]. apply str_eqb_eq in E. subst.
    exfalso. apply H2. change x with (fst (x, v)). apply in_map. assumption.
Qed.
Lemma assoc_notin : forall l k, ~ In k (map fst l) -> assoc k l = [].
Proof.
  induction l as [|[x y] l IH]; intros k H; [reflexivity|]. simpl in *.
  destruct (str_eqb k x) eqn:E; [apply str_eqb_eq in E; subst; tauto|]. apply IH. tauto.
Qed.

Fixpoint nodupb (l : list str) : bool :=
  match l with [] => true | x :: r => negb (existsb (str_eqb x) r) && nodupb r end.
Lemma nodupb_spec : forall l, nodupb l = true -> NoDup l.
Proof.
  induction l as [|x l IH]; intros H; [constructor|]. simpl in H. apply andb_true_iff in H as [H1 H2].
  constructor; [|auto]. intros Hin. apply negb_true_iff in H1.
  assert (existsb (str_eqb x) l = true) by (apply existsb_exists; exists x; split; [assumption|apply str_eqb_refl]).
  congruence.
Qed.

Lemma table_nodup : NoDup (map fst mime_table).
Proof. apply nodupb_spec. vm_compute. reflexivity. Qed.

(** The chain of comparisons is a table. *)
Lemma getMimeType_assoc : forall a, getMimeType a = assoc (extension (at_file a)) mime_table.
Proof.
  intros a. unfold getMimeType. generalize (extension (at_file a)). intros e. cbv zeta.
  unfold mime_table. cbn [assoc].
  repeat match goal with
  | |- context [if str_eqb e ?k || _ then _ else _] =>
      let E := fresh in destruct (str_eqb e k) eqn:E;
      [apply str_eqb_eq in E; subst e; vm_compute; reflexivity|]; cbn [orb]
  | |- context [if str_eqb e ?k then _ else _] =>
      let E := fresh in destruct (str_eqb e k) eqn:E;
      [apply str_eqb_eq in E; subst e; vm_compute; reflexivity|]
  end.
  reflexivity.
Qed.

Lemma upper_of_toUpper : forall e k, upper_of e k -> k = toUpper e.
Proof.
  induction 1 as [|c d e k H _ IH]; [reflexivity|]. simpl. rewrite <- IH. f_equal.
  destruct (upper_char_mapped c) as [(i & H1 & H2)|[H1 H2]].
  - destruct H as [(j & H3 & H4)|[H3 H4]].
    + assert (i = j).
      { assert (Hnd : NoDup lower_letters).
        { unfold lower_letters. repeat constructor; vm_compute; intuition discriminate. }
        rewrite NoDup_nth_error in Hnd. apply Hnd; [|congruence].
        apply nth_error_Some. congruence. }
      subst. congruence.
    + exfalso. apply H3. eapply nth_error_In. exact H1.
  - destruct H as [(j & H3 & H4)|[H3 H4]].
    + exfalso. apply H1. eapply nth_error_In. exact H3.
    + congruence.
Qed.
Lemma toUpper_upper_of : forall e, upper_of e (toUpper e).
Proof. intros e. apply case_conversion. Qed.

Lemma getMimeType_known : forall a e k m,
  extension_of (at_file a) e -> upper_of e k -> In (k, m) mime_table -> getMimeType a = m.
Proof.
  intros a e k m H1 H2 H3. rewrite getMimeType_assoc, (extension_spec _ _ H1), <- (upper_of_toUpper _ _ H2).
  apply assoc_in; [exact table_nodup|assumption].
Qed.
Lemma getMimeType_unknown : forall a e k,
  extension_of (at_file a) e -> upper_of e k -> (forall m, ~ In (k, m) mime_table) -> getMimeType a = [].
Proof.
  intros a e k H1 H2 H3. rewrite getMimeType_assoc, (extension_spec _ _ H1), <- (upper_of_toUpper _ _ H2).
  apply assoc_notin. intros H. apply in_map_iff in H as ([x m] & <- & H). apply (H3 m H).
Qed.
Lemma extension_unique : forall f e1 e2, extension_of f e1 -> extension_of f e2 -> e1 = e2.
Proof.
  intros f e1 e2 [(p & -> & H)|[H ->]] [(q & E & H')|[H' ->]].
  - assert (L := find_last_app "."%char p e1 H). rewrite E, (find_last_app "."%char q e2 H') in L.
    inversion L as [L']. apply (f_equal (skipn (S (length p)))) in E.
    rewrite skipn_app_cons, <- L', skipn_app_cons in E. assumption.
  - exfalso. apply H'. apply in_or_app. right. left. reflexivity.
  - subst. exfalso. apply H. apply in_or_app. right. left. reflexivity.
  - reflexivity.
Qed.
Lemma getMimeType_case_insensitive : forall a b e1 e2 k,
  extension_of (at_file a) e1 -> extension_of (at_file b) e2 -> upper_of e1 k -> upper_of e2 k ->
  getMimeType a = getMimeType b.
Proof.
  intros. rewrite !getMimeType_assoc, (extension_spec _ e1), (extension_spec _ e2) by assumption.
  rewrite <- (upper_of_toUpper e1 k), <- (upper_of_toUpper e2 k) by assumption. reflexivity.
Qed.

(** ** File contents *)

Lemma firstn_u32_small : forall s : str, (slen s < 4294967296)%N -> firstn (N.to_nat (u32 (slen s))) s = s.
Proof.
  intros s H. unfold u32. rewrite N.mod_small by assumption. unfold slen. rewrite Nnat.Nat2N.id. apply firstn_all.
Qed.

Lemma getBase64_spec : forall fs a contents, fs (at_file a) = Some contents ->
  exists text, getBase64EncodedFile fs a = Some text /\ mime_decode text = Some (firstn (N.to_nat (slen contents mod 4294967296)%N) contents).
Proof.
  intros fs a contents H. unfold getBase64EncodedFile. rewrite H. eexists. split; [reflexivity|].
  apply mime_decode_encode.
Qed.
Lemma getBase64_complete : forall fs a contents, fs (at_file a) = Some contents ->
  (slen contents < 4294967296)%N ->
  exists text, getBase64EncodedFile fs a = Some text /\ mime_decode text = Some contents.
Proof.
  intros fs a contents H L. unfold getBase64EncodedFile. rewrite H. eexists. split; [reflexivity|].
  rewrite firstn_u32_small by assumption. apply mime_decode_encode.
Qed.
Lemma getBase64_truncates : exists contents : str, forall fs a, fs (at_file a) = Some contents ->
  contents <> [] /\ getBase64EncodedFile fs a = Some [].
Proof.
  exists (repeat "x"%char (N.to_nat 4294967296)). intros fs a H.
  assert (L : slen (repeat "x"%char (N.to_nat 4294967296)) = 4294967296%N).
  { unfold slen. rewrite repeat_length, Nnat.N2Nat.id. reflexivity. }
  split.
  - intros E. rewrite E in L. discriminate L.
  - unfold getBase64EncodedFile. rewrite H, L.
    change (u32 4294967296) with 0%N. reflexivity.
Qed.
