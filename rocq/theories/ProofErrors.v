(** Proofs about src/errorresolver.cpp and getErrorMessage_r. *)

From Coq Require Import Ascii String List NArith ZArith Bool Lia ZifyBool ZifyNat ZifyN.
From Verif Require Import Base Lib ModelErrors SpecErrors.
Import ListNotations.
Open Scope Z_scope.

Definition table : list (Z * str) := map (fun c => (c, error_message c)) defined_codes.

Lemma error_message_default : forall c, ~ In c defined_codes -> error_message c = generic_text.
Proof.
  intros c H. unfold error_message.
  repeat match goal with
  | |- (if ?c =? ?k then _ else _) = _ =>
      let E := fresh in destruct (c =? k) eqn:E;
      [apply Z.eqb_eq in E; exfalso; apply H; rewrite E; vm_compute; tauto|]
  end.
  reflexivity.
Qed.

Fixpoint distinct (l : list str) : bool :=
  match l with [] => true | x :: r => negb (existsb (str_eqb x) r) && distinct r end.
Lemma distinct_spec : forall l, distinct l = true -> NoDup l.
Proof.
  induction l as [|x l IH]; intros H; [constructor|]. simpl in H. apply andb_true_iff in H as [H1 H2].
  constructor; [|auto]. intros Hin. apply negb_true_iff in H1.
  assert (existsb (str_eqb x) l = true) by (apply existsb_exists; exists x; split; [assumption|apply str_eqb_refl]).
  congruence.
Qed.

Lemma NoDup_map_inj : forall {A C} (f : A -> C) l x y, NoDup (map f l) -> In x l -> In y l -> f x = f y -> x = y.
Proof.
  induction l as [|a l IH]; intros x y Hn Hx Hy E; [destruct Hx|].
  simpl in Hn. inversion Hn; subst. destruct Hx as [->|Hx], Hy as [->|Hy]; auto.
  - exfalso. apply H1. rewrite E. apply in_map. assumption.
  - exfalso. apply H1. rewrite <- E. apply in_map. assumption.
Qed.

Lemma error_messages_distinct : forall a b, In a defined_codes -> In b defined_codes ->
  getErrorMessage a = getErrorMessage b -> a = b.
Proof.
  intros a b. apply NoDup_map_inj. apply distinct_spec. vm_compute. reflexivity.
Qed.

Lemma error_message_specific : forall c, In c defined_codes ->
  getErrorMessage c <> generic_text.
Proof.
  intros c H E.
  assert (F : forallb (fun c => negb (str_eqb (getErrorMessage c) generic_text)) defined_codes = true)
    by (vm_compute; reflexivity).
  rewrite forallb_forall in F. specialize (F c H). rewrite E, str_eqb_refl in F. discriminate.
Qed.

Lemma error_message_length : forall c, (0 < slen (error_message c) < 200)%N.
Proof.
  intros c. destruct (in_dec Z.eq_dec c defined_codes) as [H|H].
  - assert (F : forallb (fun c => (0 <? slen (error_message c))%N && (slen (error_message c) <? 200)%N) defined_codes = true)
      by (vm_compute; reflexivity).
    rewrite forallb_forall in F. specialize (F c H). apply andb_true_iff in F as [F1 F2]. lia.
  - rewrite error_message_default by assumption. vm_compute. split; reflexivity.
Qed.

Lemma error_message_nonempty : forall c, getErrorMessage c <> [].
Proof. intros c E. assert (L := error_message_length c). unfold getErrorMessage in E. rewrite E in L. vm_compute in L. destruct L; discriminate. Qed.

Lemma error_message_nonul : forall c, ~ In NUL (error_message c).
Proof.
  intros c. destruct (in_dec Z.eq_dec c defined_codes) as [H|H].
  - assert (F : forallb (fun c => negb (existsb (Ascii.eqb NUL) (error_message c))) defined_codes = true)
      by (vm_compute; reflexivity).
    rewrite forallb_forall in F. specialize (F c H). intros Hin. apply negb_true_iff in F.
    assert (existsb (Ascii.eqb NUL) (error_message c) = true)
      by (apply existsb_exists; exists NUL; split; [assumption|reflexivity]). congruence.
  - rewrite error_message_default by assumption. vm_compute. intuition discriminate.
Qed.

(** ** getErrorMessage_r *)

Lemma error_r_null : forall c maxLength, getErrorMessage_r c None maxLength = Done (-1, None).
Proof. reflexivity. Qed.
Lemma error_r_zero : forall c b, getErrorMessage_r c (Some b) 0 = Done (-1, Some b).
Proof. reflexivity. Qed.

Lemma error_r_spec : forall c b maxLength, (0 < maxLength)%N -> (maxLength <= slen b)%N ->
  exists stored rest, 
    getErrorMessage_r c (Some b) maxLength =
      Done (if (slen (getErrorMessage c) <? maxLength)%N then 0 else Z.of_N (maxLength - 1),
            Some (stored ++ NUL :: rest)) /\
    stored = firstn (N.to_nat (maxLength - 1)) (getErrorMessage c) /\
    length (stored ++ NUL :: rest) = length b /\
    rest = skipn (S (length stored)) b.
Proof.
  intros c b mx H0 H1. unfold getErrorMessage_r, getErrorMessage.
  assert (L := error_message_length c). set (msg := error_message c) in *.
  destruct (N.eqb_spec mx 0); [lia|].
  assert (W : forall d, (length d < N.to_nat mx)%nat -> write_buf b (d ++ [NUL]) = Done (d ++ NUL :: skipn (S (length d)) b)).
  { intros d Hd. unfold write_buf. rewrite app_length. simpl.
    replace (length d + 1)%nat with (S (length d)) by lia. unfold slen in H1.
    destruct (Nat.leb_spec (S (length d)) (length b)); [|lia].
    rewrite <- app_assoc. reflexivity. }
  assert (LL : forall d, (length d < N.to_nat mx)%nat -> length (d ++ NUL :: skipn (S (length d)) b) = length b).
  { intros d Hd. rewrite app_length. cbn [length]. rewrite skipn_length. unfold slen in H1. lia. }
  destruct (N.ltb_spec (mx - 1) (slen msg)).
  - assert (Hf : (length (firstn (N.to_nat (mx - 1)) msg) < N.to_nat mx)%nat)
      by (rewrite firstn_length; lia).
    rewrite W by assumption. simpl obind.
    eexists _, _. split; [|split; [reflexivity|split; [apply LL; assumption|reflexivity]]].
    destruct (N.ltb_spec (slen msg) mx); [lia|]. 
    unfold to_int32. rewrite Z.mod_small by lia.
    destruct (Z.ltb_spec (Z.of_N (mx - 1)) 2147483648); [reflexivity|lia].
  - unfold slen in H.
    assert (Hm : firstn (N.to_nat (mx - 1)) msg = msg) by (apply firstn_all2; lia).
    rewrite W by lia. simpl obind.
    eexists _, _. split; [|split; [symmetry; exact Hm|split; [apply LL; lia|reflexivity]]].
    destruct (N.ltb_spec (slen msg) mx); [reflexivity|unfold slen in *; lia].
Qed.

Lemma error_r_truncated_zero : exists c b mx, (0 < mx)%N /\ (mx <= slen b)%N /\
  exists b', getErrorMessage_r c (Some b) mx = Done (0, Some b') /\ cstr b' <> getErrorMessage c.
Proof.
  exists (-1), (B "zz"), 1%N. split; [reflexivity|split; [vm_compute; discriminate|]].
  eexists. split; [vm_compute; reflexivity|]. vm_compute. discriminate.
Qed.

Lemma error_r_within_claim : forall c b mx r b', (mx <= slen b)%N ->
  getErrorMessage_r c (Some b) mx = Done (r, Some b') ->
  skipn (N.to_nat mx) b' = skipn (N.to_nat mx) b /\
  (mx = 0%N \/ (In NUL (firstn (N.to_nat mx) b') /\ exists t, getErrorMessage c = cstr b' ++ t /\
     (t = [] \/ slen (cstr b') = (mx - 1)%N))).
Proof.
  intros c b mx r b' H1 H. destruct (N.eq_dec mx 0) as [->|Hz].
  - inversion H; subst. auto.
  - destruct (error_r_spec c b mx ltac:(lia) H1) as (st & rest & E & Est & EL & Er).
    rewrite E in H. inversion H; subst b'. clear H E.
    assert (Hst : (length st <= N.to_nat (mx - 1))%nat) by (rewrite Est, firstn_length; lia).
    assert (Hc : cstr (st ++ NUL :: rest) = st).
    { rewrite cstr_app_nonul.
      - simpl. apply app_nil_r.
      - rewrite Est. intros Hin. apply (error_message_nonul c). rewrite <- (firstn_skipn (N.to_nat (mx - 1))).
        apply in_or_app. left. exact Hin. }
    split; [|right; split].
    + rewrite Er. rewrite skipn_app. rewrite (skipn_all2 st) by lia. rewrite app_nil_l.
      destruct (N.to_nat mx - length st)%nat as [|k] eqn:Ek; [lia|].
      change (skipn (S k) (NUL :: skipn (S (length st)) b)) with (skipn k (skipn (S (length st)) b)).
      rewrite skipn_skipn. f_equal. lia.
    + rewrite firstn_app. apply in_or_app. right.
      destruct (N.to_nat mx - length st)%nat as [|k] eqn:Ek; [lia|]. left. reflexivity.
    + rewrite Hc. exists (skipn (N.to_nat (mx - 1)) (getErrorMessage c)). split.
      * rewrite Est. symmetry. apply firstn_skipn.
      * destruct (le_lt_dec (length (getErrorMessage c)) (N.to_nat (mx - 1))) as [Hl|Hl].
        -- left. apply skipn_all2. assumption.
        -- right. rewrite Est. unfold slen. rewrite firstn_length. lia.
Qed.
