(** Lemmas about lists, strings and arithmetic used by the proofs. *)

From Coq Require Import Ascii String List NArith ZArith Bool Lia ZifyBool ZifyNat ZifyN.
From Verif Require Import Base.
Import ListNotations.

Ltac Zify.zify_post_hook ::= Z.div_mod_to_equations.

Definition three_ind {A} (P : list A -> Prop)
  (H0 : P []) (H1 : forall a, P [a]) (H2 : forall a b, P [a; b])
  (H3 : forall a b c r, P r -> P (a :: b :: c :: r)) : forall l, P l :=
  fix go l := match l with
  | [] => H0
  | [a] => H1 a
  | [a; b] => H2 a b
  | a :: b :: c :: r => H3 a b c r (go r)
  end.

Lemma app_cons : forall {A} (x : A) l, x :: l = [x] ++ l.
Proof. reflexivity. Qed.

Lemma ascii_eqb_eq : forall a b, Ascii.eqb a b = true <-> a = b.
Proof. apply Ascii.eqb_eq. Qed.
Lemma ascii_eqb_neq : forall a b, Ascii.eqb a b = false <-> a <> b.
Proof. apply Ascii.eqb_neq. Qed.

Lemma str_eqb_eq : forall a b, str_eqb a b = true <-> a = b.
Proof.
  induction a as [|x a IH]; destruct b as [|y b]; simpl; split; intros H; try congruence; auto.
  - apply andb_true_iff in H as [H1 H2]. apply Ascii.eqb_eq in H1. apply IH in H2. congruence.
  - inversion H; subst. rewrite Ascii.eqb_refl. simpl. apply IH. reflexivity.
Qed.
Lemma str_eqb_neq : forall a b, str_eqb a b = false <-> a <> b.
Proof.
  intros a b. destruct (str_eqb a b) eqn:E; split; intros H; try congruence.
  - apply str_eqb_eq in E. congruence.
  - intros ->. assert (str_eqb b b = true) by (apply str_eqb_eq; reflexivity). congruence.
Qed.
Lemma str_eqb_refl : forall a, str_eqb a a = true.
Proof. intros. apply str_eqb_eq. reflexivity. Qed.

Lemma prefixb_spec : forall p s, prefixb p s = true <-> exists r, s = p ++ r.
Proof.
  induction p as [|x p IH]; intros s; simpl.
  - split; [intros _; exists s; reflexivity | auto].
  - destruct s as [|y s].
    + split; [discriminate | intros [r H]; discriminate].
    + rewrite andb_true_iff, Ascii.eqb_eq, IH. split.
      * intros [-> [r ->]]. exists r. reflexivity.
      * intros [r H]. inversion H; subst. split; [reflexivity | exists r; reflexivity].
Qed.

Lemma cstr_app_nonul : forall a b, ~ In NUL a -> cstr (a ++ b) = a ++ cstr b.
Proof.
  induction a as [|c a IH]; intros b H; simpl; auto.
  destruct (Ascii.eqb c NUL) eqn:E.
  - apply Ascii.eqb_eq in E. subst. exfalso. apply H. left. reflexivity.
  - rewrite IH; auto. intro. apply H. right. assumption.
Qed.
Lemma cstr_nonul : forall a, ~ In NUL a -> cstr a = a.
Proof. intros. rewrite <- (app_nil_r a) at 1. rewrite cstr_app_nonul by assumption. simpl. apply app_nil_r. Qed.
Lemma nul_notin_cstr : forall a, ~ In NUL (cstr a).
Proof.
  induction a as [|c a IH]; simpl; auto.
  destruct (Ascii.eqb c NUL) eqn:E; simpl; auto.
  intros [H|H]; auto. apply Ascii.eqb_neq in E. congruence.
Qed.
Lemma cstr_cstr : forall a, cstr (cstr a) = cstr a.
Proof. intros. apply cstr_nonul. apply nul_notin_cstr. Qed.
Lemma cstr_prefix : forall a, exists r, a = cstr a ++ r.
Proof.
  induction a as [|c a [r IH]]; simpl.
  - exists []. reflexivity.
  - destruct (Ascii.eqb c NUL); [exists (c :: a); reflexivity |].
    exists r. simpl. congruence.
Qed.
Lemma cstr_length : forall a, (length (cstr a) <= length a)%nat.
Proof. induction a; simpl; [lia |]. destruct (Ascii.eqb a NUL); simpl; lia. Qed.

Lemma slen_app : forall a b, slen (a ++ b) = (slen a + slen b)%N.
Proof. intros. unfold slen. rewrite app_length. lia. Qed.

Lemma code_bound : forall c, (code c < 256)%N.
Proof. intros. apply N_ascii_bounded. Qed.
Lemma code_inj : forall a b, code a = code b -> a = b.
Proof. intros a b H. rewrite <- (ascii_N_embedding a), <- (ascii_N_embedding b). f_equal. exact H. Qed.

Lemma In_dec_ascii : forall (c : ascii) l, In c l \/ ~ In c l.
Proof. intros. destruct (in_dec ascii_dec c l); auto. Qed.

Lemma not_in_app : forall {A} (x : A) a b, ~ In x (a ++ b) <-> ~ In x a /\ ~ In x b.
Proof. intros. rewrite in_app_iff. tauto. Qed.

Lemma firstn_all_le : forall {A} n (l : list A), (length l <= n)%nat -> firstn n l = l.
Proof. intros. apply firstn_all2. assumption. Qed.

Lemma skipn_skipn : forall {A} x y (l : list A), skipn x (skipn y l) = skipn (y + x) l.
Proof.
  intros A x y. induction y as [|y IH]; intros l; [reflexivity|].
  destruct l; simpl; [apply skipn_nil|apply IH].
Qed.
