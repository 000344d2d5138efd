(** Proofs about src/messageaddress.cpp. *)

From Coq Require Import Ascii String List NArith ZArith Bool Lia ZifyBool ZifyNat ZifyN.
From Verif Require Import Base Lib ModelUtil ModelAddress ModelMessage SpecText SpecAddress ProofText.
Import ListNotations.

(** ** Regular languages *)

Inductive lang : regex -> str -> Prop :=
| l_eps : lang REps []
| l_set : forall p c, p c = true -> lang (RSet p) [c]
| l_cat : forall a b s t, lang a s -> lang b t -> lang (RCat a b) (s ++ t)
| l_altl : forall a b s, lang a s -> lang (RAlt a b) s
| l_altr : forall a b s, lang b s -> lang (RAlt a b) s
| l_star0 : forall a, lang (RStar a) []
| l_star : forall a s t, lang a s -> lang (RStar a) t -> lang (RStar a) (s ++ t).

Lemma nullable_lang : forall r, nullable r = true <-> lang r [].
Proof.
  induction r; simpl; split; intros H; try discriminate; try (inversion H; fail).
  - constructor.
  - reflexivity.
  - apply andb_true_iff in H as [H1 H2]. change (@nil ascii) with (@nil ascii ++ []).
    constructor; [apply IHr1|apply IHr2]; assumption.
  - inversion H as [| |a b s t Ha Hb E1 E2| | | |]; subst. apply app_eq_nil in E2 as [-> ->].
    apply andb_true_iff. split; [apply IHr1|apply IHr2]; assumption.
  - apply orb_true_iff in H as [H|H]; [apply l_altl, IHr1|apply l_altr, IHr2]; assumption.
  - apply orb_true_iff. inversion H; subst; [left; apply IHr1|right; apply IHr2]; assumption.
  - constructor.
  - reflexivity.
Qed.

Lemma star_cons : forall a c s, lang (RStar a) (c :: s) ->
  exists u v, s = u ++ v /\ lang a (c :: u) /\ lang (RStar a) v.
Proof.
  intros a c s H. remember (RStar a) as r eqn:Er. remember (c :: s) as x eqn:Ex.
  revert a c s Er Ex. induction H; intros a0 c0 s0 Er Ex; try discriminate.
  inversion Er; subst. destruct s as [|y s].
  - simpl in Ex. eapply IHlang2; eauto.
  - simpl in Ex. inversion Ex; subst. exists s, t. auto.
Qed.

Lemma deriv_lang : forall r c s, lang (deriv c r) s <-> lang r (c :: s).
Proof.
  induction r; intros c s; simpl.
  - split; intros H; inversion H.
  - split; intros H; inversion H.
  - destruct (p c) eqn:E; split; intros H; inversion H; subst; try (constructor; assumption); congruence.
  - assert (Hl : lang (RCat (deriv c r1) r2) s -> lang (RCat r1 r2) (c :: s)).
    { intros H. inversion H; subst. rewrite app_comm_cons. constructor; auto. apply IHr1. assumption. }
    assert (Hr : lang (RCat r1 r2) (c :: s) ->
                 lang (RCat (deriv c r1) r2) s \/ (nullable r1 = true /\ lang (deriv c r2) s)).
    { intros H. inversion H as [| |a b s0 t Ha Hb E1 E2| | | |]; subst. destruct s0 as [|y s0].
      - simpl in E2. subst. right. split; [apply nullable_lang; assumption|apply IHr2; assumption].
      - simpl in E2. inversion E2; subst. left. constructor; auto. apply IHr1. assumption. }
    destruct (nullable r1) eqn:E; split; intros H.
    + inversion H; subst; auto. apply IHr2 in H3. change (c :: s) with ([] ++ c :: s).
      constructor; auto. apply nullable_lang. assumption.
    + apply Hr in H as [H|[_ H]]; [apply l_altl|apply l_altr]; assumption.
    + auto.
    + apply Hr in H as [H|[H _]]; auto. discriminate.
  - split; intros H; inversion H; subst.
    + apply l_altl, IHr1; assumption.
    + apply l_altr, IHr2; assumption.
    + apply l_altl, IHr1; assumption.
    + apply l_altr, IHr2; assumption.
  - split; intros H.
    + inversion H; subst. rewrite app_comm_cons. apply l_star; auto. apply IHr. assumption.
    + apply star_cons in H as (u & v & -> & H1 & H2). constructor; auto. apply IHr. assumption.
Qed.

Lemma regex_match_lang : forall s r, regex_match r s = true <-> lang r s.
Proof.
  induction s as [|c s IH]; intros r; simpl.
  - apply nullable_lang.
  - rewrite IH. apply deriv_lang.
Qed.

(** ** Inversion of the operators *)

Lemma lang_cat : forall a b s, lang (RCat a b) s <-> exists u v, s = u ++ v /\ lang a u /\ lang b v.
Proof.
  intros. split.
  - intros H. inversion H; subst. eauto.
  - intros (u & v & -> & H1 & H2). constructor; assumption.
Qed.
Lemma lang_set : forall p s, lang (RSet p) s <-> exists c, s = [c] /\ p c = true.
Proof.
  intros. split.
  - intros H. inversion H; subst. eauto.
  - intros (c & -> & H). constructor. assumption.
Qed.
Lemma lang_alt : forall a b s, lang (RAlt a b) s <-> lang a s \/ lang b s.
Proof.
  intros. split.
  - intros H. inversion H; subst; auto.
  - intros [H|H]; [apply l_altl|apply l_altr]; assumption.
Qed.
Lemma lang_eps : forall s, lang REps s <-> s = [].
Proof. intros. split; [intros H; inversion H; auto|intros ->; constructor]. Qed.

Lemma lang_star_set : forall p s, lang (RStar (RSet p)) s <-> Forall (fun c => p c = true) s.
Proof.
  intros p s. split.
  - induction s as [|c s IH]; intros H; [constructor|].
    apply star_cons in H as (u & v & -> & H1 & H2). apply lang_set in H1 as (x & E & Hx).
    inversion E; subst. simpl in *. constructor; auto.
  - induction s as [|c s IH]; intros H; [constructor|]. inversion H; subst.
    change (c :: s) with ([c] ++ s). apply l_star; [constructor; assumption|auto].
Qed.
Lemma lang_plus_set : forall p s, lang (RPlus (RSet p)) s <-> s <> [] /\ Forall (fun c => p c = true) s.
Proof.
  intros p s. unfold RPlus. rewrite lang_cat. split.
  - intros (u & v & -> & H1 & H2). apply lang_set in H1 as (c & -> & H). apply lang_star_set in H2.
    split; [discriminate|]. simpl. constructor; assumption.
  - intros [H1 H2]. destruct s as [|c s]; [congruence|]. inversion H2; subst.
    exists [c], s. split; [reflexivity|split]; [constructor; assumption|apply lang_star_set; assumption].
Qed.
Lemma lang_rep24 : forall p s, lang (RRep24 (RSet p)) s <->
  (2 <= length s <= 4)%nat /\ Forall (fun c => p c = true) s.
Proof.
  intros p s. unfold RRep24. split.
  - intros H.
    repeat (match goal with
            | H : lang (RCat _ _) _ |- _ => apply lang_cat in H as (? & ? & -> & ? & ?)
            | H : lang (RSet _) _ |- _ => apply lang_set in H as (? & -> & ?)
            | H : lang (RAlt _ _) _ |- _ => apply lang_alt in H as [H|H]
            | H : lang REps _ |- _ => apply lang_eps in H; subst
            end); simpl; split; try lia; repeat constructor; assumption.
  - intros [H1 H2]. destruct s as [|a [|b [|c [|d [|x s]]]]]; simpl in H1; try lia;
    repeat match goal with H : Forall _ (_ :: _) |- _ => inversion H; clear H; subst end.
    + change [a; b] with ([a] ++ [b] ++ []). repeat constructor; assumption.
    + change [a; b; c] with ([a] ++ [b] ++ [c]).
      constructor; [constructor; assumption|]. constructor; [constructor; assumption|].
      apply l_altr. change [c] with ([c] ++ []). constructor; [constructor; assumption|].
      apply l_altl. constructor.
    + change [a; b; c; d] with ([a] ++ [b] ++ [c] ++ [d]).
      constructor; [constructor; assumption|]. constructor; [constructor; assumption|].
      apply l_altr. constructor; [constructor; assumption|].
      apply l_altr. constructor; assumption.
Qed.

(** ** Words separated by single characters *)

Section Words.
Variable p : ascii -> bool.
Variable W : str.
Hypothesis pW : forall c, p c = true <-> In c W.
Hypothesis W_nl : forall c, In c W -> not_linebreak c.

Definition dotted : regex := RCat (RPlus (RSet p)) (RStar (RCat (RSet cls_dot) (RPlus (RSet p)))).
Definition dots : regex := RStar (RCat (RSet cls_dot) (RPlus (RSet p))).

Lemma cls_dot_spec : forall c, cls_dot c = true <-> not_linebreak c.
Proof.
  intros c. unfold cls_dot, not_linebreak. rewrite negb_true_iff, orb_false_iff, !Ascii.eqb_neq. tauto.
Qed.

Lemma Forall_W : forall s, Forall (fun c => p c = true) s <-> Forall (fun c => In c W) s.
Proof. intros. split; apply Forall_impl; intros c; apply pW. Qed.

(** A run of [W] characters followed by what may follow it. *)
Inductive tailok : str -> Prop :=
| to_nil : tailok []
| to_sep : forall c w s, not_linebreak c -> In w W -> tailok s -> tailok (c :: w :: s)
| to_word : forall c s, In c W -> tailok s -> tailok (c :: s).

Lemma tailok_app_words : forall u s, Forall (fun c => In c W) u -> tailok s -> tailok (u ++ s).
Proof. induction u; intros s H1 H2; simpl; auto. inversion H1; subst. apply to_word; auto. Qed.

Lemma dots_tailok : forall s, lang dots s -> tailok s.
Proof.
  intros s. remember (length s) as n eqn:E.
  revert s E. induction n as [n IH] using lt_wf_ind. intros s E H.
  destruct s as [|c s]; [constructor|].
  apply star_cons in H as (u & v & -> & H1 & H2).
  apply lang_cat in H1 as (x & y & E1 & Hx & Hy). apply lang_set in Hx as (c' & -> & Hc).
  apply lang_plus_set in Hy as [Hy1 Hy2]. apply Forall_W in Hy2. simpl in E1. inversion E1; subst.
  destruct y as [|w y]; [congruence|]. inversion Hy2; subst.
  simpl. apply to_sep; [apply cls_dot_spec; assumption|assumption|].
  apply tailok_app_words; [assumption|].
  eapply IH; [|reflexivity|exact H2]. simpl. rewrite app_length. lia.
Qed.

Lemma tailok_lang : forall s, tailok s -> exists u v, s = u ++ v /\ Forall (fun c => In c W) u /\ lang dots v.
Proof.
  induction 1 as [|c w s H1 H2 H3 IH|c s H1 H2 IH].
  - exists [], []. repeat split; constructor.
  - destruct IH as (u & v & -> & Hu & Hv). exists [], (c :: w :: u ++ v).
    split; [reflexivity|split; [constructor|]].
    change (c :: w :: u ++ v) with ((c :: w :: u) ++ v). apply l_star; [|assumption].
    change (c :: w :: u) with ([c] ++ (w :: u)). constructor.
    + constructor. apply cls_dot_spec. assumption.
    + apply lang_plus_set. split; [discriminate|]. apply Forall_W. constructor; assumption.
  - destruct IH as (u & v & -> & Hu & Hv). exists (c :: u), v. split; [reflexivity|split; [|assumption]].
    constructor; assumption.
Qed.

Lemma lang_dotted : forall s, lang dotted s <-> exists c s', s = c :: s' /\ In c W /\ tailok s'.
Proof.
  intros s. unfold dotted. rewrite lang_cat. split.
  - intros (u & v & -> & Hu & Hv). apply lang_plus_set in Hu as [Hu1 Hu2]. apply Forall_W in Hu2.
    destruct u as [|c u]; [congruence|]. inversion Hu2; subst.
    exists c, (u ++ v). split; [reflexivity|split; [assumption|]].
    apply tailok_app_words; [assumption|]. apply dots_tailok. assumption.
  - intros (c & s' & -> & Hc & H). apply tailok_lang in H as (u & v & -> & Hu & Hv).
    exists (c :: u), v. split; [reflexivity|split; [|assumption]].
    apply lang_plus_set. split; [discriminate|]. apply Forall_W. constructor; assumption.
Qed.

Lemma tailok_spec : forall s, tailok s <->
  ends (fun c => In c W) s /\ Forall not_linebreak s /\
  forall a x y b, s = a ++ x :: y :: b -> In x W \/ In y W.
Proof.
  intros s. split.
  - induction 1 as [|c w s H1 H2 H3 (E & F & A)|c s H1 H2 (E & F & A)].
    + split; [left; reflexivity|split; [constructor|]]. intros [|? ?] x y b H; discriminate.
    + split; [|split].
      * right. destruct E as [->|(z & r & -> & Hz)]; [exists w, [c]; auto|exists z, (c :: w :: r); auto].
      * constructor; [assumption|constructor; [apply W_nl; assumption|assumption]].
      * intros [|a0 [|a1 a]] x y b H; inversion H; subst; auto. eauto.
    + split; [|split].
      * right. destruct E as [->|(z & r & -> & Hz)]; [exists c, []; auto|exists z, (c :: r); auto].
      * constructor; auto.
      * intros [|a0 a] x y b H; inversion H; subst; eauto.
  - intros (E & F & A). remember (length s) as n eqn:En. revert s En E F A.
    induction n as [n IH] using lt_wf_ind. intros s En E F A.
    assert (tl_ends : forall c s, s <> [] -> ends (fun c => In c W) (c :: s) -> ends (fun c => In c W) s).
    { intros c s0 Hne [?|(z & r & Hr & Hz)]; [discriminate|]. right.
      destruct r as [|r0 r]; simpl in Hr; inversion Hr; subst; [congruence|]. eauto. }
    destruct s as [|c [|w s]]; [constructor| |].
    + apply to_word; [|constructor]. destruct E as [?|(z & r & Hr & Hz)]; [discriminate|].
      destruct r as [|r0 [|]]; inversion Hr; subst. assumption.
    + inversion F as [|? ? Fc Fws]; subst. inversion Fws as [|? ? Fw Fs]; subst.
      destruct (A [] c w s eq_refl) as [H|H].
      * apply to_word; [assumption|]. eapply IH; [|reflexivity| | |]; [simpl; lia| |constructor; assumption|].
        -- eapply tl_ends; [discriminate|exact E].
        -- intros a x y b Hs. apply (A (c :: a) x y b). simpl. congruence.
      * apply to_sep; auto. eapply IH; [|reflexivity| | |]; [simpl; lia| |assumption|].
        -- destruct s; [left; reflexivity|]. eapply tl_ends; [discriminate|eapply tl_ends; [discriminate|exact E]].
        -- intros a x y b Hs. apply (A (c :: w :: a) x y b). simpl. congruence.
Qed.

Lemma lang_dotted_words : forall s, lang dotted s <-> words W s.
Proof.
  intros s. rewrite lang_dotted. unfold words. split.
  - intros (c & s' & -> & Hc & H). assert (T : tailok (c :: s')) by (apply to_word; assumption).
    apply tailok_spec in T as (E & F & A). split; [discriminate|split; [|auto]].
    right. exists c, s'. auto.
  - intros (N & [?|(c & s' & -> & Hc)] & E & F & A); [congruence|].
    exists c, s'. split; [reflexivity|split; [assumption|]]. apply tailok_spec. split; [|split].
    + destruct s'; [left; reflexivity|]. destruct E as [?|(z & r & Hr & Hz)]; [discriminate|].
      right. destruct r as [|r0 r]; simpl in Hr; inversion Hr; subst. eauto.
    + inversion F; assumption.
    + intros a x y b Hs. apply (A (c :: a) x y b). simpl. congruence.
Qed.
End Words.

(** ** Character classes on lower-cased characters *)

Lemma In_str_dec : forall l c, In c l <-> existsb (Ascii.eqb c) l = true.
Proof.
  intros. rewrite existsb_exists. split.
  - intros H. exists c. split; [assumption|apply Ascii.eqb_refl].
  - intros (x & H1 & H2). apply Ascii.eqb_eq in H2. subst. assumption.
Qed.

Ltac all_chars c := destruct c as [b0 b1 b2 b3 b4 b5 b6 b7];
  destruct b0, b1, b2, b3, b4, b5, b6, b7.

Lemma lower_local : forall c, cls_local (lower_char c) = existsb (Ascii.eqb c) local_chars.
Proof. intros c. all_chars c; vm_compute; reflexivity. Qed.
Lemma lower_domain : forall c, cls_domain (lower_char c) = existsb (Ascii.eqb c) domain_chars.
Proof. intros c. all_chars c; vm_compute; reflexivity. Qed.
Lemma lower_letter : forall c, is_lower (lower_char c) = existsb (Ascii.eqb c) letters.
Proof. intros c. all_chars c; vm_compute; reflexivity. Qed.
Lemma lower_dot : forall c, cls_dot (lower_char c) = cls_dot c.
Proof. intros c. all_chars c; vm_compute; reflexivity. Qed.
Lemma lower_at : forall c, Ascii.eqb "@"%char (lower_char c) = Ascii.eqb "@"%char c.
Proof. intros c. all_chars c; vm_compute; reflexivity. Qed.

(** Lower-casing commutes with the languages. *)
Fixpoint rmap (f : ascii -> ascii) (r : regex) : regex :=
  match r with
  | REmpty => REmpty
  | REps => REps
  | RSet p => RSet (fun c => p (f c))
  | RCat a b => RCat (rmap f a) (rmap f b)
  | RAlt a b => RAlt (rmap f a) (rmap f b)
  | RStar a => RStar (rmap f a)
  end.

Lemma map_app_inv : forall (f : ascii -> ascii) s u v, map f s = u ++ v ->
  exists a b, s = a ++ b /\ map f a = u /\ map f b = v.
Proof.
  intros f s u. revert s. induction u as [|x u IH]; intros s v H.
  - exists [], s. auto.
  - destruct s as [|y s]; [discriminate|]. simpl in H. inversion H; subst.
    apply IH in H2 as (a & b & -> & <- & <-). exists (y :: a), b. auto.
Qed.

Lemma lang_rmap : forall f r s, lang r (map f s) <-> lang (rmap f r) s.
Proof.
  intros f. induction r; intros s; simpl.
  - split; intros H; inversion H.
  - rewrite !lang_eps. destruct s; simpl; split; intros; congruence.
  - rewrite !lang_set. split.
    + intros (c & E & H). destruct s as [|x [|y s]]; inversion E; subst. eauto.
    + intros (c & -> & H). simpl. eauto.
  - rewrite !lang_cat. split.
    + intros (u & v & E & H1 & H2). apply map_app_inv in E as (a & b & -> & <- & <-).
      exists a, b. rewrite <- IHr1, <- IHr2. auto.
    + intros (u & v & -> & H1 & H2). exists (map f u), (map f v).
      rewrite IHr1, IHr2, map_app. auto.
  - rewrite !lang_alt, IHr1, IHr2. tauto.
  - remember (length s) as n eqn:En. revert s En.
    induction n as [n IHn] using lt_wf_ind. intros s En. destruct s as [|c s].
    + split; intros; constructor.
    + split; intros H.
      * simpl in H. apply star_cons in H as (u & v & E & H1 & H2).
        apply map_app_inv in E as (a & b & -> & <- & <-).
        rewrite app_comm_cons. apply l_star.
        -- apply IHr. exact H1.
        -- eapply IHn; [|reflexivity|exact H2]. simpl in En. rewrite app_length in En. lia.
      * apply star_cons in H as (u & v & -> & H1 & H2). rewrite app_comm_cons, map_app.
        apply l_star.
        -- apply IHr. exact H1.
        -- eapply IHn; [|reflexivity|exact H2]. simpl in En. rewrite app_length in En. lia.
Qed.

Lemma local_nl : forall c, In c local_chars -> not_linebreak c.
Proof.
  intros c H. apply In_str_dec in H. revert H. unfold not_linebreak.
  all_chars c; vm_compute; intros H; try discriminate; split; discriminate.
Qed.
Lemma domain_nl : forall c, In c domain_chars -> not_linebreak c.
Proof.
  intros c H. apply In_str_dec in H. revert H. unfold not_linebreak.
  all_chars c; vm_compute; intros H; try discriminate; split; discriminate.
Qed.

Definition Ploc (c : ascii) := cls_local (lower_char c).
Definition Pdom (c : ascii) := cls_domain (lower_char c).

Lemma Ploc_spec : forall c, Ploc c = true <-> In c local_chars.
Proof. intros. unfold Ploc. rewrite lower_local, In_str_dec. tauto. Qed.
Lemma Pdom_spec : forall c, Pdom c = true <-> In c domain_chars.
Proof. intros. unfold Pdom. rewrite lower_domain, In_str_dec. tauto. Qed.

(** Replacing a class by an equal one. *)
Lemma lang_set_ext : forall p q, (forall c, p c = q c) -> forall s, lang (RSet p) s <-> lang (RSet q) s.
Proof.
  intros p q H s. rewrite !lang_set. split; intros (c & -> & E); exists c; rewrite ?H in *; auto; rewrite <- ?H; auto.
Qed.
Lemma lang_cat_ext : forall a a' b b', (forall s, lang a s <-> lang a' s) -> (forall s, lang b s <-> lang b' s) ->
  forall s, lang (RCat a b) s <-> lang (RCat a' b') s.
Proof.
  intros a a' b b' Ha Hb s. rewrite !lang_cat.
  split; intros (u & v & -> & H1 & H2); exists u, v; rewrite ?Ha, ?Hb in *; auto; rewrite <- ?Ha, <- ?Hb; auto.
Qed.
Lemma lang_star_ext : forall a a', (forall s, lang a s <-> lang a' s) ->
  forall s, lang (RStar a) s <-> lang (RStar a') s.
Proof.
  intros a a' Ha s.
  assert (G : forall a a', (forall s, lang a s <-> lang a' s) -> lang (RStar a) s -> lang (RStar a') s).
  { intros b b' Hb H. remember (RStar b) as r eqn:Er. revert Er.
    induction H; intros Er; try discriminate; inversion Er; subst.
    - constructor.
    - apply l_star; [apply Hb; assumption|auto]. }
  split; apply G; auto. intros. symmetry. apply Ha.
Qed.

Lemma lang_cat_assoc : forall a b c s, lang (RCat a (RCat b c)) s <-> lang (RCat (RCat a b) c) s.
Proof.
  intros. rewrite !lang_cat. split.
  - intros (u & v & -> & H1 & H2). apply lang_cat in H2 as (v1 & v2 & -> & H2 & H3).
    exists (u ++ v1), v2. rewrite app_assoc. split; [reflexivity|split; [|assumption]].
    constructor; assumption.
  - intros (u & v & -> & H1 & H2). apply lang_cat in H1 as (v1 & v2 & -> & H1 & H3).
    exists v1, (v2 ++ v). rewrite app_assoc. split; [reflexivity|split; [assumption|]].
    constructor; assumption.
Qed.

Lemma email_valid_spec : forall s, isEmailAddressValid s = true <-> valid_address s.
Proof.
  intros s. unfold isEmailAddressValid. rewrite regex_match_lang. unfold toLower. rewrite lang_rmap.
  unfold email_pattern. cbn [rmap RPlus RRep24].
  change (RSet (fun c : ascii => cls_local (lower_char c))) with (RSet Ploc).
  change (RSet (fun c : ascii => cls_domain (lower_char c))) with (RSet Pdom).
  assert (Hdot : forall s, lang (RSet (fun c => cls_dot (lower_char c))) s <-> lang (RSet cls_dot) s)
    by (apply lang_set_ext; exact lower_dot).
  assert (Hat : forall s, lang (RSet (fun c => Ascii.eqb "@"%char (lower_char c))) s <-> lang (RSet (Ascii.eqb "@"%char)) s)
    by (apply lang_set_ext; exact lower_at).
  rewrite lang_cat_assoc.
  assert (HL : forall s, lang (RCat (RCat (RSet Ploc) (RStar (RSet Ploc)))
                (RStar (RCat (RSet (fun c => cls_dot (lower_char c))) (RCat (RSet Ploc) (RStar (RSet Ploc)))))) s
                <-> words local_chars s).
  { intros x. rewrite <- (lang_dotted_words Ploc local_chars Ploc_spec local_nl). unfold dotted, RPlus.
    apply lang_cat_ext; [tauto|]. apply lang_star_ext. apply lang_cat_ext; [exact Hdot|tauto]. }
  assert (HD : forall s, lang (RCat (RCat (RSet Pdom) (RStar (RSet Pdom)))
                (RStar (RCat (RSet (fun c => cls_dot (lower_char c))) (RCat (RSet Pdom) (RStar (RSet Pdom)))))) s
                <-> words domain_chars s).
  { intros x. rewrite <- (lang_dotted_words Pdom domain_chars Pdom_spec domain_nl). unfold dotted, RPlus.
    apply lang_cat_ext; [tauto|]. apply lang_star_ext. apply lang_cat_ext; [exact Hdot|tauto]. }
  assert (HT : forall s, lang (RRep24 (RSet (fun c => is_lower (lower_char c)))) s <->
              (2 <= length s <= 4)%nat /\ Forall (fun x => In x letters) s).
  { intros x. rewrite lang_rep24. split; intros [H1 H2]; (split; [assumption|]);
    (eapply Forall_impl; [|exact H2]); intros a Ha; cbv beta in *.
    - rewrite lower_letter in Ha. apply In_str_dec. assumption.
    - rewrite lower_letter. apply In_str_dec. assumption. }
  unfold RRep24 in HT. unfold valid_address. split.
  - intros H. apply lang_cat in H as (l & x & -> & H1 & H2). apply HL in H1.
    apply lang_cat in H2 as (a & x2 & -> & H2 & H3). apply Hat in H2. apply lang_set in H2 as (c & -> & Hc).
    apply Ascii.eqb_eq in Hc. subst c.
    apply (proj1 (lang_cat_assoc _ _ _ _)) in H3. apply lang_cat in H3 as (d & y & -> & H3 & H4). apply HD in H3.
    apply lang_cat in H4 as (s1 & t & -> & H4 & H5). apply Hdot in H4. apply lang_set in H4 as (c & -> & Hc).
    apply HT in H5 as [H5 H6]. exists l, d, c, t. split; [reflexivity|].
    split; [assumption|split; [assumption|split; [apply cls_dot_spec; assumption|split; assumption]]].
  - intros (l & d & c & t & -> & H1 & H2 & H3 & H4 & H5).
    apply lang_cat. exists l, ("@"%char :: d ++ c :: t). split; [reflexivity|split; [apply HL; assumption|]].
    apply lang_cat. exists ["@"%char], (d ++ c :: t). split; [reflexivity|split].
    { apply Hat. apply lang_set. exists "@"%char. split; reflexivity. }
    apply (proj2 (lang_cat_assoc _ _ _ _)). apply lang_cat. exists d, (c :: t). split; [reflexivity|split; [apply HD; assumption|]].
    apply lang_cat. exists [c], t. split; [reflexivity|split].
    { apply Hdot. apply lang_set. exists c. split; [reflexivity|apply cls_dot_spec; assumption]. }
    apply HT. split; assumption.
Qed.

(** ** The constructor *)

Lemma local_solid : forall c, In c local_chars -> solid c.
Proof.
  intros c H. apply In_str_dec in H. revert H. unfold solid, ascii7, is_ws.
  all_chars c; vm_compute; intros H; try discriminate; split; try reflexivity; intuition discriminate.
Qed.
Lemma letters_solid : forall c, In c letters -> solid c.
Proof. intros c H. apply local_solid. unfold local_chars. apply in_or_app. left. assumption. Qed.

Lemma valid_address_shape : forall s, valid_address s ->
  exists c r, s = c :: r /\ solid c /\ exists r' c', s = r' ++ [c'] /\ solid c'.
Proof.
  intros s (l & d & c & t & -> & (Hn & [?|(x & r & -> & Hx)] & _) & _ & _ & Ht & Hl); [congruence|].
  exists x, (r ++ "@"%char :: d ++ c :: t). split; [reflexivity|split; [apply local_solid; assumption|]].
  destruct t as [|t0 t] using rev_ind; [simpl in Ht; lia|].
  exists ((x :: r) ++ "@"%char :: d ++ c :: t), t0. split.
  - simpl. rewrite <- app_assoc. simpl. rewrite <- app_assoc. reflexivity.
  - apply letters_solid. rewrite Forall_forall in Hl. apply Hl. apply in_or_app. right. left. reflexivity.
Qed.

Lemma valid_address_trim : forall s, valid_address s -> trim s = Done s.
Proof.
  intros s H. apply trim_spec. exists [], []. rewrite app_nil_r. simpl.
  destruct (valid_address_shape s H) as (c & r & E & Hc & r' & c' & E' & Hc').
  split; [reflexivity|split; [constructor|split; [constructor|split]]].
  - right. eauto.
  - right. eauto.
Qed.

Lemma address_new_done : forall e n a,
  address_new (Some e) (Some n) = Done a <-> valid_address (cstr e) /\ a = mkAddr (cstr e) (cstr n).
Proof.
  intros e n a. unfold address_new. split.
  - destruct (cstr e) as [|c r] eqn:E; [discriminate|]. rewrite <- E.
    destruct (trim (cstr e)) as [t| | | | |] eqn:T; simpl; try discriminate.
    destruct t; [discriminate|].
    destruct (isEmailAddressValid (cstr e)) eqn:V; simpl; [|discriminate].
    intros H. inversion H; subst. split; [apply email_valid_spec; assumption|reflexivity].
  - intros [V ->]. rewrite (valid_address_trim _ V).
    destruct (valid_address_shape _ V) as (c & r & E & _).
    apply email_valid_spec in V. rewrite E in *. simpl obind. cbv iota. rewrite V. reflexivity.
Qed.

Lemma address_new_refused : forall e n, ~ valid_address (cstr e) ->
  address_new (Some e) (Some n) = Throw \/
  (address_new (Some e) (Some n) = Undef UB_IsspaceNegative /\ exists c, In c (cstr e) /\ (128 <= code c)%N).
Proof.
  intros e n H. unfold address_new.
  destruct (cstr e) as [|x r] eqn:E; [left; reflexivity|]. rewrite <- E in *.
  destruct (trim_defined (cstr e)) as [[t T]|[T (l & c & r' & El & Hc & _)]]; rewrite T; simpl.
  - left. destruct t; [reflexivity|].
    destruct (isEmailAddressValid (cstr e)) eqn:V; [|reflexivity].
    apply email_valid_spec in V. contradiction.
  - right. split; [reflexivity|]. exists c. split; [|assumption]. rewrite El. apply in_or_app. right. left. reflexivity.
Qed.

Lemma address_new_ascii_refused : forall e n, Forall ascii7 (cstr e) -> ~ valid_address (cstr e) ->
  address_new (Some e) (Some n) = Throw.
Proof.
  intros e n A H. destruct (address_new_refused e n H) as [->|[_ (c & Hc & Hb)]]; [reflexivity|].
  rewrite Forall_forall in A. apply A in Hc. unfold ascii7 in Hc. lia.
Qed.

(** ** No injection *)

Lemma words_no_linebreak : forall W s, words W s -> ~ In CR s /\ ~ In LF s.
Proof.
  intros W s (_ & _ & _ & F & _). rewrite Forall_forall in F.
  split; intros H; apply F in H; destruct H; congruence.
Qed.

Lemma letter_not_linebreak : forall c, In c letters -> not_linebreak c.
Proof. intros. apply local_nl. unfold local_chars. apply in_or_app. left. assumption. Qed.

Lemma valid_address_no_linebreak : forall s, valid_address s -> ~ In CR s /\ ~ In LF s /\ In "@"%char s.
Proof.
  intros s (l & d & c & t & -> & Hl & Hd & Hc & _ & Ht).
  apply words_no_linebreak in Hl as [L1 L2]. apply words_no_linebreak in Hd as [D1 D2].
  destruct Hc as [C1 C2].
  assert (T1 : ~ In CR t /\ ~ In LF t).
  { rewrite Forall_forall in Ht. split; intros H; apply Ht, letter_not_linebreak in H; destruct H; congruence. }
  destruct T1 as [T1 T2].
  split; [|split].
  - rewrite in_app_iff. simpl. rewrite in_app_iff. simpl. intros [H|[H|[H|[H|H]]]]; try contradiction; try discriminate; congruence.
  - rewrite in_app_iff. simpl. rewrite in_app_iff. simpl. intros [H|[H|[H|[H|H]]]]; try contradiction; try discriminate; congruence.
  - apply in_or_app. right. left. reflexivity.
Qed.

Lemma address_new_clean : forall e n a, address_new e n = Done a ->
  ~ In CR (a_email a) /\ ~ In LF (a_email a) /\ ~ In NUL (a_email a) /\ In "@"%char (a_email a).
Proof.
  intros [e|] n a H; [|discriminate]. destruct n as [n|].
  - apply address_new_done in H as [V ->]. simpl. apply valid_address_no_linebreak in V as (H1 & H2 & H3).
    split; [|split; [|split]]; try assumption. apply nul_notin_cstr.
  - unfold address_new in H. destruct (match cstr e with [] => _ | _ => _ end) as [b| | | | |]; try discriminate.
    simpl in H. destruct b; [discriminate|]. destruct (negb _); discriminate.
Qed.

Lemma one_line_wrap : forall p s q, ~ In CR (p ++ s ++ q) -> ~ In LF (p ++ s ++ q) -> ~ In NUL (p ++ s ++ q) ->
  one_line (p ++ s ++ q ++ CRLF).
Proof. intros. exists (p ++ s ++ q). rewrite <- !app_assoc. auto. Qed.

Lemma address_commands_one_line : forall e n a, address_new e n = Done a ->
  one_line (rcpt_command a) /\
  exists f1 f2 f3, mail_formats a = [f1; f2; f3] /\ one_line f1 /\ one_line f3.
Proof.
  intros e n a H. apply address_new_clean in H as (H1 & H2 & H3 & _).
  assert (G : forall p q, ~ In CR p -> ~ In CR q -> ~ In LF p -> ~ In LF q -> ~ In NUL p -> ~ In NUL q ->
              one_line (p ++ a_email a ++ q ++ CRLF)).
  { intros. apply one_line_wrap; rewrite !in_app_iff; tauto. }
  split; [|eexists _, _, _; split; [reflexivity|split]].
  - apply G; vm_compute; intuition discriminate.
  - apply G; vm_compute; intuition discriminate.
  - change (B "MAIL FROM: " ++ a_email a ++ CRLF) with (B "MAIL FROM: " ++ a_email a ++ [] ++ CRLF).
    apply G; vm_compute; intuition discriminate.
Qed.

(** ** Header rendering *)

Lemma address_str_rendered : forall a s, address_str a = s <-> rendered a s.
Proof.
  intros a s. unfold address_str, rendered. destruct (a_name a) eqn:E; split; intros H.
  - left. auto.
  - destruct H as [[_ H]|[H _]]; congruence.
  - right. split; [discriminate|]. auto.
  - destruct H as [[H _]|[_ H]]; [discriminate|auto].
Qed.

Lemma header_loop_join : forall l k, header_addresses_loop (S k) l =
  match l with [] => [] | _ => B ", " ++ join (B ", ") (map address_str l) end.
Proof.
  induction l as [|a l IH]; intros k; [reflexivity|].
  cbn [header_addresses_loop]. rewrite IH. f_equal. destruct l; simpl.
  - apply app_nil_r.
  - reflexivity.
Qed.

Lemma header_values_join : forall l, generateHeaderAddressValues l = join (B ", ") (map address_str l).
Proof.
  intros [|a l]; [reflexivity|]. unfold generateHeaderAddressValues. cbn [header_addresses_loop].
  rewrite header_loop_join. destruct l; simpl; [apply app_nil_r|reflexivity].
Qed.

Lemma header_values_spec : forall l, exists items,
  Forall2 rendered l items /\ generateHeaderAddressValues l = join (B ", ") items.
Proof.
  intros l. exists (map address_str l). split; [|apply header_values_join].
  induction l; simpl; constructor; auto. apply address_str_rendered. reflexivity.
Qed.

(** The '>' and space findings. *)
Lemma bracket_accepted : exists e a, address_new (Some e) (Some []) = Done a /\
  In ">"%char (a_email a) /\ In " "%char (a_email a) /\ ~ In "."%char (a_email a).
Proof.
  exists (B "a>b c@exampleXcom"), (mkAddr (B "a>b c@exampleXcom") []).
  split; [vm_compute; reflexivity|]. vm_compute. intuition discriminate.
Qed.

Lemma non_ascii_address : exists e n : str, (~ valid_address (cstr e)) /\
  address_new (Some e) (Some n) = Undef UB_IsspaceNegative.
Proof.
  exists [ascii_of_N 233], []. assert (E : address_new (Some [ascii_of_N 233]) (Some []) = Undef UB_IsspaceNegative)
    by (vm_compute; reflexivity).
  split; [ | exact E ]. intros V.
  pose proof (proj2 (address_new_done [ascii_of_N 233] [] _) (conj V eq_refl)) as D.
  pose proof (eq_trans (eq_sym E) D) as X. discriminate X.
Qed.
