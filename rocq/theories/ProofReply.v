(** Proofs about the interpretation of server replies. *)

From Coq Require Import Ascii String List NArith ZArith Bool Lia ZifyBool ZifyNat ZifyN.
From Verif Require Import Base Lib ModelUtil ModelReply SpecText SpecReply ProofText.
Import ListNotations.

(** ** Searching *)

Lemma find_sub_none : forall p s, find_sub p s = None <-> forall a b, s <> a ++ p ++ b.
Proof.
  intros p s. split.
  - revert p. induction s as [|c s IH]; intros p H a b E; simpl in H.
    + destruct (prefixb p []) eqn:P; [discriminate|]. symmetry in E. apply app_eq_nil in E as [-> E].
      apply app_eq_nil in E as [-> ->]. discriminate P.
    + destruct (prefixb p (c :: s)) eqn:P; [discriminate|].
      destruct (find_sub p s) eqn:F; [discriminate|]. destruct a as [|x a].
      * simpl in E. rewrite E in P. assert (prefixb p (p ++ b) = true) by (apply prefixb_spec; eauto). congruence.
      * simpl in E. inversion E; subst. eapply IH; eauto.
  - intros H. destruct (find_sub p s) eqn:F; [|reflexivity]. exfalso. revert n F H.
    induction s as [|c s IH]; intros n F H; simpl in F.
    + destruct (prefixb p []) eqn:P; [|discriminate]. apply prefixb_spec in P as [r P]. apply (H [] r). assumption.
    + destruct (prefixb p (c :: s)) eqn:P.
      * apply prefixb_spec in P as [r P]. apply (H [] r). assumption.
      * destruct (find_sub p s) eqn:G; [|discriminate]. eapply IH; [reflexivity|].
        intros a b E. apply (H (c :: a) b). rewrite E. reflexivity.
Qed.

Lemma find_sub_some : forall p s n, find_sub p s = Some n -> exists a b, s = a ++ p ++ b /\ length a = n.
Proof.
  intros p s. induction s as [|c s IH]; intros n H; simpl in H.
  - destruct (prefixb p []) eqn:P; [|discriminate]. apply prefixb_spec in P as [r P].
    inversion H; subst. exists [], r. auto.
  - destruct (prefixb p (c :: s)) eqn:P.
    + apply prefixb_spec in P as [r P]. inversion H; subst. exists [], r. auto.
    + destruct (find_sub p s) eqn:G; [|discriminate]. inversion H; subst.
      destruct (IH _ eq_refl) as (a & b & -> & <-). exists (c :: a), b. auto.
Qed.

Lemma single_line_cons : forall c s, single_line (c :: s) -> single_line s.
Proof. intros c s H a b E. apply (H (c :: a) b). rewrite E. reflexivity. Qed.

Lemma find_sub_line : forall l r, single_line l -> find_sub CRLF (l ++ CRLF ++ r) = Some (length l).
Proof.
  induction l as [|c l IH]; intros r H.
  - reflexivity.
  - change ((c :: l) ++ CRLF ++ r) with (c :: (l ++ CRLF ++ r)). cbn [find_sub].
    destruct (prefixb CRLF (c :: l ++ CRLF ++ r)) eqn:P.
    + exfalso. apply prefixb_spec in P as [x P]. simpl in P. inversion P; subst.
      destruct l as [|d l]; simpl in H2.
      * inversion H2.
      * inversion H2; subst. apply (H [] l). reflexivity.
    + rewrite IH by (eapply single_line_cons; eauto). reflexivity.
Qed.

Lemma rfind_sub_none : forall s, single_line s -> rfind_sub CRLF s = None.
Proof.
  induction s as [|c s IH]; intros H; [reflexivity|].
  cbn [rfind_sub]. rewrite IH by (eapply single_line_cons; eauto).
  destruct (prefixb CRLF (c :: s)) eqn:P; [|reflexivity].
  apply prefixb_spec in P as [r P]. exfalso. apply (H [] r). assumption.
Qed.

Lemma rfind_sub_last : forall p l, single_line l -> rfind_sub CRLF (p ++ CRLF ++ l) = Some (length p).
Proof.
  intros p l H. induction p as [|c p IH].
  - change ([] ++ CRLF ++ l) with (CR :: LF :: l). cbn [rfind_sub].
    rewrite rfind_sub_none by assumption.
    destruct (prefixb CRLF (LF :: l)) eqn:P.
    + apply prefixb_spec in P as [r P]. inversion P.
    + destruct (prefixb CRLF (CR :: LF :: l)) eqn:Q; [reflexivity|].
      assert (prefixb CRLF (CRLF ++ l) = true) by (apply prefixb_spec; eauto). simpl in *. congruence.
  - change ((c :: p) ++ CRLF ++ l) with (c :: (p ++ CRLF ++ l)). cbn [rfind_sub]. rewrite IH. reflexivity.
Qed.

(** ** C17 *)

Lemma firstn_app_exact : forall {A} (a b : list A), firstn (length a) (a ++ b) = a.
Proof. intros. rewrite firstn_app, Nat.sub_diag, firstn_all. simpl. apply app_nil_r. Qed.
Lemma skipn_app_exact : forall {A} (a b : list A), skipn (length a) (a ++ b) = b.
Proof. intros. rewrite skipn_app, Nat.sub_diag, skipn_all. reflexivity. Qed.

Lemma firstn_prefix : forall (p s : str), firstn (length p) s = p <-> starts_with p s.
Proof.
  intros p s. split.
  - intros H. exists (skipn (length p) s). rewrite <- H at 1. symmetry. apply firstn_skipn.
  - intros [r ->]. apply firstn_app_exact.
Qed.

Lemma last_line_check : forall pre last, (pre = [] \/ exists p, pre = p ++ CRLF) -> single_line last ->
  let sane := pre ++ last in
  let start := match rfind_sub CRLF sane with None => 0%nat | Some n => (n + 2)%nat end in
  str_eqb (substr sane start 4) (B "250 ") = true <-> starts_with (B "250 ") last.
Proof.
  intros pre last Hp Hl sane start.
  assert (E : skipn start sane = last).
  { unfold start, sane. destruct Hp as [->|[p ->]].
    - simpl. rewrite rfind_sub_none by assumption. reflexivity.
    - rewrite <- app_assoc, rfind_sub_last by assumption.
      replace (length p + 2)%nat with (length (p ++ CRLF)) by (rewrite app_length; reflexivity).
      rewrite app_assoc. apply skipn_app_exact. }
  unfold substr. rewrite E, str_eqb_eq. apply (firstn_prefix (B "250 ")).
Qed.

Lemma containsAllOptions_terminated : forall pre last,
  (pre = [] \/ exists p, pre = p ++ CRLF) -> single_line last ->
  containsAllOptions (pre ++ last ++ CRLF) = true <-> starts_with (B "250 ") last.
Proof.
  intros pre last Hp Hl. unfold containsAllOptions.
  assert (L : (length (pre ++ last ++ CRLF) - 2 = length (pre ++ last))%nat)
    by (rewrite !app_length; simpl; lia).
  assert (L2 : (2 <=? length (pre ++ last ++ CRLF))%nat = true).
  { apply Nat.leb_le. rewrite !app_length. simpl. lia. }
  rewrite L, L2. rewrite app_assoc. rewrite skipn_app_exact, firstn_app_exact, str_eqb_refl.
  apply last_line_check; assumption.
Qed.

Lemma ends_crlf : forall s, (2 <=? length s)%nat && str_eqb (skipn (length s - 2) s) CRLF = true <->
  exists p, s = p ++ CRLF.
Proof.
  intros s. rewrite andb_true_iff, str_eqb_eq, Nat.leb_le. split.
  - intros [H1 H2]. exists (firstn (length s - 2) s). rewrite <- H2. symmetry. apply firstn_skipn.
  - intros [p ->]. rewrite app_length. simpl. split; [lia|].
    replace (length p + 2 - 2)%nat with (length p) by lia. apply skipn_app_exact.
Qed.

Lemma single_line_end : forall pre last p, single_line last -> (2 <= length last)%nat -> pre ++ last <> p ++ CRLF.
Proof.
  intros pre last p Hl Hn E.
  assert (E2 : skipn (length last - 2) last = CRLF).
  { assert (X : skipn (length (pre ++ last) - 2) (pre ++ last) = CRLF).
    { rewrite E, app_length. simpl. replace (length p + 2 - 2)%nat with (length p) by lia. apply skipn_app_exact. }
    rewrite app_length, skipn_app in X. 
    rewrite skipn_all2 in X by lia.
    replace (length pre + length last - 2 - length pre)%nat with (length last - 2)%nat in X by lia. exact X. }
  apply (Hl (firstn (length last - 2) last) []). rewrite app_nil_r, <- E2. symmetry. apply firstn_skipn.
Qed.

Lemma containsAllOptions_unterminated : forall pre last,
  (pre = [] \/ exists p, pre = p ++ CRLF) -> single_line last -> last <> [] ->
  containsAllOptions (pre ++ last) = true <-> starts_with (B "250 ") last.
Proof.
  intros pre last Hp Hl Hn.
  destruct ((2 <=? length (pre ++ last))%nat && str_eqb (skipn (length (pre ++ last) - 2) (pre ++ last)) CRLF) eqn:E.
  - (* only possible for a last line of one character *)
    assert (E' := E). apply ends_crlf in E as [p Ep].
    destruct last as [|x [|y r]]; [congruence| |exfalso; eapply single_line_end; eauto; simpl; lia].
    assert (X : x = LF /\ pre = p ++ [CR]).
    { change CRLF with ([CR] ++ [LF]) in Ep. rewrite app_assoc in Ep. apply app_inj_tail in Ep. tauto. }
    destruct X as [-> Epre]. exfalso. destruct Hp as [->|[q ->]].
    + destruct p; discriminate.
    + change CRLF with ([CR] ++ [LF]) in Epre. rewrite app_assoc in Epre. apply app_inj_tail in Epre as [_ X]. discriminate.
  - unfold containsAllOptions. rewrite E. apply last_line_check; assumption.
Qed.

(** ** C16 *)

Lemma strtol_digit_value : forall c v, digit_value c v ->
  strtol_digit c = true /\ Z.of_N (code c - 48) = v /\ strtol_space c = false /\
  Ascii.eqb c "-"%char = false /\ Ascii.eqb c "+"%char = false /\ c <> NUL.
Proof.
  intros c v [H ->].
  assert (C : v = 0%Z \/ v = 1%Z \/ v = 2%Z \/ v = 3%Z \/ v = 4%Z \/ v = 5%Z \/ v = 6%Z \/ v = 7%Z \/ v = 8%Z \/ v = 9%Z) by lia.
  repeat (destruct C as [->|C]; [vm_compute; repeat split; discriminate|]). subst v.
  vm_compute; repeat split; discriminate.
Qed.

Lemma extract_three_digits : forall c1 c2 c3 v1 v2 v3 r,
  digit_value c1 v1 -> digit_value c2 v2 -> digit_value c3 v3 ->
  extractReturnCode (Some (c1 :: c2 :: c3 :: r)) = (100 * v1 + 10 * v2 + v3)%Z.
Proof.
  intros c1 c2 c3 v1 v2 v3 r H1 H2 H3.
  apply strtol_digit_value in H1 as (D1 & V1 & S1 & M1 & P1 & N1).
  apply strtol_digit_value in H2 as (D2 & V2 & S2 & M2 & P2 & N2).
  apply strtol_digit_value in H3 as (D3 & V3 & S3 & M3 & P3 & N3).
  assert (E : exists r', cstr (c1 :: c2 :: c3 :: r) = c1 :: c2 :: c3 :: r').
  { apply Ascii.eqb_neq in N1, N2, N3. cbn [cstr]. rewrite N1, N2, N3. eauto. }
  destruct E as [r' E]. unfold extractReturnCode. rewrite E.
  cbn [length Nat.leb firstn]. unfold stoi. cbn [skip_spaces]. rewrite S1, M1, P1, D1.
  cbn [read_digits]. rewrite D1, D2, D3, V1, V2, V3. lia.
Qed.

Lemma extract_null : extractReturnCode None = (-1)%Z.
Proof. reflexivity. Qed.
Lemma extract_short : forall s, (length (cstr s) < 3)%nat -> extractReturnCode (Some s) = (-1)%Z.
Proof.
  intros s H. unfold extractReturnCode. destruct (Nat.leb_spec 3 (length (cstr s))); [lia|reflexivity].
Qed.

Lemma read_digits_nodigit : forall s, Forall (fun c => strtol_digit c = false) s -> forall acc, read_digits s acc = acc.
Proof. intros [|c s] H acc; [reflexivity|]. inversion H; subst. simpl. rewrite H2. reflexivity. Qed.

Lemma skip_spaces_suffix : forall s, exists p, s = p ++ skip_spaces s.
Proof.
  induction s as [|c s [p IH]]; [exists []; reflexivity|]. simpl.
  destruct (strtol_space c); [|exists []; reflexivity]. exists (c :: p). simpl. congruence.
Qed.

Lemma stoi_no_digit : forall s, Forall (fun c => strtol_digit c = false) s -> stoi s = None.
Proof.
  intros s H. unfold stoi. destruct (skip_spaces_suffix s) as [p E].
  destruct (skip_spaces s) as [|c r]; [reflexivity|].
  assert (H' : Forall (fun c => strtol_digit c = false) (c :: r)) by (rewrite E in H; apply Forall_app in H; tauto).
  inversion H'; subst.
  assert (G : starts_with_digit r = false).
  { destruct r as [|d r]; [reflexivity|]. inversion H3; subst. assumption. }
  rewrite G, H2. destruct (Ascii.eqb c "-"); [reflexivity|]. destruct (Ascii.eqb c "+"); reflexivity.
Qed.

Lemma not_digit : forall c, (forall v, ~ digit_value c v) -> strtol_digit c = false.
Proof.
  intros c H. destruct (strtol_digit c) eqn:E; [|reflexivity]. exfalso.
  unfold strtol_digit in E. apply andb_true_iff in E as [E1 E2].
  apply (H (Z.of_N (code c - 48))). split; [lia|].
  replace (48 + Z.to_N (Z.of_N (code c - 48)))%N with (code c) by lia. symmetry. apply ascii_N_embedding.
Qed.

Lemma extract_no_digit : forall s, Forall (fun c => forall v, ~ digit_value c v) (firstn 3 (cstr s)) ->
  extractReturnCode (Some s) = (-1)%Z.
Proof.
  intros s H. unfold extractReturnCode. destruct (3 <=? length (cstr s))%nat; [|reflexivity].
  rewrite stoi_no_digit; [reflexivity|]. eapply Forall_impl; [|exact H]. intros c. apply not_digit.
Qed.

(** A text that does not begin with a digit, white space or a sign. *)
Lemma extract_no_number : forall c r, ~ is_ws c -> c <> "-"%char -> c <> "+"%char ->
  (forall v, ~ digit_value c v) -> extractReturnCode (Some (c :: r)) = (-1)%Z.
Proof.
  intros c r W M P D. unfold extractReturnCode. cbn [cstr].
  destruct (Ascii.eqb c NUL); [reflexivity|].
  destruct (3 <=? length (c :: cstr r))%nat; [|reflexivity].
  apply not_digit in D. apply Ascii.eqb_neq in M, P.
  assert (S : strtol_space c = false).
  { destruct (strtol_space c) eqn:E; [|reflexivity]. exfalso. apply W. revert E. clear.
    unfold is_ws, ws_chars, strtol_space. destruct c as [b0 b1 b2 b3 b4 b5 b6 b7].
    destruct b0, b1, b2, b3, b4, b5, b6, b7; vm_compute; intros E; try discriminate; tauto. }
  unfold stoi. cbn [firstn]. cbn [skip_spaces]. rewrite S, M, P, D. reflexivity.
Qed.

Lemma read_digits_bound : forall s acc, (0 <= acc)%Z ->
  (0 <= read_digits s acc <= acc * 10 ^ Z.of_nat (length s) + (10 ^ Z.of_nat (length s) - 1))%Z.
Proof.
  induction s as [|c s IH]; intros acc H; cbn [read_digits length].
  - simpl. lia.
  - replace (Z.of_nat (S (length s))) with (Z.succ (Z.of_nat (length s))) by lia.
    rewrite Z.pow_succ_r by lia. assert (0 < 10 ^ Z.of_nat (length s))%Z by (apply Z.pow_pos_nonneg; lia).
    destruct (strtol_digit c) eqn:E.
    + unfold strtol_digit in E. apply andb_true_iff in E as [E1 E2].
      assert (A : (0 <= Z.of_N (code c - 48) <= 9)%Z) by lia.
      specialize (IH (acc * 10 + Z.of_N (code c - 48))%Z ltac:(lia)). nia.
    + nia.
Qed.

Lemma pow10_le : forall a b, (a <= b)%nat -> (10 ^ Z.of_nat a <= 10 ^ Z.of_nat b)%Z.
Proof. intros. apply Z.pow_le_mono_r; lia. Qed.

Lemma extract_bounds : forall p, (-99 <= extractReturnCode p <= 999)%Z.
Proof.
  intros [s|]; [|simpl; lia]. unfold extractReturnCode.
  destruct (3 <=? length (cstr s))%nat; [|lia].
  unfold stoi. set (t := firstn 3 (cstr s)).
  assert (Lt : (length t <= 3)%nat) by (unfold t; rewrite firstn_length; lia).
  destruct (skip_spaces_suffix t) as [q E].
  destruct (skip_spaces t) as [|c r] eqn:K; [lia|].
  assert (Lr : (length r <= 2)%nat).
  { rewrite E in Lt. rewrite app_length in Lt. simpl in Lt. lia. }
  assert (A2 := pow10_le _ _ Lr). change (10 ^ Z.of_nat 2)%Z with 100%Z in A2.
  assert (A3 : (10 ^ Z.of_nat (length (c :: r)) <= 10 ^ Z.of_nat 3)%Z) by (apply pow10_le; simpl; lia).
  change (10 ^ Z.of_nat 3)%Z with 1000%Z in A3.
  destruct (Ascii.eqb c "-").
  { destruct (starts_with_digit r); [|lia]. assert (X := read_digits_bound r 0 ltac:(lia)). lia. }
  destruct (Ascii.eqb c "+").
  { destruct (starts_with_digit r); [|lia]. assert (X := read_digits_bound r 0 ltac:(lia)). lia. }
  destruct (strtol_digit c); [|lia].
  assert (X := read_digits_bound (c :: r) 0 ltac:(lia)). lia.
Qed.

(** ** C18 *)

Lemma split_spaces_words : forall s cur, ~ In " "%char cur ->
  forall w, In w (split_spaces cur s) <->
    ~ In " "%char w /\ exists a b, cur ++ s = a ++ w ++ b /\
      (a = [] \/ exists a', a = a' ++ [" "%char]) /\ (b = [] \/ exists b', b = " "%char :: b').
Proof.
  induction s as [|c s IH]; intros cur Hc w; cbn [split_spaces].
  - rewrite app_nil_r. split.
    + intros [<-|[]]. split; [assumption|]. exists [], []. rewrite app_nil_r. auto.
    + intros (Hw & a & b & E & Ha & Hb). left.
      destruct Ha as [->|[a' ->]].
      * destruct Hb as [->|[b' ->]]; [rewrite app_nil_r in E; simpl in E; congruence|].
        exfalso. apply Hc. rewrite E. simpl. apply in_or_app. right. left. reflexivity.
      * exfalso. apply Hc. rewrite E. rewrite <- app_assoc. apply in_or_app. right. left. reflexivity.
  - destruct (Ascii.eqb c " ") eqn:E.
    + apply Ascii.eqb_eq in E. subst c. cbn [In]. rewrite (IH [] (fun H => H)). cbn [app]. split.
      * intros [<-|(Hw & a & b & -> & Ha & Hb)].
        -- split; [assumption|]. exists [], (" "%char :: s). split; [reflexivity|]. split; [left; reflexivity|right; eauto].
        -- split; [assumption|]. exists (cur ++ " "%char :: a), b. rewrite <- app_assoc. split; [reflexivity|].
           split; [|assumption]. right. destruct Ha as [->|[a' ->]]; [exists cur; reflexivity|].
           exists (cur ++ " "%char :: a'). rewrite <- app_assoc. reflexivity.
      * intros (Hw & a & b & E & Ha & Hb).
        (* compare the first space of both sides *)
        assert (D : forall x u v, ~ In " "%char u -> u ++ " "%char :: v = x -> 
                    forall x1 x2, x = x1 ++ x2 -> ~ In " "%char x1 ->
                    exists z, u = x1 ++ z /\ x2 = z ++ " "%char :: v).
        { clear. intros x u v Hu <- x1. revert u Hu. induction x1 as [|y x1 IH]; intros u Hu x2 E H.
          - exists u. auto.
          - destruct u as [|u0 u].
            + simpl in E. inversion E; subst. exfalso. apply H. left. reflexivity.
            + simpl in E. inversion E; subst.
              destruct (IH u (fun h => Hu (or_intror h)) x2 H2 (fun h => H (or_intror h))) as (z & -> & ->).
              exists z. auto. }
        destruct Ha as [->|[a' ->]].
        -- simpl in E. destruct (D _ cur s Hc E w b eq_refl Hw) as (z & Ez & Eb).
           left. destruct Hb as [->|[b' ->]].
           ++ destruct z; discriminate.
           ++ destruct z as [|z0 z]; [rewrite app_nil_r in Ez; assumption|]. exfalso.
              simpl in Eb. inversion Eb; subst. exfalso. apply Hc. apply in_or_app. right. left. reflexivity.
        -- right. split; [assumption|].
           (* the first space is in a' ++ [" "] *)
           destruct (in_dec ascii_dec " "%char a') as [Hin|Hin].
           ++ apply in_split in Hin as (x1 & x2 & ->).
              assert (Hx : exists y1 y2, x1 ++ " "%char :: x2 = y1 ++ " "%char :: y2 /\ ~ In " "%char y1).
              { clear. induction x1 as [|y x1 IH]; [exists [], x2; auto|].
                destruct IH as (y1 & y2 & E & H). destruct (ascii_dec y " "%char) as [->|N].
                - exists [], (x1 ++ " "%char :: x2). auto.
                - exists (y :: y1), y2. simpl. split; [congruence|]. intros [?|?]; [congruence|auto]. }
              destruct Hx as (y1 & y2 & Ex & Hy). rewrite Ex in E.
              assert (E2 : cur ++ " "%char :: s = y1 ++ " "%char :: (y2 ++ [" "%char] ++ w ++ b)).
              { rewrite E. rewrite <- !app_assoc. reflexivity. }
              destruct (D _ cur s Hc E2 y1 _ eq_refl Hy) as (z & Ez & Eb).
              destruct z as [|z0 z].
              ** simpl in Eb. inversion Eb; subst. exists (y2 ++ [" "%char]), b.
                 rewrite <- app_assoc. split; [reflexivity|]. split; [right; eauto|assumption].
              ** simpl in Eb. inversion Eb; subst. exfalso. apply Hc. apply in_or_app. right. left. reflexivity.
           ++ assert (E2 : cur ++ " "%char :: s = a' ++ " "%char :: (w ++ b)).
              { rewrite E. rewrite <- app_assoc. reflexivity. }
              destruct (D _ cur s Hc E2 a' _ eq_refl Hin) as (z & Ez & Eb).
              destruct z as [|z0 z].
              ** simpl in Eb. inversion Eb; subst. exists [], b. auto.
              ** simpl in Eb. inversion Eb; subst. exfalso. apply Hc. apply in_or_app. right. left. reflexivity.
    + apply Ascii.eqb_neq in E. rewrite IH.
      * rewrite <- app_assoc. reflexivity.
      * rewrite in_app_iff. simpl. intuition.
Qed.

Lemma split_spaces_is_word : forall line w, In w (split_spaces [] line) <-> is_word w line.
Proof. intros. rewrite split_spaces_words; [reflexivity|intros []]. Qed.

Lemma fold_options : forall ws o,
  let o' := fold_left set_option ws o in
  (ao_plain o' = true <-> ao_plain o = true \/ In (B "PLAIN") ws) /\
  (ao_login o' = true <-> ao_login o = true \/ In (B "LOGIN") ws) /\
  (ao_xoauth2 o' = true <-> ao_xoauth2 o = true \/ In (B "XOAUTH2") ws) /\
  (ao_plain_clienttoken o' = true <-> ao_plain_clienttoken o = true \/ In (B "PLAIN-CLIENTTOKEN") ws) /\
  (ao_oauthbearer o' = true <-> ao_oauthbearer o = true \/ In (B "OAUTHBEARER") ws) /\
  (ao_xoauth o' = true <-> ao_xoauth o = true \/ In (B "XOAUTH") ws).
Proof.
  induction ws as [|w ws IH]; intros o; cbn [fold_left].
  - cbv zeta. simpl. tauto.
  - specialize (IH (set_option o w)). cbv zeta in *. destruct IH as (I1 & I2 & I3 & I4 & I5 & I6).
    rewrite I1, I2, I3, I4, I5, I6. clear. destruct o as [p l x pc ob xo]. unfold set_option.
    repeat match goal with
    | |- context [if str_eqb w ?k then _ else _] =>
        let E := fresh in destruct (str_eqb w k) eqn:E;
        [apply str_eqb_eq in E; subst w; cbn [ao_plain ao_login ao_xoauth2 ao_plain_clienttoken ao_oauthbearer ao_xoauth In]; repeat split; intros HH;
         repeat match goal with X : _ \/ _ |- _ => destruct X end; auto;
         match goal with X : B _ = B _ |- _ => discriminate X end | apply str_eqb_neq in E]
    end.
    cbn [ao_plain ao_login ao_xoauth2 ao_plain_clienttoken ao_oauthbearer ao_xoauth In].
    repeat split; intros HH; (destruct HH as [HH|HH]; [left; exact HH|]); try (right; right; exact HH);
      (destruct HH as [HH|HH]; [congruence|right; exact HH]).
Qed.

Lemma parse_auth_some : forall line, auth_line line ->
  exists o, ParseAuthenticationOptions line = Some o /\ options_of line o.
Proof.
  intros line H. unfold ParseAuthenticationOptions.
  assert (E : str_eqb (firstn 8 line) (B "250-AUTH") || str_eqb (firstn 8 line) (B "250 AUTH") = true).
  { destruct H as [H|H]; apply (firstn_prefix) in H; apply orb_true_iff; [left|right]; apply str_eqb_eq; exact H. }
  rewrite E. eexists. split; [reflexivity|].
  destruct (fold_options (split_spaces [] line) no_auth) as (I1 & I2 & I3 & I4 & I5 & I6).
  unfold options_of. rewrite I1, I2, I3, I4, I5, I6, !split_spaces_is_word.
  cbn [no_auth ao_plain ao_login ao_xoauth2 ao_plain_clienttoken ao_oauthbearer ao_xoauth].
  assert (F : forall P, (false = true \/ P) <-> P) by (intuition discriminate).
  rewrite !F. repeat match goal with |- _ /\ _ => split end; reflexivity.
Qed.
Lemma parse_auth_none : forall line, ~ auth_line line -> ParseAuthenticationOptions line = None.
Proof.
  intros line H. unfold ParseAuthenticationOptions.
  destruct (str_eqb (firstn 8 line) (B "250-AUTH") || str_eqb (firstn 8 line) (B "250 AUTH")) eqn:E; [|reflexivity].
  exfalso. apply H. apply orb_true_iff in E as [E|E]; apply str_eqb_eq in E.
  - left. apply (firstn_prefix (B "250-AUTH")). exact E.
  - right. apply (firstn_prefix (B "250 AUTH")). exact E.
Qed.

Lemma auth_line_dec : forall l, auth_line l \/ ~ auth_line l.
Proof.
  intros l. unfold auth_line, starts_with.
  destruct (prefixb (B "250-AUTH") l) eqn:E1; [left; left; apply prefixb_spec; assumption|].
  destruct (prefixb (B "250 AUTH") l) eqn:E2; [left; right; apply prefixb_spec; assumption|].
  right. intros [H|H]; apply prefixb_spec in H; congruence.
Qed.

Lemma auth_line_app : forall l r, (8 <= length l)%nat -> auth_line (l ++ r) -> auth_line l.
Proof.
  intros l r L [H|H]; apply firstn_prefix in H; rewrite firstn_app in H; simpl length in H;
  replace (8 - length l)%nat with 0%nat in H by lia; simpl in H; rewrite app_nil_r in H;
  [left|right]; apply firstn_prefix; exact H.
Qed.
Lemma auth_line_ext : forall l r, auth_line l -> auth_line (l ++ r).
Proof. intros l r [[x ->]|[x ->]]; [left|right]; exists (x ++ r); rewrite <- app_assoc; reflexivity. Qed.

(** If a text beginning with a complete line looks like an AUTH line, the line
    does. *)
Lemma auth_line_first : forall l r, auth_line (l ++ CRLF ++ r) -> auth_line l.
Proof.
  intros l r H. destruct (le_lt_dec 8 (length l)) as [L|L]; [eapply auth_line_app; eauto|].
  exfalso.
  assert (F : In CR (firstn 8 (l ++ CRLF ++ r))).
  { rewrite firstn_app. apply in_or_app. right. 
    destruct (8 - length l)%nat eqn:E; [lia|]. left. reflexivity. }
  destruct H as [H|H]; apply firstn_prefix in H; simpl length in H; rewrite H in F; vm_compute in F;
  intuition discriminate.
Qed.

(** The loop on CRLF-terminated lines followed by an unterminated rest. *)
Lemma extract_loop_spec : forall lines rest fuel ret,
  Forall single_line lines -> single_line rest ->
  (length (text_of lines ++ rest) < fuel)%nat ->
  (forall l, In l lines -> ~ auth_line l) ->
  extract_auth_loop fuel (text_of lines ++ rest) ret =
    match lines, ret, rest with
    | _ :: _, None, _ :: _ => ParseAuthenticationOptions rest
    | _, _, _ => ret
    end.
Proof.
  induction lines as [|l lines IH]; intros rest fuel ret HF Hr Hfuel Hn.
  - simpl. destruct fuel as [|f]; [reflexivity|]. cbn [extract_auth_loop].
    rewrite (proj2 (find_sub_none CRLF rest)); [reflexivity|]. exact Hr.
  - inversion HF; subst. destruct fuel as [|f]; [lia|].
    assert (T : text_of (l :: lines) ++ rest = l ++ CRLF ++ (text_of lines ++ rest)).
    { unfold text_of. simpl concat. rewrite <- !app_assoc. reflexivity. }
    rewrite T in *. cbn [extract_auth_loop]. rewrite find_sub_line by assumption.
    rewrite firstn_app_exact. rewrite (parse_auth_none l) by (apply Hn; left; reflexivity).
    assert (Sk : skipn (length l + 2) (l ++ CRLF ++ (text_of lines ++ rest)) = text_of lines ++ rest).
    { replace (length l + 2)%nat with (length (l ++ CRLF)) by (rewrite app_length; reflexivity).
      rewrite app_assoc. apply skipn_app_exact. }
    rewrite Sk.
    assert (Hf : (length (text_of lines ++ rest) < f)%nat).
    { rewrite !app_length in *. change (length CRLF) with 2%nat in Hfuel. lia. }
    assert (Hn' : forall x, In x lines -> ~ auth_line x) by (intros x Hx; apply Hn; right; assumption).
    destruct lines as [|l2 lines].
    + simpl app in *. rewrite (IH rest f _ H2 Hr Hf Hn'). destruct rest, ret; reflexivity.
    + rewrite (IH rest f _ H2 Hr Hf Hn').
      assert (P : ParseAuthenticationOptions (text_of (l2 :: lines) ++ rest) = None).
      { apply parse_auth_none. intros A. apply (Hn' l2 (or_introl eq_refl)).
        eapply (auth_line_first l2 (text_of lines ++ rest)).
        unfold text_of in *. simpl concat in A. rewrite <- !app_assoc in A. exact A. }
      destruct (text_of (l2 :: lines) ++ rest) eqn:Q.
      { destruct ret, rest; reflexivity. }
      destruct ret; [destruct rest; reflexivity|]. rewrite P. destruct rest; reflexivity.
Qed.

Lemma extract_loop_found : forall before l after fuel ret,
  Forall single_line before -> single_line l -> auth_line l ->
  (forall x, In x before -> ~ auth_line x) ->
  (length (text_of before ++ l ++ CRLF ++ after) < fuel)%nat ->
  extract_auth_loop fuel (text_of before ++ l ++ CRLF ++ after) ret = ParseAuthenticationOptions l.
Proof.
  induction before as [|x before IH]; intros l after fuel ret HF Hl Ha Hn Hfuel.
  - change (text_of []) with (@nil ascii) in *. rewrite app_nil_l in *. destruct fuel as [|f]; [lia|]. cbn [extract_auth_loop].
    rewrite find_sub_line by assumption. rewrite firstn_app_exact.
    destruct (parse_auth_some l Ha) as (o & -> & _). reflexivity.
  - inversion HF; subst. destruct fuel as [|f]; [lia|].
    assert (T : text_of (x :: before) ++ l ++ CRLF ++ after = x ++ CRLF ++ (text_of before ++ l ++ CRLF ++ after)).
    { unfold text_of. simpl concat. rewrite <- !app_assoc. reflexivity. }
    rewrite T in *. cbn [extract_auth_loop]. rewrite find_sub_line by assumption.
    rewrite firstn_app_exact, (parse_auth_none x) by (apply Hn; left; reflexivity).
    assert (Sk : skipn (length x + 2) (x ++ CRLF ++ (text_of before ++ l ++ CRLF ++ after)) = text_of before ++ l ++ CRLF ++ after).
    { replace (length x + 2)%nat with (length (x ++ CRLF)) by (rewrite app_length; reflexivity).
      rewrite app_assoc. apply skipn_app_exact. }
    rewrite Sk. apply IH; auto.
    + intros y Hy. apply Hn. right. assumption.
    + rewrite !app_length in *. change (length CRLF) with 2%nat in *. lia.
Qed.

Lemma extract_auth_found : forall before l after,
  Forall single_line before -> single_line l -> auth_line l ->
  (forall x, In x before -> ~ auth_line x) ->
  ~ In NUL (text_of before ++ l ++ CRLF) ->
  exists o, extractAuthenticationOptions (Some (text_of before ++ l ++ CRLF ++ after)) = Some o /\ options_of l o.
Proof.
  intros before l after HF Hl Ha Hn Hnul.
  destruct (parse_auth_some l Ha) as (o & E & O). exists o. split; [|assumption].
  unfold extractAuthenticationOptions.
  replace (text_of before ++ l ++ CRLF ++ after) with ((text_of before ++ l ++ CRLF) ++ after)
    by (rewrite <- !app_assoc; reflexivity).
  rewrite cstr_app_nonul by assumption. rewrite <- !app_assoc.
  rewrite extract_loop_found; auto.
Qed.

Lemma extract_auth_none : forall lines, Forall single_line lines ->
  (forall l, In l lines -> ~ auth_line l) -> ~ In NUL (text_of lines) ->
  extractAuthenticationOptions (Some (text_of lines)) = None.
Proof.
  intros lines HF Hn Hnul. unfold extractAuthenticationOptions. rewrite cstr_nonul by assumption.
  rewrite <- (app_nil_r (text_of lines)) at 2.
  rewrite extract_loop_spec; auto.
  - destruct lines; reflexivity.
  - intros a b E. destruct a; discriminate.
  - rewrite app_nil_r. lia.
Qed.

(** The last line not terminated. *)
Lemma extract_auth_last : forall lines last, lines <> [] -> Forall single_line lines -> single_line last ->
  (forall l, In l lines -> ~ auth_line l) -> auth_line last -> ~ In NUL (text_of lines ++ last) ->
  exists o, extractAuthenticationOptions (Some (text_of lines ++ last)) = Some o /\ options_of last o.
Proof.
  intros lines last Hne HF Hl Hn Ha Hnul.
  destruct (parse_auth_some last Ha) as (o & E & O). exists o. split; [|assumption].
  unfold extractAuthenticationOptions. rewrite cstr_nonul by assumption.
  rewrite extract_loop_spec; auto. destruct lines; [congruence|].
  destruct last; [|assumption]. destruct Ha as [[r Ha]|[r Ha]]; discriminate.
Qed.

(** ** C19 *)

Lemma starttls_spec : forall s, Forall ascii7 (cstr s) ->
  exists b, isStartTLSSupported (Some s) = Done b /\
  (b = true <-> exists x y, cstr s = x ++ B "250-STARTTLS" ++ y).
Proof.
  intros s H. unfold isStartTLSSupported. destruct (cstr s) as [|c r] eqn:E.
  - exists false. split; [reflexivity|]. split; [discriminate|].
    intros (x & y & F). destruct x; discriminate.
  - rewrite <- E in *. destruct (trim_ascii _ H) as [t T]. rewrite T. simpl obind.
    assert (F : (exists x y, cstr s = x ++ B "250-STARTTLS" ++ y) <-> find_sub (B "250-STARTTLS") (cstr s) <> None).
    { split.
      - intros (x & y & F) N. apply (proj1 (find_sub_none _ _) N x y F).
      - destruct (find_sub (B "250-STARTTLS") (cstr s)) eqn:G; [|congruence]. intros _.
        apply find_sub_some in G as (x & y & -> & _). eauto. }
    destruct t as [|t0 t].
    + exists false. split; [reflexivity|]. split; [discriminate|]. intros (x & y & N). exfalso.
      assert (W := proj1 (trim_nil _ _ T) eq_refl). rewrite N in W. apply Forall_app in W as [_ W].
      apply Forall_app in W as [W _]. inversion W as [|? ? W1 W2]; subst. vm_compute in W1. intuition discriminate.
    + eexists. split; [reflexivity|]. rewrite F. destruct (find_sub _ _); split; congruence.
Qed.

Lemma starttls_last_line : exists lines, Forall single_line lines /\
  In (B "250 STARTTLS") lines /\ containsAllOptions (text_of lines) = true /\
  isStartTLSSupported (Some (text_of lines)) = Done false.
Proof.
  exists [B "250-host"; B "250 STARTTLS"]. split; [|repeat split; vm_compute; auto].
  assert (S : forall s, find_sub CRLF s = None -> single_line s) by (intros s H; exact (proj1 (find_sub_none CRLF s) H)).
  constructor; [apply S; reflexivity|]. constructor; [apply S; reflexivity|constructor].
Qed.

Lemma tls_last_auth_line : exists before line, Forall single_line before /\ single_line line /\ auth_line line /\
  (forall x, In x before -> ~ auth_line x) /\ is_word (B "PLAIN") line /\
  exists o, extractAuthenticationOptions (Some (removelast (text_of (before ++ [line])))) = Some o /\
            ao_plain o = false.
Proof.
  assert (S : forall s, find_sub CRLF s = None -> single_line s) by (intros s H; exact (proj1 (find_sub_none CRLF s) H)).
  exists [B "250-host"], (B "250 AUTH LOGIN PLAIN").
  split; [constructor; [apply S; reflexivity|constructor]|].
  split; [apply S; reflexivity|]. split; [right; exists (B " LOGIN PLAIN"); reflexivity|].
  split; [intros x [<-|[]] [[r H]|[r H]]; discriminate|].
  split; [apply split_spaces_is_word; vm_compute; tauto|].
  eexists. split; reflexivity.
Qed.
