(** Proofs about the authentication: histories. *)

From Coq Require Import Ascii String List NArith ZArith Bool Lia ZifyBool ZifyNat ZifyN.
From Verif Require Import Base Lib ModelUtil ModelBase64 ModelAddress ModelAttachment ModelMessage ModelReply ModelErrors ModelState ModelClient ModelWorld
  SpecDialogue SpecReply SpecLife SpecDead SpecAuth ProofSteps ProofWalk ProofPhases ProofEstablish ProofLog ProofSend ProofLife ProofDialogue ProofMail ProofMail2
  ProofCode ProofStage ProofTls ProofWorld ProofReply ProofAuth.
Import ListNotations.
Open Scope Z_scope.

(** ** Lines *)
Lemma split_text : forall n text, (length text < n)%nat ->
  exists lines last, text = text_of lines ++ last /\ Forall single_line lines /\ single_line last.
Proof.
  induction n as [|n IH]; intros text L; [lia|]. destruct (find_sub CRLF text) as [k|] eqn:F.
  - destruct (find_sub_some _ _ _ F) as (a & b & E & La). subst text.
    destruct (IH b) as (lines & last & Eb & Fl & Sl); [rewrite !app_length in L; cbn [length CRLF] in L; lia|].
    assert (Sa : single_line a).
    { (* the first occurrence *)
      intros x y Ea. subst a. assert (G : (length x < length (x ++ CRLF ++ y))%nat) by (rewrite !app_length; cbn; lia).
      rewrite <- !app_assoc in F.
      destruct (IH x) as (ls & la & Ex & Fls & Sla); [rewrite !app_length in L; cbn [length CRLF] in L; lia|].
      assert (M : exists q, (q <= length x)%nat /\ find_sub CRLF (x ++ CRLF ++ y ++ CRLF ++ b) = Some q).
      { subst x. destruct ls as [|l0 ls].
        - exists (length la). split; [reflexivity|]. cbn. apply find_sub_line. exact Sla.
        - inversion Fls; subst. exists (length l0). unfold text_of. cbn [concat map]. rewrite <- !app_assoc. split; [rewrite app_length; lia|].
          apply find_sub_line. assumption. }
      destruct M as (q & Q1 & Q2). rewrite Q2 in F. inversion F. subst q. rewrite !app_length in *. cbn [length CRLF] in *. lia. }
    exists (a :: lines), last. split; [rewrite Eb; unfold text_of; cbn [concat map]; rewrite <- !app_assoc; reflexivity|].
    split; [constructor; assumption|exact Sl].
  - exists [], text. split; [reflexivity|]. split; [constructor|]. exact (proj1 (find_sub_none CRLF text) F).
Qed.
Lemma auth_line_dec : forall l, {auth_line l} + {~ auth_line l}.
Proof.
  intros l. destruct (ParseAuthenticationOptions l) as [o|] eqn:P.
  - left. unfold ParseAuthenticationOptions in P. destruct (_ || _) eqn:E; [|discriminate P]. apply orb_true_iff in E as [E|E]; apply str_eqb_eq in E; [left|right];
      exists (skipn 8 l); rewrite <- E; symmetry; apply firstn_skipn.
  - right. intros A. destruct (parse_auth_some l A) as (o & X & _). congruence.
Qed.
Lemma first_auth : forall lines, Forall single_line lines ->
  (forall l, In l lines -> ~ auth_line l) \/
  exists a l b, lines = a ++ l :: b /\ auth_line l /\ forall x, In x a -> ~ auth_line x.
Proof.
  induction lines as [|l lines IH]; intros F; [left; intros l []|]. inversion F; subst. destruct (auth_line_dec l) as [A|A].
  - right. exists [], l, lines. split; [reflexivity|]. split; [exact A|intros x []].
  - destruct (IH H2) as [N|(a & l' & b & -> & A' & N)].
    + left. intros x [<-|X]; [exact A|exact (N x X)].
    + right. exists (l :: a), l', b. split; [reflexivity|]. split; [exact A'|]. intros x [<-|X]; [exact A|exact (N x X)].
Qed.
Lemma nul_part : forall a b : str, ~ In NUL (a ++ b) -> ~ In NUL a.
Proof. intros a b H X. apply H, in_or_app. left. exact X. Qed.
Lemma extract_announced : forall text o, ~ In NUL text -> extractAuthenticationOptions (Some text) = Some o ->
  exists line, announced text line /\ options_of line o.
Proof.
  intros text o N H. destruct (split_text (S (length text)) text) as (lines & last & E & F & S); [lia|]. subst text.
  destruct (first_auth lines F) as [A|(a & l & b & -> & A & Na)].
  - destruct (auth_line_dec last) as [Al|Al].
    + destruct lines as [|l0 lines].
      { exfalso. unfold extractAuthenticationOptions in H. rewrite cstr_nonul in H by exact N.
        rewrite (extract_loop_spec [] last _ None F S) in H; [destruct last; discriminate H|cbn; lia|exact A]. }
      destruct (extract_auth_last (l0 :: lines) last) as (o' & E & O); auto; [discriminate|].
      assert (o' = o) by congruence. subst o'. exists last. split; [|exact O]. exists (l0 :: lines), []. rewrite app_nil_r.
      split; [reflexivity|]. split; [left; reflexivity|]. split; [exact S|]. split; [exact Al|]. intros x X. split; [|exact (A x X)].
      rewrite Forall_forall in F. exact (F x X).
    + exfalso. unfold extractAuthenticationOptions in H. rewrite cstr_nonul in H by exact N.
      rewrite (extract_loop_spec lines last _ None F S) in H; [|lia|exact A].
      destruct lines; [destruct last; discriminate H|]. destruct last; [discriminate H|]. rewrite (parse_auth_none _ Al) in H. discriminate H.
  - apply Forall_app in F as [Fa Fb]. inversion Fb; subst.
    assert (T : text_of (a ++ l :: b) ++ last = text_of a ++ l ++ CRLF ++ (text_of b ++ last)).
    { unfold text_of. rewrite map_app, concat_app. cbn [concat map]. rewrite <- !app_assoc. reflexivity. }
    rewrite T in *. destruct (extract_auth_found a l (text_of b ++ last)) as (o' & E & O); auto.
    { replace (text_of a ++ l ++ CRLF ++ text_of b ++ last) with ((text_of a ++ l ++ CRLF) ++ text_of b ++ last) in N by (rewrite <- !app_assoc; reflexivity).
      exact (nul_part _ _ N). }
    assert (o' = o) by congruence. subst o'. exists l. split; [|exact O]. exists a, (CRLF ++ text_of b ++ last). split; [reflexivity|].
    split; [right; eauto|]. split; [assumption|]. split; [exact A|]. intros x X. split; [|exact (Na x X)]. rewrite Forall_forall in Fa. exact (Fa x X).
Qed.
Lemma announced_extract : forall text line, ~ In NUL text -> announced text line -> (exists a b, text = a ++ CRLF ++ b) ->
  exists o, extractAuthenticationOptions (Some text) = Some o /\ options_of line o.
Proof.
  intros text line N (lines & after & -> & [->|[r ->]] & S & A & Hl) (a & b & E).
  - rewrite app_nil_r in *. apply extract_auth_last; auto.
    + intros ->. cbn in E. exact (S _ _ E).
    + apply Forall_forall. intros x X. apply Hl, X.
    + intros x X. apply Hl, X.
  - apply extract_auth_found; auto.
    + apply Forall_forall. intros x X. apply Hl, X.
    + intros x X. apply Hl, X.
    + replace (text_of lines ++ line ++ CRLF ++ r) with ((text_of lines ++ line ++ CRLF) ++ r) in N by (rewrite <- !app_assoc; reflexivity).
      exact (nul_part _ _ N).
Qed.
Lemma pieces_nonul : forall t cur, ~ In NUL (so_far cur) -> Forall (fun p => ~ In NUL p) (pieces cur t).
Proof.
  induction t as [|ev t IH]; intros cur N.
  - destruct cur; cbn; [constructor; [exact N|constructor]|constructor].
  - assert (Fl : Forall (fun p => ~ In NUL p) (flush cur)) by (destruct cur; cbn; [constructor; [exact N|constructor]|constructor]).
    destruct ev; cbn [pieces]; try (apply IH; exact N).
    + apply Forall_app. split; [exact Fl|apply IH; intros []].
    + destruct r as [[|c d]|]; try (apply IH; exact N). apply IH. cbn [so_far]. intros X. apply in_app_or in X as [X|X]; [exact (N X)|exact (nul_notin_cstr _ X)].
    + destruct r as [[|c d]|]; try (apply IH; exact N). apply Forall_app. split; [exact Fl|]. constructor; [apply nul_notin_cstr|apply IH; intros []].
Qed.
Lemma joined_nonul : forall l, Forall (fun p => ~ In NUL p) l -> ~ In NUL (joined l).
Proof.
  induction l as [|p l IH]; intros H; [intros []|]. inversion H; subst. rewrite joined_cons.
  clear IH H. intros X. apply in_app_or in X as [X|X]; [exact (H2 X)|]. apply in_concat in X as (q & Q & X). apply in_map_iff in Q as (y & <- & Y).
  destruct X as [X|X]; [discriminate X|]. rewrite Forall_forall in H3. exact (H3 y Y X).
Qed.
Lemma seen_nonul : forall t, ~ In NUL (seen t).
Proof. intros t. apply joined_nonul, pieces_nonul. intros []. Qed.

(** ** The mechanism *)
Lemma choice_some : forall o r k line, choice o r = Some k -> options_of line o ->
  compatible r k /\ is_word (keyword k) line /\ forall k', before k' k -> compatible r k' -> ~ is_word (keyword k') line.
Proof.
  intros o r k line H (O1 & O2 & O3 & _). unfold choice, find in H.
  assert (Of : forall q, offered o q = true <-> is_word (keyword q) line) by (intros []; assumption).
  destruct (offered o Plain && allowed r Plain) eqn:E1.
  { inversion H; subst. apply andb_true_iff in E1 as [E1 E2]. rewrite allowed_spec in E2. rewrite Of in E1. split; [exact E2|]. split; [exact E1|].
    intros []; unfold before; cbn; lia. }
  destruct (offered o Login && allowed r Login) eqn:E2.
  { inversion H; subst. apply andb_true_iff in E2 as [E2 E3]. rewrite allowed_spec in E3. rewrite Of in E2. split; [exact E3|]. split; [exact E2|].
    intros []; unfold before; cbn; try lia. intros _ C W. apply allowed_spec in C. change (is_word (keyword Plain) line) in W. rewrite <- Of in W.
    rewrite C, W in E1. discriminate E1. }
  destruct (offered o Xoauth2 && allowed r Xoauth2) eqn:E3; [|discriminate H].
  inversion H; subst. apply andb_true_iff in E3 as [E3 E4]. rewrite allowed_spec in E4. rewrite Of in E3. split; [exact E4|]. split; [exact E3|].
  intros k' B0 C W. apply allowed_spec in C. rewrite <- Of in W. destruct k'; [rewrite C, W in E1; discriminate E1|rewrite C, W in E2; discriminate E2|].
  unfold before in B0; cbn in B0; lia.
Qed.
Lemma choice_none : forall o r line, choice o r = None -> options_of line o -> forall k, compatible r k -> ~ is_word (keyword k) line.
Proof.
  intros o r line H (O1 & O2 & O3 & _) k C W. unfold choice, find in H. apply allowed_spec in C.
  destruct (offered o Plain && allowed r Plain) eqn:E1; [discriminate H|].
  destruct (offered o Login && allowed r Login) eqn:E2; [discriminate H|].
  destruct (offered o Xoauth2 && allowed r Xoauth2) eqn:E3; [discriminate H|].
  destruct k; [apply O1 in W; cbn [offered] in E1; rewrite W, C in E1; discriminate E1
    |apply O2 in W; cbn [offered] in E2; rewrite W, C in E2; discriminate E2
    |apply O3 in W; cbn [offered] in E3; rewrite W, C in E3; discriminate E3].
Qed.

(** ** The transaction does not use the options *)
Lemma np_command : forall d err, np (sendCommandPtr d err).
Proof.
  intros d err. unfold sendCommandPtr, sendCommandPtr_with, sendCommandTLS_with, sendRaw2_with, sys_send, sys_puts, setLastSocketErrNo. ns.
Qed.
Lemma np_chunks : forall l err, np (send_chunks l err).
Proof. induction l as [|x l IH]; intros err; cbn [send_chunks]; ns; [apply np_command|apply IH]. Qed.
Lemma np_mail_from : forall l c, np (mail_from_loop l c).
Proof. induction l as [|x l IH]; intros c; cbn [mail_from_loop]; ns; [apply np_fb|apply IH]. Qed.
Lemma np_add : forall l c, np (addMailRecipients l c).
Proof. induction l as [|x l IH]; intros c; cbn [addMailRecipients]; ns; [apply np_fb|apply IH]. Qed.
Lemma np_rcpt : forall l, np (recipients_loop l).
Proof. induction l as [|[|x] l IH]; cbn [recipients_loop]; [ns|exact IH|]. ns; [apply np_add|apply IH]. Qed.
Lemma np_address_header : forall f a, np (address_header f a).
Proof. intros f [[]|[]]; unfold address_header, addMailHeader; ns. apply np_command. Qed.
Lemma np_headers : forall m, np (setMailHeaders m).
Proof. intros m. unfold setMailHeaders, addMailHeader. ns; try apply np_fb; try apply np_command; apply np_address_header. Qed.
Lemma np_body : forall m, np (setMailBody m).
Proof.
  intros m. unfold setMailBody, sendQuitCommand, sendQuit_with. change (sendCommandPtr_with cleanup) with sendCommandPtr. ns; try apply np_fb; try apply np_command; try apply np_chunks.
  all: apply np_lift; unfold body_real; destruct (m_atts m) as [[]|[]]; discriminate.
Qed.
Lemma np_transaction : forall m, np (mail_transaction m).
Proof. intros m. unfold mail_transaction, setMailRecipients. ns; first [apply np_mail_from|apply np_rcpt|apply np_headers|apply np_body]. Qed.

Lemma opens_mail : forall m, exists d, mail_command d /\ opens d (mail_transaction m).
Proof.
  intros m. exists (cstr (B "MAIL FROM: <" ++ a_email (m_from m) ++ B ">" ++ CRLF)). split.
  { exists (cstr (B ": <" ++ a_email (m_from m) ++ B ">" ++ CRLF)). change (B "MAIL FROM: <") with (B "MAIL FROM" ++ B ": <"). rewrite <- app_assoc. apply cstr_app_nonul.
    cbv. intuition discriminate. }
  unfold mail_transaction, setMailRecipients, mail_formats. cbn [mail_from_loop].
  intros s. rewrite !bind_assoc. revert s. apply opens_log. apply opens1_opens. intros s. rewrite !bind_assoc. revert s.
  apply opens1_bind; [apply opens1_fb|]. intros c. grow.
Qed.
Definition mail_part (t : list event) (x : outcome Z) : Prop :=
  (t = [] \/ exists ev r d, t = ev :: r /\ writes d ev /\ mail_command d) /\ x <> Undef (UB_NullDeref PAuth) /\
  forall r, x = Done r -> orderly t -> r <> CLIENT_AUTHENTICATION_METHOD_NOTSUPPORTED.
Lemma transaction_part : forall m s x s', mail_transaction m s = (x, s') -> exists t, s_t s' = s_t s ++ t /\ mail_part t x.
Proof.
  intros m s x s' H. destruct (opens_mail m) as (d & Md & O). destruct (O s) as (t & T & W). rewrite H in T. cbn [snd] in T.
  exists t. split; [exact T|]. split; [destruct W as [->|(ev & r & -> & W)]; [left; reflexivity|right; exists ev, r, d; auto]|]. split.
  { pose proof (np_transaction m s) as N. rewrite H in N. exact N. }
  intros r -> Or ->. destruct (staged_transaction m _ _ _ H) as [X|(t' & T' & X)]; [cbv in X; intuition discriminate|].
  rewrite T in T'. apply app_inv_head in T'. subst t'. apply (orderly_spoken _ _ Or) in X. vm_compute in X. apply X. reflexivity.
Qed.

(** ** The authentication stage *)
Definition auth_codes : list Z := [-1; CLIENT_AUTHENTICATE_ERROR; CLIENT_AUTHENTICATE_TIMEOUT].
Lemma staged_mechanism : forall k cr, staged auth_codes (run_mechanism k cr).
Proof. intros [] cr; cbn [run_mechanism]; unfold authPlain, authLogin, authXOauth2; ks. Qed.
Lemma opens_mechanism : forall k cr, opens (cstr (hd [] (script k cr))) (run_mechanism k cr).
Proof.
  intros [] cr; cbn [run_mechanism script hd]; apply opens_log, opens1_opens; try apply opens1_fb.
  apply opens1_bind; [apply opens1_fb|]. intros a. grow.
Qed.
Lemma np_mechanism : forall k cr, np (run_mechanism k cr).
Proof. intros [] cr; cbn [run_mechanism]; unfold authPlain, authLogin, authXOauth2; ns; apply np_fb. Qed.
Lemma code_334 : forall d h, code_of h 334 -> answered "334" (d, h).
Proof. intros d h (x & y & -> & E). apply starts_app. apply (extract_code "3"%char "3"%char "4"%char 3 3 4); try (symmetry; exact E); try lia; split; try lia; reflexivity. Qed.
Lemma code_235 : forall d h, code_of h 235 -> answered "235" (d, h).
Proof. intros d h (x & y & -> & E). apply starts_app. apply (extract_code "2"%char "3"%char "5"%char 2 3 5); try (symmetry; exact E); try lia; split; try lia; reflexivity. Qed.
(** The lines of a mechanism, all but the last answered 334 and the last [r]. *)
Definition granted (r : Z) (k : mechanism) (cr : credential) (t : list event) : Prop :=
  exists l d h, talk t (l ++ [(d, h)]) /\ map fst (l ++ [(d, h)]) = map cstr (script k cr) /\ Forall (answered "334") l /\ code_of h r.
Lemma fb_exchange : forall i d s r s', (logc i;; sendFeedbackPtr d CLIENT_AUTHENTICATE_ERROR CLIENT_AUTHENTICATE_TIMEOUT) s = (Done r, s') ->
  r <> CLIENT_AUTHENTICATE_ERROR -> r <> CLIENT_AUTHENTICATE_TIMEOUT -> exists t h, s_t s' = s_t s ++ t /\ exchange (cstr d) t h /\ code_of h r.
Proof.
  intros i d s r s' H N1 N2. apply bind_done in H as ([] & s1 & L & H). apply logc_core in L as (_ & _ & L & _).
  destruct (fb_done _ _ _ _ _ _ H) as [X|[X|(_ & t & h & T & E & C)]]; [discriminate|contradiction|contradiction|].
  exists t, h. rewrite <- L. auto.
Qed.
Lemma mechanism_granted : forall k cr s r s', run_mechanism k cr s = (Done r, s') ->
  r <> CLIENT_AUTHENTICATE_ERROR -> r <> CLIENT_AUTHENTICATE_TIMEOUT -> exists t, s_t s' = s_t s ++ t /\ granted r k cr t.
Proof.
  assert (One : forall i d k cr s r s', script k cr = [d] -> (logc i;; sendFeedbackPtr d CLIENT_AUTHENTICATE_ERROR CLIENT_AUTHENTICATE_TIMEOUT) s = (Done r, s') ->
    r <> CLIENT_AUTHENTICATE_ERROR -> r <> CLIENT_AUTHENTICATE_TIMEOUT -> exists t, s_t s' = s_t s ++ t /\ granted r k cr t).
  { intros i d k cr s r s' Sc H N1 N2. apply fb_exchange in H as (t & h & T & E & C); [|assumption|assumption].
    exists t. split; [exact T|]. exists [], (cstr d), h. rewrite Sc. split; [exact (exchange_talk _ _ _ E)|].
    split; [reflexivity|]. split; [constructor|exact C]. }
  intros [] cr s r s' H N1 N2; cbn [run_mechanism] in H; [eapply One; [reflexivity|exact H|exact N1|exact N2]| |eapply One; [reflexivity|exact H|exact N1|exact N2]].
  unfold authLogin in H. apply bind_done in H as ([] & s0 & L & H). apply logc_core in L as (_ & _ & L & _). rewrite <- L.
  apply bind_done in H as (r1 & s1 & H1 & H). destruct (Z.eqb_spec r1 STATUS_CODE_SERVER_CHALLENGE) as [->|_]; cbn [negb] in H; [|apply ret_done in H as [-> _]; contradiction].
  apply bind_done in H as (r2 & s2 & H2 & H). destruct (Z.eqb_spec r2 STATUS_CODE_SERVER_CHALLENGE) as [->|_]; cbn [negb] in H; [|apply ret_done in H as [-> _]; contradiction].
  destruct (fb_done _ _ _ _ _ _ H1) as [X|[X|(_ & t1 & h1 & T1 & E1 & C1)]]; [discriminate|discriminate X|discriminate X|].
  destruct (fb_done _ _ _ _ _ _ H2) as [X|[X|(_ & t2 & h2 & T2 & E2 & C2)]]; [discriminate|discriminate X|discriminate X|].
  destruct (fb_done _ _ _ _ _ _ H) as [X|[X|(_ & t3 & h3 & T3 & E3 & C3)]]; [discriminate|contradiction|contradiction|].
  exists (t1 ++ t2 ++ t3). split; [rewrite T3, T2, T1, <- !app_assoc; reflexivity|].
  eexists [(_, h1); (_, h2)], _, h3. split; [exact (talk_app _ _ _ _ (exchange_talk _ _ _ E1) (talk_app _ _ _ _ (exchange_talk _ _ _ E2) (exchange_talk _ _ _ E3)))|].
  split; [reflexivity|]. split; [|exact C3]. constructor; [exact (code_334 _ _ C1)|]. constructor; [exact (code_334 _ _ C2)|constructor].
Qed.

Definition tried (k : mechanism) (cr : credential) (t : list event) (x : outcome Z) : Prop :=
  (t = [] \/ exists ev r, t = ev :: r /\ writes (cstr (hd [] (script k cr))) ev) /\
  (exists n, written t = map cstr (firstn n (script k cr)) /\ forall r, x = Done r -> (0 < n)%nat) /\
  (forall r, x = Done r -> orderly t -> r <> CLIENT_AUTHENTICATION_METHOD_NOTSUPPORTED) /\
  x <> Undef (UB_NullDeref PAuth) /\
  (x = Done 0 -> exists r, granted r k cr t /\ (orderly t -> r = 235)).
Definition auth_part (cr : option credential) (text : str) (t : list event) (x : outcome Z) : Prop :=
  match cr with
  | None => t = [] /\ x = Done 0
  | Some cr =>
      match extractAuthenticationOptions (Some text) with
      | None => t = [] /\ x = Undef (UB_NullDeref PAuth)
      | Some o =>
          match choice o (cr_method cr) with
          | None => t = [] /\ x = Done CLIENT_AUTHENTICATION_METHOD_NOTSUPPORTED
          | Some k => tried k cr t x
          end
      end
  end.
Lemma mechanism_tried : forall k cr s x s', c_conn (s_c s) = false ->
  (r <- run_mechanism k cr;; if negb (r =? STATUS_CODE_AUTHENTICATION_SUCCEEDED) then ret r else ret 0) s = (x, s') ->
  exists t, s_t s' = s_t s ++ t /\ tried k cr t x.
Proof.
  intros k cr s x s' Cn H. destruct (begun_mechanism k cr s Cn) as (t & n & T & W & _ & N). pose proof (opens_mechanism k cr s) as (t' & T' & O).
  pose proof (np_mechanism k cr s) as Np. unfold bind in H. destruct (run_mechanism k cr s) as [y s1] eqn:E. cbn [fst snd] in *.
  assert (t' = t) by (rewrite T in T'; apply app_inv_head in T'; auto). subst t'. exists t.
  destruct y as [r| | | | |]; try (inversion H; subst; split; [exact T|]; split; [exact O|]; split;
    [exists n; split; [exact W|intros r X; discriminate X]|]; split; [intros r X; discriminate X|]; split; [congruence|intros X; discriminate X]).
  assert (s' = s1) by (destruct (negb _) in H; inversion H; reflexivity). subst s'. split; [exact T|]. split; [exact O|].
  split; [exists n; split; [exact W|]; intros; exact (N r eq_refl)|].
  assert (G : orderly t -> In r auth_codes \/ 1 <= r).
  { intros Or. destruct (staged_mechanism k cr _ _ _ E) as [X|(t' & T2 & X)]; [left; exact X|right].
    rewrite T in T2. apply app_inv_head in T2. subst t'. exact (orderly_spoken _ _ Or X). }
  split; [|split; [destruct (negb _) in H; inversion H; discriminate|]].
  - intros r' -> Or. unfold CLIENT_AUTHENTICATION_METHOD_NOTSUPPORTED. specialize (G Or). destruct (negb _) in H; inversion H; [|lia]. subst r'. destruct G as [G|G]; [|lia].
    cbv in G. intuition lia.
  - intros X. assert (R : r = 235 \/ r = 0).
    { destruct (Z.eqb_spec r STATUS_CODE_AUTHENTICATION_SUCCEEDED) as [->|_]; cbn [negb] in H; [left; reflexivity|right]. unfold ret in H. congruence. }
    destruct (mechanism_granted k cr s r s1 E) as (t' & T2 & Gr); [destruct R as [->| ->]; discriminate|destruct R as [->| ->]; discriminate|].
    rewrite T in T2. apply app_inv_head in T2. subst t'. exists r. split; [exact Gr|]. intros Or. destruct R as [R|R]; [exact R|exfalso].
    subst r. destruct (G Or) as [G'|G']; [cbv in G'; intuition discriminate|lia].
Qed.
Lemma authenticate_part : forall s x s' text, c_conn (s_c s) = false -> c_auth (s_c s) = extractAuthenticationOptions (Some text) ->
  authenticate_if_needed s = (x, s') -> exists t, s_t s' = s_t s ++ t /\ auth_part (c_cred (s_c s)) text t x.
Proof.
  intros s x s' text Cn Ea H. unfold auth_part. unfold authenticate_if_needed, bind at 1, getc in H. destruct (c_cred (s_c s)) as [cr|] eqn:C.
  2: { inversion H; subst. exists []. rewrite app_nil_r. auto. }
  rewrite <- Ea. destruct (c_auth (s_c s)) as [o|] eqn:A.
  2: { assert (Q : authenticateClient s = (Undef (UB_NullDeref PAuth), s)) by (unfold authenticateClient, bind, getc; rewrite C, A; reflexivity).
       unfold bind in H. rewrite Q in H. inversion H; subst. exists []. rewrite app_nil_r. auto. }
  unfold bind in H. rewrite (authenticate_eq _ _ _ C A) in H. destruct (choice o (cr_method cr)) as [k|].
  2: { inversion H; subst. exists []. rewrite app_nil_r. auto. }
  exact (mechanism_tried k cr s x s' Cn H).
Qed.

(** ** One mail *)
Definition early (t : list event) : Prop := forall d, In d (written t) -> d = EHLO_line \/ d = STARTTLS.
Definition greeting (t : list event) (text : str) : Prop := exists reads, after_ehlo t reads /\ text = seen reads.
Inductive story (c : client) : list event -> outcome Z -> Prop :=
| story_connected : forall t x, c_conn c = true -> mail_part t x -> story c t x
| story_stopped : forall t x, c_conn c = false -> early t -> x <> Undef (UB_NullDeref PAuth) ->
    (forall r, x = Done r -> orderly t -> r <> CLIENT_AUTHENTICATION_METHOD_NOTSUPPORTED) -> story c t x
| story_without : forall t tm x, c_conn c = false -> early t -> mail_part tm x -> c_kind c = KOpp \/ ~ orderly t -> story c (t ++ tm) x
| story_refused : forall t text ta x, c_conn c = false -> early t -> greeting t text -> auth_part (c_cred c) text ta x -> x <> Done 0 -> story c (t ++ ta) x
| story_done : forall t text ta tm x, c_conn c = false -> early t -> greeting t text -> auth_part (c_cred c) text ta (Done 0) -> mail_part tm x ->
    story c (t ++ ta ++ tm) x.
Lemma sendMail_story : forall m s x s', sendMail m s = (x, s') -> exists t, s_t s' = s_t s ++ t /\ story (s_c s) t x.
Proof.
  intros m s x s' H. destruct (c_conn (s_c s)) eqn:C.
  { rewrite sendMail_old in H by assumption. unfold bind, updc in H.
    change (mkSt (set_conn true (s_c s)) (s_e s) (s_t s)) with (c_state s (set_conn true)) in H. rewrite set_conn_same in H by assumption.
    destruct (transaction_part _ _ _ _ H) as (t & T & P). exists t. split; [exact T|]. apply story_connected; assumption. }
  rewrite sendMail_new in H by assumption. unfold bind in H. destruct (establish s) as [y s1] eqn:E.
  assert (F : (y <> Done 0 /\ x = y /\ s' = s1) \/ (y = Done 0 /\ exists tm, s_t s' = s_t s1 ++ tm /\ mail_part tm x)).
  { destruct y as [r| | | | |]; try (inversion H; left; split; [discriminate|]; auto). unfold finish in H. destruct (Z.eqb_spec r 0) as [->|Nr]; cbn [negb] in H.
    - right. split; [reflexivity|]. unfold bind, updc in H. apply transaction_part in H as (t & T & P). exists t. split; [exact T|exact P].
    - left. inversion H; subst. split; [congruence|auto]. }
  clear H. destruct (establish_split _ _ _ C E) as [(S1 & Nu & Cd)|(s2 & S2 & G & A)].
  - destruct (pre_written _ _ S1) as (t & T & W). destruct F as [(N0 & -> & ->)|(-> & tm & Tm & P)].
    + exists t. split; [exact T|]. apply story_stopped; [exact C|exact W|exact Nu|]. intros r Hr Or ->. destruct (Cd _ Hr) as [X|[(t' & T' & X)|[X _]]].
      * cbv in X. intuition discriminate.
      * rewrite T in T'. apply app_inv_head in T'. subst t'. apply (orderly_spoken _ _ Or) in X. vm_compute in X. apply X. reflexivity.
      * discriminate X.
    + exists (t ++ tm). split; [rewrite Tm, T, app_assoc; reflexivity|]. apply story_without; [exact C|exact W|exact P|].
      destruct (Cd 0 eq_refl) as [X|[(t' & T' & X)|[_ X]]]; [cbv in X; intuition discriminate| |left; exact X].
      right. intros Or. rewrite T in T'. apply app_inv_head in T'. subst t'. apply (orderly_spoken _ _ Or) in X. vm_compute in X. apply X. reflexivity.
  - destruct (pre_written _ _ S2) as (t & T & W). destruct G as (u & e & reads & T2 & We & R & Ea & _).
    assert (t = u ++ e :: reads) by (rewrite T in T2; apply app_inv_head in T2; exact T2). subst t.
    assert (G : greeting (u ++ e :: reads) (seen reads)).
    { exists reads. split; [|reflexivity]. exists u, e. split; [reflexivity|]. split; [exact We|]. intros ev I0 (d & [(fd & q & ->)|(b & q & ->)]); exact (R _ I0). }
    assert (Cr : c_cred (s_c s2) = c_cred (s_c s)).
    { pose proof (steps_config _ _ _ S2) as Cf. unfold config in Cf. inversion Cf. reflexivity. }
    destruct (authenticate_part s2 _ _ _ (pre_conn _ _ S2 C) Ea A) as (ta & Ta & Pa). rewrite Cr in Pa.
    destruct F as [(N0 & -> & ->)|(-> & tm & Tm & P)].
    + exists ((u ++ e :: reads) ++ ta). split; [rewrite Ta, T, <- !app_assoc; reflexivity|]. eapply story_refused; eassumption.
    + exists ((u ++ e :: reads) ++ ta ++ tm). split; [rewrite Tm, Ta, T, <- !app_assoc; reflexivity|]. eapply story_done; eassumption.
Qed.
