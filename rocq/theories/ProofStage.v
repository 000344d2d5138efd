(** Which codes each stage of the connection can return. *)

From Coq Require Import Ascii String List NArith ZArith Bool Lia ZifyBool ZifyNat ZifyN.
From Verif Require Import Base Lib ModelUtil ModelAddress ModelAttachment ModelMessage ModelReply ModelErrors ModelState ModelClient
  SpecAddress SpecReply SpecErrors SpecDialogue SpecConn SpecAuth
  ProofReply ProofSteps ProofWalk ProofDialogue ProofMail ProofMail2 ProofCode.
Import ListNotations.
Open Scope Z_scope.

(** [r] is the code of a text read between two writes. *)
Definition spoken (r : Z) (t : list event) : Prop :=
  exists a p b h, t = a ++ p ++ b /\ reads_only p /\ dialogue p = (h, []) /\ code_of h r /\ r <> -1.
Lemma closed_spoken : forall r, closed (spoken r).
Proof.
  intros r. split; intros x y (a & p & b & h & E & H).
  - subst x. exists a, p, (b ++ y), h. split; [rewrite <- !app_assoc; reflexivity|exact H].
  - subst y. exists (x ++ a), p, b, h. split; [rewrite <- !app_assoc; reflexivity|exact H].
Qed.

Definition strange (c : ascii) : bool := strtol_space c || Ascii.eqb c "+"%char || Ascii.eqb c "-"%char || Ascii.eqb c "0"%char.
Lemma strange_odd : forall c, strange c = true -> odd_start c.
Proof. intros [[] [] [] [] [] [] [] []]; vm_compute; intros H; try discriminate H; tauto. Qed.
Lemma stoi_orderly : forall c s v, strange c = false -> stoi (c :: s) = Some v -> 1 <= v.
Proof.
  intros c s v S H. unfold strange in S. apply orb_false_iff in S as [S S0]. apply orb_false_iff in S as [S Sm]. apply orb_false_iff in S as [Ss Sp].
  unfold stoi in H. cbn [skip_spaces] in H. rewrite Ss in H. rewrite Sm, Sp in H. destruct (strtol_digit c) eqn:D; [|discriminate H].
  inversion H. clear H H1. cbn [read_digits]. rewrite D.
  assert (G : forall s a, 1 <= a -> 1 <= read_digits s a).
  { clear. induction s as [|c s IH]; intros a A; cbn [read_digits]; [exact A|]. destruct (strtol_digit c); [|exact A]. apply IH. lia. }
  apply G. unfold strtol_digit in D. assert (C : code c <> 48%N).
  { intros C. apply Ascii.eqb_neq in S0. apply S0. unfold code in C. rewrite <- (ascii_N_embedding c), C. reflexivity. }
  lia.
Qed.
Definition decent (h : str) : Prop := match h with [] => True | c :: _ => strange c = false end.
Lemma orderly_heard : forall t, reads_only t -> orderly t -> decent (fst (dialogue t)).
Proof.
  induction t as [|ev t IH]; intros R S; [exact I|].
  assert (X : decent (fst (dialogue t))).
  { apply IH; [intros e H; apply R; right; exact H|]. intros e c d H. apply S. right. exact H. }
  assert (K : forall d, (forall c d', d = c :: d' -> c <> NUL /\ ~ odd_start c) ->
    decent (fst (let '(heard, l) := dialogue t in (cstr (firstn 1024 d) ++ heard, l)))).
  { intros d Hd. destruct (dialogue t) as [h l]. cbn [fst] in *. destruct d as [|c d]; [exact X|].
    destruct (Hd c d eq_refl) as [N O]. replace (firstn 1024 (c :: d)) with (c :: firstn 1023 d) by reflexivity. cbn [cstr].
    destruct (Ascii.eqb_spec c NUL) as [Ec|_]; [contradiction|]. cbn [app decent].
    destruct (strange c) eqn:Sc; [elim O; apply strange_odd, Sc|reflexivity]. }
  destruct ev; cbn [dialogue]; try exact X; try (destruct (R _ (or_introl eq_refl)));
    (destruct r as [d|]; [|exact X]); apply K; intros c d' ->; refine (S _ c d' (or_introl eq_refl) _); [left|right]; eauto.
Qed.
Lemma orderly_code : forall t h r, reads_only t -> orderly t -> dialogue t = (h, []) -> code_of h r -> r = -1 \/ 1 <= r.
Proof.
  intros t h r R O D (x & y & -> & ->). pose proof (orderly_heard _ R O) as X. rewrite D in X. cbn [fst] in X.
  unfold extractReturnCode. destruct (3 <=? length (cstr x))%nat eqn:L; [|left; reflexivity].
  destruct (stoi (firstn 3 (cstr x))) as [v|] eqn:E; [right|left; reflexivity].
  destruct x as [|c x]; [discriminate L|]. cbn [cstr] in L, E. destruct (Ascii.eqb c NUL); [discriminate L|].
  cbn [app decent] in X. cbn [firstn] in E. eapply stoi_orderly; eassumption.
Qed.
Lemma orderly_spoken : forall t r, orderly t -> spoken r t -> 1 <= r.
Proof.
  intros t r O (a & p & b & h & -> & R & D & C & N).
  assert (Op : orderly p). { intros ev c d H. apply O. apply in_or_app. right. apply in_or_app. left. exact H. }
  destruct (orderly_code _ _ _ R Op D C) as [X|X]; [contradiction|exact X].
Qed.

Definition staged1 (l : list Z) (r : Z) (s s' : st) : Prop := In r l \/ bad (spoken r) s s'.
Definition staged (l : list Z) (m : M Z) : Prop := forall s r s', m s = (Done r, s') -> staged1 l r s s'.
Lemma staged1_after : forall l r s s1 s', ext s s1 -> staged1 l r s1 s' -> staged1 l r s s'.
Proof. intros l r s s1 s' X [H|H]; [left; exact H|right]. exact (bad_r _ _ _ _ (closed_spoken r) X H). Qed.
Lemma staged_bind : forall {A} l (m : M A) k, grows m -> (forall a, staged l (k a)) -> staged l (bind m k).
Proof.
  intros A l m k G K s r s' H. apply bind_done in H as (a & s1 & H1 & H). specialize (G s). rewrite H1 in G.
  eapply staged1_after; [exact G|]. eapply K, H.
Qed.
Lemma staged_if : forall l m c k, staged l m -> grows m -> staged l k ->
  staged l (bind m (fun a => if negb (a =? c) then ret a else k)).
Proof.
  intros l m c k C G K s r s' H. apply bind_done in H as (a & s1 & H1 & H).
  destruct (negb (a =? c)); [apply ret_done in H as [-> ->]; eapply C, H1|].
  specialize (G s). rewrite H1 in G. eapply staged1_after; [exact G|]. eapply K, H.
Qed.
Lemma staged_fi : forall l m c k, staged l m -> grows m -> staged l k ->
  staged l (bind m (fun a => if a =? c then k else ret a)).
Proof.
  intros l m c k C G K s r s' H. apply bind_done in H as (a & s1 & H1 & H).
  destruct (a =? c); [|apply ret_done in H as [-> ->]; eapply C, H1].
  specialize (G s). rewrite H1 in G. eapply staged1_after; [exact G|]. eapply K, H.
Qed.
Lemma staged_ret : forall l r, In r l -> staged l (ret r).
Proof. intros l r D s x s' H. apply ret_done in H as [-> ->]. left. exact D. Qed.
Lemma staged_none : forall l (m : M Z), (forall s r s', m s <> (Done r, s')) -> staged l m.
Proof. intros l m H s r s' E. exfalso. exact (H _ _ _ E). Qed.
Lemma reply_staged : forall l s s' t h code, In (-1) l -> s_t s' = s_t s ++ t -> reads_only t -> dialogue t = (h, []) -> code_of h code -> staged1 l code s s'.
Proof.
  intros l s s' t h code L T R D C. destruct (Z.eq_dec code (-1)) as [->|N]; [left; exact L|].
  right. exists t. split; [exact T|]. exists [], t, [], h. rewrite app_nil_r. auto.
Qed.
Lemma exchange_staged : forall l s s' d t h code, In (-1) l -> s_t s' = s_t s ++ t -> exchange d t h -> code_of h code -> staged1 l code s s'.
Proof.
  intros l s s' d t h code L T (ev & rest & -> & W & R & D) C. destruct (Z.eq_dec code (-1)) as [->|N]; [left; exact L|].
  right. exists (ev :: rest). split; [exact T|]. exists [ev], rest, [], h. rewrite app_nil_r. auto.
Qed.
Lemma staged_raw3 : forall l d err tmo, err <> 0 -> In (-1) l -> In err l -> In tmo l -> staged l (sendRaw3 d err tmo).
Proof.
  intros l d err tmo N M E T s r s' H. destruct (raw3_done _ _ _ _ _ _ H N) as [->|[->|(_ & t & h & X & Y & Z)]];
    [left; exact E|left; exact T|eapply exchange_staged; eassumption].
Qed.
Lemma staged_feedback : forall l d err tmo, err <> 0 -> In (-1) l -> In err l -> In tmo l -> staged l (sendFeedback d err tmo).
Proof.
  intros l d err tmo N M E T s r s' H. destruct (feedback_done _ _ _ _ _ _ H N) as [->|[->|(_ & t & h & X & Y & Z)]];
    [left; exact E|left; exact T|eapply exchange_staged; eassumption].
Qed.
Lemma staged_fb : forall l d err tmo, err <> 0 -> In (-1) l -> In err l -> In tmo l -> staged l (sendFeedbackPtr d err tmo).
Proof.
  intros l d err tmo N M E T s r s' H. destruct (fb_done _ _ _ _ _ _ H N) as [->|[->|(_ & t & h & X & Y & Z)]];
    [left; exact E|left; exact T|eapply exchange_staged; eassumption].
Qed.
Lemma staged_cmd : forall l d err, err <> 0 -> In 0 l -> In err l -> staged l (sendCommandPtr d err).
Proof.
  intros l d err N M E s r s' H. destruct (cmd_done _ _ _ _ _ H N) as [(-> & _)|(-> & _)]; left; assumption.
Qed.

Ltac k1 :=
  lazymatch goal with
  | |- staged _ (ret _) => apply staged_ret; doc
  | |- staged _ (fail_ub _) => apply staged_none; discriminate
  | |- staged _ blocked => apply staged_none; discriminate
  | |- staged _ diverge => apply staged_none; discriminate
  | |- staged _ killed => apply staged_none; discriminate
  | |- staged _ (sendCommandPtr _ _) => apply staged_cmd; [discriminate|doc|doc]
  | |- staged _ (sendFeedbackPtr _ _ _) => apply staged_fb; [discriminate|doc|doc|doc]
  | |- staged _ (sendFeedback _ _ _) => apply staged_feedback; [discriminate|doc|doc|doc]
  | |- staged _ (sendRaw3 _ _ _) => apply staged_raw3; [discriminate|doc|doc|doc]
  | |- staged _ (bind _ (fun a => if negb (a =? _) then ret a else _)) => apply staged_if
  | |- staged _ (bind _ (fun a => if a =? _ then _ else ret a)) => apply staged_fi
  | |- staged _ (bind _ _) => apply staged_bind; [|intros ?]
  | |- staged _ (if ?b then _ else _) => destruct b
  | |- staged _ (match ?x with _ => _ end) => destruct x
  | |- _ => g1
  end.
Ltac ks := repeat (k1; cbv zeta).

Definition session_codes : list Z :=
  [0; 1; SOCKET_INIT_SESSION_CREATION_ERROR; SOCKET_INIT_SESSION_CONNECT_ERROR; SOCKET_INIT_SESSION_CONNECT_TIMEOUT;
   SOCKET_INIT_SESSION_GETHOSTBYNAME_ERROR; SOCKET_INIT_SESSION_FCNTL_GET_ERROR; SOCKET_INIT_SESSION_FCNTL_SET_ERROR;
   SOCKET_INIT_SESSION_GET_SOCKET_OPTIONS_ERROR; SOCKET_INIT_SESSION_DELAYED_CONNECTION_ERROR].
Definition greeting_codes : list Z := [-1; SOCKET_INIT_SESSION_CONNECT_TIMEOUT].
Definition ehlo_codes : list Z := [-1; 250; SOCKET_INIT_CLIENT_SEND_EHLO_ERROR; SOCKET_INIT_CLIENT_SEND_EHLO_TIMEOUT].
Definition upgrade_codes : list Z := [-1; SOCKET_INIT_CLIENT_SEND_STARTTLS_ERROR; SOCKET_INIT_CLIENT_SEND_STARTTLS_TIMEOUT].
Definition tls_codes : list Z :=
  [0; SSL_CLIENT_STARTTLS_INITSSLCTX_ERROR; SSL_CLIENT_STARTTLS_BIONEWSSLCONNECT_ERROR; SSL_CLIENT_STARTTLS_CTX_SET_DEFAULT_VERIFY_PATHS_ERROR;
   SSL_CLIENT_STARTTLS_BIO_CONNECT_ERROR; SSL_CLIENT_STARTTLS_BIO_HANDSHAKE_ERROR; SSL_CLIENT_STARTTLS_GET_CERTIFICATE_ERROR;
   SSL_CLIENT_STARTTLS_VERIFY_RESULT_ERROR].
Definition secure_ehlo_codes : list Z := [-1; 250; SSL_CLIENT_INITSECURECLIENT_ERROR; SSL_CLIENT_INITSECURECLIENT_TIMEOUT].

Lemma staged_blocking : staged session_codes setSocketToBlocking.
Proof. unfold setSocketToBlocking, log_errno. ks; apply grows_fcntl. Qed.
Lemma staged_wait_connect : staged session_codes wait_connect.
Proof. unfold wait_connect, log_errno. ks. Qed.
Lemma staged_initialize : staged session_codes initializeSession.
Proof.
  unfold initializeSession, initializeSessionPOSIX, log_errno.
  ks; first [apply grows_nonblocking|apply grows_resolve|apply grows_connect|apply grows_wait_connect|apply staged_wait_connect|apply staged_blocking].
Qed.
Lemma greeting_staged : forall s s1 r code s' t h, s_t s1 = s_t s ++ t -> reads_only t -> dialogue t = (h, []) ->
  (forall d, r = Some d -> h = cstr d) -> greeting_result r s1 = (Done code, s') -> staged1 greeting_codes code s s'.
Proof.
  intros s s1 r code s' t h T R D Hh H. destruct r as [d|]; cbn [greeting_result] in H; [|apply ret_done in H as [-> _]; left; doc].
  apply bind_done in H as ([] & s2 & H2 & H). apply bind_done in H as ([] & s3 & H3 & H). apply ret_done in H as [-> ->].
  assert (E2 : s_t s2 = s_t s1) by (unfold logs in H2; apply addLog_core in H2; tauto).
  assert (E3 : s_t s3 = s_t s2).
  { destruct (_ =? STATUS_CODE_SERVICE_READY) in H3; [unfold logc in H3; apply addLog_core in H3; tauto|apply ret_done in H3 as [_ ->]; reflexivity]. }
  eapply reply_staged; [doc|rewrite E3, E2; exact T|exact R|exact D|].
  destruct (greeting_prefix d) as [y Y]. exists (drop_last_byte d), y. split; [rewrite (Hh d eq_refl); exact Y|reflexivity].
Qed.
Lemma staged_greetings_tls : staged greeting_codes checkServerGreetingsTLS.
Proof.
  intros s code s' H. unfold checkServerGreetingsTLS in H. apply bind_done in H as (r & s1 & H1 & H).
  apply wait_bio_trace in H1 as (t & h & T & R & D & X). eapply greeting_staged; eassumption.
Qed.
Lemma staged_greetings : staged greeting_codes checkServerGreetings.
Proof.
  intros s code s' H. unfold checkServerGreetings, bind at 1 2, getc, gete in H.
  destruct (wait_loop _ _ _ _) as [[o evs] rest] eqn:E.
  apply bind_done in H as (u2 & s2 & H2 & H). apply bind_done in H as (u3 & s3 & H3 & H).
  apply bind_done in H as (r & s4 & H4 & H). unfold lift in H4. inversion H4; subst o s4.
  inversion H2; subst. inversion H3; subst. 
  apply wait_loop_trace in E as [E1 E2]; [|left; eexists; reflexivity].
  destruct (dialogue_heard evs [] E1) as [_ X]. destruct (dialogue evs) as [h l] eqn:Dv. cbn in X. subst l.
  eapply (greeting_staged s _ r code s' evs h); [|exact E1|exact Dv| |exact H]; [reflexivity|]. intros d Ed. apply E2. f_equal. exact Ed.
Qed.
Lemma staged_ehlo_loop : forall l fuel tmo o, In (-1) l -> In 250 l -> In tmo l -> staged l (ehlo_loop fuel tmo o).
Proof.
  intros l fuel tmo o M K D. revert o. induction fuel as [|f IH]; intros o s r s' H; cbn [ehlo_loop] in H; destruct (containsAllOptions o).
  - apply bind_done in H as (u & s1 & _ & H). apply ret_done in H as [-> _]. left. exact K.
  - discriminate H.
  - apply bind_done in H as (u & s1 & _ & H). apply ret_done in H as [-> _]. left. exact K.
  - apply bind_done in H as (code & s1 & H1 & H). assert (G := grows_reply s). rewrite H1 in G.
    destruct (code =? -1); [apply ret_done in H as [-> _]; left; exact D|].
    destruct (negb (code =? 250)).
    + apply ret_done in H as [-> ->]. apply reply_trace in H1 as (_ & t & h & T & R & Dt & [->|C]); [left; exact M|].
      eapply reply_staged; eassumption.
    + unfold bind, getc in H. destruct (c_resp (s_c s1)); [|discriminate H].
      eapply staged1_after; [exact G|]. eapply IH, H.
Qed.
Lemma staged_ehlo : forall l err tmo, err <> 0 -> In (-1) l -> In 250 l -> In err l -> In tmo l -> staged l (ehlo_with err tmo).
Proof.
  intros l err tmo N M K E T. unfold ehlo_with. apply staged_bind; [apply grows_logc|intros _]. apply staged_if; [apply staged_feedback; assumption|apply grows_feedback|].
  apply staged_bind; [apply grows_getc0|intros c]. destruct (c_resp c); [|apply staged_none; discriminate].
  apply staged_bind; [apply grows_gete0|intros e]. apply staged_ehlo_loop; assumption.
Qed.
Lemma staged_identify : staged ehlo_codes sendServerIdentification.
Proof. apply staged_ehlo; [discriminate|doc|doc|doc|doc]. Qed.
Lemma staged_identify_tls : staged secure_ehlo_codes getServerSecureIdentification.
Proof. apply staged_bind; [apply grows_logc|intros _]. apply staged_ehlo; [discriminate|doc|doc|doc|doc]. Qed.
Lemma staged_starttls : staged tls_codes startTLSNegotiation.
Proof. unfold startTLSNegotiation, fresh_id. ks. Qed.
Lemma staged_upgrade : staged upgrade_codes upgradeToSecureConnection.
Proof. unfold upgradeToSecureConnection. ks. Qed.

(** ** The transaction *)
Definition mail_codes : list Z := [-1; 0; 250; CLIENT_SENDMAIL_MAILFROM_ERROR; CLIENT_SENDMAIL_MAILFROM_TIMEOUT].
Definition rcpt_codes : list Z := [-1; 0; 250; CLIENT_SENDMAIL_RCPTTO_ERROR; CLIENT_SENDMAIL_RCPTTO_TIMEOUT].
Definition header_codes : list Z :=
  [-1; 0; CLIENT_SENDMAIL_DATA_ERROR; CLIENT_SENDMAIL_DATA_TIMEOUT; CLIENT_SENDMAIL_HEADERFROM_ERROR;
   CLIENT_SENDMAIL_HEADERSUBJECT_ERROR; CLIENT_SENDMAIL_HEADERCONTENTTYPE_ERROR].
Definition body_codes : list Z :=
  [-1; 0; CLIENT_SENDMAIL_BODYPART_ERROR; CLIENT_SENDMAIL_BODY_ERROR; CLIENT_SENDMAIL_END_DATA_ERROR;
   CLIENT_SENDMAIL_END_DATA_TIMEOUT; CLIENT_SENDMAIL_QUIT_ERROR].
Lemma staged_incl : forall l l' m, staged l m -> incl l l' -> staged l' m.
Proof. intros l l' m H I0 s r s' E. destruct (H _ _ _ E) as [X|X]; [left; apply I0, X|right; exact X]. Qed.
Lemma staged1_before : forall l r s s1 s', staged1 l r s s1 -> ext s1 s' -> staged1 l r s s'.
Proof. intros l r s s1 s' [H|H] X; [left; exact H|right]. exact (bad_l _ _ _ _ (closed_spoken r) H X). Qed.
Lemma mail_from_staged : forall fmts last s0 s r s', ext s0 s -> staged1 mail_codes last s0 s ->
  mail_from_loop fmts last s = (Done r, s') -> staged1 mail_codes r s0 s'.
Proof.
  induction fmts as [|f l IH]; intros last s0 s r s' E C H; cbn [mail_from_loop] in H.
  - apply ret_done in H as [-> ->]. exact C.
  - apply bind_done in H as (u & s1 & H1 & H). assert (G1 := grows_logc f s). rewrite H1 in G1.
    apply bind_done in H as (code & s2 & H2 & H).
    match type of H2 with sendFeedbackPtr ?d ?a ?b _ = _ => assert (G2 := grows_fb d a b s1); rewrite H2 in G2;
      assert (C2 : staged1 mail_codes code s1 s2) by (eapply (staged_fb mail_codes d a b); [discriminate|doc|doc|doc|exact H2]) end.
    cbn [snd] in *. assert (E1 := ext_trans _ _ _ E G1). assert (C3 := staged1_after _ _ _ _ _ E1 C2).
    assert (E2 := ext_trans _ _ _ E1 G2).
    destruct (code =? 250); [apply ret_done in H as [-> ->]; exact C3|].
    destruct (negb (code =? 501)); [apply ret_done in H as [-> ->]; exact C3|]. eapply IH; eassumption.
Qed.
Lemma staged_mail_from : forall fmts, staged mail_codes (mail_from_loop fmts 0).
Proof. intros fmts s r s' H. apply (mail_from_staged fmts 0 s s r s'); [apply ext_refl|left; doc|exact H]. Qed.
Lemma add_recipients_staged : forall l result s0 s r s', ext s0 s -> staged1 rcpt_codes result s0 s ->
  addMailRecipients l result s = (Done r, s') -> staged1 rcpt_codes r s0 s'.
Proof.
  induction l as [|a l IH]; intros result s0 s r s' E C H; cbn [addMailRecipients] in H.
  - apply ret_done in H as [-> ->]. exact C.
  - apply bind_done in H as ([] & s1 & H1 & H). assert (G1 := grows_logc (rcpt_command a) s). rewrite H1 in G1.
    apply bind_done in H as (code & s2 & H2 & H).
    match type of H2 with sendFeedbackPtr ?d ?x ?y _ = _ => assert (G2 := grows_fb d x y s1); rewrite H2 in G2;
      assert (C2 : staged1 rcpt_codes code s1 s2) by (eapply (staged_fb rcpt_codes d x y); [discriminate|doc|doc|doc|exact H2]) end.
    cbn [snd] in *. assert (E1 := ext_trans _ _ _ E G1).
    eapply (IH _ s0 s2 r s'); [exact (ext_trans _ _ _ E1 G2)| |exact H].
    destruct (code =? 250); [eapply staged1_before; [exact C|exact (ext_trans _ _ _ G1 G2)]|eapply staged1_after; eassumption].
Qed.
Lemma staged_add_recipients : forall l, staged rcpt_codes (addMailRecipients l 250).
Proof. intros l s r s' H. apply (add_recipients_staged l 250 s s r s'); [apply ext_refl|left; doc|exact H]. Qed.
Lemma staged_recipients_loop : forall ls, staged rcpt_codes (recipients_loop ls).
Proof.
  induction ls as [|[|l] ls IH]; cbn [recipients_loop]; [apply staged_ret; doc|exact IH|].
  apply staged_if; [apply staged_add_recipients|apply grows_add_recipients|exact IH].
Qed.
Lemma staged_headers : forall m, staged header_codes (setMailHeaders m).
Proof. intros m. unfold setMailHeaders, addMailHeader. ks. Qed.
Lemma staged_chunks : forall l err, err <> 0 -> In 0 l -> In err l -> forall ch, staged l (send_chunks ch err).
Proof.
  intros l err N Z D. induction ch; cbn [send_chunks]; [apply staged_ret; exact Z|].
  apply staged_if; [apply staged_cmd; assumption|apply grows_cmd|exact IHch].
Qed.
Lemma staged_quit : staged body_codes sendQuitCommand.
Proof. unfold sendQuitCommand, sendQuit_with. change (sendCommandPtr_with cleanup) with sendCommandPtr. ks. Qed.
Lemma staged_body : forall m, staged body_codes (setMailBody m).
Proof.
  intros m. unfold setMailBody.
  apply staged_bind; [apply grows_logc|intros _]. apply staged_bind; [apply grows_gete0|intros e]. apply staged_bind; [apply grows_lift|intros b].
  apply staged_if; [apply staged_chunks; [destruct (512 <? _)%nat; discriminate|doc|destruct (512 <? _)%nat; doc]|apply grows_chunks|].
  ks; [apply staged_quit|apply grows_quit].
Qed.
Definition transaction_codes : list Z := mail_codes ++ rcpt_codes ++ header_codes ++ body_codes.
Lemma staged_transaction : forall m, staged transaction_codes (mail_transaction m).
Proof.
  intros m. unfold mail_transaction, setMailRecipients.
  apply staged_if; [|apply grows_recipients|].
  { apply staged_if; [eapply staged_incl; [apply staged_mail_from|]|apply grows_mail_from|eapply staged_incl; [apply staged_recipients_loop|]]; intros r; cbv; tauto. }
  apply staged_if; [eapply staged_incl; [apply staged_headers|]; intros r; cbv; tauto|apply grows_headers|].
  apply staged_if; [eapply staged_incl; [apply staged_body|]; intros r; cbv; tauto|apply grows_body|]. ks.
Qed.
