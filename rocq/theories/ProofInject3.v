(** The whole call: clear text first, then TLS. *)

From Coq Require Import Ascii String List NArith ZArith Bool Lia ZifyBool ZifyNat ZifyN.
From Verif Require Import Base Lib ModelUtil ModelBase64 ModelAddress ModelAttachment ModelMessage ModelReply ModelErrors ModelState ModelClient ModelWorld
  SpecInject ProofInject ProofInject2.
From Verif Require ProofSteps ProofMail.
Import ListNotations.
Open Scope Z_scope.

Definition nz (z : Z) : Prop := z <> 0.
(** Bind where the first part keeps the channel. *)
Ltac bq := eapply (rel_bind _ _ no); [|intros ?|intros ? []|intros ? []| |].
Ltac gz := intros; gs; first [apply grw_fb|apply grw_cmd|apply grw_cleanup|apply grw_reply|apply grw_address_header|apply grw_add|apply grw_from|apply grw_rcpts
  |apply grw_chunks|apply grw_set_rcpts|apply grw_headers|apply grw_body|apply grw_transaction|apply grw_auth|apply grw_ehlo|apply grw_starttls|apply grw_greeting_result].
Ltac qs := quiet_step; [|gz|gz].

(** ** Authentication *)
Lemma ur2 : unread Rauth. Proof. split; [apply u2|intros c1 c2 a b H; exact H]. Qed.
Lemma rel_fb2 : forall R d err tmo, unread R -> rel (like R) (fun _ => like R0) (bad err tmo) (sendFeedbackPtr d err tmo) (sendFeedbackPtr d err tmo).
Proof. intros. eapply rel_post; [| |apply rel_fb; assumption]; [intros a s t; apply like_0|auto]. Qed.
Definition auth_bad (z : Z) : Prop := z = CLIENT_AUTHENTICATE_ERROR \/ z = CLIENT_AUTHENTICATE_TIMEOUT.
Lemma rel_authClient : rel (like Rauth) (fun _ => like R0) auth_bad authenticateClient authenticateClient.
Proof.
  unfold authenticateClient. apply rel_getc; intros c1 c2 C X. destruct (likec_kind _ _ C) as (_ & _ & _ & _ & _ & _ & Ec & _). rewrite Ec. unfold Rauth in X. rewrite X.
  assert (Z0 : forall z, rel (like Rauth) (fun _ => like R0) auth_bad (ret z) (ret z)) by (intros z; apply rel_ret; intros s t; apply like_0).
  destruct (c_cred c1) as [cr|]; [|apply Z0]. destruct (c_auth c2) as [o|]; [|apply rel_stop1; [discriminate|gs]].
  destruct (_ && _). { unfold authPlain. qs. apply rel_fb2, ur2. }
  destruct (_ && _).
  { unfold authLogin. qs.
    assert (U : forall z, bad CLIENT_AUTHENTICATE_ERROR CLIENT_AUTHENTICATE_TIMEOUT z -> forall k : M Z, mute false auth_bad (if negb (z =? STATUS_CODE_SERVER_CHALLENGE) then ret CLIENT_AUTHENTICATE_ERROR else k)).
    { intros z [->| ->] k; cbn; apply mute_ret; left; reflexivity. }
    eapply rel_bind; [apply rel_fb2, ur2|intros z|intros z H; apply U, H|intros z H; apply U, H|gz|gz].
    destruct (negb _); [apply rel_ret; auto|].
    eapply rel_bind; [apply rel_fb2, ur0|intros z2|intros z2 H; apply U, H|intros z2 H; apply U, H|gz|gz].
    destruct (negb _); [apply rel_ret; auto|]. apply rel_fb2, ur0. }
  destruct (_ && _). { unfold authXOauth2. qs. apply rel_fb2, ur2. }
  apply Z0.
Qed.
Lemma rel_auth : rel (like Rauth) (fun _ => like R0) nz authenticate_if_needed authenticate_if_needed.
Proof.
  unfold authenticate_if_needed. apply rel_getc; intros c1 c2 C X. destruct (likec_kind _ _ C) as (_ & _ & _ & _ & _ & _ & Ec & _). rewrite Ec.
  destruct (c_cred c1); [|apply rel_ret; intros s t; apply like_0].
  eapply rel_bind; [apply rel_authClient| | | | |].
  4,5: intros; gs.
  2,3: intros z [->| ->]; cbn; apply mute_ret; discriminate.
  intros z. destruct (negb _); apply rel_ret; auto.
Qed.

(** ** The mail *)
Lemma rel_from : forall l r, rel (like R0) (fun _ => like R0) any (mail_from_loop l r) (mail_from_loop l r).
Proof.
  induction l as [|x l IH]; intros r; cbn [mail_from_loop]; [apply rel_ret; auto|]. quiet_step; [|gz|gz].
  eapply rel_bind; [apply rel_fb0| |intros z _; ms; apply mute_from|intros z _; ms; apply mute_from|gz|gz].
  intros z. destruct (z =? 250); [apply rel_ret; auto|]. destruct (negb _); [apply rel_ret; auto|]. apply IH.
Qed.
Lemma rel_add : forall l r, rel (like R0) (fun _ => like R0) any (addMailRecipients l r) (addMailRecipients l r).
Proof.
  induction l as [|x l IH]; intros r; cbn [addMailRecipients]; [apply rel_ret; auto|]. quiet_step; [|gz|gz].
  eapply rel_bind; [apply rel_fb0| |intros z _; apply mute_add_any|intros z _; apply mute_add_any|gz|gz].
  intros z. apply IH.
Qed.
Lemma rel_rcpts : forall l, rel (like R0) (fun _ => like R0) any (recipients_loop l) (recipients_loop l).
Proof.
  induction l as [|x l IH]; cbn [recipients_loop]; [apply rel_ret; auto|]. destruct x as [k|x]; [exact IH|].
  eapply rel_bind; [apply rel_add| |intros z _; ms; apply mute_rcpts|intros z _; ms; apply mute_rcpts|gz|gz].
  intros z. destruct (negb _); [apply rel_ret; auto|exact IH].
Qed.
Lemma rel_set_rcpts : forall m, rel (like R0) (fun _ => like R0) any (setMailRecipients m) (setMailRecipients m).
Proof.
  intros m. unfold setMailRecipients.
  eapply rel_bind; [apply rel_from| |intros z _; ms; apply mute_rcpts|intros z _; ms; apply mute_rcpts|gz|gz].
  intros z. destruct (negb _); [apply rel_ret; auto|apply rel_rcpts].
Qed.
Lemma rel_cmd0 : forall d err, rel (like R0) (fun _ => like R0) (eq err) (sendCommandPtr d err) (sendCommandPtr d err).
Proof. intros. eapply rel_post; [| |apply rel_cmd, ur0]; [intros z s t [_ L]; exact L|auto]. Qed.
Lemma rel_header : forall f v err, rel (like R0) (fun _ => like R0) (eq err) (addMailHeader f v err) (addMailHeader f v err).
Proof. intros. unfold addMailHeader. quiet_step; [|gz|gz]. apply rel_cmd0. Qed.
Lemma rel_address_header : forall f a, rel (like R0) (fun _ => like R0) any (address_header f a) (address_header f a).
Proof.
  intros f a. unfold address_header. destruct a as [[|k]|[|x l]]; try (apply rel_ret; auto); [apply rel_stop1; [discriminate|gs]|].
  eapply rel_bind; [apply rel_header|intros z; apply rel_ret; auto|intros; ms|intros; ms|gz|gz].
Qed.
Lemma rel_headers : forall m, rel (like R0) (fun _ => like R0) any (setMailHeaders m) (setMailHeaders m).
Proof.
  intros m. unfold setMailHeaders, addMailHeader.
  Ltac mz := intros; ms; first [apply mute_cmd_any|apply mute_address_header].
  quiet_step; [|gz|gz]. eapply rel_bind; [apply rel_fb0| |mz|mz|gz|gz]. intros z. destruct (negb _); [apply rel_ret; auto|].
  eapply rel_bind; [apply rel_header| |mz|mz|gz|gz]. intros z2. destruct (negb _); [apply rel_ret; auto|].
  eapply rel_bind; [apply rel_address_header| |mz|mz|gz|gz]. intros ?.
  eapply rel_bind; [apply rel_address_header| |mz|mz|gz|gz]. intros ?.
  quiet_step; [|gz|gz]. eapply rel_bind; [apply rel_cmd0| |mz|mz|gz|gz]. intros z3. destruct (negb _); [apply rel_ret; auto|].
  quiet_step; [|gz|gz]. eapply rel_bind; [apply rel_cmd0| |mz|mz|gz|gz]. intros z4. destruct (negb _); apply rel_ret; auto.
Qed.
Lemma rel_chunks : forall l err, err <> 0 -> rel (like R0) (fun _ => like R0) (eq err) (send_chunks l err) (send_chunks l err).
Proof.
  induction l as [|x l IH]; intros err E; cbn [send_chunks]; [apply rel_ret; auto|].
  eapply rel_bind; [apply rel_cmd0| | | |gz|gz].
  2,3: intros z <-; replace (err =? 0) with false by lia; apply mute_ret; reflexivity.
  intros z. destruct (negb _); [apply rel_ret; auto|apply IH, E].
Qed.
Lemma mute_chunks : forall l err, err <> 0 -> l <> [] -> mute false (eq err) (send_chunks l err).
Proof.
  intros [|x l] err E N; [contradiction|]. cbn [send_chunks]. eapply mute_bind; [apply mute_cmd|]. intros z <-. replace (err =? 0) with false by lia. apply mute_ret. reflexivity.
Qed.
Lemma chunks_some : forall b, body_chunks b <> [].
Proof.
  intros b. unfold body_chunks. destruct (512 <? length b)%nat eqn:E; [|discriminate]. cbn [chunk_loop].
  repeat match goal with |- context [if ?x then _ else _] => destruct x eqn:? end; try discriminate; lia.
Qed.
Lemma body_err : forall b : str, (if (512 <? length b)%nat then CLIENT_SENDMAIL_BODYPART_ERROR else CLIENT_SENDMAIL_BODY_ERROR) <> 0.
Proof. intros b. destruct (512 <? length b)%nat; discriminate. Qed.
Lemma mute_body : forall m, mute false nz (setMailBody m).
Proof.
  intros m. unfold setMailBody. m0; [ms|]. m0. m0; [ms|]. eapply mute_bind; [apply mute_chunks; [apply body_err|apply chunks_some]|].
  intros z <-. pose proof (body_err a0) as E. replace (_ =? 0) with false by lia. apply mute_ret. exact E.
Qed.
Lemma rel_body : forall m, rel (like R0) (fun _ => like R0) nz (setMailBody m) (setMailBody m).
Proof.
  intros m. unfold setMailBody, sendQuitCommand, sendQuit_with. change (sendCommandPtr_with cleanup) with sendCommandPtr.
  quiet_step; [|gz|gz]. apply rel_gete; intros e1 e2 (_ & _ & Ef). rewrite Ef.
  bq; [apply rel_lift| |gz|gz]. 
  eapply rel_bind; [apply rel_chunks, body_err| | | |gz|gz].
  2,3: intros z <-; pose proof (body_err a0) as E; replace (_ =? 0) with false by lia; apply mute_ret; exact E.
  intros z. destruct (negb _); [apply rel_ret; auto|]. quiet_step; [|gz|gz].
  eapply rel_bind; [apply rel_fb0| | | |gz|gz].
  2,3: intros z2 [->| ->]; cbn; apply mute_ret; discriminate.
  intros z2. destruct (negb _); [apply rel_ret; auto|]. apply rel_getc; intros c1 c2 C _.
  destruct (likec_kind _ _ C) as (_ & _ & _ & _ & Eb & _). rewrite Eb. destruct (c_batch c1); [apply rel_ret; auto|].
  eapply (rel_bind _ _ (eq CLIENT_SENDMAIL_QUIT_ERROR)); [quiet_step; [apply rel_cmd0|gz|gz]| | | |gz|gz].
  2,3: intros z3 <-; cbn; apply mute_ret; discriminate.
  intros z3. destruct (negb _); apply rel_ret; auto.
Qed.
(** Both clients still have the channel, or they are not in batch mode. *)
Definition over (z : Z) (s1 s2 : st) : Prop := like R0 s1 s2 \/ sp s1 = sp s2 /\ c_batch (s_c s1) = false.
Lemma over_sp : forall z s1 s2, over z s1 s2 -> sp s1 = sp s2.
Proof. intros z s1 s2 [L|[E _]]; [exact (like_sp _ _ _ L)|exact E]. Qed.
Definition Rnorm (c1 c2 : client) : Prop := c_batch c1 = false.
Lemma rel_last : rel (like Rnorm) over no (cleanup;; ret 0) (cleanup;; ret 0).
Proof.
  intros s1 s2 L. pose proof (rel_cleanup Rnorm s1 s2 L) as H. destruct L as (_ & N & _). unfold Rnorm in N.
  assert (P : cleanup s1 = (Done tt, ProofSteps.teardown s1)) by (apply ProofMail.cleanup_plain; rewrite N; reflexivity).
  assert (Bt : c_batch (s_c (ProofSteps.teardown s1)) = false) by (unfold ProofSteps.teardown; destruct (c_kind (s_c s1)); exact N).
  unfold bind, out, ret in *. rewrite P in *. destruct (cleanup s2) as [o2 q2]. cbn [fst snd] in *.
  destruct o2; cbn [fst snd]; try exact H. left. split; [reflexivity|]. right. split; [|exact Bt]. destruct H as [[_ []]|((_ & _ & _ & _ & E) & _)]. exact E.
Qed.
Lemma rel_normal : forall {A} (Q : A -> st -> st -> Prop) F (k : bool -> M A), rel (like R0) Q F (k true) (k true) -> rel (like Rnorm) Q F (k false) (k false) ->
  rel (like R0) Q F (c <- getc;; k (c_batch c)) (c <- getc;; k (c_batch c)).
Proof.
  intros A Q F k T N s1 s2 L. unfold bind, getc. pose proof L as (C & X & Y). destruct (likec_kind _ _ C) as (_ & _ & _ & _ & Eb & _). rewrite Eb.
  destruct (c_batch (s_c s1)) eqn:E; [apply T, L|]. apply N. split; [exact C|]. split; [exact E|exact Y].
Qed.
Lemma rel_transaction : forall m, rel (like R0) over nz (mail_transaction m) (mail_transaction m).
Proof.
  intros m. unfold mail_transaction.
  assert (W : forall z s t, like R0 s t -> over z s t) by (intros z s t L; left; exact L).
  assert (MB : forall z, mute false nz (if negb (z =? 0) then ret z else b <- setMailBody m;; if negb (b =? 0) then ret b else c <- getc;; (if c_batch c then ret tt else cleanup);; ret 0)).
  { intros z. destruct (z =? 0) eqn:E; cbn [negb]; [|apply mute_ret; unfold nz; lia]. eapply mute_bind; [apply mute_body|]. unfold nz. intros b N. replace (b =? 0) with false by lia. apply mute_ret. exact N. }
  assert (MH : forall z, mute false nz (if negb (z =? 0) then ret z else h <- setMailHeaders m;; if negb (h =? 0) then ret h else b <- setMailBody m;; if negb (b =? 0) then ret b else c <- getc;; (if c_batch c then ret tt else cleanup);; ret 0)).
  { intros z. destruct (z =? 0) eqn:E; cbn [negb]; [|apply mute_ret; unfold nz; lia]. eapply mute_bind; [apply mute_headers|]. intros h _. apply MB. }
  eapply rel_bind; [apply rel_set_rcpts| |intros z _; apply MH|intros z _; apply MH|gz|gz]. intros z. destruct (negb _); [apply rel_ret; auto|].
  eapply rel_bind; [apply rel_headers| |intros h _; apply MB|intros h _; apply MB|gz|gz]. intros h. destruct (negb _); [apply rel_ret; auto|].
  eapply rel_bind; [apply rel_body| | | |gz|gz].
  2,3: unfold nz; intros b N; replace (b =? 0) with false by lia; apply mute_ret; exact N.
  intros b. destruct (negb _); [apply rel_ret; auto|]. apply (rel_normal _ _ (fun x => (if x then ret tt else cleanup);; ret 0)).
  - eapply (rel_bind _ (fun _ => like R0) no); [apply rel_ret; auto|intros ?; apply rel_ret; auto|intros ? []|intros ? []|gz|gz].
  - eapply rel_post; [| |apply rel_last]; [auto|intros ? []].
Qed.

(** ** Starting TLS *)
Definition tls_rest (b : nat) (c : client) (t : tls_res) : M Z :=
          match c_server c with
          | None => fail_ub (UB_NullDeref PServer)
          | Some name =>
              if (SERVERNAMEANDPORT_LENGTH <? slen name + 1 + slen (dec_of_N (c_port c)) + 1)%N
              then fail_ub (UB_BufferOverflow BufEndpoint)
              else if negb (t_paths t) then
                ret SSL_CLIENT_STARTTLS_CTX_SET_DEFAULT_VERIFY_PATHS_ERROR
              else if negb (t_connect t) then
                emit (EvHandshake b false);;
                cleanup;; setLastSocketErrNo (t_err t);;
                ret SSL_CLIENT_STARTTLS_BIO_CONNECT_ERROR
              else
                addLog (B "<Negotiate a TLS session>") (B "c & s");;
                emit (EvHandshake b (t_handshake t));;
                if negb (t_handshake t) then
                  cleanup;; setLastSocketErrNo (t_err t);;
                  ret SSL_CLIENT_STARTTLS_BIO_HANDSHAKE_ERROR
                else
                  addLog (B "<Check result of negotiation>") (B "c & s");;
                  emit (EvCert b (t_cert t));;
                  if negb (t_cert t) then
                    cleanup;; ret SSL_CLIENT_STARTTLS_GET_CERTIFICATE_ERROR
                  else
                    emit (EvVerify b (t_verify t) (t_host t));;
                    c <- getc;;
                    if (t_verify t =? X509_V_ERR_DEPTH_ZERO_SELF_SIGNED_CERT) && c_selfsigned c then
                      logs (B "Warning: Self signed certificate");;
                      logc (B "TLS session ready!");;
                      ret 0
                    else if negb (t_verify t =? X509_V_OK) then
                      e <- gete;;
                      logs (e_x509str e (t_verify t));;
                      cleanup;;
                      ret SSL_CLIENT_STARTTLS_VERIFY_RESULT_ERROR
                    else
                      logc (B "TLS session ready!");;
                      ret 0
          end.
Lemma grw_tls_rest : forall b c t, grw (tls_rest b c t).
Proof. intros. unfold tls_rest. gs; apply grw_cleanup. Qed.
Lemma rel_tls_rest : forall b c1 c2 t, c_server c1 = c_server c2 -> c_port c1 = c_port c2 ->
  rel (like R0) (fun _ => like R0) nz (tls_rest b c1 t) (tls_rest b c2 t).
Proof.
  intros b c1 c2 t E1 E2. unfold tls_rest. rewrite E1, E2.
  assert (CL : forall (k : M Z), grw k -> mute false nz k -> rel (like R0) (fun _ => like R0) nz (cleanup;; k) (cleanup;; k)).
  { intros k G Mk. eapply (rel_bind _ _ any); [apply rel_cleanup|intros ?; apply rel_never|auto|auto|auto|auto]. }
  destruct (c_server c2) as [name|]; [|apply rel_stop1; [discriminate|gs]].
  destruct (_ <? _)%N; [apply rel_stop1; [discriminate|gs]|]. destruct (negb _); [apply rel_ret; auto|].
  destruct (negb _). { bq; [apply rel_emit; reflexivity|apply CL; [gs|ms; discriminate]|gz|gz]. }
  quiet_step; [|gz|gz]. bq; [apply rel_emit; reflexivity| |gz|gz].
  destruct (negb _). { apply CL; [gs|ms; discriminate]. }
  quiet_step; [|gz|gz]. bq; [apply rel_emit; reflexivity| |gz|gz].
  destruct (negb _). { apply CL; [gs|ms; discriminate]. }
  bq; [apply rel_emit; reflexivity| |gz|gz]. apply rel_getc; intros d1 d2 D _.
  destruct (likec_kind _ _ D) as (_ & _ & _ & _ & _ & _ & _ & _ & Es). rewrite Es.
  destruct (_ && _). { quiet_step; [|gz|gz]. quiet_step; [|gz|gz]. apply rel_ret; auto. }
  destruct (negb _). { apply rel_gete; intros e1 e2 _. quiet_step; [|gz|gz]. apply CL; [gs|ms; discriminate]. }
  quiet_step; [|gz|gz]. apply rel_ret; auto.
Qed.
Definition tls_body : M Z :=
  e <- gete;;
  match e_tls e with
  | [] => blocked
  | t :: l =>
      upde (set_tls l);;
      if negb (t_ctx t) then
        updc (set_ctx None);; setLastSocketErrNo (t_err t);;
        ret SSL_CLIENT_STARTTLS_INITSSLCTX_ERROR
      else
        i <- fresh_id;;
        emit (EvCtxNew i);;
        updc (set_ctx (Some i));;
        if negb (t_bio t) then
          updc (set_bio None);; ret SSL_CLIENT_STARTTLS_BIONEWSSLCONNECT_ERROR
        else
          b <- fresh_id;;
          c <- getc;;
          emit (EvBioNew b (c_sock c));;
          updc (set_bio (Some (mkBio b (c_sock c))));;
          tls_rest b c t
  end.
Lemma start_split : startTLSNegotiation = (logc (B "<Start TLS negotiation>");; tls_body).
Proof. reflexivity. Qed.
Definition with_channel (l : list tls_res) (s : st) : st :=
  let n := e_next (s_e s) in
  mkSt (set_bio (Some (mkBio (S n) (c_sock (s_c s)))) (set_ctx (Some n) (s_c s))) (set_next (S (S n)) (set_tls l (s_e s)))
    ((s_t s ++ [EvCtxNew n]) ++ [EvBioNew (S n) (c_sock (s_c s))]).
Lemma tls_body_eq : forall s t l, e_tls (s_e s) = t :: l ->
  tls_body s =
  if t_ctx t then
    if t_bio t then tls_rest (S (e_next (s_e s))) (set_ctx (Some (e_next (s_e s))) (s_c s)) t (with_channel l s)
    else (Done SSL_CLIENT_STARTTLS_BIONEWSSLCONNECT_ERROR,
          mkSt (set_bio None (set_ctx (Some (e_next (s_e s))) (s_c s))) (set_next (S (e_next (s_e s))) (set_tls l (s_e s))) (s_t s ++ [EvCtxNew (e_next (s_e s))]))
  else (Done SSL_CLIENT_STARTTLS_INITSSLCTX_ERROR, mkSt (set_errno (t_err t) (set_ctx None (s_c s))) (set_tls l (s_e s)) (s_t s)).
Proof.
  intros s t l E. unfold tls_body, fresh_id, setLastSocketErrNo. unfold bind, gete, upde, updc, getc, emit, ret. rewrite E.
  destruct (t_ctx t); cbn [negb]; [|reflexivity]. destruct (t_bio t); reflexivity.
Qed.
Lemma grw_tls_body : grw tls_body.
Proof. unfold tls_body, fresh_id. gs. apply grw_tls_rest. Qed.
(** Before TLS. *)
Definition like0 (s1 s2 : st) : Prop := okc (s_c s1) /\ settings (s_c s1) = settings (s_c s2) /\ c_conn (s_c s1) = c_conn (s_c s2) /\
  c_bio (s_c s1) = None /\ c_bio (s_c s2) = None /\ side (s_e s1) = side (s_e s2) /\ sp s1 = sp s2.
Lemma rel_starttls : rel like0 (fun _ => like R0) nz startTLSNegotiation startTLSNegotiation.
Proof.
  rewrite start_split.
  eapply (rel_bind _ (fun _ => like0) no); [| |intros ? []|intros ? []|intros; apply grw_tls_body|intros; apply grw_tls_body].
  { intros s1 s2 (O & St & Cn & N1 & N2 & Sd & S0). unfold logc. destruct (addLog_shape (B "<Start TLS negotiation>") (B "c") s1) as (l & n & E1).
    destruct (addLog_shape (B "<Start TLS negotiation>") (B "c") s2) as (l' & n' & E2). unfold out. rewrite E1, E2.
    assert (Y : sp (mkSt (set_log l n (s_c s1)) (s_e s1) (s_t s1)) = sp (mkSt (set_log l' n' (s_c s2)) (s_e s2) (s_t s2))) by exact S0.
    destruct (fst (addLog _ _ s1)) as [[]| | | | |], (fst (addLog _ _ s2)) as [[]| | | | |]; try (rewrite Y; apply begins_refl); try (left; rewrite Y; apply begins_refl).
    left. split; [reflexivity|]. split; [exact O|split; [exact St|split; [exact Cn|split; [exact N1|split; [exact N2|split; [exact Sd|exact S0]]]]]]. }
  intros [] s1 s2 (O & St & Cn & N1 & N2 & Sd & S0). unfold side in Sd. injection Sd as Et Er Ep Ef En.
  assert (O2 : okc (s_c s2)) by (exact (okc_settings _ _ (eq_sym St) O)).
  destruct (e_tls (s_e s2)) as [|t l] eqn:E2.
  { assert (X1 : tls_body s1 = (Blocked, s1)) by (unfold tls_body, bind, gete; rewrite Et; reflexivity).
    assert (X2 : tls_body s2 = (Blocked, s2)) by (unfold tls_body, bind, gete; rewrite E2; reflexivity).
    rewrite X1, X2. unfold out. cbn [fst snd]. left. rewrite S0. apply begins_refl. }
  rewrite (tls_body_eq s1 t l Et), (tls_body_eq s2 t l E2). rewrite En.
  destruct (t_ctx t).
  2: { unfold out. cbn [fst snd]. right. split; [|split; discriminate]. split; [exact O|split; [exact O2|split; [exact N1|split; [exact N2|exact S0]]]]. }
  destruct (t_bio t).
  2: { unfold out. cbn [fst snd]. right. split; [|split; discriminate]. split; [exact O|split; [exact O2|split; [reflexivity|split; [reflexivity|]]]].
       unfold sp, conversation in *. cbn [s_t]. rewrite !filter_app, S0. reflexivity. }
  unfold settings in St. injection St as K1 K2 K3 K4 K5 K6 K7 K8.
  apply rel_tls_rest; [exact K2|exact K3|].
  unfold with_channel. rewrite En. split; [|split; [exact Logic.I|split]].
  - split; [exact O|]. split; [unfold settings; cbn; congruence|]. split; [exact Cn|]. eexists _, _. split; [reflexivity|]. split; reflexivity.
  - split; [exact Er|split; [exact Ep|exact Ef]].
  - unfold sp, conversation in *. cbn [s_t]. rewrite !filter_app, S0. reflexivity.
Qed.

(** ** Connecting *)
Definition secure_tail : M Z :=
  s <- getServerSecureIdentification;;
  if negb (s =? STATUS_CODE_REQUESTED_MAIL_ACTION_OK_OR_COMPLETED) then ret s else authenticate_if_needed.
Lemma grw_secure_tail : grw secure_tail.
Proof. unfold secure_tail, getServerSecureIdentification. gs; [apply grw_ehlo|apply grw_auth]. Qed.
Lemma rel_secure_tail : rel (like R0) (fun _ => like R0) nz secure_tail secure_tail.
Proof.
  unfold secure_tail, getServerSecureIdentification.
  eapply (rel_bind _ identified (bad SSL_CLIENT_INITSECURECLIENT_ERROR SSL_CLIENT_INITSECURECLIENT_TIMEOUT)).
  - quiet_step; [|intros; apply grw_ehlo|intros; apply grw_ehlo]. apply rel_ehlo; [exact ur0|discriminate|discriminate].
  - intros z. unfold identified. change STATUS_CODE_REQUESTED_MAIL_ACTION_OK_OR_COMPLETED with 250. destruct (z =? 250); cbn [negb]; [apply rel_auth|apply rel_ret; auto].
  - intros z [->| ->]; cbn; apply mute_ret; discriminate.
  - intros z [->| ->]; cbn; apply mute_ret; discriminate.
  - intros; gs; apply grw_auth.
  - intros; gs; apply grw_auth.
Qed.
Definition opp_tail : M Z := t <- startTLSNegotiation;; if negb (t =? 0) then ret t else secure_tail.
Definition forced_tail : M Z :=
  t <- startTLSNegotiation;; if negb (t =? 0) then ret t else
  g <- checkServerGreetingsTLS;;
  if negb (g =? STATUS_CODE_SERVICE_READY) then ret g else secure_tail.
Lemma nz_tail : forall z (k : M Z), nz z -> mute false nz (if negb (z =? 0) then ret z else k).
Proof. intros z k H. unfold nz in *. replace (z =? 0) with false by lia. apply mute_ret. exact H. Qed.
Lemma rel_opp_tail : rel like0 (fun _ => like R0) nz opp_tail opp_tail.
Proof.
  unfold opp_tail. eapply rel_bind; [apply rel_starttls| |intros z H; apply nz_tail, H|intros z H; apply nz_tail, H|intros; gs; apply grw_secure_tail|intros; gs; apply grw_secure_tail].
  intros z. destruct (negb _); [apply rel_ret; auto|apply rel_secure_tail].
Qed.
Lemma rel_greeting_result : forall r, rel (like R0) (fun _ => like R0) no (greeting_result r) (greeting_result r).
Proof.
  intros [d|]; cbn [greeting_result]; [|apply rel_ret; auto]. cbv zeta. quiet_step; [|intros; gs|intros; gs].
  eapply (rel_bind _ (fun _ => like R0) no); [|intros ?; apply rel_ret; auto|intros ? []|intros ? []|intros; gs|intros; gs].
  destruct (_ =? _); [apply rel_addLog; ul|apply rel_ret; auto].
Qed.
Lemma rel_forced_tail : rel like0 (fun _ => like R0) nz forced_tail forced_tail.
Proof.
  unfold forced_tail, checkServerGreetingsTLS.
  assert (G : forall z : Z, grw (if negb (z =? 0) then ret z else g <- (r <- wait_bio;; greeting_result r);; if negb (g =? STATUS_CODE_SERVICE_READY) then ret g else secure_tail)).
  { intros z. gs; [apply grw_wait_bio|apply grw_greeting_result|apply grw_secure_tail]. }
  eapply rel_bind; [apply rel_starttls| |intros z H; apply nz_tail, H|intros z H; apply nz_tail, H|exact G|exact G].
  intros z. destruct (negb _); [apply rel_ret; auto|].
  eapply (rel_bind _ (fun _ => like R0) no); [| |intros ? []|intros ? []|intros; gs; apply grw_secure_tail|intros; gs; apply grw_secure_tail].
  - eapply (rel_bind _ (fun _ => like R0) no); [apply rel_wait_bio|apply rel_greeting_result|intros ? []|intros ? []|intros; apply grw_greeting_result|intros; apply grw_greeting_result].
  - intros g. destruct (negb _); [apply rel_ret; auto|apply rel_secure_tail].
Qed.

(** The part before TLS: either TLS is started, in a state that differs only in
    what is heard in clear, or nothing happens over TLS. *)
Definition tail (k : clientkind) : M Z := match k with KForced => forced_tail | _ => opp_tail end.
Definition silent {A} (s : st) (x : outcome A * st) : Prop :=
  c_bio (s_c (snd x)) = None /\ filter loud (s_t (snd x)) = filter loud (s_t s) /\ exists rp, okm rp (s_c (snd x)).
Definition either (s : st) (m : M Z) : Prop := silent s (m s) \/ exists s', calm s s' /\ m s = tail (c_kind (s_c s)) s'.
Lemma mute_silent : forall {A} rp F (m : M A) s, mute rp F m -> okm rp (s_c s) -> c_bio (s_c s) = None -> silent s (m s).
Proof.
  intros A rp F m s H O N. destruct (H s O N) as [C _]. split; [exact (cl_bio _ _ C)|]. split; [exact (cl_loud _ _ C)|].
  exists rp. exact (okc_settings _ _ (cl_set _ _ C) O).
Qed.
Lemma either_bind : forall {A} (m : M A) (k : A -> M Z) s, okc (s_c s) -> c_bio (s_c s) = None -> mute false any m ->
  (forall a s', okc (s_c s') -> c_bio (s_c s') = None -> c_kind (s_c s') = c_kind (s_c s) -> either s' (k a)) -> either s (bind m k).
Proof.
  intros A m k s O N M0 H. pose proof (mute_silent false any m s M0 O N) as Si. destruct (M0 s O N) as [C _]. unfold either, bind.
  destruct (m s) as [o s1] eqn:E. cbn [fst snd] in *. destruct o; try (left; exact Si).
  assert (K : c_kind (s_c s1) = c_kind (s_c s)) by (pose proof (cl_set _ _ C) as Y; unfold settings in Y; congruence).
  destruct (H a s1 (okc_settings _ _ (cl_set _ _ C) O) (cl_bio _ _ C) K) as [(S1 & S2 & S3)|(s' & C' & E')].
  - left. split; [exact S1|]. split; [rewrite S2; exact (cl_loud _ _ C)|exact S3].
  - right. exists s'. split; [exact (calm_trans _ _ _ C C')|]. rewrite E', K. reflexivity.
Qed.
Lemma either_mute : forall m s, okc (s_c s) -> c_bio (s_c s) = None -> mute false any m -> either s m.
Proof. intros m s O N H. left. exact (mute_silent false any m s H O N). Qed.
Lemma either_tail : forall s m, c_bio (s_c s) = None -> m = tail (c_kind (s_c s)) -> either s m.
Proof. intros s m N ->. right. exists s. split; [apply calm_refl, N|reflexivity]. Qed.
Lemma establish_either : forall s, okc (s_c s) -> c_bio (s_c s) = None -> either s establish.
Proof.
  intros s O N.
  assert (X : either s (match c_kind (s_c s) with KPlain => establishPlain | KOpp => establishOpp | KForced => establishForced end)).
  2: exact X.
  destruct (c_kind (s_c s)) eqn:K; [destruct O as [O _]; contradiction| |].
  - unfold establishOpp. apply either_bind; [exact O|exact N|apply mute_initialize|]. intros r s1 O1 N1 K1. destruct (negb _); [apply either_mute; [exact O1|exact N1|ms]|].
    apply either_bind; [exact O1|exact N1|apply mute_greetings|]. intros g s2 O2 N2 K2. destruct (negb _); [apply either_mute; [exact O2|exact N2|ms]|].
    apply either_bind; [exact O2|exact N2|apply mute_ehlo|]. intros i s3 O3 N3 K3. destruct (negb _); [apply either_mute; [exact O3|exact N3|ms]|].
    apply either_bind; [exact O3|exact N3|intros u Ou Nu; split; [apply calm_refl, Nu|intros; exact Logic.I]|]. intros c s4 O4 N4 K4.
    apply either_bind; [exact O4|exact N4|ms|]. intros b s5 O5 N5 K5. destruct b.
    + apply either_bind; [exact O5|exact N5|ms|]. intros ? s6 O6 N6 K6.
      apply either_bind; [exact O6|exact N6|apply mute_upgrade|]. intros u s7 O7 N7 K7. destruct (negb _); [apply either_mute; [exact O7|exact N7|ms]|].
      apply either_tail; [exact N7|]. rewrite K7, K6, K5, K4, K3, K2, K1, K. reflexivity.
    + apply either_bind; [exact O5|exact N5|ms|]. intros ? s6 O6 N6 K6. left. unfold silent, bind, updc, ret. cbn. split; [exact N6|]. split; [reflexivity|].
      exists true. split; [apply O6|reflexivity].
  - unfold establishForced. apply either_bind; [exact O|exact N|apply mute_initialize|]. intros r s1 O1 N1 K1. destruct (negb _); [apply either_mute; [exact O1|exact N1|ms]|].
    apply either_tail; [exact N1|]. rewrite K1, K. reflexivity.
Qed.

(** ** sendMail *)
Definition send_rest (m : message) (r : Z) : M Z := if negb (r =? 0) then ret r else updc (set_conn true);; mail_transaction m.
Lemma send_split : forall m s, c_conn (s_c s) = false -> sendMail m s = (r <- establish;; send_rest m r) s.
Proof. intros m s H. unfold sendMail, send_rest, bind, getc. rewrite H. reflexivity. Qed.
Lemma rel_tail : forall k, rel like0 (fun _ => like R0) nz (tail k) (tail k).
Proof. intros []; [apply rel_opp_tail|apply rel_opp_tail|apply rel_forced_tail]. Qed.
Lemma rel_send_rest : forall m k, rel like0 over nz (r <- tail k;; send_rest m r) (r <- tail k;; send_rest m r).
Proof.
  intros m k. assert (G : forall r, grw (send_rest m r)) by (intros r; unfold send_rest; gs; apply grw_transaction).
  eapply rel_bind; [apply rel_tail| | | |exact G|exact G].
  2,3: intros z H; apply nz_tail, H.
  intros r. unfold send_rest. destruct (negb _); [apply rel_ret; intros s t L; left; exact L|].
  eapply (rel_bind _ (fun _ => like R0) no); [apply rel_updc|intros ?; apply rel_transaction|intros ? []|intros ? []|intros; apply grw_transaction|intros; apply grw_transaction].
  intros c1 c2 (O & St & Cn & Bi) _. split; [|exact Logic.I]. split; [exact O|split; [exact St|split; [reflexivity|exact Bi]]].
Qed.
Lemma silent_send : forall m s, silent s (establish s) -> filter loud (s_t (snd ((r <- establish;; send_rest m r) s))) = filter loud (s_t s).
Proof.
  intros m s (N & L & rp & O). unfold bind. destruct (establish s) as [o s1]. cbn [fst snd] in *. destruct o; try exact L.
  assert (Mu : mute rp any (mail_transaction m)) by apply mute_transaction.
  unfold send_rest. destruct (negb _); [exact L|]. unfold bind, updc.
  destruct (Mu (mkSt (set_conn true (s_c s1)) (s_e s1) (s_t s1)) O N) as [C _]. rewrite (cl_loud _ _ C). exact L.
Qed.
Lemma send_cases : forall m c e t, unconnected c ->
  filter loud (s_t (snd (sendMail m (mkSt c e t)))) = filter loud t \/
  exists s', calm (mkSt c e t) s' /\ sendMail m (mkSt c e t) = (r <- tail (c_kind c);; send_rest m r) s'.
Proof.
  intros m c e t (K & Cn & N & Rp). rewrite send_split by exact Cn. assert (O : okc (s_c (mkSt c e t))) by (split; assumption).
  destruct (establish_either (mkSt c e t) O N) as [Si|(s' & C & E)].
  - left. apply (silent_send m _ Si).
  - right. exists s'. split; [exact C|]. unfold bind. rewrite E. reflexivity.
Qed.
Lemma calm_like0 : forall c e1 e2 t s1 s2, unconnected c -> same_tls_side e1 e2 -> calm (mkSt c e1 t) s1 -> calm (mkSt c e2 t) s2 -> like0 s1 s2.
Proof.
  intros c e1 e2 t s1 s2 (K & Cn & N & Rp) (T1 & T2 & T3 & T4 & T5) C1 C2.
  assert (O : okc (s_c (mkSt c e1 t))) by (split; assumption).
  split; [exact (okc_settings _ _ (cl_set _ _ C1) O)|]. split; [rewrite (cl_set _ _ C1), (cl_set _ _ C2); reflexivity|].
  split; [rewrite (cl_conn _ _ C1 Cn), (cl_conn _ _ C2 Cn); reflexivity|]. split; [exact (cl_bio _ _ C1)|]. split; [exact (cl_bio _ _ C2)|].
  split; [rewrite (cl_side _ _ C1), (cl_side _ _ C2); unfold side; cbn [s_e]; congruence|].
  rewrite (calm_sp _ _ C1), (calm_sp _ _ C2). reflexivity.
Qed.
Lemma two_sends : forall m c e1 e2 t, unconnected c -> same_tls_side e1 e2 ->
  let x1 := sendMail m (mkSt c e1 t) in let x2 := sendMail m (mkSt c e2 t) in
  filter loud (s_t (snd x1)) = filter loud t /\ begins (sp (snd x1)) (sp (snd x2)) \/
  filter loud (s_t (snd x2)) = filter loud t /\ begins (sp (snd x2)) (sp (snd x1)) \/
  out over nz x1 x2.
Proof.
  intros m c e1 e2 t U S x1 x2.
  assert (G : forall e, begins (conversation t) (sp (snd (sendMail m (mkSt c e t))))).
  { intros e. pose proof U as (_ & Cn & _). rewrite send_split by exact Cn.
    assert (Gr : grw (r <- establish;; send_rest m r)).
    { apply grw_bind; [|intros r; unfold send_rest; gs; apply grw_transaction]. unfold establish. apply grw_getc. intros d.
      unfold establishPlain, establishOpp, establishForced, initializeSession, initializeSessionPOSIX, sys_gethostbyname, sys_connect, wait_connect, checkServerGreetings, upgradeToSecureConnection,
        sendServerIdentification, getServerSecureIdentification, checkServerGreetingsTLS.
      gs; lazymatch goal with
      | |- grw setSocketToNonBlocking => apply grw_nonblocking
      | |- grw setSocketToBlocking => apply grw_blocking
      | |- grw (log_errno _) => apply grw_log_errno
      | |- grw (greeting_result _) => apply grw_greeting_result
      | |- grw wait_bio => apply grw_wait_bio
      | |- grw (ehlo_with _ _) => apply grw_ehlo
      | |- grw authenticate_if_needed => apply grw_auth
      | |- grw (sendRaw3 _ _ _) => apply grw_raw3
      | |- grw startTLSNegotiation => apply grw_starttls
      end. }
    exact (grw_sp _ (mkSt c e t) Gr). }
  destruct (send_cases m c e1 t U) as [L1|(s1 & C1 & E1)].
  { left. split; [exact L1|]. unfold x1, x2, sp at 1. rewrite (conv_loud _ _ L1). apply G. }
  destruct (send_cases m c e2 t U) as [L2|(s2 & C2 & E2)].
  { right. left. split; [exact L2|]. unfold x1, x2, sp at 1. rewrite (conv_loud _ _ L2). apply G. }
  right. right. unfold x1, x2. rewrite E1, E2. apply rel_send_rest. exact (calm_like0 _ _ _ _ _ _ U S C1 C2).
Qed.

(** ** The statement *)
Lemma nothing_started : forall t t', started_since t t' -> filter loud t' <> filter loud t.
Proof.
  intros t t' (n & id & fd & -> & I0) E. rewrite filter_app in E. apply (f_equal (@length event)) in E. rewrite app_length in E.
  assert (In (EvBioNew id fd) (filter loud n)) by (apply filter_In; split; [exact I0|reflexivity]). destruct (filter loud n); [contradiction|]. cbn in E. lia.
Qed.
Lemma send_in_env : forall i m w c e, get_client w i = Some c ->
  fst (step (OSend i m) (in_env e w)) = fst (sendMail m (mkSt c e (w_trace w))) /\ w_trace (snd (step (OSend i m) (in_env e w))) = s_t (snd (sendMail m (mkSt c e (w_trace w)))).
Proof.
  intros i m w c e G. cbn [step]. unfold run_on. assert (G' : get_client (in_env e w) i = Some c) by exact G. rewrite G'. cbn [in_env w_env w_trace].
  destruct (sendMail m (mkSt c e (w_trace w))) as [o s]. split; reflexivity.
Qed.
Theorem same_conversation : forall i m w c e1 e2, get_client w i = Some c -> unconnected c -> same_tls_side e1 e2 ->
  let x1 := step (OSend i m) (in_env e1 w) in let x2 := step (OSend i m) (in_env e2 w) in
  let t1 := w_trace (snd x1) in let t2 := w_trace (snd x2) in
  (begins (conversation t1) (conversation t2) \/ begins (conversation t2) (conversation t1)) /\
  forall a b, fst x1 = Done a -> fst x2 = Done b -> started_since (w_trace w) t1 -> started_since (w_trace w) t2 ->
    conversation t1 = conversation t2 /\ (a = b \/ a <> 0 /\ b <> 0).
Proof.
  intros i m w c e1 e2 G U S. cbv zeta. destruct (send_in_env i m w c e1 G) as [F1 T1]. destruct (send_in_env i m w c e2 G) as [F2 T2]. rewrite F1, F2, T1, T2.
  destruct (two_sends m c e1 e2 (w_trace w) U S) as [[L B0]|[[L B0]|O]].
  - split; [left; exact B0|]. intros a b _ _ H1 _. exfalso. exact (nothing_started _ _ H1 L).
  - split; [right; exact B0|]. intros a b _ _ _ H1. exfalso. exact (nothing_started _ _ H1 L).
  - unfold out in O. destruct (sendMail m (mkSt c e1 (w_trace w))) as [o1 s1], (sendMail m (mkSt c e2 (w_trace w))) as [o2 s2]. cbn [fst snd] in *.
    destruct o1 as [a1| | | | |], o2 as [a2| | | | |]; try (split; [first [left; exact O|right; exact O|exact O]|discriminate]); try (split; [first [left; exact O|right; exact O]|intros a b _ X; discriminate X]).
    assert (E : sp s1 = sp s2) by (destruct O as [[_ E]|((_ & _ & _ & _ & E) & _)]; [exact (over_sp _ _ _ E)|exact E]). split; [left; unfold sp in E; rewrite E; apply begins_refl|].
    intros a b X1 X2 _ _. inversion X1; inversion X2; subst. split; [exact E|]. destruct O as [[E' _]|(_ & N1 & N2)]; [left; exact E'|right; split; assumption].
Qed.
Lemma same_conversation_result : forall i m w c e1 e2 a b, get_client w i = Some c -> unconnected c -> same_tls_side e1 e2 ->
  let x1 := step (OSend i m) (in_env e1 w) in let x2 := step (OSend i m) (in_env e2 w) in
  fst x1 = Done a -> fst x2 = Done b -> started_since (w_trace w) (w_trace (snd x1)) -> started_since (w_trace w) (w_trace (snd x2)) ->
  conversation (w_trace (snd x1)) = conversation (w_trace (snd x2)) /\ (a = 0 <-> b = 0).
Proof.
  intros i m w c e1 e2 a b G U S x1 x2 D1 D2 S1 S2. destruct (proj2 (same_conversation i m w c e1 e2 G U S) a b D1 D2 S1 S2) as [E R]. split; [exact E|].
  destruct R as [->|[N1 N2]]; [reflexivity|]. split; intros; contradiction.
Qed.
