(** C23 - C26: what the secure clients write in clear, and the decision of the
    TLS negotiation. [EvSend fd d r] is a write to an unencrypted socket,
    [EvPuts b d r] a write to the TLS session [b]. *)

From Coq Require Import Ascii String List NArith ZArith Bool.
From Verif Require Import Base ModelAddress ModelAttachment ModelMessage ModelReply ModelState ModelClient
  ModelWorld SpecMime SpecTls Samples ProofTls ProofTls2.
Import ListNotations.
Open Scope Z_scope.

(** C23: while the client encrypts, every text it writes in clear is EHLO,
    STARTTLS or a text of the mail: none depends on the credentials.  Missing:
    a client that once met a server without STARTTLS (see the refutation). *)
Theorem C23_no_credentials_in_clear_partial : forall i c m o w x w' t fd d r,
  get_client w i = Some c -> c_kind c <> KPlain -> c_rawptr c = false ->
  o = OSend i m \/ o = ODestroy i ->
  step o w = (x, w') -> w_trace w' = w_trace w ++ t ->
  In (EvSend fd d r) t ->
  exists line, clear_line (e_fs (w_env w)) m line /\ d = cstr line.
Proof. exact bare_op. Qed.
Print Assumptions C23_no_credentials_in_clear_partial.

Definition auth_plain : str := B "AUTH PLAIN AGpvZQBzZWNyZXQ=" ++ CRLF.
(** A client that meets the hypotheses and authenticates over TLS. *)
Example C23_example : let ops := [ONew KOpp server 25; OSetCred 0 joe_cred] in
  let e := tls_wire tls_hello (tls_ident ++ said "235 ok" ++ mail_replies) [good_tls] in
  (exists c, get_client (snd (run ops (initial_world e))) 0 = Some c /\ c_kind c = KOpp /\ encrypts c) /\
  result (ops ++ [OSend 0 hi]) e = [Done 0; Done 0; Done 0] /\
  In (EvPuts 1 auth_plain WFull) (events (ops ++ [OSend 0 hi]) e) /\
  In (EvSend 3 (B "STARTTLS" ++ CRLF) WFull) (events (ops ++ [OSend 0 hi]) e).
Proof.
  vm_compute. split; [eexists; repeat split|]. split; [reflexivity|].
  split; repeat (try (left; reflexivity); right).
Qed.

(** C23 fails: after one server without STARTTLS the client sends the password
    in clear to a server that offers it, although the TLS session is in
    place. *)
Theorem C23_credentials_in_clear_refuted : exists ops e,
  In (EvSend 4 auth_plain WFull) (events ops e) /\ In (EvHandshake 1 true) (events ops e) /\
  ops = [ONew KOpp server 25; OSetCred 0 joe_cred; OSend 0 hi; OSend 0 hi].
Proof.
  exists [ONew KOpp server 25; OSetCred 0 joe_cred; OSend 0 hi; OSend 0 hi].
  exists (tls_wire (hello ++ mail_replies ++ tls_hello ++ said "235 ok" ++ mail_replies) tls_ident [good_tls]).
  vm_compute. split; [|split; [|reflexivity]]; repeat (try (left; reflexivity); right).
Qed.
Print Assumptions C23_credentials_in_clear_refuted.

(** C24: once the handshake took place, writes in clear go to descriptor 0
    only, after the session was torn down (the connection's socket is closed
    then). *)
Theorem C24_encrypted_after_handshake_partial : forall i c m w x w' t1 b ok t2,
  get_client w i = Some c -> c_kind c = KOpp -> encrypts c ->
  step (OSend i m) w = (x, w') -> w_trace w' = w_trace w ++ t1 ++ EvHandshake b ok :: t2 ->
  forall t3 fd d r t4, t2 = t3 ++ EvSend fd d r :: t4 -> fd = 0 /\ exists b, In (EvBioFree b) t3.
Proof. exact world_upgraded. Qed.
Print Assumptions C24_encrypted_after_handshake_partial.

(** C24: the same on a kept connection. *)
Theorem C24_encrypted_on_kept_connection_partial : forall i c m w x w' t,
  get_client w i = Some c -> c_kind c <> KPlain -> encrypts c -> c_conn c = true -> c_bio c <> None ->
  step (OSend i m) w = (x, w') -> w_trace w' = w_trace w ++ t ->
  forall t3 fd d r t4, t = t3 ++ EvSend fd d r :: t4 -> fd = 0 /\ exists b, In (EvBioFree b) t3.
Proof. exact world_kept. Qed.
Print Assumptions C24_encrypted_on_kept_connection_partial.

Definition rcpt_jane : str := B "RCPT TO: <jane@example.com>" ++ CRLF.
(** Two mails on one upgraded connection. *)
Example C24_example : let ops := [ONew KOpp server 25; OSetBatch 0 true; OSend 0 hi] in
  let e := tls_wire tls_hello (tls_ident ++ mail_replies ++ mail_replies) [good_tls] in
  (exists c, get_client (snd (run ops (initial_world e))) 0 = Some c /\ c_kind c = KOpp /\ encrypts c /\
     c_conn c = true /\ c_bio c <> None) /\
  result (ops ++ [OSend 0 hi]) e = [Done 0; Done 0; Done 0; Done 0] /\
  In (EvHandshake 1 true) (events ops e) /\
  count_occ Bool.bool_dec (map (fun ev => match ev with EvPuts 1 d WFull => str_eqb d rcpt_jane | _ => false end)
    (events (ops ++ [OSend 0 hi]) e)) true = 2%nat.
Proof.
  vm_compute. split; [eexists; repeat split; discriminate|]. split; [reflexivity|].
  split; [repeat (try (left; reflexivity); right)|reflexivity].
Qed.

(** C24 fails: the mail itself is in clear too after a server without
    STARTTLS. *)
Theorem C24_mail_in_clear_refuted : exists ops e t1 t2,
  events ops e = t1 ++ EvHandshake 1 true :: t2 /\ In (EvSend 4 rcpt_jane WFull) t2 /\
  ops = [ONew KOpp server 25; OSend 0 hi; OSend 0 hi].
Proof.
  exists [ONew KOpp server 25; OSend 0 hi; OSend 0 hi].
  exists (tls_wire (hello ++ mail_replies ++ tls_hello ++ mail_replies) tls_ident [good_tls]).
  match goal with |- exists _ _, ?l = _ /\ _ => exists (firstn 74 l), (skipn 75 l) end.
  vm_compute. split; [reflexivity|]. split; [|reflexivity]. repeat (try (left; reflexivity); right).
Qed.
Print Assumptions C24_mail_in_clear_refuted.

(** C25: whatever the history (without setKeepUsingBaseSendCommands(true)), a
    forced client writes in clear to descriptor 0 only, after the session was
    torn down, and writes to a TLS session only after its handshake and
    certificate check succeeded. *)
Theorem C25_forced_client_partial : forall ops e i c o x w' t,
  let w := snd (run ops (initial_world e)) in
  keeps_virtual ops ->
  get_client w i = Some c -> c_kind c = KForced -> uses i o ->
  step o w = (x, w') -> w_trace w' = w_trace w ++ t ->
  (forall t1 fd d r t2, t = t1 ++ EvSend fd d r :: t2 -> fd = 0 /\ exists b, In (EvBioFree b) t1) /\
  (forall t1 b d r t2, t = t1 ++ EvPuts b d r :: t2 -> verified (opted_in ops) b (w_trace w ++ t1)).
Proof. exact forced_op. Qed.
Print Assumptions C25_forced_client_partial.

Example C25_example : let ops := [ONew KForced server 465; OSetCred 0 joe_cred] in
  let e := tls_wire [] (told "220 ready" ++ tls_ident ++ said "235 ok" ++ mail_replies) [good_tls] in
  (exists c, get_client (snd (run ops (initial_world e))) 0 = Some c /\ c_kind c = KForced) /\
  result (ops ++ [OSend 0 hi]) e = [Done 0; Done 0; Done 0] /\
  In (EvPuts 1 auth_plain WFull) (events (ops ++ [OSend 0 hi]) e) /\
  forallb (fun ev => match ev with EvSend _ _ _ => false | _ => true end) (events (ops ++ [OSend 0 hi]) e) = true.
Proof.
  vm_compute. split; [eexists; repeat split|]. split; [reflexivity|].
  split; [repeat (try (left; reflexivity); right)|reflexivity].
Qed.

(** C25 fails: setKeepUsingBaseSendCommands(true) makes a forced client write
    the mail in clear. *)
Theorem C25_base_commands_refuted : exists ops e,
  In (EvSend 3 rcpt_jane WFull) (events ops e) /\ ops = [ONew KForced server 465; OSetKeep 0 true; OSend 0 hi].
Proof.
  exists [ONew KForced server 465; OSetKeep 0 true; OSend 0 hi].
  exists (tls_wire mail_replies (told "220 ready" ++ tls_ident) [good_tls]).
  vm_compute. split; [|reflexivity]; repeat (try (left; reflexivity); right).
Qed.
Print Assumptions C25_base_commands_refuted.

(** C25 fails: when a write to the TLS session fails at a recipient, the client
    goes on with the next recipient, in clear, on descriptor 0. *)
Theorem C25_recipient_on_descriptor_0_refuted : exists ops e,
  In (EvSend 0 (B "RCPT TO: <joe@example.com>" ++ CRLF) WFull) (events ops e) /\
  ops = [ONew KForced server 465; OSend 0 two_recipients].
Proof.
  exists [ONew KForced server 465; OSend 0 two_recipients].
  exists (network [SkFd 3] (said "250 ok") (told "220 ready" ++ tls_ident ++ said "250 ok") [] [WFull; WFull; WErr 32] [good_tls]).
  vm_compute. split; [|reflexivity]; repeat (try (left; reflexivity); right).
Qed.
Print Assumptions C25_recipient_on_descriptor_0_refuted.

(** C26: the negotiation succeeds exactly when the session is acceptable, and
    returns the documented code of the first step that failed otherwise.  The
    host name ([t_host]) is not used. *)
Theorem C26_decision : forall s code s',
  startTLSNegotiation s = (Done code, s') ->
  exists r l, e_tls (s_e s) = r :: l /\
    (code = 0 <-> tls_acceptable (c_selfsigned (s_c s)) r) /\
    (code <> 0 -> code = tls_error r).
Proof. exact tls_decision. Qed.
Print Assumptions C26_decision.

(** C26: a forced client that meets an unacceptable session writes nothing and
    returns that code (unless the connection could not be opened and the
    negotiation did not take place). *)
Theorem C26_unacceptable_session : forall i c m w code w' r l t,
  get_client w i = Some c -> c_kind c = KForced -> c_conn c = false -> e_tls (w_env w) = r :: l ->
  ~ tls_acceptable (c_selfsigned c) r ->
  step (OSend i m) w = (Done code, w') -> w_trace w' = w_trace w ++ t ->
  code <> 0 /\ (forall fd d n, ~ In (EvSend fd d n) t) /\ (forall b d n, ~ In (EvPuts b d n) t) /\
  (code = tls_error r \/ e_tls (w_env w') = r :: l).
Proof. exact world_verdict. Qed.
Print Assumptions C26_unacceptable_session.

Definition self_signed : tls_res := mkTls true true true true true true 18 false 0.
Example C26_example :
  result [ONew KForced server 465; OSend 0 hi] (tls_wire [] [] [self_signed]) = [Done 0; Done (-58)] /\
  result [ONew KForced server 465; OSetSelfSigned 0 true; OSend 0 hi]
    (tls_wire [] (told "220 ready" ++ tls_ident ++ mail_replies) [self_signed]) = [Done 0; Done 0; Done 0] /\
  ~ tls_acceptable false self_signed /\ tls_acceptable true self_signed.
Proof.
  vm_compute. split; [reflexivity|]. split; [reflexivity|]. split; [|tauto].
  intros (_ & _ & _ & _ & _ & _ & [X|[_ X]]); discriminate X.
Qed.
