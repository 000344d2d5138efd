(** C20, C21, C54, C62: authentication. *)

From Coq Require Import Ascii String List NArith ZArith Bool.
From Verif Require Import Base ModelAddress ModelAttachment ModelMessage ModelReply ModelErrors ModelState ModelClient ModelWorld
  SpecReply SpecDialogue SpecDead SpecAuth ProofReply ProofForward4 ProofAuth3 ProofAuth4 Samples.
Import ListNotations.
Open Scope Z_scope.

(** C20: the mechanism that is used was announced in the answer to the last
    EHLO and is allowed by the credential; no preferred one was. *)
Theorem C20_used_was_announced : forall i c m w x w' t t1 ev t2 d k, get_client w i = Some c -> step (OSend i m) w = (x, w') ->
  w_trace w' = w_trace w ++ t -> t = t1 ++ ev :: t2 -> writes d ev -> begins_auth k d -> before_mail t1 ->
  exists cr reads line, c_cred c = Some cr /\ after_ehlo t1 reads /\ announced (seen reads) line /\
    compatible (cr_method cr) k /\ is_word (keyword k) line /\
    (forall k', before k' k -> compatible (cr_method cr) k' -> ~ is_word (keyword k') line).
Proof. exact world_auth_used. Qed.
Print Assumptions C20_used_was_announced.

(** C20: the code NOTSUPPORTED is returned only if none applies, and then
    nothing of an authentication was sent. *)
Theorem C20_not_supported_partial : forall i c m w w' t, get_client w i = Some c ->
  step (OSend i m) w = (Done CLIENT_AUTHENTICATION_METHOD_NOTSUPPORTED, w') -> w_trace w' = w_trace w ++ t -> orderly t ->
  exists cr reads line, c_cred c = Some cr /\ after_ehlo t reads /\ announced (seen reads) line /\
    (forall k, compatible (cr_method cr) k -> ~ is_word (keyword k) line) /\ forall d k, In d (written t) -> ~ begins_auth k d.
Proof. exact world_not_supported. Qed.
Print Assumptions C20_not_supported_partial.

(** C20: if the answer to the last EHLO (for an opportunistic client, the one
    after STARTTLS) announces mechanisms and the credential allows none of them,
    nothing more is sent; the code is NOTSUPPORTED, or that of an EHLO that
    failed or was refused.  Partial: the replies are orderly. *)
Theorem C20_none_supported_partial : forall i c cr m w x w' t1 t2 reads line, get_client w i = Some c -> c_conn c = false -> c_cred c = Some cr ->
  step (OSend i m) w = (x, w') -> w_trace w' = w_trace w ++ t1 ++ t2 -> orderly (t1 ++ t2) -> before_mail t1 -> after_ehlo t1 reads ->
  (c_kind c = KOpp -> In (B "STARTTLS" ++ CRLF) (written t1)) -> (t2 = [] \/ exists ev r d, t2 = ev :: r /\ writes d ev) ->
  announced (seen reads) line -> (forall k, compatible (cr_method cr) k -> ~ is_word (keyword k) line) ->
  t2 = [] /\ forall code, x = Done code -> code = CLIENT_AUTHENTICATION_METHOD_NOTSUPPORTED \/
    In code [SOCKET_INIT_CLIENT_SEND_EHLO_ERROR; SOCKET_INIT_CLIENT_SEND_EHLO_TIMEOUT; SSL_CLIENT_INITSECURECLIENT_ERROR; SSL_CLIENT_INITSECURECLIENT_TIMEOUT] \/
    (1 <= code /\ code <> 250).
Proof. exact world_none_supported. Qed.
Print Assumptions C20_none_supported_partial.

(** C21: what follows is the credential, line by line. *)
Theorem C21_credential_lines : forall i c m w x w' t t1 ev t2 d k, get_client w i = Some c -> step (OSend i m) w = (x, w') ->
  w_trace w' = w_trace w ++ t -> t = t1 ++ ev :: t2 -> writes d ev -> begins_auth k d -> before_mail t1 ->
  exists cr, c_cred c = Some cr /\ transmits k (cr_user cr) (cr_pass cr) d (written t2).
Proof. exact world_transmits. Qed.
Print Assumptions C21_credential_lines.

(** C62: a plain or forced-TLS client with a credential sends a mail only after
    the server accepted the authentication. *)
Theorem C62_mail_needs_authentication_partial : forall i c m w x w' t t1 ev t2 d, get_client w i = Some c -> step (OSend i m) w = (x, w') ->
  w_trace w' = w_trace w ++ t -> orderly t -> c_kind c <> KOpp -> c_conn c = false -> c_cred c <> None ->
  t = t1 ++ ev :: t2 -> writes d ev -> mail_command d -> before_mail t1 ->
  exists before l, exchanges t1 = before ++ l /\ accepted_auth l.
Proof. exact world_authenticated. Qed.
Print Assumptions C62_mail_needs_authentication_partial.

(** A client with a credential, and a server that offers [offer]. *)
Definition offers (offer : string) (replies : list recv_res) : env :=
  wire (told "220 ready" ++ [RData (B offer ++ CRLF ++ B "250 ok" ++ CRLF); RErr 11] ++ replies).
Definition with_cred (cr : credential) (e : env) : world := snd (run [ONew KPlain server 25; OSetCred 0 cr] (initial_world e)).
Definition login_env : env := offers "250-AUTH GSSAPI LOGIN XOAUTH2" (said "334 VXNlcm5hbWU6" ++ said "334 UGFzc3dvcmQ6" ++ said "235 ok" ++ mail_replies).
Definition login_world : world := with_cred joe_cred login_env.
Definition login_after : world := snd (step (OSend 0 hi) login_world).
Definition login_events : list event := skipn (length (w_trace login_world)) (w_trace login_after).

Ltac seen_orderly := apply orderly_checked; vm_compute; reflexivity.
Ltac no_mail := let d := fresh in let H := fresh in intros d H [r E]; subst d; vm_compute in H;
  repeat (destruct H as [H|H]; [discriminate H|]); destruct H.

(** The hypotheses of the theorems above are met: LOGIN is chosen. *)
Example C20_example : exists c ev ev', get_client login_world 0 = Some c /\ step (OSend 0 hi) login_world = (Done 0, login_after) /\
  w_trace login_after = w_trace login_world ++ login_events /\ orderly login_events /\ c_kind c <> KOpp /\ c_conn c = false /\ c_cred c = Some joe_cred /\
  (exists t1 t2, login_events = t1 ++ ev :: t2 /\ writes (B "AUTH LOGIN" ++ CRLF) ev /\ begins_auth Login (B "AUTH LOGIN" ++ CRLF) /\ before_mail t1 /\
   firstn 3 (written t2) = [B "am9l" ++ CRLF; B "c2VjcmV0" ++ CRLF; B "MAIL FROM: <joe@example.com>" ++ CRLF]) /\
  (exists t1 t2, login_events = t1 ++ ev' :: t2 /\ writes (B "MAIL FROM: <joe@example.com>" ++ CRLF) ev' /\ before_mail t1).
Proof.
  eexists _, (nth 15 login_events (EvSleep 0)), (nth 36 login_events (EvSleep 0)). split; [vm_compute; reflexivity|]. split; [vm_compute; reflexivity|].
  split; [vm_compute; reflexivity|]. split; [seen_orderly|]. split; [discriminate|]. split; [vm_compute; reflexivity|]. split; [vm_compute; reflexivity|]. split.
  - exists (firstn 15 login_events), (skipn 16 login_events). split; [vm_compute; reflexivity|]. split; [left; eexists _, _; vm_compute; reflexivity|].
    split; [exists []; reflexivity|]. split; [no_mail|vm_compute; reflexivity].
  - exists (firstn 36 login_events), (skipn 37 login_events). split; [vm_compute; reflexivity|]. split; [left; eexists _, _; vm_compute; reflexivity|]. no_mail.
Qed.
Definition none_applies : world := with_cred joe_cred (offers "250-AUTH GSSAPI" []).
Example C20_not_supported_example : exists c w' t, get_client none_applies 0 = Some c /\
  step (OSend 0 hi) none_applies = (Done CLIENT_AUTHENTICATION_METHOD_NOTSUPPORTED, w') /\ w_trace w' = w_trace none_applies ++ t /\ orderly t.
Proof.
  eexists _, (snd (step (OSend 0 hi) none_applies)), (skipn (length (w_trace none_applies)) (w_trace (snd (step (OSend 0 hi) none_applies)))).
  split; [vm_compute; reflexivity|]. split; [vm_compute; reflexivity|]. split; [vm_compute; reflexivity|]. seen_orderly.
Qed.
(** The answer to EHLO arrives in two pieces and announces nothing the client
    knows.  The second piece is [second]. *)
Definition in_two_pieces (second : str) (replies : list recv_res) : world := with_cred joe_cred (wire (told "220 ready" ++
  [RData (B "250-smtp.example.com" ++ CRLF ++ B "250-AUTH GSSAPI" ++ CRLF); RErr 11; RData (second ++ CRLF); RErr 11] ++ replies)).
Definition pieces_events (second : str) (replies : list recv_res) : list event :=
  skipn (length (w_trace (in_two_pieces second replies))) (w_trace (snd (step (OSend 0 hi) (in_two_pieces second replies)))).
Lemma gssapi_line : forall k, ~ is_word (keyword k) (B "250-AUTH GSSAPI").
Proof. intros k H. apply split_spaces_is_word in H. destruct k; vm_compute in H; intuition discriminate. Qed.
Lemma gssapi_announced : forall text, announced (B "250-smtp.example.com" ++ CRLF ++ B "250-AUTH GSSAPI" ++ CRLF ++ text) (B "250-AUTH GSSAPI").
Proof.
  intros text. exists [B "250-smtp.example.com"], (CRLF ++ text). split; [reflexivity|]. split; [right; eauto|].
  split; [apply single_checked; vm_compute; reflexivity|]. split; [left; exists (B " GSSAPI"); reflexivity|]. intros l [<-|[]].
  split; [apply single_checked; vm_compute; reflexivity|intros [X|X]; apply Lib.prefixb_spec in X; discriminate X].
Qed.
Ltac announces text := match goal with |- announced ?x _ =>
  let E := fresh in assert (E : x = B "250-smtp.example.com" ++ CRLF ++ B "250-AUTH GSSAPI" ++ CRLF ++ text) by (vm_compute; reflexivity);
  rewrite E; apply gssapi_announced end.
Lemma no_writes_checked : forall t, forallb (fun ev => match ev with EvSend _ _ _ | EvPuts _ _ _ => false | _ => true end) t = true -> no_writes t.
Proof. intros t H ev I0 (d & [(fd & q & ->)|(b & q & ->)]); rewrite forallb_forall in H; discriminate (H _ I0). Qed.
Ltac silent_reads := apply no_writes_checked; vm_compute; reflexivity.
Definition help_ok : str := B "250-HELP" ++ CRLF ++ B "250 ok".
Example C20_none_supported_example : let w := in_two_pieces help_ok [] in let t := pieces_events help_ok [] in
  exists c w' reads, get_client w 0 = Some c /\ c_conn c = false /\ c_cred c = Some joe_cred /\
  step (OSend 0 hi) w = (Done CLIENT_AUTHENTICATION_METHOD_NOTSUPPORTED, w') /\ w_trace w' = w_trace w ++ t ++ [] /\ orderly (t ++ []) /\
  before_mail t /\ after_ehlo t reads /\ c_kind c <> KOpp /\ announced (seen reads) (B "250-AUTH GSSAPI") /\
  forall k, compatible (cr_method joe_cred) k -> ~ is_word (keyword k) (B "250-AUTH GSSAPI").
Proof.
  cbv zeta. eexists _, _, (skipn 9 (pieces_events help_ok [])). split; [vm_compute; reflexivity|]. split; [vm_compute; reflexivity|]. split; [vm_compute; reflexivity|].
  split; [vm_compute; reflexivity|]. split; [vm_compute; reflexivity|]. split; [rewrite app_nil_r; seen_orderly|]. split; [no_mail|]. split.
  { exists (firstn 8 (pieces_events help_ok [])), (nth 8 (pieces_events help_ok []) (EvSleep 0)). split; [vm_compute; reflexivity|].
    split; [left; eexists _, _; vm_compute; reflexivity|]. silent_reads. }
  split; [discriminate|]. split; [announces ([LF] ++ help_ok ++ CRLF)|]. intros k _. apply gssapi_line.
Qed.

(** C20 fails if a piece of the answer to EHLO begins with the code 0: the mail
    is sent without authentication, and reported as sent. *)
Theorem C20_code_zero_refuted : exists w c w' t1 ev t2 reads, get_client w 0 = Some c /\ c_kind c = KPlain /\ c_conn c = false /\ c_cred c = Some joe_cred /\
  step (OSend 0 hi) w = (Done 0, w') /\ w_trace w' = w_trace w ++ t1 ++ ev :: t2 /\ before_mail t1 /\ after_ehlo t1 reads /\
  announced (seen reads) (B "250-AUTH GSSAPI") /\ (forall k, ~ is_word (keyword k) (B "250-AUTH GSSAPI")) /\
  (exists d, writes d ev /\ mail_command d) /\ forall d k, In d (written (t1 ++ ev :: t2)) -> ~ begins_auth k d.
Proof.
  exists (in_two_pieces (B "0 odd") mail_replies). set (t := pieces_events (B "0 odd") mail_replies).
  eexists _, _, (firstn 21 t), (nth 21 t (EvSleep 0)), (skipn 22 t), (skipn 9 (firstn 21 t)).
  split; [vm_compute; reflexivity|]. split; [vm_compute; reflexivity|]. split; [vm_compute; reflexivity|]. split; [vm_compute; reflexivity|].
  split; [vm_compute; reflexivity|]. split; [vm_compute; reflexivity|]. split; [no_mail|]. split.
  { exists (firstn 8 t), (nth 8 t (EvSleep 0)). split; [vm_compute; reflexivity|]. split; [left; eexists _, _; vm_compute; reflexivity|]. silent_reads. }
  split; [announces ([LF] ++ B "0 odd" ++ CRLF)|]. split; [exact gssapi_line|].
  split; [exists (B "MAIL FROM: <joe@example.com>" ++ CRLF); split; [left; eexists _, _; vm_compute; reflexivity|eexists; reflexivity]|].
  intros d k H [r E]. subst d. vm_compute in H. destruct k; repeat (destruct H as [H|H]; [discriminate H|]); destruct H.
Qed.
Print Assumptions C20_code_zero_refuted.
(** C20 fails for the text -84, the value of NOTSUPPORTED, in place of a
    greeting: the code is returned although EHLO was not even sent. *)
Theorem C20_not_supported_refuted : exists w c w' t, get_client w 0 = Some c /\ c_kind c = KPlain /\ c_conn c = false /\ c_cred c = Some joe_cred /\
  step (OSend 0 hi) w = (Done CLIENT_AUTHENTICATION_METHOD_NOTSUPPORTED, w') /\ w_trace w' = w_trace w ++ t /\ written t = [].
Proof.
  exists (with_cred joe_cred (wire (told "-84 go away"))).
  eexists _, _, (skipn (length (w_trace (with_cred joe_cred (wire (told "-84 go away"))))) (w_trace (snd (step (OSend 0 hi) (with_cred joe_cred (wire (told "-84 go away"))))))).
  repeat (split; [vm_compute; reflexivity|]). vm_compute. reflexivity.
Qed.
Print Assumptions C20_not_supported_refuted.

(** C62 fails for an opportunistic client whose server does not offer STARTTLS:
    the mail is sent without authentication. *)
Definition opportunist : world :=
  snd (run [ONew KOpp server 25; OSetCred 0 joe_cred] (initial_world (offers "250-AUTH PLAIN" mail_replies))).
Theorem C62_opportunistic_unauthenticated_refuted : exists w c w' t, get_client w 0 = Some c /\ c_cred c = Some joe_cred /\ c_conn c = false /\
  step (OSend 0 hi) w = (Done 0, w') /\ w_trace w' = w_trace w ++ t /\ orderly t /\ (exists d, In d (written t) /\ mail_command d) /\
  forall d k, In d (written t) -> ~ begins_auth k d.
Proof.
  exists opportunist. eexists _, (snd (step (OSend 0 hi) opportunist)), (skipn (length (w_trace opportunist)) (w_trace (snd (step (OSend 0 hi) opportunist)))).
  split; [vm_compute; reflexivity|]. split; [reflexivity|]. split; [reflexivity|]. split; [vm_compute; reflexivity|]. split; [vm_compute; reflexivity|].
  split; [seen_orderly|]. split.
  - exists (B "MAIL FROM: <joe@example.com>" ++ CRLF). split; [vm_compute; tauto|eexists; reflexivity].
  - intros d k H [r E]. subst d. vm_compute in H. destruct k; repeat (destruct H as [H|H]; [discriminate H|]); destruct H.
Qed.
Print Assumptions C62_opportunistic_unauthenticated_refuted.
(** C62 fails for the other clients too, if a piece of the answer to EHLO begins
    with the code 0. *)
Theorem C62_code_zero_refuted : exists w c w' t, get_client w 0 = Some c /\ c_kind c = KPlain /\ c_cred c = Some joe_cred /\ c_conn c = false /\
  step (OSend 0 hi) w = (Done 0, w') /\ w_trace w' = w_trace w ++ t /\ (exists d, In d (written t) /\ mail_command d) /\
  forall d k, In d (written t) -> ~ begins_auth k d.
Proof.
  destruct C20_code_zero_refuted as (w & c & w' & t1 & ev & t2 & reads & G & K & N & C & E & T & _ & _ & _ & _ & (d & W & M) & A).
  exists w, c, w', (t1 ++ ev :: t2). do 6 (split; [assumption|]). split; [|exact A].
  exists d. split; [|exact M]. exact (ProofLife.written_in d t1 ev t2 W).
Qed.
Print Assumptions C62_code_zero_refuted.

(** C54 fails: a server without AUTH makes a client with a credential
    dereference a null pointer. *)
Theorem C54_no_authentication_offered_refuted : exists e,
  result [ONew KPlain server 25; OSetCred 0 joe_cred; OSend 0 hi] e = [Done 0; Done 0; Undef (UB_NullDeref PAuth)].
Proof. exists (wire hello). vm_compute. reflexivity. Qed.
Print Assumptions C54_no_authentication_offered_refuted.
(** C54, the part that holds: this happens only to a client with a credential,
    when the answer to the last EHLO announces no mechanism or is one line. *)
Theorem C54_crash_needs_missing_auth_partial : forall i c m w w' t, get_client w i = Some c ->
  step (OSend i m) w = (Undef (UB_NullDeref PAuth), w') -> w_trace w' = w_trace w ++ t ->
  c_cred c <> None /\ exists reads, after_ehlo t reads /\ (single_line (seen reads) \/ forall line, ~ announced (seen reads) line).
Proof. exact world_no_auth. Qed.
Print Assumptions C54_crash_needs_missing_auth_partial.
Example C54_example : exists c w' t, get_client (with_cred joe_cred (wire hello)) 0 = Some c /\
  step (OSend 0 hi) (with_cred joe_cred (wire hello)) = (Undef (UB_NullDeref PAuth), w') /\ w_trace w' = w_trace (with_cred joe_cred (wire hello)) ++ t.
Proof. eexists _, _, _. split; [vm_compute; reflexivity|]. split; vm_compute; reflexivity. Qed.
