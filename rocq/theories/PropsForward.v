(** C31: the whole dialogue with a server that agrees with everything; C20: a
    server that announces no usable mechanism. *)

From Coq Require Import Ascii String List NArith ZArith Bool.
From Verif Require Import Base ModelAddress ModelAttachment ModelMessage ModelState ModelReply ModelUtil ModelErrors ModelClient ModelWorld
  SpecText SpecReply SpecMime SpecDialogue SpecAuth SpecForward Samples SamplesForward ProofForward4 ProofForward5.
Import ListNotations.
Open Scope Z_scope.

(** C31: a client that is not connected.  The server's replies are the
    [clear] ones, then the [secure] ones over TLS, then [rs] to the mail.
    sendMail returns 0; what was said and answered is the connection as listed
    by the session and then exactly the mail; and exactly that was put on the
    wire. *)
Theorem C31_new_connection_partial : forall i c m w tls clear secure turns rs more1 more2,
  get_client w i = Some c -> c_conn c = false -> session c tls clear secure turns -> mail_answers m rs ->
  reliable (w_env w) -> (tls = true -> negotiates c (w_env w)) -> named c -> (0 < c_timeout c)%N -> text_ok m -> message_ok m ->
  (slen (concat (mail_commands m)) < 281474976710656)%N -> (slen (mail_text (e_fs (w_env w)) m) < 281474976710656)%N ->
  e_recv (w_env w) = clear ++ (if tls then [] else in_clear rs) ++ more1 ->
  (tls = true -> e_bread (w_env w) = over_tls (secure ++ rs) ++ more2) ->
  exists w' t conn mail, step (OSend i m) w = (Done 0, w') /\ w_trace w' = w_trace w ++ t /\ exchanges t = conn ++ mail /\
    as_listed conn turns /\ mail_dialogue (e_fs (w_env w)) m (c_batch c) rs mail /\ transmitted t = concat (map fst (conn ++ mail)).
Proof. exact world_cooperative. Qed.
Print Assumptions C31_new_connection_partial.

(** C31 fails for a positive reply of 1024 bytes: the client writes outside its
    buffer. *)
Theorem C31_long_reply_refuted : exists reply, starts_with (B "250") reply /\ length reply = 1024%nat /\
  result [ONew KPlain server 25; OSend 0 hi] (wire (told "220 ready" ++ [RData reply; RErr 11] ++ mail_replies)) =
    [Done 0; Undef (UB_BufferOverflow BufRecv)].
Proof.
  exists (B "250 ok" ++ repeat " "%char 1016 ++ CRLF). split; [eexists; reflexivity|]. split; vm_compute; reflexivity.
Qed.
Print Assumptions C31_long_reply_refuted.
(** C31 fails for the timeout 0, which the API accepts: the greeting is not
    waited for. *)
Theorem C31_no_timeout_refuted :
  result [ONew KPlain server 25; OSend 0 hi] (wire (hello ++ mail_replies)) = [Done 0; Done 0] /\
  result [ONew KPlain server 25; OSetTimeout 0 0; OSend 0 hi] (wire (hello ++ mail_replies)) = [Done 0; Done 0; Done SOCKET_INIT_SESSION_CONNECT_TIMEOUT].
Proof. split; vm_compute; reflexivity. Qed.
Print Assumptions C31_no_timeout_refuted.

(** C31: a client of a program whose connection was kept from a previous mail
    (batch mode): the dialogue is the mail alone. *)
Theorem C31_kept_connection_partial : forall ops e i c m tls rs more, let w := snd (run ops (initial_world e)) in
  get_client w i = Some c -> c_conn c = true -> carries tls c -> mail_answers m rs ->
  e_send (w_env w) = [] -> e_bputs (w_env w) = [] -> e_fcntl (w_env w) = [] -> (0 < c_timeout c)%N -> text_ok m -> message_ok m ->
  (slen (getCommunicationLog c) < 281474976710656)%N ->
  (slen (concat (mail_commands m)) < 281474976710656)%N -> (slen (mail_text (e_fs (w_env w)) m) < 281474976710656)%N ->
  (if tls then e_bread (w_env w) else e_recv (w_env w)) = arrives tls rs ++ more ->
  exists w' t conn mail, step (OSend i m) w = (Done 0, w') /\ w_trace w' = w_trace w ++ t /\ exchanges t = conn ++ mail /\
    as_listed conn [] /\ mail_dialogue (e_fs (w_env w)) m (c_batch c) rs mail /\ transmitted t = concat (map fst (conn ++ mail)).
Proof. exact world_kept. Qed.
Print Assumptions C31_kept_connection_partial.

(** ** The hypotheses are met *)

(** One hypothesis after the other. *)
Definition meets (w : world) (tls : bool) (clear : list recv_res) (secure : list str) (batch : bool) : Prop :=
  exists c turns, get_client w 0 = Some c /\ c_conn c = false /\ c_batch c = batch /\ session c tls clear secure turns /\ mail_answers letter2 answered_mail /\ reliable (w_env w) /\ (tls = true -> negotiates c (w_env w)) /\ named c /\ (0 < c_timeout c)%N /\ text_ok letter2 /\ message_ok letter2 /\ (slen (concat (mail_commands letter2)) < 281474976710656)%N /\ (slen (mail_text (e_fs (w_env w)) letter2) < 281474976710656)%N /\ e_recv (w_env w) = clear ++ (if tls then [] else in_clear answered_mail) ++ [] /\ (tls = true -> e_bread (w_env w) = over_tls (secure ++ answered_mail) ++ []).
Ltac met S := eexists _, _; split; [vm_compute; reflexivity|]; split; [reflexivity|]; split; [reflexivity|]; split; [S|]; split; [exact answered_ok|];
  split; [constructor; try reflexivity; eexists _, _; vm_compute; reflexivity|];
  split; [first [discriminate | intros _; eexists _, _; split; [vm_compute; reflexivity|]; repeat (split; [reflexivity|]); left; reflexivity]|];
  split; [eexists; split; [reflexivity|vm_compute; discriminate]|]; split; [vm_compute; reflexivity|]; split; [exact (proj1 letter2_ok)|]; split; [exact (proj2 letter2_ok)|];
  split; [vm_compute; reflexivity|]; split; [vm_compute; reflexivity|]; split; [vm_compute; reflexivity|]; first [discriminate | intros _; vm_compute; reflexivity].
Ltac s_plain := eapply (in_plain _ greeting plain_ehlo _ login_answers);
  [reflexivity|is_positive|exact plain_complete|exists Login; split; [exact plain_prefers|reflexivity]|repeat (constructor; [is_positive|]); constructor].
Example C31_plain_example : meets plain_world false plain_clear [] false.
Proof. met s_plain. Qed.
Ltac s_poor := eapply (without_tls _ greeting poor_ehlo);
  [reflexivity|reflexivity|is_positive|exact poor_complete|repeat constructor|intros (a & b & X); revert a b X; apply ProofReply.find_sub_none; vm_compute; reflexivity].
Example C31_poor_example : meets poor_world false poor_clear [] true.
Proof. met s_poor. Qed.
Ltac s_opp := eapply (with_tls _ greeting opp_ehlo (reply "220 go") tls_ehlo _ [reply "235 ok"]);
  [reflexivity|reflexivity|reflexivity|is_positive|exact opp_complete|repeat constructor|exists (B "250-smtp.example.com" ++ CRLF); eexists; vm_compute; reflexivity|is_positive|
   exact tls_complete|exists Plain; split; [exact tls_prefers|reflexivity]|repeat (constructor; [is_positive|]); constructor].
Example C31_opportunistic_example : meets opp_world true opp_clear opp_secure false.
Proof. met s_opp. Qed.
Ltac s_forced := eapply (forced _ greeting tls_ehlo _ [reply "235 ok"]);
  [reflexivity|reflexivity|is_positive|exact tls_complete|exists Plain; split; [exact tls_prefers|reflexivity]|repeat (constructor; [is_positive|]); constructor].
Example C31_forced_example : meets forced_world true [] forced_secure true.
Proof. met s_forced. Qed.

(** The second mail of a batch. *)
Definition kept_meets (k : clientkind) (tls : bool) : Prop := let w := snd (run (kept_ops k) (initial_world (kept_env k))) in
  exists c, get_client w 0 = Some c /\ c_conn c = true /\ carries tls c /\ mail_answers letter2 answered_mail /\
    e_send (w_env w) = [] /\ e_bputs (w_env w) = [] /\ e_fcntl (w_env w) = [] /\ (0 < c_timeout c)%N /\ text_ok letter2 /\ message_ok letter2 /\
    (slen (getCommunicationLog c) < 281474976710656)%N /\ (slen (concat (mail_commands letter2)) < 281474976710656)%N /\
    (slen (mail_text (e_fs (w_env w)) letter2) < 281474976710656)%N /\
    (if tls then e_bread (w_env w) else e_recv (w_env w)) = arrives tls answered_mail ++ [].
Ltac kept C := eexists; split; [vm_compute; reflexivity|]; split; [reflexivity|]; split; [C|]; split; [exact answered_ok|];
  do 3 (split; [vm_compute; reflexivity|]); split; [vm_compute; reflexivity|]; split; [exact (proj1 letter2_ok)|]; split; [exact (proj2 letter2_ok)|];
  do 3 (split; [vm_compute; reflexivity|]); vm_compute; reflexivity.
Ltac in_tls := split; [discriminate|split; [reflexivity|eexists; reflexivity]].
Ltac in_the_clear := left; reflexivity.
Example C31_kept_examples : kept_meets KPlain false /\ kept_meets KOpp true /\ kept_meets KForced true.
Proof. split; [kept in_the_clear|]. split; [kept in_tls|kept in_tls]. Qed.

(** C20: if the answer to EHLO announces mechanisms and the credential allows
    none of them, sendMail returns CLIENT_AUTHENTICATION_METHOD_NOTSUPPORTED and
    nothing was sent but what comes before the authentication.  Partial: the
    replies arrive in one piece, system calls succeed and the timeout is not 0. *)
Theorem C20_none_applies_partial : forall i c cr m w tls clear secure l more1 more2,
  get_client w i = Some c -> c_conn c = false -> c_cred c = Some cr -> session_without c cr tls clear secure l ->
  reliable (w_env w) -> (tls = true -> negotiates c (w_env w)) -> named c -> (0 < c_timeout c)%N ->
  e_recv (w_env w) = clear ++ more1 -> (tls = true -> e_bread (w_env w) = over_tls secure ++ more2) ->
  exists w' t, step (OSend i m) w = (Done CLIENT_AUTHENTICATION_METHOD_NOTSUPPORTED, w') /\ w_trace w' = w_trace w ++ t /\ exchanges t = l /\
    transmitted t = concat (map fst l).
Proof. exact world_none_applies. Qed.
Print Assumptions C20_none_applies_partial.
Definition odd_ehlo : str := ehlo_with_lines ["smtp.example.com"; "AUTH GSSAPI NTLM"]%string.
Lemma odd_complete : complete odd_ehlo. Proof. is_complete 0 odd_ehlo. Qed.
Lemma odd_unusable : forall tls, unusable tls odd_ehlo joe_cred.
Proof.
  intros tls. apply (unusable_checked _ _ _ (B "250-AUTH GSSAPI NTLM")); [destruct tls; absent_here| |exists (B "250-smtp.example.com"); destruct tls; eexists; vm_compute; reflexivity|destruct tls; vm_compute; reflexivity].
  exists [B "250-smtp.example.com"], (CRLF ++ B "250 HELP" ++ (if tls then [CR] else CRLF)). split; [destruct tls; vm_compute; reflexivity|]. split; [right; eexists; reflexivity|].
  split; [apply single_checked; vm_compute; reflexivity|]. split; [left; exists (B " GSSAPI NTLM"); reflexivity|]. intros l [<-|[]].
  split; [apply single_checked; vm_compute; reflexivity|apply not_auth; reflexivity].
Qed.
Definition odd_clear : list recv_res := RData greeting :: in_clear [odd_ehlo].
Definition odd_meets (w : world) (tls : bool) (clear : list recv_res) (secure : list str) : Prop :=
  exists c l, get_client w 0 = Some c /\ c_conn c = false /\ c_cred c = Some joe_cred /\ session_without c joe_cred tls clear secure l /\ reliable (w_env w) /\
    (tls = true -> negotiates c (w_env w)) /\ named c /\ (0 < c_timeout c)%N /\ e_recv (w_env w) = clear ++ [] /\ (tls = true -> e_bread (w_env w) = over_tls secure ++ []).
Ltac odd_met S := eexists _, _; split; [vm_compute; reflexivity|]; split; [reflexivity|]; split; [reflexivity|]; split; [S|];
  split; [constructor; try reflexivity; eexists _, _; vm_compute; reflexivity|];
  split; [first [discriminate | intros _; eexists _, _; split; [vm_compute; reflexivity|]; repeat (split; [reflexivity|]); left; reflexivity]|];
  split; [eexists; split; [reflexivity|vm_compute; discriminate]|]; split; [vm_compute; reflexivity|]; split; [vm_compute; reflexivity|]; first [discriminate | intros _; vm_compute; reflexivity].
Ltac n_plain := eapply (none_plain _ _ greeting odd_ehlo); [reflexivity|is_positive|exact odd_complete|exact (odd_unusable false)].
Ltac n_opp := eapply (none_tls _ _ greeting opp_ehlo (reply "220 go") odd_ehlo);
  [reflexivity|reflexivity|reflexivity|is_positive|exact opp_complete|repeat constructor|exists (B "250-smtp.example.com" ++ CRLF); eexists; vm_compute; reflexivity|is_positive|exact odd_complete|exact (odd_unusable true)].
Ltac n_forced := eapply (none_forced _ _ greeting odd_ehlo); [reflexivity|reflexivity|is_positive|exact odd_complete|exact (odd_unusable true)].
Example C20_none_applies_examples :
  odd_meets (with_env KPlain false (wire odd_clear)) false odd_clear [] /\
  odd_meets (with_env KOpp false (tls_wire opp_clear (over_tls [odd_ehlo]) [good_tls])) true opp_clear [odd_ehlo] /\
  odd_meets (with_env KForced false (tls_wire [] (over_tls [greeting; odd_ehlo]) [good_tls])) true [] [greeting; odd_ehlo].
Proof. split; [odd_met n_plain|]. split; [odd_met n_opp|odd_met n_forced]. Qed.
