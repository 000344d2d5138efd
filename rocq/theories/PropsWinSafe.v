(** The Windows build: undefined behaviour (C82), its communication log (C83),
    the secure clients (C84, C85), the address connected to (C86) and the
    ownership of connections (C87).  [common t] are the calls of the trace [t]
    that are not specific to Windows. *)

From Coq Require Import Ascii String List NArith ZArith Bool.
From Verif Require Import Base ModelAddress ModelAttachment ModelMessage ModelReply ModelState ModelClient
  ModelWorld ModelWin SpecMime SpecTls SpecSafety SpecOwn SpecWinSafe PropsTls PropsOwn PropsWin
  ProofWinSafe2 ProofWinTls2 ProofWinTls3 ProofWinAddr ProofWinOwn Samples.
Import ListNotations.
Open Scope Z_scope.

(** ** C82 *)

(** C82: undefined behaviour has one of the listed causes. *)
Theorem C82_causes_on_windows : forall ops e x u,
  In (Undef u) (fst (wrun ops (initial_wworld e x))) ->
  wcause ops (ww_trace (snd (wrun ops (initial_wworld e x)))) u.
Proof. exact wrun_cause. Qed.
Print Assumptions C82_causes_on_windows.

(** C82: a descriptor of any value and a resolved name of any length are
    harmless (compare C61). *)
Theorem C82_no_select_no_host_buffer : forall ops e x,
  ~ In (Undef UB_FdSet) (fst (wrun ops (initial_wworld e x))) /\
  ~ In (Undef (UB_BufferOverflow BufHost)) (fst (wrun ops (initial_wworld e x))).
Proof. exact no_posix_ub. Qed.
Print Assumptions C82_no_select_no_host_buffer.

(** The causes are possible: a client used after it was moved from, a reply to
    a command that fills the buffer; and a large descriptor is harmless. *)
Example C82_example :
  wresults [ONew KPlain server 25; OMove 0; OSend 0 hi] (wire []) windows = [Done 0; Done 0; Undef (UB_NullDeref PServer)] /\
  wresults [ONew KPlain server 25; OSend 0 hi] (wire (told "220 ready" ++ [RData (repeat "2"%char 1024)])) windows =
    [Done 0; Undef (UB_BufferOverflow BufRecv)] /\
  wresults [ONew KPlain server 25; OSend 0 hi] (network [SkFd 5000] (hello ++ mail_replies) [] [] [] []) windows = [Done 0; Done 0].
Proof. vm_compute. auto. Qed.

(** ** C83 *)

(** C83: writing to the communication log is safe when no client is moved from
    or assigned to. *)
Theorem C83_log_without_reassignment_partial : forall ops e x u,
  Forall (fun o => reassigns o = false) ops -> u = UB_NullDeref PLog \/ u = UB_BufferOverflow BufLog ->
  ~ In (Undef u) (fst (wrun ops (initial_wworld e x))).
Proof. exact log_without_reassignment. Qed.
Print Assumptions C83_log_without_reassignment_partial.
(** C83: and whenever WSACleanup succeeds. *)
Theorem C83_log_while_cleanup_succeeds_partial : forall ops e x u,
  (forall r, In (WCleanup r) (ww_trace (snd (wrun ops (initial_wworld e x)))) -> r = 0) ->
  u = UB_NullDeref PLog \/ u = UB_BufferOverflow BufLog ->
  ~ In (Undef u) (fst (wrun ops (initial_wworld e x))).
Proof. exact log_while_cleanup. Qed.
Print Assumptions C83_log_while_cleanup_succeeds_partial.

(** A failing WSACleanup without reassignment, and moves and assignments with
    a successful one. *)
Example C83_example : Forall (fun o => reassigns o = false) two_clients /\
  wresults two_clients (wire (hello ++ mail_replies)) failing = [Done 0; Done 0; Done 0; Done (-5); Done 0; Done 0] /\
  In (WCleanup 10093) (wtrace two_clients (wire (hello ++ mail_replies)) failing) /\
  wresults (sharing ++ [OCopyAssign 2 1; ODestroy 0; ODestroy 1; ODestroy 2]) two_sessions windows = repeat (Done 0) 11 /\
  winsock (wtrace (sharing ++ [OCopyAssign 2 1; ODestroy 0; ODestroy 1; ODestroy 2]) two_sessions windows) =
    [WStartup 0; WStartup 0; WCleanup 0; WCleanup 0].
Proof. split; [repeat constructor|]. vm_compute. repeat split; try reflexivity. repeat (try (left; reflexivity); right). Qed.

(** C83 fails: the destructor of a client moved from writes the message of a
    failing WSACleanup to a null log. *)
Definition one_bad_cleanup : wenv := mkWenv [] [] [10093] [] [] (fun _ => Some (B "error")).
Theorem C83_moved_from_refuted : exists ops e,
  wresults ops e one_bad_cleanup = [Done 0; Done 0; Done 0; Done 0; Undef (UB_NullDeref PLog)] /\
  ops = [ONew KPlain server 25; OSetBatch 0 true; OSend 0 hi; OMove 0; ODestroy 0].
Proof.
  exists [ONew KPlain server 25; OSetBatch 0 true; OSend 0 hi; OMove 0; ODestroy 0], (wire (hello ++ mail_replies)).
  vm_compute. auto.
Qed.
Print Assumptions C83_moved_from_refuted.
(** C83 fails: a copy assignment allocates exactly the text of the log and
    keeps the size of the larger buffer it was copied from; the message of a
    failing WSACleanup is then written behind the end. *)
Theorem C83_assigned_refuted : exists ops e,
  wresults ops e one_bad_cleanup = repeat (Done 0) 7 ++ [Undef (UB_BufferOverflow BufLog)] /\
  ops = [ONew KPlain server 25; ONew KPlain server 25; OSetBatch 0 true; OSetBatch 1 true; OSend 0 hi; OSend 1 hi; OCopyAssign 0 1; ODestroy 0].
Proof.
  exists [ONew KPlain server 25; ONew KPlain server 25; OSetBatch 0 true; OSetBatch 1 true; OSend 0 hi; OSend 1 hi; OCopyAssign 0 1; ODestroy 0].
  exists (wire (hello ++ mail_replies ++ hello ++ mail_replies)).
  vm_compute. auto.
Qed.
Print Assumptions C83_assigned_refuted.

(** ** C84 *)

(** C84: while the client encrypts, no text that it writes in clear depends on
    the credentials (compare C23). *)
Theorem C84_no_credentials_in_clear_partial : forall i c m o w x w' t fd d r,
  get_client (ww w) i = Some c -> c_kind c <> KPlain -> c_rawptr c = false ->
  o = OSend i m \/ o = ODestroy i ->
  wstep o w = (x, w') -> common (ww_trace w') = common (ww_trace w) ++ t ->
  In (EvSend fd d r) t ->
  exists line, clear_line (e_fs (w_env (ww w))) m line /\ d = cstr line.
Proof. exact bare_opW. Qed.
Print Assumptions C84_no_credentials_in_clear_partial.
(** C84: after the handshake, and on a kept TLS connection, the client writes
    in clear to descriptor 0 only, after the session was torn down (compare
    C24). *)
Theorem C84_encrypted_after_handshake_partial : forall i c m w x w' t1 b ok t2,
  get_client (ww w) i = Some c -> c_kind c = KOpp -> encrypts c ->
  wstep (OSend i m) w = (x, w') -> common (ww_trace w') = common (ww_trace w) ++ t1 ++ EvHandshake b ok :: t2 ->
  forall t3 fd d r t4, t2 = t3 ++ EvSend fd d r :: t4 -> fd = 0 /\ exists b, In (EvBioFree b) t3.
Proof. exact wworld_upgraded. Qed.
Print Assumptions C84_encrypted_after_handshake_partial.
Theorem C84_encrypted_on_kept_connection_partial : forall i c m w x w' t,
  get_client (ww w) i = Some c -> c_kind c <> KPlain -> encrypts c -> c_conn c = true -> c_bio c <> None ->
  wstep (OSend i m) w = (x, w') -> common (ww_trace w') = common (ww_trace w) ++ t ->
  forall t3 fd d r t4, t = t3 ++ EvSend fd d r :: t4 -> fd = 0 /\ exists b, In (EvBioFree b) t3.
Proof. exact wworld_kept. Qed.
Print Assumptions C84_encrypted_on_kept_connection_partial.
(** C84: a forced client, after any history without
    setKeepUsingBaseSendCommands(true) (compare C25). *)
Theorem C84_forced_client_partial : forall ops e xe i c o x w' t,
  let w := snd (wrun ops (initial_wworld e xe)) in
  keeps_virtual ops ->
  get_client (ww w) i = Some c -> c_kind c = KForced -> uses i o ->
  wstep o w = (x, w') -> common (ww_trace w') = common (ww_trace w) ++ t ->
  (forall t1 fd d r t2, t = t1 ++ EvSend fd d r :: t2 -> fd = 0 /\ exists b, In (EvBioFree b) t1) /\
  (forall t1 b d r t2, t = t1 ++ EvPuts b d r :: t2 -> verified (opted_in ops) b (common (ww_trace w) ++ t1)).
Proof. exact forced_opW. Qed.
Print Assumptions C84_forced_client_partial.

(** Clients that meet the hypotheses and send mail over TLS. *)
Definition wevents (ops : list op) (e : env) : list event := common (wtrace ops e windows).
Example C84_example :
  let ops := [ONew KOpp server 587; OSetBatch 0 true; OSetCred 0 joe_cred; OSend 0 hi] in
  let ops' := [ONew KForced server 465; OSetCred 0 joe_cred] in
  let e' := tls_wire [] (told "220 ready" ++ tls_ident ++ said "235 ok" ++ mail_replies) [good_tls] in
  (exists c, get_client (ww (snd (wrun ops (initial_wworld win_network windows)))) 0 = Some c /\ c_kind c = KOpp /\ encrypts c /\
     c_conn c = true /\ c_bio c <> None) /\
  In (EvHandshake 1 true) (wevents ops win_network) /\ In (EvPuts 1 auth_plain WFull) (wevents ops win_network) /\
  In (EvSend 3 (B "STARTTLS" ++ CRLF) WFull) (wevents ops win_network) /\
  In (EvPuts 1 rcpt_jane WFull) (wevents (ops ++ [OSend 0 two_recipients]) win_network) /\
  keeps_virtual ops' /\ wresults (ops' ++ [OSend 0 hi]) e' windows = [Done 0; Done 0; Done 0] /\
  In (EvPuts 1 auth_plain WFull) (wevents (ops' ++ [OSend 0 hi]) e') /\
  forallb (fun ev => match ev with EvSend _ _ _ => false | _ => true end) (wevents (ops' ++ [OSend 0 hi]) e') = true.
Proof.
  cbv zeta. split; [eexists; split; [vm_compute; reflexivity|]; vm_compute; repeat split; discriminate|].
  do 4 (split; [vm_compute; repeat (try (left; reflexivity); right)|]).
  split; [intros i [H|[H|[]]]; discriminate H|]. split; [vm_compute; reflexivity|].
  split; [vm_compute; repeat (try (left; reflexivity); right)|vm_compute; reflexivity].
Qed.

(** C84 fails: after one server without STARTTLS the password is sent in clear
    over an upgraded connection. *)
Theorem C84_credentials_in_clear_refuted : exists ops e,
  In (EvSend 4 auth_plain WFull) (wevents ops e) /\ In (EvHandshake 1 true) (wevents ops e) /\
  ops = [ONew KOpp server 25; OSetCred 0 joe_cred; OSend 0 hi; OSend 0 hi].
Proof.
  exists [ONew KOpp server 25; OSetCred 0 joe_cred; OSend 0 hi; OSend 0 hi].
  exists (tls_wire (hello ++ mail_replies ++ tls_hello ++ said "235 ok" ++ mail_replies) tls_ident [good_tls]).
  vm_compute. split; [|split; [|reflexivity]]; repeat (try (left; reflexivity); right).
Qed.
Print Assumptions C84_credentials_in_clear_refuted.
(** C84 fails: setKeepUsingBaseSendCommands(true) makes a forced client write
    the mail in clear. *)
Theorem C84_base_commands_refuted : exists ops e,
  In (EvSend 3 rcpt_jane WFull) (wevents ops e) /\ ops = [ONew KForced server 465; OSetKeep 0 true; OSend 0 hi].
Proof.
  exists [ONew KForced server 465; OSetKeep 0 true; OSend 0 hi].
  exists (tls_wire mail_replies (told "220 ready" ++ tls_ident) [good_tls]).
  vm_compute. split; [|reflexivity]; repeat (try (left; reflexivity); right).
Qed.
Print Assumptions C84_base_commands_refuted.
(** C84 fails: after a failed write to the TLS session the next recipient goes
    in clear to descriptor 0. *)
Theorem C84_recipient_on_descriptor_0_refuted : exists ops e,
  In (EvSend 0 (B "RCPT TO: <joe@example.com>" ++ CRLF) WFull) (wevents ops e) /\
  ops = [ONew KForced server 465; OSend 0 two_recipients].
Proof.
  exists [ONew KForced server 465; OSend 0 two_recipients].
  exists (network [SkFd 3] (said "250 ok") (told "220 ready" ++ tls_ident ++ said "250 ok") [] [WFull; WFull; WErr 32] [good_tls]).
  vm_compute. split; [|reflexivity]; repeat (try (left; reflexivity); right).
Qed.
Print Assumptions C84_recipient_on_descriptor_0_refuted.

(** ** C85 *)

(** C85: the negotiation succeeds exactly when the session is acceptable and
    the system store could be opened, and returns the documented code of the
    first step that failed otherwise. *)
Theorem C85_decision_on_windows : forall v code v',
  startTLSNegotiationW v = (Done code, v') ->
  exists r l, e_tls (v_e v) = r :: l /\
    (code = 0 <-> win_acceptable (c_selfsigned (v_c v)) (hd None (x_store (v_w v))) r) /\
    (code <> 0 -> code = win_tls_error (hd None (x_store (v_w v))) r).
Proof. exact tls_decisionW. Qed.
Print Assumptions C85_decision_on_windows.
(** C85: a forced client that meets an unacceptable session writes nothing and
    returns that code (unless the negotiation did not take place). *)
Theorem C85_unacceptable_session : forall i c m w code w' r l t,
  get_client (ww w) i = Some c -> c_kind c = KForced -> c_conn c = false -> e_tls (w_env (ww w)) = r :: l ->
  ~ win_acceptable (c_selfsigned c) (hd None (x_store (ww_env w))) r ->
  wstep (OSend i m) w = (Done code, w') -> common (ww_trace w') = common (ww_trace w) ++ t ->
  code <> 0 /\ (forall fd d n, ~ In (EvSend fd d n) t) /\ (forall b d n, ~ In (EvPuts b d n) t) /\
  (code = win_tls_error (hd None (x_store (ww_env w))) r \/ e_tls (w_env (ww w')) = r :: l).
Proof. exact wworld_verdict. Qed.
Print Assumptions C85_unacceptable_session.

Definition no_store : wenv := mkWenv [] [] [] [] [Some 5] (fun _ => Some (B "error")).
(** A certificate path that cannot be loaded does not matter, a store that
    cannot be opened does. *)
Definition no_path : tls_res := mkTls true true false true true true 0 false 0.
Example C85_example :
  wresults [ONew KForced server 465; OSend 0 hi] (tls_wire [] [] [self_signed]) windows = [Done 0; Done (-58)] /\
  wresults [ONew KForced server 465; OSend 0 hi] (tls_wire [] [] [good_tls]) no_store = [Done 0; Done (-53)] /\
  wresults [ONew KForced server 465; OSend 0 hi] (tls_wire [] (told "220 ready" ++ tls_ident ++ mail_replies) [no_path]) windows = [Done 0; Done 0] /\
  wresults [ONew KForced server 465; OSetSelfSigned 0 true; OSend 0 hi]
    (tls_wire [] (told "220 ready" ++ tls_ident ++ mail_replies) [self_signed]) windows = [Done 0; Done 0; Done 0] /\
  ~ win_acceptable false None self_signed /\ win_acceptable true None self_signed /\ ~ win_acceptable false (Some 5) good_tls.
Proof.
  do 4 (split; [vm_compute; reflexivity|]). unfold win_acceptable. cbn. repeat split; auto.
  - intros (_ & _ & _ & _ & _ & _ & [X|[_ X]]); discriminate X.
  - intros (_ & _ & X & _); discriminate X.
Qed.

(** ** C86 *)

(** C86: sending a mail looks up the configured server and port only, and
    connects to that port. *)
Theorem C86_configured_address : forall i c m w x w' t,
  get_client (ww w) i = Some c -> wstep (OSend i m) w = (x, w') -> ww_trace w' = ww_trace w ++ t ->
  forall ev, In ev t ->
  match ev with
  | WAddr host port _ => host = c_server c /\ port = c_port c
  | WSock (EvConnect _ port _) => port = (c_port c mod 65536)%N /\ ((c_port c < 65536)%N -> port = c_port c)
  | _ => True
  end.
Proof. exact wworld_target. Qed.
Print Assumptions C86_configured_address.
(** C86: a mail is accepted from an unconnected client only after the lookup
    and the connection succeeded. *)
Theorem C86_connected : forall i c m w w' t,
  get_client (ww w) i = Some c -> c_conn c = false ->
  wstep (OSend i m) w = (Done 0, w') -> ww_trace w' = ww_trace w ++ t ->
  In (WAddr (c_server c) (c_port c) 0) t /\ exists fd, In (WSock (EvConnect fd (c_port c mod 65536)%N true)) t.
Proof. exact wworld_connects. Qed.
Print Assumptions C86_connected.
Example C86_example : let w := snd (wrun [ONew KPlain server 25; OSetServer 0 (Some (B "mail.example.org")); OSetPort 0 2525]
    (initial_wworld (wire (hello ++ mail_replies)) windows)) in
  (exists c, get_client (ww w) 0 = Some c /\ c_conn c = false /\ c_server c = Some (B "mail.example.org") /\ c_port c = 2525%N) /\
  fst (wstep (OSend 0 hi) w) = Done 0 /\
  In (WAddr (Some (B "mail.example.org")) 2525 0) (ww_trace (snd (wstep (OSend 0 hi) w))) /\
  In (WSock (EvConnect 3 2525 true)) (ww_trace (snd (wstep (OSend 0 hi) w))).
Proof.
  cbv zeta. split; [eexists; split; [vm_compute; reflexivity|vm_compute; auto]|]. split; [vm_compute; reflexivity|].
  split; vm_compute; repeat (try (left; reflexivity); right).
Qed.

(** ** C87 *)

(** C87: only open sockets are closed, no two clients hold the same socket, and
    the socket that a client holds is open (compare C41). *)
Theorem C87_sockets_on_windows : forall e x ops,
  fresh sockets (common (ww_trace (snd (wrun ops (initial_wworld e x))))) ->
  ownership sockets (snd (wrun ops (initial_wworld e x))).
Proof. exact own_socketsW. Qed.
Print Assumptions C87_sockets_on_windows.
(** C87, the same for the TLS objects. *)
Theorem C87_contexts_on_windows : forall e x ops, ownership contexts (snd (wrun ops (initial_wworld e x))).
Proof. exact own_contextsW. Qed.
Print Assumptions C87_contexts_on_windows.
Theorem C87_bios_on_windows : forall e x ops, ownership bios (snd (wrun ops (initial_wworld e x))).
Proof. exact own_biosW. Qed.
Print Assumptions C87_bios_on_windows.
Example C87_example : fresh sockets (wevents sharing two_sessions) /\
  wresults sharing two_sessions windows = repeat (Done 0) 7 /\ open_in sockets (wevents sharing two_sessions) = [4; 3] /\
  map (fun i => option_map c_sock (get_client (ww (snd (wrun sharing (initial_wworld two_sessions windows)))) i)) [0; 1; 2]%nat = [Some 0; Some 4; Some 3].
Proof. split; [apply fresh_checked; vm_compute; reflexivity|]. vm_compute. repeat split; reflexivity. Qed.
