(** Model of the Windows build ([#ifdef _WIN32]) of src/smtpclientbase.cpp,
    src/smtpclient.cpp and src/securesmtpclientbase.cpp.  Functions without
    platform-dependent parts are those of ModelClient.v, run by [base]; functions
    that call a platform-dependent one are repeated here with its Windows
    version. *)

From Coq Require Import Ascii String List NArith ZArith Bool.
From Verif Require Import Base ModelUtil ModelBase64 ModelAddress ModelAttachment
  ModelErrors ModelReply ModelMessage ModelState ModelClient ModelWorld.
Import ListNotations.
Open Scope Z_scope.

(** ** State *)

(** Results of the Windows calls, consumed as calls are made; an exhausted
    script means success from then on. *)
Record wenv := mkWenv {
  x_start : list Z;            (* WSAStartup: 0 = success *)
  x_addr : list Z;             (* getaddrinfo: 0 = success *)
  x_clean : list Z;            (* WSACleanup: 0 = success, else WSAGetLastError *)
  x_ioctl : list (option Z);   (* ioctlsocket: None = success *)
  x_store : list (option Z);   (* CertOpenSystemStore: None = success *)
  x_format : Z -> option str   (* FormatMessage: None = failure *)
}.

(** What happens, in chronological order: the calls shared with the POSIX build
    and those of Windows. *)
Inductive wevent :=
| WSock (ev : event)
| WStartup (r : Z)                                (* WSAStartup *)
| WCleanup (r : Z)                                (* WSACleanup *)
| WAddr (host : option str) (port : N) (r : Z)    (* getaddrinfo *)
| WAddrFree                                       (* freeaddrinfo: never called *)
| WIoctl (fd : Z) (nonblock : bool) (r : option Z)
| WShutdown (fd : Z)
| WOpenStore (r : option Z) | WCloseStore         (* CertOpenSystemStore, CertCloseStore *)
| WTooLong (d : str).                             (* a text that is not sent for its size *)

(** The client, its member mWSAStarted (smtpclientbase.h:219), the environment
    and the trace. *)
Record vst := mkV { v_c : client; v_on : bool; v_e : env; v_w : wenv; v_t : list wevent }.

Definition W (A : Type) := vst -> outcome A * vst.
Definition wret {A} (a : A) : W A := fun v => (Done a, v).
Definition wbind {A C} (m : W A) (k : A -> W C) : W C := fun v =>
  match m v with
  | (Done a, v') => k a v'
  | (Throw, v') => (Throw, v')
  | (Undef u, v') => (Undef u, v')
  | (Blocked, v') => (Blocked, v')
  | (Killed, v') => (Killed, v')
  | (Diverge, v') => (Diverge, v')
  end.
Notation "x <# m ;; k" := (wbind m (fun x => k))
  (at level 61, m at next level, right associativity).
Notation "m ;;# k" := (wbind m (fun _ => k)) (at level 61, right associativity).

(** A function without platform-dependent parts. *)
Definition base {A} (m : M A) : W A := fun v =>
  let '(o, s) := m (mkSt (v_c v) (v_e v) []) in
  (o, mkV (s_c s) (v_on v) (s_e s) (v_w v) (v_t v ++ map WSock (s_t s))).

Definition wput (ev : wevent) : W unit := fun v =>
  (Done tt, mkV (v_c v) (v_on v) (v_e v) (v_w v) (v_t v ++ [ev])).
Definition set_on (b : bool) : W unit := fun v => (Done tt, mkV (v_c v) b (v_e v) (v_w v) (v_t v)).
Definition get_on : W bool := fun v => (Done (v_on v), v).

Definition set_xstart (l : list Z) (w : wenv) : wenv :=
  mkWenv l (x_addr w) (x_clean w) (x_ioctl w) (x_store w) (x_format w).
Definition set_xaddr (l : list Z) (w : wenv) : wenv :=
  mkWenv (x_start w) l (x_clean w) (x_ioctl w) (x_store w) (x_format w).
Definition set_xclean (l : list Z) (w : wenv) : wenv :=
  mkWenv (x_start w) (x_addr w) l (x_ioctl w) (x_store w) (x_format w).
Definition set_xioctl (l : list (option Z)) (w : wenv) : wenv :=
  mkWenv (x_start w) (x_addr w) (x_clean w) l (x_store w) (x_format w).
Definition set_xstore (l : list (option Z)) (w : wenv) : wenv :=
  mkWenv (x_start w) (x_addr w) (x_clean w) (x_ioctl w) l (x_format w).

(** The next result of a script. *)
Definition next {A} (get : wenv -> list A) (set : list A -> wenv -> wenv) (default : A) : W A := fun v =>
  match get (v_w v) with
  | [] => (Done default, v)
  | r :: l => (Done r, mkV (v_c v) (v_on v) (v_e v) (set l (v_w v)) (v_t v))
  end.

(** ** WinSock *)

(** smtpclientbase.cpp:467-480 [addWSAMessageToCommunicationLog]. *)
Definition addWSAMessage (er : Z) : W unit := fun v =>
  match x_format (v_w v) er with
  | None => (Done tt, v)
  | Some text => base (logc text) v
  end.

(** smtpclientbase.cpp:482-491 [doWSACleanup].  Error codes are written in
    decimal (those of WinSock are positive). *)
Definition doWSACleanup : W unit :=
  r <# next x_clean set_xclean 0 ;;
  wput (WCleanup r) ;;#
  (if r =? 0 then wret tt
   else base (setLastSocketErrNo r) ;;#
        base (logc (B "WSACleanup failed with error: " ++ dec_of_N (Z.to_N r)))) ;;#
  set_on false.

(** smtpclient.cpp:62-71, securesmtpclientbase.cpp:128-137: the same, if
    WinSock was started. *)
Definition release_winsock : W unit :=
  on <# get_on ;;
  (if on then doWSACleanup else wret tt) ;;#
  set_on false.

(** smtpclientbase.cpp:388-435 [initializeSessionWinSock].  The conversions of
    line 418 keep the value of a descriptor below 2^31 and turn INVALID_SOCKET
    into -1.  The list returned by getaddrinfo is not freed.  A null server name
    is accepted by getaddrinfo and written to a stream at line 427 (undefined
    behaviour).  [sys_connect] takes the port modulo 2^16. *)
Definition initializeSessionWinSock : W Z :=
  st <# next x_start set_xstart 0 ;;
  wput (WStartup st) ;;#
  if negb (st =? 0) then
    base (setLastSocketErrNo st) ;;#
    base (logc (B "WSAStartup failed with error: " ++ dec_of_N (Z.to_N st))) ;;#
    wret SOCKET_INIT_SESSION_WINSOCKET_STARTUP_ERROR
  else
    set_on true ;;#
    c <# base getc ;;
    ga <# next x_addr set_xaddr 0 ;;
    wput (WAddr (c_server c) (c_port c) ga) ;;#
    if negb (ga =? 0) then
      addWSAMessage ga ;;#
      base (setLastSocketErrNo ga) ;;#
      doWSACleanup ;;#
      wret SOCKET_INIT_SESSION_WINSOCKET_GETADDRINFO_ERROR
    else
      e <# base gete ;;
      match e_sock e with
      | [] => base blocked
      | SkErr er :: l =>
          base (upde (set_esock l);; emit (EvSocket (SkErr er));; updc (set_sock (-1))) ;;#
          addWSAMessage er ;;#
          base (setLastSocketErrNo er) ;;#
          doWSACleanup ;;#
          wret SOCKET_INIT_SESSION_CREATION_ERROR
      | SkFd n :: l =>
          base (upde (set_esock l);; emit (EvSocket (SkFd n));; updc (set_sock (Z.of_N n))) ;;#
          match c_server c with
          | None => base (fail_ub (UB_NullDeref PServer))
          | Some name =>
              base (logc (B "Trying to connect to " ++ name ++ B " on port " ++ dec_of_N (c_port c))) ;;#
              r <# base sys_connect ;;
              match r with
              | None => wret 0
              | Some er =>
                  addWSAMessage er ;;#
                  base (setLastSocketErrNo er) ;;#
                  doWSACleanup ;;#
                  wret SOCKET_INIT_SESSION_CONNECT_ERROR
              end
          end
      end.

(** smtpclientbase.cpp:375-386 [initializeSession]. *)
Definition initializeSessionW : W Z :=
  base (updc (set_log (Some (mkLog [] INITIAL_COMM_LOG_LENGTH)) INITIAL_COMM_LOG_LENGTH)) ;;#
  initializeSessionWinSock.

(** smtpclientbase.cpp:437-457 [setSocketToNonBlockingWinSock] and
    [setSocketToBlockingWinSock]: they differ in the mode and in the code
    returned after a failure. *)
Definition setSocketMode (nonblock : bool) : W Z :=
  c <# base getc ;;
  r <# next x_ioctl set_xioctl None ;;
  wput (WIoctl (c_sock c) nonblock r) ;;#
  match r with
  | None => wret 0
  | Some er =>
      base (log_errno er) ;;#
      wret (if nonblock then SOCKET_INIT_SESSION_FCNTL_SET_ERROR else SOCKET_INIT_SESSION_FCNTL_GET_ERROR)
  end.

(** ** Receiving *)

(** smtpclientbase.cpp:686-714 [getRawCommandReply]. *)
Definition getRawCommandReplyW : W Z :=
  setSocketMode true ;;#
  c <# base getc ;;
  w <# base (e <- gete;;
             let '(o, evs, rest) := raw_loop (c_sock c) (c_timeout c) 0 false [] (e_recv e) in
             upde (set_recv rest);;
             emits evs;;
             lift o) ;;
  let '(wait, got, full) := w in
  setSocketMode false ;;#
  base (if (wait <? c_timeout c)%N || got then
          setLastServerResponse full;;
          logs full;;
          ret (extractReturnCode (Some full))
        else ret (-1)).

(** The virtual getServerReply (smtpclient.cpp:108-110,
    securesmtpclientbase.cpp:317). *)
Definition getServerReplyW : W Z :=
  c <# base getc ;;
  match c_kind c with
  | KPlain => getRawCommandReplyW
  | _ => base getServerReplyTLS
  end.

(** ** Sending and cleanup *)

(** std::numeric_limits<int>::max() *)
Definition INT_MAX : N := 2147483647.

(** smtpclientbase.cpp:668-684 [sendRawCommand] (two arguments): a text whose
    length does not fit in an int is refused. *)
Definition sendRaw2W (cleanup : W unit) (cmd : str) (err : Z) : W Z :=
  if (INT_MAX <? slen (cstr cmd))%N then wput (WTooLong (cstr cmd)) ;;# wret err
  else
    r <# base (sys_send (cstr cmd)) ;;
    match r with
    | WErr er => base (setLastSocketErrNo er) ;;# cleanup ;;# wret err
    | WSigpipe => base killed
    | _ => wret 0
    end.

(** securesmtpclientbase.cpp:288-295 [SecureSMTPClientBase::sendCommand]. *)
Definition sendCommandTLSW (cleanup : W unit) (cmd : str) (err : Z) : W Z :=
  c <# base getc ;;
  match c_bio c with
  | None => base (setLastSocketErrNo ERR_NULL_BIO) ;;# cleanup ;;# wret err
  | Some b =>
      r <# base (sys_puts b (cstr cmd)) ;;
      match r with
      | WErr er => base (setLastSocketErrNo er) ;;# cleanup ;;# wret err
      | WSigpipe => base killed
      | _ => wret 0
      end
  end.

(** Calls through sendCommandPtr. *)
Definition sendCommandPtrW (cleanup : W unit) (cmd : str) (err : Z) : W Z :=
  c <# base getc ;;
  if c_rawptr c then sendRaw2W cleanup cmd err
  else match c_kind c with
       | KPlain => sendRaw2W cleanup cmd err
       | _ => sendCommandTLSW cleanup cmd err
       end.

(** smtpclientbase.cpp:734-742 [sendQuitCommand]. *)
Definition sendQuitW (cleanup : W unit) : W Z :=
  base (logc (B "QUIT" ++ CRLF)) ;;#
  sendCommandPtrW cleanup (B "QUIT" ++ CRLF) CLIENT_SENDMAIL_QUIT_ERROR.

(** smtpclient.cpp:52-61 / securesmtpclientbase.cpp:117-126. *)
Definition close_socketW : W unit :=
  c <# base getc ;;
  (if c_sock c =? 0 then wret tt else wput (WShutdown (c_sock c))) ;;#
  base close_socket.

(** smtpclient.cpp:47-72 and securesmtpclientbase.cpp:104-138 [cleanup]; the
    fuel is that of ModelClient.v. *)
Fixpoint cleanup_fW (fuel : nat) : W unit :=
  match fuel with
  | O => base diverge
  | S f =>
      c <# base getc ;;
      (if c_batch c && c_conn c then _ <# sendQuitW (cleanup_fW f) ;; wret tt else wret tt) ;;#
      base (updc (set_conn false)) ;;#
      base (match c_kind c with KPlain => ret tt | _ => free_tls end) ;;#
      close_socketW ;;#
      release_winsock
  end.
Definition cleanupW : W unit := fun v => cleanup_fW (cleanup_fuel (v_e v)) v.

(** smtpclientbase.cpp:720-732 [sendRawCommand] (three arguments). *)
Definition sendRaw3W (cmd : str) (err timeout : Z) : W Z :=
  r <# sendRaw2W cleanupW cmd err ;;
  if negb (r =? 0) then wret err
  else
    code <# getRawCommandReplyW ;;
    if negb (code =? -1) then wret code
    else cleanupW ;;# wret timeout.

(** securesmtpclientbase.cpp:297-315
    [SecureSMTPClientBase::sendCommandWithFeedback]. *)
Definition sendFeedbackTLSW (cmd : str) (err timeout : Z) : W Z :=
  c <# base getc ;;
  match c_bio c with
  | None => sendRaw3W cmd err timeout
  | Some b =>
      r <# base (sys_puts b (cstr cmd)) ;;
      match r with
      | WErr er => base (setLastSocketErrNo er) ;;# cleanupW ;;# wret err
      | WSigpipe => base killed
      | _ =>
          code <# getServerReplyW ;;
          if negb (code =? -1) then wret code
          else cleanupW ;;# wret timeout
      end
  end.

(** The virtual sendCommandWithFeedback and the calls through
    sendCommandWithFeedbackPtr. *)
Definition sendFeedbackW (cmd : str) (err timeout : Z) : W Z :=
  c <# base getc ;;
  match c_kind c with
  | KPlain => sendRaw3W cmd err timeout
  | _ => sendFeedbackTLSW cmd err timeout
  end.
Definition sendFeedbackPtrW (cmd : str) (err timeout : Z) : W Z :=
  c <# base getc ;;
  if c_rawptr c then sendRaw3W cmd err timeout else sendFeedbackW cmd err timeout.

(** ** EHLO and authentication *)

(** smtpclientbase.cpp:620-645 and securesmtpclientbase.cpp:260-286. *)
Fixpoint ehlo_loopW (fuel : nat) (timeout_code : Z) (options : str) : W Z :=
  if containsAllOptions options then
    base (updc (set_auth (extractAuthenticationOptions (Some options)))) ;;#
    wret 250
  else
    match fuel with
    | O => base diverge
    | S f =>
        code <# getServerReplyW ;;
        if code =? -1 then wret timeout_code
        else if negb (code =? 250) then wret code
        else
          c <# base getc ;;
          match c_resp c with
          | None => base (fail_ub (UB_NullDeref PResp))
          | Some r => ehlo_loopW f timeout_code (options ++ [LF] ++ r)
          end
    end.
Definition ehlo_withW (err timeout : Z) : W Z :=
  base (logc EHLO) ;;#
  code <# sendFeedbackW EHLO err timeout ;;
  if negb (code =? 250) then wret code
  else
    c <# base getc ;;
    match c_resp c with
    | None => base (fail_ub (UB_NullDeref PResp))
    | Some r =>
        e <# base gete ;;
        ehlo_loopW (S (length (e_recv e) + length (e_bread e))) timeout r
    end.
Definition sendServerIdentificationW : W Z :=
  ehlo_withW SOCKET_INIT_CLIENT_SEND_EHLO_ERROR SOCKET_INIT_CLIENT_SEND_EHLO_TIMEOUT.
Definition getServerSecureIdentificationW : W Z :=
  base (logc (B "Contacting the server again but via the secure channel...")) ;;#
  ehlo_withW SSL_CLIENT_INITSECURECLIENT_ERROR SSL_CLIENT_INITSECURECLIENT_TIMEOUT.

(** smtpclientbase.cpp:783-836. *)
Definition authPlainW (cr : credential) : W Z :=
  base (logc (B "AUTH PLAIN ***************" ++ CRLF)) ;;#
  sendFeedbackPtrW (plain_command cr) CLIENT_AUTHENTICATE_ERROR CLIENT_AUTHENTICATE_TIMEOUT.
Definition authLoginW (cr : credential) : W Z :=
  base (logc (B "AUTH LOGIN ***************" ++ CRLF)) ;;#
  r1 <# sendFeedbackPtrW (B "AUTH LOGIN" ++ CRLF) CLIENT_AUTHENTICATE_ERROR CLIENT_AUTHENTICATE_TIMEOUT ;;
  if negb (r1 =? STATUS_CODE_SERVER_CHALLENGE) then wret CLIENT_AUTHENTICATE_ERROR
  else
    r2 <# sendFeedbackPtrW (Encode (cr_user cr) ++ CRLF) CLIENT_AUTHENTICATE_ERROR CLIENT_AUTHENTICATE_TIMEOUT ;;
    if negb (r2 =? STATUS_CODE_SERVER_CHALLENGE) then wret CLIENT_AUTHENTICATE_ERROR
    else
      sendFeedbackPtrW (Encode (cr_pass cr) ++ CRLF) CLIENT_AUTHENTICATE_ERROR CLIENT_AUTHENTICATE_TIMEOUT.
Definition authXOauth2W (cr : credential) : W Z :=
  base (logc (B "XOauth 2 ***************" ++ CRLF)) ;;#
  sendFeedbackPtrW (xoauth2_command cr) CLIENT_AUTHENTICATE_ERROR CLIENT_AUTHENTICATE_TIMEOUT.

(** smtpclientbase.cpp:760-781. *)
Definition authenticateClientW : W Z :=
  c <# base getc ;;
  match c_cred c with
  | None => wret CLIENT_AUTHENTICATE_NONEED
  | Some cr =>
      match c_auth c with
      | None => base (fail_ub (UB_NullDeref PAuth))
      | Some o =>
          if ao_plain o && method_ok (cr_method cr) kPlain then authPlainW cr
          else if ao_login o && method_ok (cr_method cr) kLogin then authLoginW cr
          else if ao_xoauth2 o && method_ok (cr_method cr) kXOauth2 then authXOauth2W cr
          else wret CLIENT_AUTHENTICATION_METHOD_NOTSUPPORTED
      end
  end.
Definition authenticate_if_neededW : W Z :=
  c <# base getc ;;
  match c_cred c with
  | None => wret 0
  | Some _ =>
      r <# authenticateClientW ;;
      if negb (r =? STATUS_CODE_AUTHENTICATION_SUCCEEDED) then wret r else wret 0
  end.

(** ** TLS *)

(** securesmtpclientbase.cpp:156-258 [startTLSNegotiation].  On Windows the
    trusted certificates are read from the system store (lines 177-197; adding
    them does not fail), which is closed on success only (lines 253-256). *)
Definition startTLSNegotiationW : W Z :=
  base (logc (B "<Start TLS negotiation>")) ;;#
  e <# base gete ;;
  match e_tls e with
  | [] => base blocked
  | t :: l =>
      base (upde (set_tls l)) ;;#
      if negb (t_ctx t) then
        base (updc (set_ctx None);; setLastSocketErrNo (t_err t)) ;;#
        wret SSL_CLIENT_STARTTLS_INITSSLCTX_ERROR
      else
        i <# base fresh_id ;;
        base (emit (EvCtxNew i);; updc (set_ctx (Some i))) ;;#
        if negb (t_bio t) then
          base (updc (set_bio None)) ;;# wret SSL_CLIENT_STARTTLS_BIONEWSSLCONNECT_ERROR
        else
          b <# base fresh_id ;;
          c <# base getc ;;
          base (emit (EvBioNew b (c_sock c));; updc (set_bio (Some (mkBio b (c_sock c))))) ;;#
          match c_server c with
          | None => base (fail_ub (UB_NullDeref PServer))
          | Some name =>
              if (SERVERNAMEANDPORT_LENGTH <? slen name + 1 + slen (dec_of_N (c_port c)) + 1)%N
              then base (fail_ub (UB_BufferOverflow BufEndpoint))
              else
                st <# next x_store set_xstore None ;;
                wput (WOpenStore st) ;;#
                match st with
                | Some er =>
                    base (setLastSocketErrNo er) ;;#
                    wret SSL_CLIENT_STARTTLS_WIN_CERTOPENSYSTEMSTORE_ERROR
                | None =>
                    if negb (t_connect t) then
                      base (emit (EvHandshake b false)) ;;#
                      cleanupW ;;# base (setLastSocketErrNo (t_err t)) ;;#
                      wret SSL_CLIENT_STARTTLS_BIO_CONNECT_ERROR
                    else
                      base (addLog (B "<Negotiate a TLS session>") (B "c & s")) ;;#
                      base (emit (EvHandshake b (t_handshake t))) ;;#
                      if negb (t_handshake t) then
                        cleanupW ;;# base (setLastSocketErrNo (t_err t)) ;;#
                        wret SSL_CLIENT_STARTTLS_BIO_HANDSHAKE_ERROR
                      else
                        base (addLog (B "<Check result of negotiation>") (B "c & s")) ;;#
                        base (emit (EvCert b (t_cert t))) ;;#
                        if negb (t_cert t) then
                          cleanupW ;;# wret SSL_CLIENT_STARTTLS_GET_CERTIFICATE_ERROR
                        else
                          base (emit (EvVerify b (t_verify t) (t_host t))) ;;#
                          c <# base getc ;;
                          if (t_verify t =? X509_V_ERR_DEPTH_ZERO_SELF_SIGNED_CERT) && c_selfsigned c then
                            base (logs (B "Warning: Self signed certificate")) ;;#
                            base (logc (B "TLS session ready!")) ;;#
                            wput WCloseStore ;;#
                            wret 0
                          else if negb (t_verify t =? X509_V_OK) then
                            e <# base gete ;;
                            base (logs (e_x509str e (t_verify t))) ;;#
                            cleanupW ;;#
                            wret SSL_CLIENT_STARTTLS_VERIFY_RESULT_ERROR
                          else
                            base (logc (B "TLS session ready!")) ;;#
                            wput WCloseStore ;;#
                            wret 0
                end
          end
  end.

(** ** Establishing the connection *)

(** smtpclient.cpp:74-98. *)
Definition establishPlainW : W Z :=
  r <# initializeSessionW ;;
  if negb (r =? 0) then wret r else
  g <# base checkServerGreetings ;;
  if negb (g =? STATUS_CODE_SERVICE_READY) then wret g else
  i <# sendServerIdentificationW ;;
  if negb (i =? STATUS_CODE_REQUESTED_MAIL_ACTION_OK_OR_COMPLETED) then wret i else
  authenticate_if_neededW.

(** opportunisticsecuresmtpclient.cpp:94-100. *)
Definition upgradeToSecureConnectionW : W Z :=
  base (logc (B "STARTTLS" ++ CRLF)) ;;#
  sendRaw3W (B "STARTTLS" ++ CRLF) SOCKET_INIT_CLIENT_SEND_STARTTLS_ERROR
    SOCKET_INIT_CLIENT_SEND_STARTTLS_TIMEOUT.

(** opportunisticsecuresmtpclient.cpp:51-92. *)
Definition establishOppW : W Z :=
  r <# initializeSessionW ;;
  if negb (r =? 0) then wret r else
  g <# base checkServerGreetings ;;
  if negb (g =? STATUS_CODE_SERVICE_READY) then wret g else
  i <# sendServerIdentificationW ;;
  if negb (i =? STATUS_CODE_REQUESTED_MAIL_ACTION_OK_OR_COMPLETED) then wret i else
  c <# base getc ;;
  tls <# base (lift (isStartTLSSupported (c_resp c))) ;;
  if (tls : bool) then
    base (logc (B "Info: STARTTLS is available by the server, the communication will be encrypted.")) ;;#
    u <# upgradeToSecureConnectionW ;;
    if negb (u =? STATUS_CODE_SERVICE_READY) then wret u else
    t <# startTLSNegotiationW ;;
    if negb (t =? 0) then wret t else
    s <# getServerSecureIdentificationW ;;
    if negb (s =? STATUS_CODE_REQUESTED_MAIL_ACTION_OK_OR_COMPLETED) then wret s else
    authenticate_if_neededW
  else
    base (logc (B "Info: STARTTLS is not an available option by the server, the communication will then remain unencrypted.")) ;;#
    base (updc (set_keep true)) ;;#
    wret 0.

(** forcedsecuresmtpclient.cpp:51-79. *)
Definition establishForcedW : W Z :=
  r <# initializeSessionW ;;
  if negb (r =? 0) then wret r else
  t <# startTLSNegotiationW ;;
  if negb (t =? 0) then wret t else
  g <# base checkServerGreetingsTLS ;;
  if negb (g =? STATUS_CODE_SERVICE_READY) then wret g else
  s <# getServerSecureIdentificationW ;;
  if negb (s =? STATUS_CODE_REQUESTED_MAIL_ACTION_OK_OR_COMPLETED) then wret s else
  authenticate_if_neededW.

Definition establishW : W Z :=
  c <# base getc ;;
  match c_kind c with
  | KPlain => establishPlainW
  | KOpp => establishOppW
  | KForced => establishForcedW
  end.

(** ** The mail transaction *)

(** smtpclientbase.cpp:838-895. *)
Fixpoint mail_from_loopW (formats : list str) (last : Z) : W Z :=
  match formats with
  | [] => wret last
  | f :: r =>
      base (logc f) ;;#
      code <# sendFeedbackPtrW f CLIENT_SENDMAIL_MAILFROM_ERROR CLIENT_SENDMAIL_MAILFROM_TIMEOUT ;;
      if code =? 250 then wret code
      else if negb (code =? 501) then wret code
      else mail_from_loopW r code
  end.
Fixpoint addMailRecipientsW (l : list address) (result : Z) : W Z :=
  match l with
  | [] => wret result
  | a :: r =>
      base (logc (rcpt_command a)) ;;#
      code <# sendFeedbackPtrW (rcpt_command a) CLIENT_SENDMAIL_RCPTTO_ERROR CLIENT_SENDMAIL_RCPTTO_TIMEOUT ;;
      addMailRecipientsW r (if code =? 250 then result else code)
  end.
Fixpoint recipients_loopW (ls : list (arr address)) : W Z :=
  match ls with
  | [] => wret 0
  | ANull _ :: r => recipients_loopW r
  | AArr l :: r =>
      code <# addMailRecipientsW l 250 ;;
      if negb (code =? 250) then wret code else recipients_loopW r
  end.
Definition setMailRecipientsW (m : message) : W Z :=
  code <# mail_from_loopW (mail_formats (m_from m)) 0 ;;
  if negb (code =? 250) then wret code
  else recipients_loopW [m_to m; m_cc m; m_bcc m].

(** smtpclientbase.cpp:897-957. *)
Definition addMailHeaderW (field value : str) (err : Z) : W Z :=
  base (logc (header_line field value)) ;;#
  sendCommandPtrW cleanupW (header_line field value) err.
Definition address_headerW (field : str) (a : arr address) : W unit :=
  match a with
  | ANull O => wret tt
  | ANull (S _) => base (fail_ub (UB_NullDeref PArray))
  | AArr [] => wret tt
  | AArr l =>
      _ <# addMailHeaderW field (generateHeaderAddressValues l) CLIENT_SENDMAIL_HEADERTOANDCC_ERROR ;;
      wret tt
  end.
Definition setMailHeadersW (m : message) : W Z :=
  base (logc (B "DATA" ++ CRLF)) ;;#
  d <# sendFeedbackPtrW (B "DATA" ++ CRLF) CLIENT_SENDMAIL_DATA_ERROR CLIENT_SENDMAIL_DATA_TIMEOUT ;;
  if negb (d =? STATUS_CODE_START_MAIL_INPUT) then wret d else
  f <# addMailHeaderW (B "From") (address_str (m_from m)) CLIENT_SENDMAIL_HEADERFROM_ERROR ;;
  if negb (f =? 0) then wret f else
  address_headerW (B "To") (m_to m) ;;#
  address_headerW (B "Cc") (m_cc m) ;;#
  base (logc (header_line (B "Subject") (m_subject m))) ;;#
  s <# sendCommandPtrW cleanupW (header_line (B "Subject") (m_subject m)) CLIENT_SENDMAIL_HEADERSUBJECT_ERROR ;;
  if negb (s =? 0) then wret s else
  base (logc CONTENT_TYPE_LINE) ;;#
  t <# sendCommandPtrW cleanupW CONTENT_TYPE_LINE CLIENT_SENDMAIL_HEADERCONTENTTYPE_ERROR ;;
  if negb (t =? 0) then wret t else wret 0.

(** smtpclientbase.cpp:959-1010. *)
Fixpoint send_chunksW (chunks : list str) (err : Z) : W Z :=
  match chunks with
  | [] => wret 0
  | x :: r =>
      code <# sendCommandPtrW cleanupW x err ;;
      if negb (code =? 0) then wret code else send_chunksW r err
  end.
Definition setMailBodyW (m : message) : W Z :=
  base (logc (body_text_part m)) ;;#
  e <# base gete ;;
  body <# base (lift (body_real (e_fs e) m)) ;;
  r <# send_chunksW (body_chunks body)
         (if (512 <? length body)%nat then CLIENT_SENDMAIL_BODYPART_ERROR
          else CLIENT_SENDMAIL_BODY_ERROR) ;;
  if negb (r =? 0) then wret r else
  base (logc END_OF_DATA) ;;#
  d <# sendFeedbackPtrW END_OF_DATA CLIENT_SENDMAIL_END_DATA_ERROR CLIENT_SENDMAIL_END_DATA_TIMEOUT ;;
  if negb (d =? STATUS_CODE_REQUESTED_MAIL_ACTION_OK_OR_COMPLETED) then wret d else
  c <# base getc ;;
  if c_batch c then wret 0
  else
    q <# sendQuitW cleanupW ;;
    if negb (q =? 0) then wret q else wret 0.

(** smtpclientbase.cpp:344-372 [sendMail]. *)
Definition mail_transactionW (m : message) : W Z :=
  r <# setMailRecipientsW m ;;
  if negb (r =? 0) then wret r else
  h <# setMailHeadersW m ;;
  if negb (h =? 0) then wret h else
  b <# setMailBodyW m ;;
  if negb (b =? 0) then wret b else
  c <# base getc ;;
  (if c_batch c then wret tt else cleanupW) ;;#
  wret 0.
Definition sendMailW (m : message) : W Z :=
  c <# base getc ;;
  r <# (if c_conn c then wret 0 else establishW) ;;
  if negb (r =? 0) then wret r else
  base (updc (set_conn true)) ;;#
  mail_transactionW m.

(** ** Programs *)

(** The clients without their mWSAStarted, the shared environment (its trace
    stays empty), the values of mWSAStarted, the Windows environment and the
    trace. *)
Record wworld := mkWW {
  ww : world;
  ww_on : list bool;
  ww_env : wenv;
  ww_trace : list wevent }.

Definition initial_wworld (e : env) (x : wenv) : wworld := mkWW (initial_world e) [] x [].

(** Run a member function on client [i]. *)
Definition run_onW {A} (i : nat) (m : W A) (f : client -> option client) (w : wworld) : outcome A * wworld :=
  match get_client (ww w) i with
  | None => (Throw, w)
  | Some c =>
      let '(o, v) := m (mkV c (nth i (ww_on w) false) (w_env (ww w)) (ww_env w) (ww_trace w)) in
      (o, mkWW (mkWorld (list_set (w_clients (ww w)) i (f (v_c v))) (v_e v) [])
               (list_set (ww_on w) i (v_on v)) (v_w v) (v_t v))
  end.

(** One operation.  No copy or move operation mentions mWSAStarted
    (smtpclientbase.cpp:80-228): a new object has the value of its initializer
    (smtpclientbase.h:219), other objects keep theirs. *)
Definition wstep (o : op) (w : wworld) : outcome Z * wworld :=
  match o with
  | OSend i m => run_onW i (sendMailW m) Some w
  | ODestroy i => run_onW i (cleanupW ;;# wret 0) (fun _ => None) w
  | _ =>
      let '(x, w') := step o (ww w) in
      (x, mkWW w' (ww_on w ++ repeat false (length (w_clients w') - length (w_clients (ww w)))) (ww_env w) (ww_trace w))
  end.

Fixpoint wrun (ops : list op) (w : wworld) : list (outcome Z) * wworld :=
  match ops with
  | [] => ([], w)
  | o :: r =>
      let '(x, w') := wstep o w in
      if continues x then let '(xs, w'') := wrun r w' in (x :: xs, w'')
      else ([x], w')
  end.
