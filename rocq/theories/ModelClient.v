(** Model of src/smtpclientbase.cpp, src/smtpclient.cpp,
    src/securesmtpclientbase.cpp, src/opportunisticsecuresmtpclient.cpp and
    src/forcedsecuresmtpclient.cpp (POSIX build): everything that happens
    inside [sendMail], [cleanup] and the destructors. *)

From Coq Require Import Ascii String List NArith ZArith Bool.
From Verif Require Import Base ModelUtil ModelBase64 ModelAddress ModelAttachment
  ModelErrors ModelReply ModelMessage ModelState.
Import ListNotations.
Open Scope Z_scope.

(** smtpclientbase.h:25 and 28. *)
Definition INITIAL_COMM_LOG_LENGTH : N := 4096.
Definition SERVERRESPONSE_BUFFER_LENGTH : nat := 1024.

(** ** Communication log *)

(** smtpclientbase.cpp:1016-1022: replace each CRLF by the four characters
    backslash r backslash n. *)
Fixpoint escape_crlf (s : str) : str :=
  match s with
  | [] => []
  | c :: r =>
      match r with
      | d :: r' => if Ascii.eqb c CR && Ascii.eqb d LF
                   then B "\r\n" ++ escape_crlf r' else c :: escape_crlf r
      | [] => [c]
      end
  end.

(** At most [n] characters of [s] (the bound of strncat). *)
Definition take (n : N) (s : str) : str :=
  if (slen s <=? n)%N then s else firstn (N.to_nat n) s.

(** No object is larger than this (PTRDIFF_MAX): [new char[n]] throws
    std::bad_alloc for a larger [n]. *)
Definition MAX_OBJECT : N := 9223372036854775807.

(** smtpclientbase.cpp:1012-1043 [addCommunicationLogItem]: size_t arithmetic
    of line 1028 wraps modulo 2^64; newSize (line 1029) does not wrap because
    the log and the item are in memory at the same time.  Lines 1038-1041 append
    through strncat, which writes as far as its bound allows whatever the
    allocation: writing more than the allocation holds is undefined behaviour,
    and so is line 1042 when the index is outside the allocation. *)
Definition addLog (item prefix : str) : M unit :=
  c <- getc;;
  match c_log c with
  | None => fail_ub (UB_NullDeref PLog)
  | Some lg =>
      let it := if str_eqb prefix (B "c") then escape_crlf (cstr item) else cstr item in
      let text := lg_text lg in
      let cur := slen text in
      let append := (1 + slen prefix + 2 + slen it + 1)%N in
      let grow := (u64 (Z.of_N (c_logsize c) - Z.of_N cur) <=? append)%N in
      let size := if grow then (cur + append + INITIAL_COMM_LOG_LENGTH)%N else c_logsize c in
      let cap := if grow then size else lg_cap lg in
      let lim := u64 (Z.of_N size - 1) in
      let text' := text ++ take lim [LF] ++ take lim prefix ++ take lim (B ": ") ++ take lim it in
      if grow && (MAX_OBJECT <? size)%N then lift Throw
      else if ((slen text' + 1 <=? cap) && (lim <? cap))%N
      then updc (set_log (Some (mkLog (take lim text') cap)) size)
      else fail_ub (UB_BufferOverflow BufLog)
  end.

Definition logc (item : str) : M unit := addLog item (B "c").
Definition logs (item : str) : M unit := addLog item (B "s").

(** smtpclientbase.cpp:306-308 [setLastSocketErrNo]. *)
Definition setLastSocketErrNo (e : Z) : M unit := updc (set_errno e).

(** [setLastSocketErrNo(errno); addCommunicationLogItem(strerror(errno));] *)
Definition log_errno (er : Z) : M unit :=
  setLastSocketErrNo er;;
  e <- gete;;
  logc (e_strerror e er).

(** smtpclientbase.cpp:752-758 [setLastServerResponse]. *)
Definition setLastServerResponse (s : str) : M unit := updc (set_resp (Some (cstr s))).

(** ** System calls *)

(** fcntl(mSock, ...): [mode] as in [EvFcntl]. *)
Definition sys_fcntl (mode : option bool) : M (option Z) :=
  c <- getc;;
  e <- gete;;
  match e_fcntl e with
  | [] => emit (EvFcntl (c_sock c) mode true);; ret None
  | r :: l =>
      upde (set_fcntl l);;
      emit (EvFcntl (c_sock c) mode (match r with None => true | Some _ => false end));;
      ret r
  end.

(** smtpclientbase.cpp:571-584 [setSocketToNonBlockingPOSIX]. *)
Definition setSocketToNonBlocking : M Z :=
  g <- sys_fcntl None;;
  (match g with Some er => log_errno er | None => ret tt end);;
  r <- sys_fcntl (Some true);;
  match r with
  | Some er => log_errno er;; ret SOCKET_INIT_SESSION_FCNTL_SET_ERROR
  | None => ret 0
  end.

(** smtpclientbase.cpp:586-600 [setSocketToBlockingPOSIX]. *)
Definition setSocketToBlocking : M Z :=
  g <- sys_fcntl None;;
  match g with
  | Some er => log_errno er;; ret SOCKET_INIT_SESSION_FCNTL_GET_ERROR
  | None =>
      r <- sys_fcntl (Some false);;
      match r with
      | Some er => log_errno er;; ret SOCKET_INIT_SESSION_FCNTL_SET_ERROR
      | None => ret 0
      end
  end.

Definition EINPROGRESS : Z := 115.
Definition EINTR : Z := 4.
Definition FD_SETSIZE : Z := 1024.

(** smtpclientbase.cpp:508: gethostbyname; [Some len] with h_length = len. *)
Definition sys_gethostbyname (name : str) : M (option Z) :=
  e <- gete;;
  match e_host e with
  | [] => emit (EvResolve name true);; ret (Some 4)
  | r :: l =>
      upde (set_host l);;
      emit (EvResolve name (match r with Some n => 0 <=? n | None => false end));;
      ret r
  end.

(** smtpclientbase.cpp:526. The port is converted to 16 bits at line 514. *)
Definition sys_connect : M (option Z) :=
  c <- getc;;
  e <- gete;;
  let port := (c_port c mod 65536)%N in
  match e_conn e with
  | [] => emit (EvConnect (c_sock c) port true);; ret None
  | r :: l =>
      upde (set_econn l);;
      emit (EvConnect (c_sock c) port (match r with None => true | Some _ => false end));;
      ret r
  end.

(** smtpclientbase.cpp:529-560: waiting for a connection in progress.  Every
    branch of the [do .. while(1)] returns or breaks in its first iteration; an
    interrupted select (EINTR) ends in the branch of line 558.  FD_SET with a
    descriptor >= FD_SETSIZE writes outside the set. *)
Definition wait_connect : M Z :=
  c <- getc;;
  if FD_SETSIZE <=? c_sock c then fail_ub UB_FdSet
  else
    emit (EvSelect (c_sock c) (c_timeout c));;
    e <- gete;;
    r <- (match e_select e with
          | [] => ret SelReady
          | r :: l => upde (set_select l);; ret r
          end);;
    match r with
    | SelErr er =>
        if er =? EINTR then ret SOCKET_INIT_SESSION_CONNECT_TIMEOUT
        else log_errno er;; ret SOCKET_INIT_SESSION_CONNECT_ERROR
    | SelTimeout => ret SOCKET_INIT_SESSION_CONNECT_TIMEOUT
    | SelReady =>
        e <- gete;;
        o <- (match e_sopt e with
              | [] => ret (SoVal 0)
              | o :: l => upde (set_sopt l);; ret o
              end);;
        match o with
        | SoErr er => log_errno er;; ret SOCKET_INIT_SESSION_GET_SOCKET_OPTIONS_ERROR
        | SoVal v =>
            if v =? 0 then ret 0
            else log_errno v;; ret SOCKET_INIT_SESSION_DELAYED_CONNECTION_ERROR
        end
    end.

(** smtpclientbase.cpp:496-569 [initializeSessionPOSIX].  Line 520 assigns the
    result of the comparison [f() != 0] (that is 1) to socketSetFlagsResult.
    memcpy of h_length bytes into the 4-byte sin_addr (line 516) is modelled as
    an overflow when h_length > 4. *)
Definition initializeSessionPOSIX : M Z :=
  e <- gete;;
  match e_sock e with
  | [] => blocked
  | SkErr er :: l =>
      upde (set_esock l);;
      emit (EvSocket (SkErr er));;
      updc (set_sock (-1));;
      log_errno er;;
      ret SOCKET_INIT_SESSION_CREATION_ERROR
  | SkFd n :: l =>
      upde (set_esock l);;
      emit (EvSocket (SkFd n));;
      updc (set_sock (Z.of_N n));;
      c <- getc;;
      match c_server c with
      | None => fail_ub (UB_NullDeref PServer)
      | Some name =>
          h <- sys_gethostbyname name;;
          match h with
          | None => ret SOCKET_INIT_SESSION_GETHOSTBYNAME_ERROR
          | Some len =>
              if len <? 0 then ret SOCKET_INIT_SESSION_GETHOSTBYNAME_ERROR
              else if 4 <? len then fail_ub (UB_BufferOverflow BufHost)
              else
                nb <- setSocketToNonBlocking;;
                if negb (nb =? 0) then ret 1
                else
                  logc (B "Trying to connect to " ++ name ++ B " on port " ++ dec_of_N (c_port c));;
                  r <- sys_connect;;
                  match r with
                  | None => setSocketToBlocking
                  | Some er =>
                      if er =? EINPROGRESS then
                        w <- wait_connect;;
                        if w =? 0 then setSocketToBlocking else ret w
                      else log_errno er;; ret SOCKET_INIT_SESSION_CONNECT_ERROR
                  end
          end
      end
  end.

(** smtpclientbase.cpp:375-386 [initializeSession]. *)
Definition initializeSession : M Z :=
  updc (set_log (Some (mkLog [] INITIAL_COMM_LOG_LENGTH)) INITIAL_COMM_LOG_LENGTH);;
  initializeSessionPOSIX.

(** ** Receiving *)

(** The bytes delivered by one recv / BIO_read call. *)
Definition rbytes (r : recv_res) : str :=
  match r with
  | RData d => firstn SERVERRESPONSE_BUFFER_LENGTH d
  | RErr _ => []
  end.
Definition is_err (r : recv_res) : bool :=
  match r with RErr _ => true | RData _ => false end.

(** The loop
    [while ((n = read(...)) <= 0 && waitTime < timeout) { sleep(1); ++waitTime; }]
    and the test [waitTime < timeout] after it (smtpclientbase.cpp:651-656,
    securesmtpclientbase.cpp:321-325, forcedsecuresmtpclient.cpp:85-89).
    The result is [Some data] when that test succeeds.  [mk] builds the trace
    event of one read. *)
Fixpoint wait_loop (mk : recv_res -> event) (timeout wait : N) (rs : list recv_res)
  : outcome (option str) * list event * list recv_res :=
  match rs with
  | [] => (Blocked, [], [])
  | r :: rs' =>
      match rbytes r with
      | [] =>
          if (wait <? timeout)%N then
            let '(o, evs, rest) := wait_loop mk timeout (wait + 1)%N rs' in
            (o, mk r :: EvSleep 1 :: evs, rest)
          else (Done None, [mk r], rs')
      | d => (Done (if (wait <? timeout)%N then Some d else None), [mk r], rs')
      end
  end.

(** What is left in [outbuf] after [outbuf[bytes_received-1] = '\0'], read as a
    C string. *)
Definition drop_last_byte (d : str) : str := cstr (firstn (length d - 1) d).

(** smtpclientbase.cpp:656-665 / forcedsecuresmtpclient.cpp:89-98. *)
Definition greeting_result (r : option str) : M Z :=
  match r with
  | Some d =>
      let out := drop_last_byte d in
      logs out;;
      let code := extractReturnCode (Some out) in
      (if code =? STATUS_CODE_SERVICE_READY then logc (B "Connected!") else ret tt);;
      ret code
  | None => ret SOCKET_INIT_SESSION_CONNECT_TIMEOUT
  end.

(** smtpclientbase.cpp:647-666 [SMTPClientBase::checkServerGreetings]. *)
Definition checkServerGreetings : M Z :=
  c <- getc;;
  e <- gete;;
  let '(o, evs, rest) := wait_loop (EvRecv (c_sock c)) (c_timeout c) 0 (e_recv e) in
  upde (set_recv rest);;
  emits evs;;
  r <- lift o;;
  greeting_result r.

(** BIO_read(nullptr, ...) fails at once: the loop sleeps [timeout] times and
    reports nothing. *)
Definition wait_null_bio : M (option str) :=
  c <- getc;;
  (if (0 <? c_timeout c)%N then emit (EvSleep (c_timeout c)) else ret tt);;
  ret None.

(** The wait loop over the TLS channel. *)
Definition wait_bio : M (option str) :=
  c <- getc;;
  match c_bio c with
  | None => wait_null_bio
  | Some b =>
      e <- gete;;
      let '(o, evs, rest) := wait_loop (EvRead (bio_id b)) (c_timeout c) 0 (e_bread e) in
      upde (set_bread rest);;
      emits evs;;
      lift o
  end.

(** forcedsecuresmtpclient.cpp:81-99 [ForcedSecureSMTPClient::checkServerGreetings]. *)
Definition checkServerGreetingsTLS : M Z :=
  r <- wait_bio;;
  greeting_result r.

(** smtpclientbase.cpp:693-706: the do/while loop of [getRawCommandReply].
    Line 697 writes outbuf[bytes_received], outside the buffer when a read
    fills it completely. *)
Fixpoint raw_loop (fd : Z) (timeout wait : N) (got : bool) (acc : str)
  (rs : list recv_res) : outcome (N * bool * str) * list event * list recv_res :=
  match rs with
  | [] => (Blocked, [], [])
  | r :: rs' =>
      match rbytes r with
      | [] =>
          if is_err r && got then (Done (wait, got, acc), [EvRecv fd r], rs')
          else if (wait + 1 <? timeout)%N then
            let '(o, evs, rest) := raw_loop fd timeout (wait + 1)%N got acc rs' in
            (o, EvRecv fd r :: EvSleep 1 :: evs, rest)
          else (Done ((wait + 1)%N, got, acc), [EvRecv fd r; EvSleep 1], rs')
      | d =>
          if (SERVERRESPONSE_BUFFER_LENGTH <=? length d)%nat
          then (Undef (UB_BufferOverflow BufRecv), [EvRecv fd r], rs')
          else if (wait <? timeout)%N then
            let '(o, evs, rest) := raw_loop fd timeout wait true (acc ++ cstr d) rs' in
            (o, EvRecv fd r :: evs, rest)
          else (Done (wait, true, acc ++ cstr d), [EvRecv fd r], rs')
      end
  end.

(** smtpclientbase.cpp:686-714 [getRawCommandReply]. *)
Definition getRawCommandReply : M Z :=
  setSocketToNonBlocking;;
  c <- getc;;
  e <- gete;;
  let '(o, evs, rest) := raw_loop (c_sock c) (c_timeout c) 0 false [] (e_recv e) in
  upde (set_recv rest);;
  emits evs;;
  w <- lift o;;
  let '(wait, got, full) := w in
  setSocketToBlocking;;
  if (wait <? c_timeout c)%N || got then
    setLastServerResponse full;;
    logs full;;
    ret (extractReturnCode (Some full))
  else ret (-1).

(** securesmtpclientbase.cpp:317-332 [SecureSMTPClientBase::getServerReply]. *)
Definition getServerReplyTLS : M Z :=
  r <- wait_bio;;
  match r with
  | Some d =>
      let out := drop_last_byte d in
      setLastServerResponse out;;
      logs out;;
      ret (extractReturnCode (Some out))
  | None => ret (-1)
  end.

(** The virtual getServerReply: smtpclient.cpp:108-110 and
    securesmtpclientbase.cpp:317. *)
Definition getServerReply : M Z :=
  c <- getc;;
  match c_kind c with
  | KPlain => getRawCommandReply
  | _ => getServerReplyTLS
  end.

(** ** Sending and cleanup *)

(** send(mSock, data, ...) *)
Definition sys_send (data : str) : M send_res :=
  c <- getc;;
  e <- gete;;
  match e_send e with
  | [] => emit (EvSend (c_sock c) data WFull);; ret WFull
  | r :: l => upde (set_send l);; emit (EvSend (c_sock c) data r);; ret r
  end.

(** BIO_puts(mBIO, data) on a non-null BIO. *)
Definition sys_puts (b : bio) (data : str) : M send_res :=
  e <- gete;;
  match e_bputs e with
  | [] => emit (EvPuts (bio_id b) data WFull);; ret WFull
  | r :: l => upde (set_bputs l);; emit (EvPuts (bio_id b) data r);; ret r
  end.

(** smtpclientbase.cpp:668-684 [sendRawCommand] (two arguments). The cleanup
    routine is a parameter because cleanup itself sends QUIT. *)
Definition sendRaw2_with (cleanup : M unit) (cmd : str) (err : Z) : M Z :=
  r <- sys_send (cstr cmd);;
  match r with
  | WErr er => setLastSocketErrNo er;; cleanup;; ret err
  | WSigpipe => killed
  | _ => ret 0
  end.

(** ERR_get_error() after a call with a null BIO: some OpenSSL code; the value
    is not observable through the API. *)
Definition ERR_NULL_BIO : Z := 0.

(** securesmtpclientbase.cpp:288-295 [SecureSMTPClientBase::sendCommand].
    BIO_puts(nullptr, ...) returns a negative value. *)
Definition sendCommandTLS_with (cleanup : M unit) (cmd : str) (err : Z) : M Z :=
  c <- getc;;
  match c_bio c with
  | None => setLastSocketErrNo ERR_NULL_BIO;; cleanup;; ret err
  | Some b =>
      r <- sys_puts b (cstr cmd);;
      match r with
      | WErr er => setLastSocketErrNo er;; cleanup;; ret err
      | WSigpipe => killed
      | _ => ret 0
      end
  end.

(** Calls through sendCommandPtr (smtpclientbase.cpp:283-292,
    smtpclient.cpp:100-102, securesmtpclientbase.cpp:288-295). *)
Definition sendCommandPtr_with (cleanup : M unit) (cmd : str) (err : Z) : M Z :=
  c <- getc;;
  if c_rawptr c then sendRaw2_with cleanup cmd err
  else match c_kind c with
       | KPlain => sendRaw2_with cleanup cmd err
       | _ => sendCommandTLS_with cleanup cmd err
       end.

(** smtpclientbase.cpp:734-742 [sendQuitCommand]. *)
Definition sendQuit_with (cleanup : M unit) : M Z :=
  logc (B "QUIT" ++ CRLF);;
  sendCommandPtr_with cleanup (B "QUIT" ++ CRLF) CLIENT_SENDMAIL_QUIT_ERROR.

(** smtpclient.cpp:52-61 / securesmtpclientbase.cpp:117-126: close the socket
    unless the descriptor is 0. *)
Definition close_socket : M unit :=
  c <- getc;;
  (if c_sock c =? 0 then ret tt else emit (EvClose (c_sock c)));;
  updc (set_sock 0).

(** securesmtpclientbase.cpp:109-116. *)
Definition free_tls : M unit :=
  c <- getc;;
  (match c_ctx c with Some i => emit (EvCtxFree i) | None => ret tt end);;
  updc (set_ctx None);;
  (match c_bio c with Some b => emit (EvBioFree (bio_id b)) | None => ret tt end);;
  updc (set_bio None).

(** smtpclient.cpp:47-72 and securesmtpclientbase.cpp:104-138 [cleanup]: the
    QUIT sent in batch mode can fail, which calls cleanup again, and so on. The
    recursion is bounded by [fuel]; see [cleanup]. *)
Fixpoint cleanup_f (fuel : nat) : M unit :=
  match fuel with
  | O => diverge
  | S f =>
      c <- getc;;
      (if c_batch c && c_conn c then _ <- sendQuit_with (cleanup_f f);; ret tt else ret tt);;
      updc (set_conn false);;
      (match c_kind c with KPlain => ret tt | _ => free_tls end);;
      close_socket
  end.

(** Each nested call is caused by a failed write, which consumes one result of
    the environment's finite script, or by a null BIO, which fails for ever. So
    the fuel below runs out only when the C++ code recurses for ever. *)
Definition cleanup_fuel (e : env) : nat := S (S (length (e_send e) + length (e_bputs e))).
Definition cleanup : M unit := fun s => cleanup_f (cleanup_fuel (s_e s)) s.

Definition sendRaw2 := sendRaw2_with cleanup.
Definition sendCommandPtr := sendCommandPtr_with cleanup.
Definition sendQuitCommand := sendQuit_with cleanup.

(** smtpclientbase.cpp:720-732 [sendRawCommand] (three arguments). *)
Definition sendRaw3 (cmd : str) (err timeout : Z) : M Z :=
  r <- sendRaw2 cmd err;;
  if negb (r =? 0) then ret err
  else
    code <- getRawCommandReply;;
    if negb (code =? -1) then ret code
    else cleanup;; ret timeout.

(** securesmtpclientbase.cpp:297-315
    [SecureSMTPClientBase::sendCommandWithFeedback]. *)
Definition sendFeedbackTLS (cmd : str) (err timeout : Z) : M Z :=
  c <- getc;;
  match c_bio c with
  | None => sendRaw3 cmd err timeout
  | Some b =>
      r <- sys_puts b (cstr cmd);;
      match r with
      | WErr er => setLastSocketErrNo er;; cleanup;; ret err
      | WSigpipe => killed
      | _ =>
          code <- getServerReply;;
          if negb (code =? -1) then ret code
          else cleanup;; ret timeout
      end
  end.

(** The virtual sendCommandWithFeedback: smtpclient.cpp:104-106 and
    securesmtpclientbase.cpp:297. *)
Definition sendFeedback (cmd : str) (err timeout : Z) : M Z :=
  c <- getc;;
  match c_kind c with
  | KPlain => sendRaw3 cmd err timeout
  | _ => sendFeedbackTLS cmd err timeout
  end.

(** Calls through sendCommandWithFeedbackPtr. *)
Definition sendFeedbackPtr (cmd : str) (err timeout : Z) : M Z :=
  c <- getc;;
  if c_rawptr c then sendRaw3 cmd err timeout else sendFeedback cmd err timeout.

(** ** EHLO *)

(** smtpclientbase.cpp:630-644 and securesmtpclientbase.cpp:271-285: collect
    the options.  Every continued iteration got a reply, hence consumed at
    least one element of the recv or BIO_read script: the fuel never runs
    out. *)
Fixpoint ehlo_loop (fuel : nat) (timeout_code : Z) (options : str) : M Z :=
  if containsAllOptions options then
    updc (set_auth (extractAuthenticationOptions (Some options)));;
    ret 250
  else
    match fuel with
    | O => diverge
    | S f =>
        code <- getServerReply;;
        if code =? -1 then ret timeout_code
        else if negb (code =? 250) then ret code
        else
          c <- getc;;
          match c_resp c with
          | None => fail_ub (UB_NullDeref PResp)
          | Some r => ehlo_loop f timeout_code (options ++ [LF] ++ r)
          end
    end.

Definition EHLO : str := B "ehlo localhost" ++ CRLF.

Definition ehlo_with (err timeout : Z) : M Z :=
  logc EHLO;;
  code <- sendFeedback EHLO err timeout;;
  if negb (code =? 250) then ret code
  else
    c <- getc;;
    match c_resp c with
    | None => fail_ub (UB_NullDeref PResp)
    | Some r =>
        e <- gete;;
        ehlo_loop (S (length (e_recv e) + length (e_bread e))) timeout r
    end.

(** smtpclientbase.cpp:620-645 [sendServerIdentification]. *)
Definition sendServerIdentification : M Z :=
  ehlo_with SOCKET_INIT_CLIENT_SEND_EHLO_ERROR SOCKET_INIT_CLIENT_SEND_EHLO_TIMEOUT.

(** securesmtpclientbase.cpp:260-286 [getServerSecureIdentification]. *)
Definition getServerSecureIdentification : M Z :=
  logc (B "Contacting the server again but via the secure channel...");;
  ehlo_with SSL_CLIENT_INITSECURECLIENT_ERROR SSL_CLIENT_INITSECURECLIENT_TIMEOUT.

(** ** Authentication *)

(** smtpclientbase.cpp:783-795 [authenticateWithMethodPlain]. *)
Definition plain_command (cr : credential) : str :=
  B "AUTH PLAIN " ++ Encode ([NUL] ++ cr_user cr ++ [NUL] ++ cr_pass cr) ++ CRLF.
Definition authPlain (cr : credential) : M Z :=
  logc (B "AUTH PLAIN ***************" ++ CRLF);;
  sendFeedbackPtr (plain_command cr) CLIENT_AUTHENTICATE_ERROR CLIENT_AUTHENTICATE_TIMEOUT.

(** smtpclientbase.cpp:797-821 [authenticateWithMethodLogin]. *)
Definition authLogin (cr : credential) : M Z :=
  logc (B "AUTH LOGIN ***************" ++ CRLF);;
  r1 <- sendFeedbackPtr (B "AUTH LOGIN" ++ CRLF) CLIENT_AUTHENTICATE_ERROR CLIENT_AUTHENTICATE_TIMEOUT;;
  if negb (r1 =? STATUS_CODE_SERVER_CHALLENGE) then ret CLIENT_AUTHENTICATE_ERROR
  else
    r2 <- sendFeedbackPtr (Encode (cr_user cr) ++ CRLF) CLIENT_AUTHENTICATE_ERROR CLIENT_AUTHENTICATE_TIMEOUT;;
    if negb (r2 =? STATUS_CODE_SERVER_CHALLENGE) then ret CLIENT_AUTHENTICATE_ERROR
    else
      sendFeedbackPtr (Encode (cr_pass cr) ++ CRLF) CLIENT_AUTHENTICATE_ERROR CLIENT_AUTHENTICATE_TIMEOUT.

Definition SOH : ascii := ascii_of_nat 1.

(** smtpclientbase.cpp:823-836 [authenticatedWithMethodXOauth2]. *)
Definition xoauth2_command (cr : credential) : str :=
  B "AUTH XOAUTH2 " ++
  Encode (B "user=" ++ cr_user cr ++ [SOH] ++ B "auth=Bearer " ++ cr_pass cr ++ [SOH; SOH]) ++ CRLF.
Definition authXOauth2 (cr : credential) : M Z :=
  logc (B "XOauth 2 ***************" ++ CRLF);;
  sendFeedbackPtr (xoauth2_command cr) CLIENT_AUTHENTICATE_ERROR CLIENT_AUTHENTICATE_TIMEOUT.

(** Is method [m] compatible with the recommendation [rec]?
    (the disjunctions of smtpclientbase.cpp:763-775). *)
Definition method_ok (rec m : authmethod) : bool :=
  match rec, m with
  | kImplicit, _ => true
  | kPlain, kPlain => true
  | kLogin, kLogin => true
  | kXOauth2, kXOauth2 => true
  | _, _ => false
  end.

(** smtpclientbase.cpp:760-781 [authenticateClient]: mAuthOptions is
    dereferenced without a null test. *)
Definition authenticateClient : M Z :=
  c <- getc;;
  match c_cred c with
  | None => ret CLIENT_AUTHENTICATE_NONEED
  | Some cr =>
      match c_auth c with
      | None => fail_ub (UB_NullDeref PAuth)
      | Some o =>
          if ao_plain o && method_ok (cr_method cr) kPlain then authPlain cr
          else if ao_login o && method_ok (cr_method cr) kLogin then authLogin cr
          else if ao_xoauth2 o && method_ok (cr_method cr) kXOauth2 then authXOauth2 cr
          else ret CLIENT_AUTHENTICATION_METHOD_NOTSUPPORTED
      end
  end.

(** The common tail of the establishConnectionWithServer functions:
    [if (getCredentials() != nullptr) ... return 0]. *)
Definition authenticate_if_needed : M Z :=
  c <- getc;;
  match c_cred c with
  | None => ret 0
  | Some _ =>
      r <- authenticateClient;;
      if negb (r =? STATUS_CODE_AUTHENTICATION_SUCCEEDED) then ret r else ret 0
  end.

(** ** TLS *)

(** X509_V_OK and X509_V_ERR_DEPTH_ZERO_SELF_SIGNED_CERT (openssl/x509_vfy.h). *)
Definition X509_V_OK : Z := 0.
Definition X509_V_ERR_DEPTH_ZERO_SELF_SIGNED_CERT : Z := 18.

Definition SERVERNAMEANDPORT_LENGTH : N := 1024.

Definition fresh_id : M nat :=
  e <- gete;;
  upde (set_next (S (e_next e)));;
  ret (e_next e).

(** securesmtpclientbase.cpp:156-258 [startTLSNegotiation], with
    initializeSSLContext (144-154) inlined.  The old mCTX / mBIO pointers are
    overwritten without being freed.  The diagnostic written to stderr at
    lines 206-209 is not modelled. *)
Definition startTLSNegotiation : M Z :=
  logc (B "<Start TLS negotiation>");;
  e <- gete;;
  match e_tls e with
  | [] => blocked
  | t :: l =>
      upde (set_tls l);;
      if negb (t_ctx t) then
        updc (set_ctx None);; setLastSocketErrNo (t_err t);;
        ret SSL_CLIENT_STARTTLS_INITSSLCTX_ERROR
      else
        i <- fresh_id;;
        emit (EvCtxNew i);;
        updc (set_ctx (Some i));;
        if negb (t_bio t) then
          updc (set_bio None);; ret SSL_CLIENT_STARTTLS_BIONEWSSLCONNECT_ERROR
        else
          b <- fresh_id;;
          c <- getc;;
          emit (EvBioNew b (c_sock c));;
          updc (set_bio (Some (mkBio b (c_sock c))));;
          match c_server c with
          | None => fail_ub (UB_NullDeref PServer)
          | Some name =>
              if (SERVERNAMEANDPORT_LENGTH <? slen name + 1 + slen (dec_of_N (c_port c)) + 1)%N
              then fail_ub (UB_BufferOverflow BufEndpoint)
              else if negb (t_paths t) then
                ret SSL_CLIENT_STARTTLS_CTX_SET_DEFAULT_VERIFY_PATHS_ERROR
              else if negb (t_connect t) then
                emit (EvHandshake b false);;
                cleanup;; setLastSocketErrNo (t_err t);;
                ret SSL_CLIENT_STARTTLS_BIO_CONNECT_ERROR
              else
                addLog (B "<Negotiate a TLS session>") (B "c & s");;
                emit (EvHandshake b (t_handshake t));;
                if negb (t_handshake t) then
                  cleanup;; setLastSocketErrNo (t_err t);;
                  ret SSL_CLIENT_STARTTLS_BIO_HANDSHAKE_ERROR
                else
                  addLog (B "<Check result of negotiation>") (B "c & s");;
                  emit (EvCert b (t_cert t));;
                  if negb (t_cert t) then
                    cleanup;; ret SSL_CLIENT_STARTTLS_GET_CERTIFICATE_ERROR
                  else
                    emit (EvVerify b (t_verify t) (t_host t));;
                    c <- getc;;
                    if (t_verify t =? X509_V_ERR_DEPTH_ZERO_SELF_SIGNED_CERT) && c_selfsigned c then
                      logs (B "Warning: Self signed certificate");;
                      logc (B "TLS session ready!");;
                      ret 0
                    else if negb (t_verify t =? X509_V_OK) then
                      e <- gete;;
                      logs (e_x509str e (t_verify t));;
                      cleanup;;
                      ret SSL_CLIENT_STARTTLS_VERIFY_RESULT_ERROR
                    else
                      logc (B "TLS session ready!");;
                      ret 0
          end
  end.

(** ** Establishing the connection *)

(** smtpclient.cpp:74-98. *)
Definition establishPlain : M Z :=
  r <- initializeSession;;
  if negb (r =? 0) then ret r else
  g <- checkServerGreetings;;
  if negb (g =? STATUS_CODE_SERVICE_READY) then ret g else
  i <- sendServerIdentification;;
  if negb (i =? STATUS_CODE_REQUESTED_MAIL_ACTION_OK_OR_COMPLETED) then ret i else
  authenticate_if_needed.

(** opportunisticsecuresmtpclient.cpp:94-100 [upgradeToSecureConnection]. *)
Definition upgradeToSecureConnection : M Z :=
  logc (B "STARTTLS" ++ CRLF);;
  sendRaw3 (B "STARTTLS" ++ CRLF) SOCKET_INIT_CLIENT_SEND_STARTTLS_ERROR
    SOCKET_INIT_CLIENT_SEND_STARTTLS_TIMEOUT.

(** opportunisticsecuresmtpclient.cpp:51-92. *)
Definition establishOpp : M Z :=
  r <- initializeSession;;
  if negb (r =? 0) then ret r else
  g <- checkServerGreetings;;
  if negb (g =? STATUS_CODE_SERVICE_READY) then ret g else
  i <- sendServerIdentification;;
  if negb (i =? STATUS_CODE_REQUESTED_MAIL_ACTION_OK_OR_COMPLETED) then ret i else
  c <- getc;;
  tls <- lift (isStartTLSSupported (c_resp c));;
  if tls then
    logc (B "Info: STARTTLS is available by the server, the communication will be encrypted.");;
    u <- upgradeToSecureConnection;;
    if negb (u =? STATUS_CODE_SERVICE_READY) then ret u else
    t <- startTLSNegotiation;;
    if negb (t =? 0) then ret t else
    s <- getServerSecureIdentification;;
    if negb (s =? STATUS_CODE_REQUESTED_MAIL_ACTION_OK_OR_COMPLETED) then ret s else
    authenticate_if_needed
  else
    logc (B "Info: STARTTLS is not an available option by the server, the communication will then remain unencrypted.");;
    updc (set_keep true);;
    ret 0.

(** forcedsecuresmtpclient.cpp:51-79. *)
Definition establishForced : M Z :=
  r <- initializeSession;;
  if negb (r =? 0) then ret r else
  t <- startTLSNegotiation;;
  if negb (t =? 0) then ret t else
  g <- checkServerGreetingsTLS;;
  if negb (g =? STATUS_CODE_SERVICE_READY) then ret g else
  s <- getServerSecureIdentification;;
  if negb (s =? STATUS_CODE_REQUESTED_MAIL_ACTION_OK_OR_COMPLETED) then ret s else
  authenticate_if_needed.

(** The virtual establishConnectionWithServer. *)
Definition establish : M Z :=
  c <- getc;;
  match c_kind c with
  | KPlain => establishPlain
  | KOpp => establishOpp
  | KForced => establishForced
  end.

(** ** The mail transaction *)

(** smtpclientbase.cpp:849-864: try the sender formats. *)
Fixpoint mail_from_loop (formats : list str) (last : Z) : M Z :=
  match formats with
  | [] => ret last
  | f :: r =>
      logc f;;
      code <- sendFeedbackPtr f CLIENT_SENDMAIL_MAILFROM_ERROR CLIENT_SENDMAIL_MAILFROM_TIMEOUT;;
      if code =? 250 then ret code
      else if negb (code =? 501) then ret code
      else mail_from_loop r code
  end.

(** smtpclientbase.cpp:883-895 [addMailRecipients]: all recipients are tried,
    the last refusal is returned. *)
Fixpoint addMailRecipients (l : list address) (result : Z) : M Z :=
  match l with
  | [] => ret result
  | a :: r =>
      logc (rcpt_command a);;
      code <- sendFeedbackPtr (rcpt_command a) CLIENT_SENDMAIL_RCPTTO_ERROR CLIENT_SENDMAIL_RCPTTO_TIMEOUT;;
      addMailRecipients r (if code =? 250 then result else code)
  end.

(** smtpclientbase.cpp:872-879: the three recipient arrays; null arrays are
    skipped. *)
Fixpoint recipients_loop (ls : list (arr address)) : M Z :=
  match ls with
  | [] => ret 0
  | ANull _ :: r => recipients_loop r
  | AArr l :: r =>
      code <- addMailRecipients l 250;;
      if negb (code =? 250) then ret code else recipients_loop r
  end.

(** smtpclientbase.cpp:838-881 [setMailRecipients]. *)
Definition setMailRecipients (m : message) : M Z :=
  code <- mail_from_loop (mail_formats (m_from m)) 0;;
  if negb (code =? 250) then ret code
  else recipients_loop [m_to m; m_cc m; m_bcc m].

(** smtpclientbase.cpp:952-957 [addMailHeader]. *)
Definition addMailHeader (field value : str) (err : Z) : M Z :=
  logc (header_line field value);;
  sendCommandPtr (header_line field value) err.

(** smtpclientbase.cpp:920-930: the To / Cc header; its result is ignored. *)
Definition address_header (field : str) (a : arr address) : M unit :=
  match a with
  | ANull O => ret tt
  | ANull (S _) => fail_ub (UB_NullDeref PArray)
  | AArr [] => ret tt
  | AArr l =>
      _ <- addMailHeader field (generateHeaderAddressValues l) CLIENT_SENDMAIL_HEADERTOANDCC_ERROR;;
      ret tt
  end.

Definition CONTENT_TYPE_LINE : str :=
  B "Content-Type: multipart/related; boundary=sep" ++ CRLF ++ CRLF.

(** smtpclientbase.cpp:897-950 [setMailHeaders]. *)
Definition setMailHeaders (m : message) : M Z :=
  logc (B "DATA" ++ CRLF);;
  d <- sendFeedbackPtr (B "DATA" ++ CRLF) CLIENT_SENDMAIL_DATA_ERROR CLIENT_SENDMAIL_DATA_TIMEOUT;;
  if negb (d =? STATUS_CODE_START_MAIL_INPUT) then ret d else
  f <- addMailHeader (B "From") (address_str (m_from m)) CLIENT_SENDMAIL_HEADERFROM_ERROR;;
  if negb (f =? 0) then ret f else
  address_header (B "To") (m_to m);;
  address_header (B "Cc") (m_cc m);;
  logc (header_line (B "Subject") (m_subject m));;
  s <- sendCommandPtr (header_line (B "Subject") (m_subject m)) CLIENT_SENDMAIL_HEADERSUBJECT_ERROR;;
  if negb (s =? 0) then ret s else
  logc CONTENT_TYPE_LINE;;
  t <- sendCommandPtr CONTENT_TYPE_LINE CLIENT_SENDMAIL_HEADERCONTENTTYPE_ERROR;;
  if negb (t =? 0) then ret t else ret 0.

(** smtpclientbase.cpp:975-993: write the pieces until one fails. *)
Fixpoint send_chunks (chunks : list str) (err : Z) : M Z :=
  match chunks with
  | [] => ret 0
  | x :: r =>
      code <- sendCommandPtr x err;;
      if negb (code =? 0) then ret code else send_chunks r err
  end.

Definition END_OF_DATA : str := CRLF ++ B "." ++ CRLF.

(** smtpclientbase.cpp:959-1010 [setMailBody]. *)
Definition setMailBody (m : message) : M Z :=
  logc (body_text_part m);;
  e <- gete;;
  body <- lift (body_real (e_fs e) m);;
  r <- send_chunks (body_chunks body)
         (if (512 <? length body)%nat then CLIENT_SENDMAIL_BODYPART_ERROR
          else CLIENT_SENDMAIL_BODY_ERROR);;
  if negb (r =? 0) then ret r else
  logc END_OF_DATA;;
  d <- sendFeedbackPtr END_OF_DATA CLIENT_SENDMAIL_END_DATA_ERROR CLIENT_SENDMAIL_END_DATA_TIMEOUT;;
  if negb (d =? STATUS_CODE_REQUESTED_MAIL_ACTION_OK_OR_COMPLETED) then ret d else
  c <- getc;;
  if c_batch c then ret 0
  else
    q <- sendQuitCommand;;
    if negb (q =? 0) then ret q else ret 0.

(** smtpclientbase.cpp:353-371: the part of sendMail after the connection. *)
Definition mail_transaction (m : message) : M Z :=
  r <- setMailRecipients m;;
  if negb (r =? 0) then ret r else
  h <- setMailHeaders m;;
  if negb (h =? 0) then ret h else
  b <- setMailBody m;;
  if negb (b =? 0) then ret b else
  c <- getc;;
  (if c_batch c then ret tt else cleanup);;
  ret 0.

(** smtpclientbase.cpp:344-372 [sendMail]. *)
Definition sendMail (m : message) : M Z :=
  c <- getc;;
  r <- (if c_conn c then ret 0 else establish);;
  if negb (r =? 0) then ret r else
  updc (set_conn true);;
  mail_transaction m.
