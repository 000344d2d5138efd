(** The state of the client model: client objects, environment, trace, and the
    state monad all client functions are written in. *)

From Coq Require Import Ascii String List NArith ZArith Bool.
From Verif Require Import Base ModelAttachment ModelMessage ModelReply.
Import ListNotations.

(** ** Client objects *)

(** smtpclient.h, opportunisticsecuresmtpclient.h, forcedsecuresmtpclient.h:
    the three concrete classes. *)
Inductive clientkind := KPlain | KOpp | KForced.

(** The communication log buffer: its C string and the size of its
    allocation. *)
Record logbuf := mkLog { lg_text : str; lg_cap : N }.

(** A TLS channel object (BIO): an identity and the descriptor given to
    SSL_set_fd (securesmtpclientbase.cpp:173). *)
Record bio := mkBio { bio_id : nat; bio_fd : Z }.

(** smtpclientbase.h:151 and 207-229, securesmtpclientbase.h:74-77.
    [c_rawptr] is the state of the two member function pointers sendCommandPtr
    and sendCommandWithFeedbackPtr (always switched together,
    smtpclientbase.cpp:283-292): true = sendRawCommand, false = the virtual
    sendCommand / sendCommandWithFeedback.  mSSL is the session of mBIO and is
    not modelled separately. [c_ctx] is the identity of the SSL_CTX. *)
Record client := mkClient {
  c_kind : clientkind;
  c_conn : bool;                   (* mIsConnected *)
  c_server : option str;           (* mServerName *)
  c_port : N;                      (* mPort, unsigned int *)
  c_batch : bool;                  (* mBatchMode *)
  c_log : option logbuf;           (* mCommunicationLog *)
  c_logsize : N;                   (* mCommunicationLogSize, size_t *)
  c_resp : option str;             (* mLastServerResponse *)
  c_timeout : N;                   (* mCommandTimeOut, unsigned int *)
  c_errno : Z;                     (* mLastSocketErrNo *)
  c_auth : option authopts;        (* mAuthOptions *)
  c_cred : option credential;      (* mCredential *)
  c_sock : Z;                      (* mSock *)
  c_keep : bool;                   (* mKeepUsingBaseSendCommands *)
  c_rawptr : bool;                 (* sendCommand*Ptr *)
  c_bio : option bio;              (* mBIO *)
  c_ctx : option nat;              (* mCTX *)
  c_selfsigned : bool              (* mAcceptSelfSignedCert *)
}.

(** Field updates. *)
Definition set_conn (b : bool) (c : client) : client :=
  mkClient (c_kind c) b (c_server c) (c_port c) (c_batch c) (c_log c) (c_logsize c)
    (c_resp c) (c_timeout c) (c_errno c) (c_auth c) (c_cred c) (c_sock c) (c_keep c)
    (c_rawptr c) (c_bio c) (c_ctx c) (c_selfsigned c).
Definition set_server (v : option str) (c : client) : client :=
  mkClient (c_kind c) (c_conn c) v (c_port c) (c_batch c) (c_log c) (c_logsize c)
    (c_resp c) (c_timeout c) (c_errno c) (c_auth c) (c_cred c) (c_sock c) (c_keep c)
    (c_rawptr c) (c_bio c) (c_ctx c) (c_selfsigned c).
Definition set_port (v : N) (c : client) : client :=
  mkClient (c_kind c) (c_conn c) (c_server c) v (c_batch c) (c_log c) (c_logsize c)
    (c_resp c) (c_timeout c) (c_errno c) (c_auth c) (c_cred c) (c_sock c) (c_keep c)
    (c_rawptr c) (c_bio c) (c_ctx c) (c_selfsigned c).
Definition set_batch (v : bool) (c : client) : client :=
  mkClient (c_kind c) (c_conn c) (c_server c) (c_port c) v (c_log c) (c_logsize c)
    (c_resp c) (c_timeout c) (c_errno c) (c_auth c) (c_cred c) (c_sock c) (c_keep c)
    (c_rawptr c) (c_bio c) (c_ctx c) (c_selfsigned c).
Definition set_log (v : option logbuf) (n : N) (c : client) : client :=
  mkClient (c_kind c) (c_conn c) (c_server c) (c_port c) (c_batch c) v n
    (c_resp c) (c_timeout c) (c_errno c) (c_auth c) (c_cred c) (c_sock c) (c_keep c)
    (c_rawptr c) (c_bio c) (c_ctx c) (c_selfsigned c).
Definition set_resp (v : option str) (c : client) : client :=
  mkClient (c_kind c) (c_conn c) (c_server c) (c_port c) (c_batch c) (c_log c) (c_logsize c)
    v (c_timeout c) (c_errno c) (c_auth c) (c_cred c) (c_sock c) (c_keep c)
    (c_rawptr c) (c_bio c) (c_ctx c) (c_selfsigned c).
Definition set_timeout (v : N) (c : client) : client :=
  mkClient (c_kind c) (c_conn c) (c_server c) (c_port c) (c_batch c) (c_log c) (c_logsize c)
    (c_resp c) v (c_errno c) (c_auth c) (c_cred c) (c_sock c) (c_keep c)
    (c_rawptr c) (c_bio c) (c_ctx c) (c_selfsigned c).
Definition set_errno (v : Z) (c : client) : client :=
  mkClient (c_kind c) (c_conn c) (c_server c) (c_port c) (c_batch c) (c_log c) (c_logsize c)
    (c_resp c) (c_timeout c) v (c_auth c) (c_cred c) (c_sock c) (c_keep c)
    (c_rawptr c) (c_bio c) (c_ctx c) (c_selfsigned c).
Definition set_auth (v : option authopts) (c : client) : client :=
  mkClient (c_kind c) (c_conn c) (c_server c) (c_port c) (c_batch c) (c_log c) (c_logsize c)
    (c_resp c) (c_timeout c) (c_errno c) v (c_cred c) (c_sock c) (c_keep c)
    (c_rawptr c) (c_bio c) (c_ctx c) (c_selfsigned c).
Definition set_cred (v : option credential) (c : client) : client :=
  mkClient (c_kind c) (c_conn c) (c_server c) (c_port c) (c_batch c) (c_log c) (c_logsize c)
    (c_resp c) (c_timeout c) (c_errno c) (c_auth c) v (c_sock c) (c_keep c)
    (c_rawptr c) (c_bio c) (c_ctx c) (c_selfsigned c).
Definition set_sock (v : Z) (c : client) : client :=
  mkClient (c_kind c) (c_conn c) (c_server c) (c_port c) (c_batch c) (c_log c) (c_logsize c)
    (c_resp c) (c_timeout c) (c_errno c) (c_auth c) (c_cred c) v (c_keep c)
    (c_rawptr c) (c_bio c) (c_ctx c) (c_selfsigned c).
(** smtpclientbase.cpp:283-292 [setKeepUsingBaseSendCommands]. *)
Definition set_keep (v : bool) (c : client) : client :=
  mkClient (c_kind c) (c_conn c) (c_server c) (c_port c) (c_batch c) (c_log c) (c_logsize c)
    (c_resp c) (c_timeout c) (c_errno c) (c_auth c) (c_cred c) (c_sock c) v
    v (c_bio c) (c_ctx c) (c_selfsigned c).
Definition set_bio (v : option bio) (c : client) : client :=
  mkClient (c_kind c) (c_conn c) (c_server c) (c_port c) (c_batch c) (c_log c) (c_logsize c)
    (c_resp c) (c_timeout c) (c_errno c) (c_auth c) (c_cred c) (c_sock c) (c_keep c)
    (c_rawptr c) v (c_ctx c) (c_selfsigned c).
Definition set_ctx (v : option nat) (c : client) : client :=
  mkClient (c_kind c) (c_conn c) (c_server c) (c_port c) (c_batch c) (c_log c) (c_logsize c)
    (c_resp c) (c_timeout c) (c_errno c) (c_auth c) (c_cred c) (c_sock c) (c_keep c)
    (c_rawptr c) (c_bio c) v (c_selfsigned c).
Definition set_selfsigned (v : bool) (c : client) : client :=
  mkClient (c_kind c) (c_conn c) (c_server c) (c_port c) (c_batch c) (c_log c) (c_logsize c)
    (c_resp c) (c_timeout c) (c_errno c) (c_auth c) (c_cred c) (c_sock c) (c_keep c)
    (c_rawptr c) (c_bio c) (c_ctx c) v.

(** ** Environment *)

(** Result of [recv] / [BIO_read] with a 1024-byte buffer: data (at most 1024
    bytes of it are delivered; the empty list is a closed connection,
    return value 0) or an error (return value < 0). *)
Inductive recv_res := RData (d : str) | RErr (errno : Z).

(** Result of [send] / [BIO_puts]: everything accepted, only the first [n]
    bytes accepted, an error, or SIGPIPE (flags are 0, so a write to a closed
    connection kills the process unless the application ignores the signal). *)
Inductive send_res := WFull | WPart (n : nat) | WErr (errno : Z) | WSigpipe.

Inductive sock_res := SkFd (n : N) | SkErr (errno : Z).
Inductive sel_res := SelReady | SelTimeout | SelErr (errno : Z).
Inductive sopt_res := SoErr (errno : Z) | SoVal (v : Z).

(** Outcome of the TLS library calls of one negotiation
    (securesmtpclientbase.cpp:144-258), in call order.  [t_host] tells whether
    the certificate's name matches the server name: the library never asks. *)
Record tls_res := mkTls {
  t_ctx : bool;            (* SSL_CTX_new returned non-null *)
  t_bio : bool;            (* BIO_new_ssl_connect returned non-null *)
  t_paths : bool;          (* SSL_CTX_set_default_verify_paths <> 0 *)
  t_connect : bool;        (* BIO_do_connect > 0 *)
  t_handshake : bool;      (* BIO_do_handshake > 0 *)
  t_cert : bool;           (* SSL_get_peer_certificate returned non-null *)
  t_verify : Z;            (* SSL_get_verify_result *)
  t_host : bool;           (* ghost: does the certificate match the name *)
  t_err : Z                (* ERR_get_error *)
}.

(** The environment is a script of results, consumed as calls are made. When a
    script of [recv], [BIO_read], [socket] or TLS results is exhausted the call
    never returns ([Blocked]); for the other calls an exhausted script means
    success from then on. Every finite execution is described by some script. *)
Record env := mkEnv {
  e_recv : list recv_res;
  e_send : list send_res;
  e_bread : list recv_res;
  e_bputs : list send_res;
  e_sock : list sock_res;
  e_host : list (option Z);        (* gethostbyname: h_length, None = failure *)
  e_fcntl : list (option Z);       (* None = success, Some errno = failure *)
  e_conn : list (option Z);        (* connect: None = success *)
  e_select : list sel_res;
  e_sopt : list sopt_res;          (* getsockopt(SO_ERROR) *)
  e_tls : list tls_res;
  e_fs : filesystem;
  e_strerror : Z -> str;
  e_x509str : Z -> str;            (* X509_verify_cert_error_string *)
  e_next : nat                     (* next fresh BIO/SSL_CTX identity *)
}.

Definition set_recv (v : list recv_res) (e : env) : env :=
  mkEnv v (e_send e) (e_bread e) (e_bputs e) (e_sock e) (e_host e) (e_fcntl e) (e_conn e)
    (e_select e) (e_sopt e) (e_tls e) (e_fs e) (e_strerror e) (e_x509str e) (e_next e).
Definition set_send (v : list send_res) (e : env) : env :=
  mkEnv (e_recv e) v (e_bread e) (e_bputs e) (e_sock e) (e_host e) (e_fcntl e) (e_conn e)
    (e_select e) (e_sopt e) (e_tls e) (e_fs e) (e_strerror e) (e_x509str e) (e_next e).
Definition set_bread (v : list recv_res) (e : env) : env :=
  mkEnv (e_recv e) (e_send e) v (e_bputs e) (e_sock e) (e_host e) (e_fcntl e) (e_conn e)
    (e_select e) (e_sopt e) (e_tls e) (e_fs e) (e_strerror e) (e_x509str e) (e_next e).
Definition set_bputs (v : list send_res) (e : env) : env :=
  mkEnv (e_recv e) (e_send e) (e_bread e) v (e_sock e) (e_host e) (e_fcntl e) (e_conn e)
    (e_select e) (e_sopt e) (e_tls e) (e_fs e) (e_strerror e) (e_x509str e) (e_next e).
Definition set_esock (v : list sock_res) (e : env) : env :=
  mkEnv (e_recv e) (e_send e) (e_bread e) (e_bputs e) v (e_host e) (e_fcntl e) (e_conn e)
    (e_select e) (e_sopt e) (e_tls e) (e_fs e) (e_strerror e) (e_x509str e) (e_next e).
Definition set_host (v : list (option Z)) (e : env) : env :=
  mkEnv (e_recv e) (e_send e) (e_bread e) (e_bputs e) (e_sock e) v (e_fcntl e) (e_conn e)
    (e_select e) (e_sopt e) (e_tls e) (e_fs e) (e_strerror e) (e_x509str e) (e_next e).
Definition set_fcntl (v : list (option Z)) (e : env) : env :=
  mkEnv (e_recv e) (e_send e) (e_bread e) (e_bputs e) (e_sock e) (e_host e) v (e_conn e)
    (e_select e) (e_sopt e) (e_tls e) (e_fs e) (e_strerror e) (e_x509str e) (e_next e).
Definition set_econn (v : list (option Z)) (e : env) : env :=
  mkEnv (e_recv e) (e_send e) (e_bread e) (e_bputs e) (e_sock e) (e_host e) (e_fcntl e) v
    (e_select e) (e_sopt e) (e_tls e) (e_fs e) (e_strerror e) (e_x509str e) (e_next e).
Definition set_select (v : list sel_res) (e : env) : env :=
  mkEnv (e_recv e) (e_send e) (e_bread e) (e_bputs e) (e_sock e) (e_host e) (e_fcntl e) (e_conn e)
    v (e_sopt e) (e_tls e) (e_fs e) (e_strerror e) (e_x509str e) (e_next e).
Definition set_sopt (v : list sopt_res) (e : env) : env :=
  mkEnv (e_recv e) (e_send e) (e_bread e) (e_bputs e) (e_sock e) (e_host e) (e_fcntl e) (e_conn e)
    (e_select e) v (e_tls e) (e_fs e) (e_strerror e) (e_x509str e) (e_next e).
Definition set_tls (v : list tls_res) (e : env) : env :=
  mkEnv (e_recv e) (e_send e) (e_bread e) (e_bputs e) (e_sock e) (e_host e) (e_fcntl e) (e_conn e)
    (e_select e) (e_sopt e) v (e_fs e) (e_strerror e) (e_x509str e) (e_next e).
Definition set_next (v : nat) (e : env) : env :=
  mkEnv (e_recv e) (e_send e) (e_bread e) (e_bputs e) (e_sock e) (e_host e) (e_fcntl e) (e_conn e)
    (e_select e) (e_sopt e) (e_tls e) (e_fs e) (e_strerror e) (e_x509str e) v.

(** ** Trace *)

(** Externally visible effects, in chronological order. *)
Inductive event :=
| EvSocket (r : sock_res)                        (* socket() and its result *)
| EvResolve (host : str) (ok : bool)             (* gethostbyname() *)
| EvFcntl (fd : Z) (nonblock : option bool) (ok : bool)
      (* None: F_GETFL; Some b: F_SETFL with O_NONBLOCK = b *)
| EvConnect (fd : Z) (port : N) (ok : bool)      (* connect() *)
| EvSelect (fd : Z) (seconds : N)                (* select() for writing *)
| EvClose (fd : Z)                               (* close() *)
| EvSend (fd : Z) (data : str) (r : send_res)    (* send(): unencrypted *)
| EvRecv (fd : Z) (r : recv_res)                 (* recv() *)
| EvPuts (id : nat) (data : str) (r : send_res)  (* BIO_puts(): over TLS *)
| EvRead (id : nat) (r : recv_res)               (* BIO_read(): over TLS *)
| EvSleep (seconds : N)
| EvCtxNew (id : nat) | EvCtxFree (id : nat)
| EvBioNew (id : nat) (fd : Z) | EvBioFree (id : nat)
| EvHandshake (id : nat) (ok : bool)
| EvCert (id : nat) (present : bool)
| EvVerify (id : nat) (res : Z) (host_ok : bool).

(** ** Monad *)

Record st := mkSt { s_c : client; s_e : env; s_t : list event }.

Definition M (A : Type) := st -> outcome A * st.

Definition ret {A} (a : A) : M A := fun s => (Done a, s).
Definition bind {A C} (m : M A) (k : A -> M C) : M C := fun s =>
  match m s with
  | (Done a, s') => k a s'
  | (Throw, s') => (Throw, s')
  | (Undef u, s') => (Undef u, s')
  | (Blocked, s') => (Blocked, s')
  | (Killed, s') => (Killed, s')
  | (Diverge, s') => (Diverge, s')
  end.

Notation "x <- m ;; k" := (bind m (fun x => k))
  (at level 61, m at next level, right associativity).
Notation "m ;; k" := (bind m (fun _ => k)) (at level 61, right associativity).

Definition getc : M client := fun s => (Done (s_c s), s).
Definition gete : M env := fun s => (Done (s_e s), s).
Definition updc (f : client -> client) : M unit := fun s =>
  (Done tt, mkSt (f (s_c s)) (s_e s) (s_t s)).
Definition upde (f : env -> env) : M unit := fun s =>
  (Done tt, mkSt (s_c s) (f (s_e s)) (s_t s)).
Definition emit (ev : event) : M unit := fun s =>
  (Done tt, mkSt (s_c s) (s_e s) (s_t s ++ [ev])).
Definition emits (l : list event) : M unit := fun s =>
  (Done tt, mkSt (s_c s) (s_e s) (s_t s ++ l)).
Definition lift {A} (o : outcome A) : M A := fun s => (o, s).
Definition fail_ub {A} (u : ub) : M A := fun s => (Undef u, s).
Definition blocked {A} : M A := fun s => (Blocked, s).
Definition diverge {A} : M A := fun s => (Diverge, s).
Definition killed {A} : M A := fun s => (Killed, s).
