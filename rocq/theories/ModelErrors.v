(** Model of src/socketerrors.h, src/sslerrors.h, src/smtpclienterrors.h,
    src/smtpserverstatuscodes.h, src/errorresolver.cpp and the error message
    functions of src/smtpclientbase.cpp. *)

From Coq Require Import Ascii String List NArith ZArith Bool.
From Verif Require Import Base.
Import ListNotations.
Open Scope Z_scope.

(** src/socketerrors.h. *)
Definition SOCKET_INIT_SESSION_CREATION_ERROR : Z := -1.
Definition SOCKET_INIT_SESSION_CONNECT_ERROR : Z := -2.
Definition SOCKET_INIT_SESSION_CONNECT_TIMEOUT : Z := -3.
Definition SOCKET_INIT_SESSION_WINSOCKET_STARTUP_ERROR : Z := -4.
Definition SOCKET_INIT_SESSION_WINSOCKET_GETADDRINFO_ERROR : Z := -5.
Definition SOCKET_INIT_SESSION_GETHOSTBYNAME_ERROR : Z := -6.
Definition SOCKET_INIT_SESSION_FCNTL_GET_ERROR : Z := -7.
Definition SOCKET_INIT_SESSION_FCNTL_SET_ERROR : Z := -8.
Definition SOCKET_INIT_SESSION_GET_SOCKET_OPTIONS_ERROR : Z := -9.
Definition SOCKET_INIT_SESSION_DELAYED_CONNECTION_ERROR : Z := -10.
Definition SOCKET_INIT_CLIENT_SEND_EHLO_ERROR : Z := -20.
Definition SOCKET_INIT_CLIENT_SEND_EHLO_TIMEOUT : Z := -21.
Definition SOCKET_INIT_CLIENT_SEND_STARTTLS_ERROR : Z := -30.
Definition SOCKET_INIT_CLIENT_SEND_STARTTLS_TIMEOUT : Z := -31.
(** src/sslerrors.h. *)
Definition SSL_CLIENT_STARTTLS_INITSSLCTX_ERROR : Z := -51.
Definition SSL_CLIENT_STARTTLS_BIONEWSSLCONNECT_ERROR : Z := -52.
Definition SSL_CLIENT_STARTTLS_WIN_CERTOPENSYSTEMSTORE_ERROR : Z := -53.
Definition SSL_CLIENT_STARTTLS_CTX_SET_DEFAULT_VERIFY_PATHS_ERROR : Z := -54.
Definition SSL_CLIENT_STARTTLS_BIO_CONNECT_ERROR : Z := -55.
Definition SSL_CLIENT_STARTTLS_BIO_HANDSHAKE_ERROR : Z := -56.
Definition SSL_CLIENT_STARTTLS_GET_CERTIFICATE_ERROR : Z := -57.
Definition SSL_CLIENT_STARTTLS_VERIFY_RESULT_ERROR : Z := -58.
Definition SSL_CLIENT_INITSECURECLIENT_ERROR : Z := -59.
Definition SSL_CLIENT_INITSECURECLIENT_TIMEOUT : Z := -60.
(** src/smtpclienterrors.h. *)
Definition CLIENT_AUTHENTICATE_ERROR : Z := -81.
Definition CLIENT_AUTHENTICATE_TIMEOUT : Z := -82.
Definition CLIENT_AUTHENTICATE_NONEED : Z := -83.
Definition CLIENT_AUTHENTICATION_METHOD_NOTSUPPORTED : Z := -84.
Definition CLIENT_SENDMAIL_MAILFROM_ERROR : Z := -85.
Definition CLIENT_SENDMAIL_MAILFROM_TIMEOUT : Z := -86.
Definition CLIENT_SENDMAIL_RCPTTO_ERROR : Z := -87.
Definition CLIENT_SENDMAIL_RCPTTO_TIMEOUT : Z := -88.
Definition CLIENT_SENDMAIL_DATA_ERROR : Z := -89.
Definition CLIENT_SENDMAIL_DATA_TIMEOUT : Z := -90.
Definition CLIENT_SENDMAIL_HEADERFROM_ERROR : Z := -91.
Definition CLIENT_SENDMAIL_HEADERTOANDCC_ERROR : Z := -92.
Definition CLIENT_SENDMAIL_HEADERSUBJECT_ERROR : Z := -93.
Definition CLIENT_SENDMAIL_HEADERCONTENTTYPE_ERROR : Z := -94.
Definition CLIENT_SENDMAIL_BODYPART_ERROR : Z := -95.
Definition CLIENT_SENDMAIL_BODY_ERROR : Z := -96.
Definition CLIENT_SENDMAIL_END_DATA_ERROR : Z := -97.
Definition CLIENT_SENDMAIL_END_DATA_TIMEOUT : Z := -98.
Definition CLIENT_SENDMAIL_QUIT_ERROR : Z := -99.
Definition SMTPSERVER_AUTHENTICATIONREQUIRED_ERROR : Z := 530.
Definition SMTPSERVER_AUTHENTICATIONTOOWEAK_ERROR : Z := 534.
Definition SMTPSERVER_CREDENTIALSINVALID_ERROR : Z := 535.
Definition SMTPSERVER_ENCRYPTIONREQUIREDFORAUTH_ERROR : Z := 538.
Definition SMTPSERVER_AUTHENTICATION_UNSUCCESSFUL_GMAIL_ERROR : Z := 334.

(** src/smtpserverstatuscodes.h:4-8. *)
Definition STATUS_CODE_SERVICE_READY : Z := 220.
Definition STATUS_CODE_AUTHENTICATION_SUCCEEDED : Z := 235.
Definition STATUS_CODE_REQUESTED_MAIL_ACTION_OK_OR_COMPLETED : Z := 250.
Definition STATUS_CODE_SERVER_CHALLENGE : Z := 334.
Definition STATUS_CODE_START_MAIL_INPUT : Z := 354.

(** errorresolver.cpp:14-164, the switch of the ErrorResolver constructor. *)
Definition error_message (c : Z) : str :=
  if c =? SOCKET_INIT_SESSION_CREATION_ERROR then B "Unable to create the socket" (* :18 *) else
  if c =? SOCKET_INIT_SESSION_CONNECT_ERROR then B "Unable to connect to the socket" (* :21 *) else
  if c =? SOCKET_INIT_SESSION_CONNECT_TIMEOUT then B "The connection attempt has timed out" (* :24 *) else
  if c =? SOCKET_INIT_SESSION_WINSOCKET_STARTUP_ERROR then B "Unable to start WSA (Winsock)" (* :27 *) else
  if c =? SOCKET_INIT_SESSION_WINSOCKET_GETADDRINFO_ERROR then B "Unable to get address info (Winsock)" (* :30 *) else
  if c =? SOCKET_INIT_SESSION_GETHOSTBYNAME_ERROR then B "Unable to get host by name" (* :33 *) else
  if c =? SOCKET_INIT_SESSION_FCNTL_GET_ERROR then B "Unable to get socket file descriptor status flags" (* :36 *) else
  if c =? SOCKET_INIT_SESSION_FCNTL_SET_ERROR then B "Unable to set socket file descriptor status flags" (* :39 *) else
  if c =? SOCKET_INIT_SESSION_GET_SOCKET_OPTIONS_ERROR then B "Unable to get socket options" (* :42 *) else
  if c =? SOCKET_INIT_SESSION_DELAYED_CONNECTION_ERROR then B "Error in delayed connection" (* :45 *) else
  if c =? SOCKET_INIT_CLIENT_SEND_EHLO_ERROR then B "Unable to send the EHLO command" (* :48 *) else
  if c =? SOCKET_INIT_CLIENT_SEND_EHLO_TIMEOUT then B "The EHLO command has timed out" (* :51 *) else
  if c =? SOCKET_INIT_CLIENT_SEND_STARTTLS_ERROR then B "Unable to send the STARTTLS command" (* :54 *) else
  if c =? SOCKET_INIT_CLIENT_SEND_STARTTLS_TIMEOUT then B "The STARTTLS command has timed out" (* :57 *) else
  if c =? SSL_CLIENT_STARTTLS_INITSSLCTX_ERROR then B "Unable to initialize the SSL Context" (* :60 *) else
  if c =? SSL_CLIENT_STARTTLS_BIONEWSSLCONNECT_ERROR then B "Unable to create the SSL BIO" (* :63 *) else
  if c =? SSL_CLIENT_STARTTLS_WIN_CERTOPENSYSTEMSTORE_ERROR then B "Unable to open the Windows Certificate System Store" (* :66 *) else
  if c =? SSL_CLIENT_STARTTLS_CTX_SET_DEFAULT_VERIFY_PATHS_ERROR then B "Unable to open the specifies that the default locations from which CA certificates are loaded" (* :69 *) else
  if c =? SSL_CLIENT_STARTTLS_BIO_CONNECT_ERROR then B "Unable to connect SSL BIO" (* :72 *) else
  if c =? SSL_CLIENT_STARTTLS_BIO_HANDSHAKE_ERROR then B "Unable to handshake with SSL BIO" (* :75 *) else
  if c =? SSL_CLIENT_STARTTLS_GET_CERTIFICATE_ERROR then B "Unable to get peer certificate" (* :78 *) else
  if c =? SSL_CLIENT_STARTTLS_VERIFY_RESULT_ERROR then B "Unable to verify the result of chain verification" (* :81 *) else
  if c =? SSL_CLIENT_INITSECURECLIENT_ERROR then B "Unable to EHLO the server via the secure channel" (* :84 *) else
  if c =? SSL_CLIENT_INITSECURECLIENT_TIMEOUT then B "The EHLO command via the secure channel timed out" (* :87 *) else
  if c =? CLIENT_AUTHENTICATE_ERROR then B "Unable to authenticate with the credentials provided" (* :90 *) else
  if c =? CLIENT_AUTHENTICATE_TIMEOUT then B "The authentication to the server has timed out" (* :93 *) else
  if c =? CLIENT_AUTHENTICATE_NONEED then B "The authentication is not needed on the server" (* :96 *) else
  if c =? CLIENT_AUTHENTICATION_METHOD_NOTSUPPORTED then B "The authentication method selected is not supported by the server" (* :99 *) else
  if c =? CLIENT_SENDMAIL_MAILFROM_ERROR then B "The MAIL FROM command return an error" (* :102 *) else
  if c =? CLIENT_SENDMAIL_MAILFROM_TIMEOUT then B "The MAIL FROM command timed out" (* :105 *) else
  if c =? CLIENT_SENDMAIL_RCPTTO_ERROR then B "The RCPT TO command return an error" (* :108 *) else
  if c =? CLIENT_SENDMAIL_RCPTTO_TIMEOUT then B "The RCPT TO command timed out" (* :111 *) else
  if c =? CLIENT_SENDMAIL_DATA_ERROR then B "The DATA command return an error" (* :114 *) else
  if c =? CLIENT_SENDMAIL_DATA_TIMEOUT then B "The DATA command timed out" (* :117 *) else
  if c =? CLIENT_SENDMAIL_HEADERFROM_ERROR then B "The From header command return an error" (* :120 *) else
  if c =? CLIENT_SENDMAIL_HEADERTOANDCC_ERROR then B "The To and CC header command return an error" (* :123 *) else
  if c =? CLIENT_SENDMAIL_HEADERSUBJECT_ERROR then B "The Subject header command return an error" (* :126 *) else
  if c =? CLIENT_SENDMAIL_HEADERCONTENTTYPE_ERROR then B "The Content type header command return an error" (* :129 *) else
  if c =? CLIENT_SENDMAIL_BODYPART_ERROR then B "The Body part return an error" (* :132 *) else
  if c =? CLIENT_SENDMAIL_BODY_ERROR then B "The Body command return an error" (* :135 *) else
  if c =? CLIENT_SENDMAIL_END_DATA_ERROR then B "The End data command return an error" (* :138 *) else
  if c =? CLIENT_SENDMAIL_END_DATA_TIMEOUT then B "The End data command timed out" (* :141 *) else
  if c =? CLIENT_SENDMAIL_QUIT_ERROR then B "The QUIT command return an error" (* :144 *) else
  if c =? SMTPSERVER_AUTHENTICATIONREQUIRED_ERROR then B "Authentication required" (* :147 *) else
  if c =? SMTPSERVER_AUTHENTICATIONTOOWEAK_ERROR then B "Authentication mechanism is too weak" (* :150 *) else
  if c =? SMTPSERVER_CREDENTIALSINVALID_ERROR then B "Authentication credentials invalid" (* :153 *) else
  if c =? SMTPSERVER_ENCRYPTIONREQUIREDFORAUTH_ERROR then B "Encryption required for requested authentication mechanism" (* :156 *) else
  if c =? SMTPSERVER_AUTHENTICATION_UNSUCCESSFUL_GMAIL_ERROR then B "Token based authentication failed. See https://support.google.com/mail/thread/204884242/334-authentication-unsuccessful?hl=en" (* :159 *) else
  B "No message correspond to this error code".

(** smtpclientbase.cpp:315-323 [getErrorMessage]: a copy of the message. *)
Definition getErrorMessage (c : Z) : str := error_message c.

(** A caller-supplied buffer of [length buf] bytes; writing [data] at its
    start: undefined behaviour if it does not fit. *)
Definition write_buf (buf data : str) : outcome str :=
  if (length data <=? length buf)%nat
  then Done (data ++ skipn (length data) buf)
  else Undef (UB_BufferOverflow BufCaller).

(** smtpclientbase.cpp:325-342 [getErrorMessage_r].  [buf] is the memory the
    pointer refers to ([None] = null pointer), [maxLength] the caller's claim
    about its size. The result is the return value (the [static_cast<int>] of
    line 336 keeps the value modulo 2^32, as a two's complement number) and the
    buffer afterwards. [maxLength - 1] is at most the length of the message on
    the path of line 334, so [firstn] counts are small. *)
Definition to_int32 (n : Z) : Z :=
  let m := n mod 4294967296 in if m <? 2147483648 then m else m - 4294967296.

Definition getErrorMessage_r (c : Z) (buf : option str) (maxLength : N)
  : outcome (Z * option str) :=
  let msg := error_message c in
  match buf with
  | None => Done (-1, None)
  | Some b =>
      if (maxLength =? 0)%N then Done (-1, Some b)
      else if (maxLength - 1 <? slen msg)%N then
        obind (write_buf b (firstn (N.to_nat (maxLength - 1)) msg ++ [NUL])) (fun b' =>
        Done (to_int32 (Z.of_N (maxLength - 1)), Some b'))
      else
        obind (write_buf b (msg ++ [NUL])) (fun b' => Done (0, Some b'))
  end.
