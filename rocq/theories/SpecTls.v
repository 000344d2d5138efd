(** What "sent in clear" and "verified TLS session" mean, in terms of the
    events of a run. *)

From Coq Require Import Ascii String List NArith ZArith Bool.
From Verif Require Import Base ModelAddress ModelAttachment ModelMessage ModelState ModelWorld SpecMime.
Import ListNotations.
Open Scope Z_scope.

(** The session [b] was negotiated and its certificate accepted: OpenSSL
    verified the chain (0), or reported a self-signed certificate (18) and the
    caller accepts those. *)
Definition verified (accept_self_signed : Prop) (b : nat) (t : list event) : Prop :=
  In (EvHandshake b true) t /\ In (EvCert b true) t /\
  exists r host_ok, In (EvVerify b r host_ok) t /\ (r = 0 \/ (r = 18 /\ accept_self_signed)).

(** The program opted in to self-signed certificates. *)
Definition opted_in (ops : list op) : Prop := exists i, In (OSetSelfSigned i true) ops.
(** The program never asks for the base (unencrypted) send commands. *)
Definition keeps_virtual (ops : list op) : Prop := forall i, ~ In (OSetKeep i true) ops.

(** Operations that use client [i]'s connection. *)
Definition uses (i : nat) (o : op) : Prop := (exists m, o = OSend i m) \/ o = ODestroy i.

(** The texts of a mail transaction and of the identification; credentials do
    not occur in them. *)
Inductive clear_line (fs : filesystem) (m : message) : str -> Prop :=
| cl_ehlo : clear_line fs m (B "ehlo localhost" ++ CRLF)
| cl_starttls : clear_line fs m (B "STARTTLS" ++ CRLF)
| cl_from : clear_line fs m (B "MAIL FROM: <" ++ a_email (m_from m) ++ B ">" ++ CRLF)
| cl_from_name : clear_line fs m (B "MAIL FROM: <" ++ a_name (m_from m) ++ B " " ++ a_email (m_from m) ++ B ">" ++ CRLF)
| cl_from_bare : clear_line fs m (B "MAIL FROM: " ++ a_email (m_from m) ++ CRLF)
| cl_rcpt : forall a, In a (listed (m_to m) ++ listed (m_cc m) ++ listed (m_bcc m)) ->
    clear_line fs m (B "RCPT TO: <" ++ a_email a ++ B ">" ++ CRLF)
| cl_data : clear_line fs m (B "DATA" ++ CRLF)
| cl_header : forall h, In h (header_fields m) -> clear_line fs m (h ++ CRLF)
| cl_last_header : forall h, In h (header_fields m) -> clear_line fs m (h ++ CRLF ++ CRLF)
| cl_body : forall before d after, body_text fs m = before ++ d ++ after -> clear_line fs m d
| cl_end : clear_line fs m (CRLF ++ B "." ++ CRLF)
| cl_quit : clear_line fs m (B "QUIT" ++ CRLF).

(** Every step of a negotiation succeeded and the certificate is acceptable;
    whether it carries the server's name is not asked. *)
Definition tls_acceptable (accept_self_signed : bool) (r : tls_res) : Prop :=
  t_ctx r = true /\ t_bio r = true /\ t_paths r = true /\ t_connect r = true /\ t_handshake r = true /\
  t_cert r = true /\ (t_verify r = 0 \/ (t_verify r = 18 /\ accept_self_signed = true)).

(** The documented code of the first step that failed (sslerrors.h). *)
Definition tls_error (r : tls_res) : Z :=
  if negb (t_ctx r) then -51 else
  if negb (t_bio r) then -52 else
  if negb (t_paths r) then -54 else
  if negb (t_connect r) then -55 else
  if negb (t_handshake r) then -56 else
  if negb (t_cert r) then -57 else -58.

(** The client encrypts: neither the program (setKeepUsingBaseSendCommands) nor
    an earlier server without STARTTLS switched it to the base commands. *)
Definition encrypts (c : client) : Prop := c_keep c = false /\ c_rawptr c = false.
