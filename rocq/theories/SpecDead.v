(** What may still be written once the connection has been closed. *)

From Coq Require Import Ascii String List NArith ZArith Bool.
From Verif Require Import Base ModelUtil ModelAddress ModelAttachment ModelMessage ModelState ModelWorld SpecLife SpecReply SpecDialogue.
Import ListNotations.
Open Scope Z_scope.

(** No write follows the closing of a socket. *)
Definition silent_after_close (t : list event) : Prop :=
  forall t1 fd t2 ev, t = t1 ++ EvClose fd :: t2 -> In ev t2 -> ~ is_write ev.
(** Every write that follows goes to descriptor 0, none through TLS. *)
Definition only_zero_after_close (t : list event) : Prop :=
  forall t1 fd t2 ev, t = t1 ++ EvClose fd :: t2 -> In ev t2 -> is_write ev -> exists d r, ev = EvSend 0 d r.

(** The recipients of a message. *)
Definition arr_elements {A} (a : arr A) : list A := match a with AArr l => l | ANull _ => [] end.
Definition all_recipients (m : message) : list address :=
  arr_elements (m_to m) ++ arr_elements (m_cc m) ++ arr_elements (m_bcc m).
(** The write of [d] failed. *)
Definition write_failed (d : str) (t : list event) : Prop :=
  exists ev, In ev t /\ ((exists fd er, ev = EvSend fd d (WErr er)) \/ (exists b er, ev = EvPuts b d (WErr er))).

(** Everything read begins with a digit from 2 to 5, as every SMTP reply does. *)
Definition reads_standard (t : list event) : Prop :=
  forall ev d, In ev t -> (exists fd, ev = EvRecv fd (RData d)) \/ (exists b, ev = EvRead b (RData d)) -> standard_reply d.
(** The program never asks for the plain sending functions to be given up. *)
Definition never_releases_plain (ops : list op) : Prop := forall i, ~ In (OSetKeep i false) ops.
Definition no_opportunistic (ops : list op) : Prop := forall k p n, In (ONew k p n) ops -> k <> KOpp.

(** Every write of [t] sends QUIT, and a write is repeated only because it
    failed. *)
Definition failed (ev : event) : Prop :=
  match ev with EvSend _ _ (WErr _) | EvPuts _ _ (WErr _) => True | _ => False end.
Definition only_retries (t : list event) : Prop :=
  (forall ev, In ev t -> is_write ev -> writes (B "QUIT" ++ CRLF) ev) /\
  (forall t1 ev t2 ev', t = t1 ++ ev :: t2 -> is_write ev -> In ev' t2 -> is_write ev' -> failed ev).

(** The text begins a mail transaction. *)
Definition mail_command (d : str) : Prop := starts_with (B "MAIL FROM") d.
(** The exchanges leave a mail transaction open (RFC 5321, 4.1.4): a MAIL was
    accepted and no end of data followed it. *)
Definition leaves_open (l : list (str * str)) : Prop :=
  exists l1 line reply l2, l = l1 ++ (line, reply) :: l2 /\ mail_command line /\ answered "250" (line, reply) /\
    ~ In END_line (map fst l2).
(** A recipient or DATA was refused. *)
Definition refused (l : list (str * str)) : Prop :=
  exists x, In x l /\ ((starts_with (B "RCPT TO") (fst x) /\ ~ answered "250" x) \/ (fst x = DATA_line /\ ~ answered "354" x)).
(** The client holds no open connection. *)
Definition disconnected (w : world) (i : nat) : Prop := exists c, get_client w i = Some c /\ c_conn c = false.
(** Nothing happens, or a new socket is created before anything else. *)
Definition new_socket_first (t : list event) : Prop := t = [] \/ exists r t', t = EvSocket r :: t'.
