(** The communication log as a transcript: how its entries relate to what was
    sent and received. *)

From Coq Require Import Ascii String List NArith ZArith Bool.
From Verif Require Import Base ModelUtil ModelAddress ModelAttachment ModelMessage ModelState ModelWorld SpecAddress SpecReply SpecMime SpecDialogue SpecAuth SpecSafety.
Import ListNotations.

(** The events of a run and the entries of the log, in the order they occur. *)
Inductive item := Did (ev : event) | Noted (who text : str).
Definition happened (l : list item) : list event := flat_map (fun i => match i with Did ev => [ev] | _ => [] end) l.
(** Entries of the client show line breaks as backslash r backslash n. *)
Definition shown (who text : str) : str := if str_eqb who (B "c") then show_crlf (cstr text) else cstr text.
Definition entries (l : list item) : list (str * str) :=
  flat_map (fun i => match i with Noted who text => [(who, shown who text)] | _ => [] end) l.

Definition client_says : str -> item := Noted (B "c").
Definition server_says : str -> item := Noted (B "s").
Definition both_say : str -> item := Noted (B "c & s").

(** ** What is received *)

(** The bytes one event delivers: a read delivers at most 1024. *)
Definition delivered (ev : event) : str :=
  match ev with EvRecv _ (RData d) | EvRead _ (RData d) => firstn 1024 d | _ => [] end.
Definition in_clear_read (ev : event) : Prop := exists fd r, ev = EvRecv fd r.
Definition tls_read (ev : event) : Prop := exists b r, ev = EvRead b r.
Definition slept (evs : list event) : N :=
  fold_right N.add 0%N (map (fun ev => match ev with EvSleep n => n | _ => 0%N end) evs).
(** Waiting without receiving anything. *)
Definition idle (evs : list event) : Prop :=
  forall ev, In ev evs -> delivered ev = [] /\ (in_clear_read ev \/ tls_read ev \/ exists n, ev = EvSleep n).
(** [d] is received after some waiting. *)
Definition receives (waiting : list event) (ev : event) (d : str) : Prop :=
  idle waiting /\ (in_clear_read ev \/ tls_read ev) /\ delivered ev = d /\ d <> [].

(** ** The remarks of the client *)

(** Calls that are not mentioned in the log. *)
Definition quiet (ev : event) : Prop :=
  match ev with
  | EvSend _ _ _ | EvPuts _ _ _ | EvConnect _ _ _ | EvHandshake _ true | EvCert _ _ | EvVerify _ _ _ => False
  | _ => delivered ev = []
  end.
(** The description of an operating system error. *)
Definition diagnosis (e : env) (i : item) : Prop := exists er, i = client_says (e_strerror e er).
(** Changing the mode of the socket: nothing to note but failures. *)
Definition switching (e : env) (l : list item) : Prop :=
  forall i, In i l -> (exists fd mode ok, i = Did (EvFcntl fd mode ok)) \/ diagnosis e i.
Definition info (i : item) : Prop :=
  In i [client_says (B "Info: STARTTLS is available by the server, the communication will be encrypted.");
        client_says (B "Info: STARTTLS is not an available option by the server, the communication will then remain unencrypted.");
        client_says (B "<Start TLS negotiation>");
        client_says (B "Contacting the server again but via the secure channel...")].
(** The conclusion drawn from the verification of a certificate. *)
Definition verdict (c : client) (e : env) (res : Z) : list item :=
  if (res =? 0)%Z then [client_says (B "TLS session ready!")]
  else if (res =? 18)%Z && c_selfsigned c
  then [server_says (B "Warning: Self signed certificate"); client_says (B "TLS session ready!")]
  else [server_says (e_x509str e res)].

(** ** What is sent *)

(** The lines of the header section; the last is followed by an empty one. *)
Definition header_line_of (m : message) (d : str) : Prop :=
  (exists f, In f (removelast (header_fields m)) /\ d = f ++ CRLF) \/ d = last (header_fields m) [] ++ CRLF ++ CRLF.
Definition command (m : message) (d : str) : Prop :=
  d = EHLO_line \/ d = B "STARTTLS" ++ CRLF \/ In d (sender_lines (m_from m)) \/
  (exists a, In a (recipients m) /\ d = rcpt_line a) \/ d = DATA_line \/ header_line_of m d \/ d = END_line \/ d = QUIT_line.
(** The entry that stands for an authentication line, and the line. *)
Definition masked (cr : credential) (note d : str) : Prop :=
  (note = B "AUTH PLAIN ***************" ++ CRLF /\
     base64_line (B "AUTH PLAIN ") ([NUL] ++ cr_user cr ++ [NUL] ++ cr_pass cr) d) \/
  (note = B "AUTH LOGIN ***************" ++ CRLF /\ d = B "AUTH LOGIN" ++ CRLF) \/
  (note = B "XOauth 2 ***************" ++ CRLF /\
     base64_line (B "AUTH XOAUTH2 ") (B "user=" ++ cr_user cr ++ [SOH_char] ++ B "auth=Bearer " ++ cr_pass cr ++ [SOH_char; SOH_char]) d).
(** The encrypted channel is open after [t]. *)
Definition open_after (before : bool) (t : list event) : bool :=
  fold_left (fun o ev => match ev with EvBioNew _ _ => true | EvBioFree _ | EvCtxNew _ => false | _ => o end) t before.
Definition has_channel (c : client) (l : list item) : bool :=
  open_after (match c_bio c with Some _ => true | None => false end) (happened l).

(** ** The transcript *)

(** [piece c e m l p]: after [l], when client [c] sends [m] with system [e],
    [p] may come next. *)
Inductive piece (c : client) (e : env) (m : message) (l : list item) : list item -> Prop :=
| p_quiet : forall ev, quiet ev -> piece c e m l [Did ev]
| p_diagnosis : forall i, diagnosis e i -> piece c e m l [i]
| p_info : forall i, info i -> piece c e m l [i]
| p_connect : forall name fd port ok, c_server c = Some name ->
    piece c e m l [client_says (B "Trying to connect to " ++ name ++ B " on port " ++ dec_of_N (c_port c)); Did (EvConnect fd port ok)]
| p_handshake : forall b ok, piece c e m l [both_say (B "<Negotiate a TLS session>"); Did (EvHandshake b ok)]
| p_certificate : forall b ok, piece c e m l [both_say (B "<Check result of negotiation>"); Did (EvCert b ok)]
| p_verified : forall b res host, piece c e m l (Did (EvVerify b res host) :: verdict c e res)
    (* a command is noted, then sent *)
| p_command : forall d ev, command m d -> writes (cstr d) ev -> piece c e m l [client_says d; Did ev]
    (* without an encrypted channel a client that uses TLS notes what it does not send *)
| p_unsent : forall d, c_kind c <> KPlain -> has_channel c l = false -> header_line_of m d \/ d = QUIT_line -> piece c e m l [client_says d]
    (* authentication is masked, and the answers to the challenges of LOGIN are not noted *)
| p_auth : forall cr note d ev, c_cred c = Some cr -> masked cr note d -> writes d ev -> piece c e m l [client_says note; Did ev]
| p_secret : forall cr s d ev, c_cred c = Some cr -> In (client_says (B "AUTH LOGIN ***************" ++ CRLF)) l ->
    s = cr_user cr \/ s = cr_pass cr -> base64_line [] s d -> writes d ev -> piece c e m l [Did ev]
    (* the text part is noted; what is sent is the body, or the beginning of it *)
| p_body : forall sent rest evs, concat (sent ++ rest) = body_text (e_fs e) m -> Forall2 writes (map cstr sent) evs ->
    piece c e m l (client_says (join CRLF (text_lines m)) :: map Did evs)
    (* the greeting, without its last byte *)
| p_greeting : forall waiting ev d, c_conn c = false -> no_writes (happened l) -> receives waiting ev d ->
    piece c e m l (map Did (waiting ++ [ev]) ++ [server_says (removelast d)] ++
      (if prefixb (B "220") (cstr (removelast d)) then [client_says (B "Connected!")] else []))
    (* a reply in clear is noted as received *)
| p_reply : forall evs sw, (forall ev, In ev evs -> in_clear_read ev \/ exists n, ev = EvSleep n) -> flat_map delivered evs <> [] -> switching e sw ->
    piece c e m l (map Did evs ++ sw ++ [server_says (concat (map (fun ev => cstr (delivered ev)) evs))])
    (* a reply over TLS is noted without its last byte *)
| p_reply_tls : forall waiting ev d, receives waiting ev d -> tls_read ev ->
    piece c e m l (map Did (waiting ++ [ev]) ++ [server_says (removelast d)])
    (* what arrives after the time out is not noted *)
| p_late : forall waiting ev d, receives waiting ev d -> (c_timeout c <= slept waiting)%N -> piece c e m l (map Did (waiting ++ [ev])).

Inductive transcript (c : client) (e : env) (m : message) : list item -> Prop :=
| t_nil : transcript c e m []
| t_piece : forall l p, transcript c e m l -> piece c e m l p -> transcript c e m (l ++ p).
(** A call that does not return (it throws, blocks, is killed or has undefined
    behaviour) may stop in the middle of a piece. *)
Definition interrupted (c : client) (e : env) (m : message) (l : list item) : Prop :=
  exists l0 p q, l = l0 ++ p /\ transcript c e m l0 /\ piece c e m l0 (p ++ q).
Definition account (c : client) (e : env) (m : message) (o : outcome Z) (l : list item) : Prop :=
  match o with
  | Done _ => transcript c e m l
  | _ => transcript c e m l \/ interrupted c e m l
  end.

(** ** The logs of all clients *)

(** What getCommunicationLog returns for each client, in the order of their
    creation; [None] is a destroyed client. *)
Definition all_logs (w : world) : list (option str) := map (option_map getCommunicationLog) (w_clients w).
Fixpoint replaced {A} (l : list A) (i : nat) (v : A) : list A :=
  match l, i with
  | [], _ => []
  | _ :: r, O => v :: r
  | x :: r, S j => x :: replaced r j v
  end.
(** The logs after an operation other than sending a mail: they follow the
    copies and moves of clients, and nothing else changes them. *)
Definition carried (o : op) (x : outcome Z) (l : list (option str)) : list (option str) :=
  match o, x with
  | ODestroy i, _ => replaced l i None
  | ONew _ _ _, Done _ => l ++ [Some []]
  | OCopy i, Done _ => l ++ [nth i l None]
  | OMove i, Done _ => replaced l i (Some []) ++ [nth i l None]
  | OCopyAssign i j, Done _ => replaced l i (nth j l None)
  | OMoveAssign i j, Done _ => if Nat.eqb i j then l else replaced (replaced l i (nth j l None)) j (Some [])
  | _, _ => l
  end.
Definition sends (o : op) : Prop := match o with OSend _ _ => True | _ => False end.
