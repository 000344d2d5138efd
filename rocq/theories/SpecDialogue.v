(** The conversation with the server, read off the events of a run. *)

From Coq Require Import Ascii String List NArith ZArith Bool.
From Verif Require Import Base ModelUtil ModelAddress ModelAttachment ModelMessage ModelState SpecAddress SpecReply SpecMime.
Import ListNotations.

(** What was heard before the first write, then for each write its text and
    what was heard until the next one.  A read delivers at most 1024 bytes and
    is read up to its first NUL. *)
Fixpoint dialogue (t : list event) : str * list (str * str) :=
  match t with
  | [] => ([], [])
  | EvSend _ d _ :: r | EvPuts _ d _ :: r => let '(heard, l) := dialogue r in ([], (d, heard) :: l)
  | EvRecv _ (RData d) :: r | EvRead _ (RData d) :: r =>
      let '(heard, l) := dialogue r in (cstr (firstn 1024 d) ++ heard, l)
  | _ :: r => dialogue r
  end.
Definition exchanges (t : list event) : list (str * str) := snd (dialogue t).
Definition written (t : list event) : list str := map fst (exchanges t).

(** [ev] writes [d], in clear or over TLS. *)
Definition writes (d : str) (ev : event) : Prop := (exists fd r, ev = EvSend fd d r) \/ (exists b r, ev = EvPuts b d r).

(** The reply begins with a digit from 2 to 5 (RFC 5321, 4.2), or there is
    none. *)
Definition standard_reply (r : str) : Prop :=
  r = [] \/ exists c rest, r = c :: rest /\ In c ["2"%char; "3"%char; "4"%char; "5"%char].
Definition standard (t : list event) : Prop := forall cmd reply, In (cmd, reply) (exchanges t) -> standard_reply reply.

(** No line that begins like a To or Cc field was reported as failed. *)
Definition recipient_field (d : str) : Prop := starts_with (B "To: ") d \/ starts_with (B "Cc: ") d.
Definition fields_written (t : list event) : Prop :=
  forall ev, In ev t ->
  match ev with EvSend _ d (WErr _) | EvPuts _ d (WErr _) => ~ recipient_field d | _ => True end.

(** [x] was answered with the code [code]. *)
Definition answered (code : string) (x : str * str) : Prop := starts_with (B code) (snd x).
(** Lines written without waiting for an answer. *)
Definition silent (lines : list str) : list (str * str) := map (fun l => (l, [])) lines.

Definition QUIT_line : str := B "QUIT" ++ CRLF.
Definition DATA_line : str := B "DATA" ++ CRLF.
Definition END_line : str := CRLF ++ B "." ++ CRLF.
Definition rcpt_line (a : address) : str := B "RCPT TO: <" ++ a_email a ++ B ">" ++ CRLF.
(** The sender formats, in the order they are tried. *)
Definition sender_lines (a : address) : list str :=
  [B "MAIL FROM: <" ++ a_email a ++ B ">" ++ CRLF;
   B "MAIL FROM: <" ++ a_name a ++ B " " ++ a_email a ++ B ">" ++ CRLF;
   B "MAIL FROM: " ++ a_email a ++ CRLF].

(** The formats before the last one tried were answered 501, the last one 250. *)
Definition sender_accepted (a : address) (l : list (str * str)) : Prop :=
  exists refused line reply more,
    l = refused ++ [(line, reply)] /\ sender_lines a = map fst refused ++ line :: more /\
    Forall (answered "501") refused /\ answered "250" (line, reply).

(** All recipients, in the order they are announced. *)
Definition recipients (m : message) : list address := listed (m_to m) ++ listed (m_cc m) ++ listed (m_bcc m).
(** One RCPT per recipient, in order, each answered 250. *)
Definition recipients_accepted (m : message) (l : list (str * str)) : Prop :=
  map fst l = map rcpt_line (recipients m) /\ Forall (answered "250") l.

(** The texts of a message contain no NUL: what the constructors of the library
    store, as they take C strings. *)
Definition no_nul (s : str) : Prop := ~ In NUL s.
Definition address_text_ok (a : address) : Prop := no_nul (a_email a) /\ no_nul (a_name a).
Definition attachment_text_ok (a : attachment) : Prop := no_nul (at_name a) /\ no_nul (at_cid a).
Record text_ok (m : message) : Prop := mkTextOk {
  to_from : address_text_ok (m_from m);
  to_rcpt : Forall address_text_ok (recipients m);
  to_subject : no_nul (m_subject m);
  to_body : no_nul (m_body m);
  to_atts : Forall attachment_text_ok (listed (m_atts m)) }.

(** ** Dialogues *)

(** Lines written before the mail: EHLO, STARTTLS, AUTH and the answers to the
    challenges of AUTH, which contain no space. *)
Definition connection_line (d : str) : Prop :=
  d = B "ehlo localhost" ++ CRLF \/ d = B "STARTTLS" ++ CRLF \/ starts_with (B "AUTH ") d \/ ~ In " "%char d.

(** The exchanges of a step that sends a mail: those of the connection, none
    when it is kept, then those of the mail. *)
Definition phases (kept : bool) (t : list event) (conn mail : list (str * str)) : Prop :=
  exchanges t = conn ++ mail /\ Forall connection_line (map fst conn) /\ (kept = true -> conn = []).

(** The dialogue of an accepted mail. *)
Definition accepted_mail (fs : filesystem) (m : message) (batch : bool) (l : list (str * str)) : Prop :=
  exists sender rcpts r1 lines r2,
    l = sender ++ rcpts ++ [(DATA_line, r1)] ++ silent lines ++ [(END_line, r2)] ++
        (if batch then [] else [(QUIT_line, [])]) /\
    sender_accepted (m_from m) sender /\ recipients_accepted m rcpts /\
    answered "354" (DATA_line, r1) /\ answered "250" (END_line, r2) /\
    concat lines = mail_text fs m.

(** The dialogue of a mail up to DATA: an accepted sender, accepted
    recipients. *)
Definition announced_mail (m : message) (l : list (str * str)) : Prop :=
  exists sender rcpts r1 rest,
    l = sender ++ rcpts ++ (DATA_line, r1) :: rest /\
    sender_accepted (m_from m) sender /\ recipients_accepted m rcpts /\ answered "354" (DATA_line, r1).

(** ** Parts of a mail *)

(** The message without its Bcc list. *)
Definition without_bcc (m : message) : message :=
  mkMsg (m_kind m) (m_from m) (m_to m) (m_cc m) (ANull 0) (m_subject m) (m_body m) (m_atts m).

(** [l'] is [l] with lines QUIT put in. *)
Inductive with_quits : list str -> list str -> Prop :=
| wq_nil : with_quits [] []
| wq_text : forall d l l', with_quits l l' -> with_quits (d :: l) (d :: l')
| wq_quit : forall l l', with_quits l l' -> with_quits l (QUIT_line :: l').

(** The header section of a text: its lines before the first empty one. *)
Fixpoint head_lines (ls : list str) : list str :=
  match ls with
  | [] | [] :: _ => []
  | l :: r => l :: head_lines r
  end.
(** Display names and subject are free of line breaks, the addresses were
    accepted. *)
Definition address_line_ok (a : address) : Prop := single_line (a_name a) /\ valid_address (a_email a).
Definition header_ok (m : message) : Prop :=
  single_line (m_subject m) /\ address_line_ok (m_from m) /\
  Forall address_line_ok (listed (m_to m)) /\ Forall address_line_ok (listed (m_cc m)).

(** The bytes the operating system accepted. *)
Definition accepted_bytes (ev : event) : str :=
  match ev with
  | EvSend _ d WFull | EvPuts _ d WFull => d
  | EvSend _ d (WPart n) | EvPuts _ d (WPart n) => firstn n d
  | _ => []
  end.
Definition transmitted (t : list event) : str := concat (map accepted_bytes t).
(** Every write was accepted in full. *)
Definition full_writes (t : list event) : Prop :=
  forall ev, In ev t -> match ev with EvSend _ _ r | EvPuts _ _ r => r = WFull | _ => True end.

(** [r] begins with the three digits of [code]. *)
Definition code_digits (code : Z) (r : str) : Prop :=
  exists c1 c2 c3 v1 v2 v3 rest, r = c1 :: c2 :: c3 :: rest /\ digit_value c1 v1 /\ digit_value c2 v2 /\ digit_value c3 v3 /\
    code = (100 * v1 + 10 * v2 + v3)%Z.
