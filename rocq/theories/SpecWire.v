(** What SMTP asks of the bytes of a mail: 7-bit text, lines ended by CRLF only,
    lines of at most 1000 bytes (RFC 5321, 2.3.8 and 4.5.3.1). *)

From Coq Require Import Ascii String List NArith ZArith Bool.
From Verif Require Import Base ModelAddress ModelAttachment ModelMessage SpecAddress SpecReply SpecText SpecMime.
Import ListNotations.

Definition seven_bit (s : str) : Prop := Forall ascii7 s.

(** The texts of the program that appear in a mail.  The contents of the
    attached files are not among them. *)
Definition address_texts (a : address) : list str := [a_email a; a_name a].
Definition header_texts (m : message) : list str :=
  flat_map address_texts (m_from m :: listed (m_to m) ++ listed (m_cc m)) ++ [m_subject m] ++
  flat_map (fun a => [at_name a; at_cid a]) (listed (m_atts m)).
Definition message_texts (m : message) : list str :=
  m_body m :: header_texts m ++ flat_map address_texts (listed (m_bcc m)).

Definition plain_message (m : message) : Prop := Forall seven_bit (message_texts m).

(** A piece of text without line breaks. *)
Definition unbroken (l : str) : Prop := ~ In CR l /\ ~ In LF l.
(** The line breaks of the body are CRLF, the other texts have none. *)
Definition even_message (m : message) : Prop :=
  Forall unbroken (header_texts m) /\ Forall unbroken (lines (m_body m)).

(** The lines of a text that is still being written, without the last one. *)
Definition completed (s : str) : list str := removelast (lines s).

(** A line of at most 1000 bytes, its CRLF included. *)
Definition fits (l : str) : Prop := (slen l <= 998)%N.
Definition short_texts (m : message) : Prop :=
  Forall fits (flat_map lines (header_fields m)) /\ Forall fits (lines (m_body m)) /\
  Forall (fun a => Forall fits (flat_map lines (attachment_headers a))) (listed (m_atts m)).

(** The file of an attachment, if it can be read, has at most [n] bytes. *)
Definition file_up_to (n : N) (fs : filesystem) (a : attachment) : Prop :=
  forall contents, fs (at_file a) = Some contents -> (slen contents <= n)%N.
