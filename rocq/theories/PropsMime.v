(** C32, C33, C34: the text of the mail.  That this text is what the client
    writes is in PropsMail.v. *)

From Coq Require Import Ascii String List NArith ZArith Bool.
From Verif Require Import Base ModelAddress ModelAttachment ModelMessage SpecBase64 SpecReply SpecAddress
  SpecMime Samples ProofMime.
Import ListNotations.

(** C32 *)
Theorem C32_nothing_lost : forall body, concat (body_chunks body) = body.
Proof. exact (fun body => proj1 (body_chunks_spec body)). Qed.
Print Assumptions C32_nothing_lost.
Theorem C32_piece_sizes : forall body, body <> [] ->
  Forall (fun x => (1 <= length x <= 512)%nat) (body_chunks body).
Proof. exact (fun body => proj1 (proj2 (body_chunks_spec body))). Qed.
Print Assumptions C32_piece_sizes.
Theorem C32_short_body : forall body, (length body <= 512)%nat -> body_chunks body = [body].
Proof. exact (fun body => proj2 (proj2 (body_chunks_spec body))). Qed.
Print Assumptions C32_short_body.
Example C32_example : map (@length ascii) (body_chunks (repeat "a"%char 1025)) = [512; 512; 1]%nat.
Proof. reflexivity. Qed.

(** C33: with at least one attachment, names and content ids without line
    break, and no line of the text that looks like the delimiter, the parser
    finds the text (with one CRLF added) and every attachment.
    Missing: the other messages, for which it is false (below). *)
Theorem C33_multipart_partial : forall fs m atts text, m_atts m = AArr atts -> atts <> [] ->
  Forall (fun a => single_line (at_name a) /\ single_line (at_cid a)) atts ->
  Forall (fun l => ~ starts_with (B "--sep") l) (lines (m_body m)) ->
  body_real fs m = Done text ->
  exists parts, parse_multipart text = Some ((text_headers m, m_body m ++ CRLF) :: parts) /\
    Forall2 (fun a p => fst p = attachment_headers a /\
      forall contents, fs (at_file a) = Some contents -> (slen contents < 4294967296)%N ->
        mime_decode (snd p) = Some contents) atts parts.
Proof. exact multipart_recovered. Qed.
Print Assumptions C33_multipart_partial.

Example C33_example : exists text,
  body_real files (letter (B "one" ++ CRLF ++ B "two") (AArr [mkAtt (B "pic") (B "/a.png") (B "id1")])) = Done text /\
  parse_multipart text = Some
    [([B "Content-Type: text/plain; charset=UTF-8"], B "one" ++ CRLF ++ B "two" ++ CRLF);
     ([B "Content-Type: image/png; file=""pic"""; B "X-Attachment-Id: id1"; B "Content-ID: <id1>";
       B "Content-Disposition: attachment; filename=""pic"""; B "Content-Transfer-Encoding: base64"],
      B "SGVsbG8=")].
Proof. eexists. split; reflexivity. Qed.

(** Without attachment no close delimiter is sent: the parser never finds the
    end of the first part. *)
Theorem C33_no_attachment_refuted : forall fs m text, listed (m_atts m) = [] ->
  Forall (fun l => ~ starts_with (B "--sep") l) (lines (m_body m)) ->
  body_real fs m = Done text -> parse_multipart text = None.
Proof. exact no_close_delimiter. Qed.
Print Assumptions C33_no_attachment_refuted.
Example C33_no_attachment_example :
  exists text, body_real files (letter (B "hello") (ANull 0)) = Done text /\ parse_multipart text = None.
Proof. eexists. split; reflexivity. Qed.

(** A text containing the fixed delimiter adds a part. *)
Theorem C33_delimiter_in_text_refuted : exists body att text parts,
  body_real files (letter body (AArr [att])) = Done text /\ parse_multipart text = Some parts /\
  length parts <> 2%nat.
Proof. exact delimiter_in_text. Qed.
Print Assumptions C33_delimiter_in_text_refuted.

(** C34: the server reads the text back exactly when no line starts with a
    dot; [after] is whatever is sent later.
    Missing: the other texts, for which it is false. *)
Theorem C34_transparency_partial : forall text after,
  receive_data (text ++ CRLF ++ B "." ++ CRLF ++ after) = Some (lines text, lines after) <->
  Forall (fun l => ~ starts_with (B ".") l) (lines text).
Proof. exact transparency_iff. Qed.
Print Assumptions C34_transparency_partial.
Example C34_example : Forall (fun l => ~ starts_with (B ".") l)
  (lines (mail_text files (letter (B "Hello.") (ANull 0)))).
Proof.
  vm_compute. repeat constructor; intros [r H]; discriminate H.
Qed.

(** A body line consisting of a dot ends the mail; the rest of the body is
    read as commands. *)
Theorem C34_transparency_refuted : exists body,
  exists before commands,
  receive_data (mail_text files (letter body (ANull 0)) ++ CRLF ++ B "." ++ CRLF) = Some (before, commands) /\
  In (B "MAIL FROM:<mallory@example.com>") commands /\
  ~ In (B "bye") before.
Proof. exact dot_line_ends_mail. Qed.
Print Assumptions C34_transparency_refuted.
