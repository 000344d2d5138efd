(** Lines, multipart messages, SMTP data transparency, and the text of a mail,
    described independently of the code. *)

From Coq Require Import Ascii String List NArith ZArith Bool.
From Verif Require Import Base ModelAddress ModelAttachment ModelMessage SpecAddress SpecReply.
Import ListNotations.

(** The CRLF-separated lines of a text ([lines []] is one empty line). *)
Fixpoint lines_from (cur s : str) : list str :=
  match s with
  | [] => [cur]
  | c :: r =>
      match r with
      | d :: r' => if Ascii.eqb c CR && Ascii.eqb d LF then cur :: lines_from [] r'
                   else lines_from (cur ++ [c]) r
      | [] => [cur ++ [c]]
      end
  end.
Definition lines (s : str) : list str := lines_from [] s.

(** ** Multipart (RFC 2046, boundary "sep") *)

(** The parts as lists of lines; [None] when the close delimiter is missing.
    [cur] is the part being read ([None] in the preamble). *)
Fixpoint parts_from (cur : option (list str)) (ls : list str) : option (list (list str)) :=
  match ls with
  | [] => None
  | l :: r =>
      let done := match cur with Some p => [p] | None => [] end in
      if prefixb (B "--sep--") l then Some done
      else if prefixb (B "--sep") l then option_map (app done) (parts_from (Some []) r)
      else parts_from (option_map (fun p => p ++ [l]) cur) r
  end.

(** Header fields and content of one part. *)
Fixpoint split_part (ls : list str) : option (list str * str) :=
  match ls with
  | [] => None
  | [] :: r => Some ([], join CRLF r)
  | h :: r => option_map (fun p => (h :: fst p, snd p)) (split_part r)
  end.

Fixpoint all_some {A} (l : list (option A)) : option (list A) :=
  match l with
  | [] => Some []
  | Some x :: r => option_map (cons x) (all_some r)
  | None :: _ => None
  end.

Definition parse_multipart (s : str) : option (list (list str * str)) :=
  match parts_from None (lines s) with
  | None => None
  | Some ps => all_some (map split_part ps)
  end.

(** ** SMTP data (RFC 5321 4.5.2) *)

(** A leading dot is removed by the receiver. *)
Definition unstuff (l : str) : str :=
  match l with
  | c :: r => if Ascii.eqb c "."%char then r else l
  | [] => []
  end.

(** What a server reads after DATA: the lines up to a line consisting of a
    single dot, and the lines after it. *)
Fixpoint receive_lines (ls : list str) : option (list str * list str) :=
  match ls with
  | [] => None
  | l :: r =>
      if str_eqb l (B ".") then Some ([], r)
      else option_map (fun p => (unstuff l :: fst p, snd p)) (receive_lines r)
  end.
Definition receive_data (stream : str) : option (list str * list str) := receive_lines (lines stream).

(** ** The text of a mail *)

Definition listed {A} (a : arr A) : list A := match a with ANull _ => [] | AArr l => l end.

(** A message whose arrays are as announced: no null pointer with a positive
    count. *)
Definition well_formed {A} (a : arr A) : Prop := a <> ANull 0 -> exists l, a = AArr l.
Definition message_ok (m : message) : Prop :=
  well_formed (m_to m) /\ well_formed (m_cc m) /\ well_formed (m_atts m).

Definition show_address (a : address) : str :=
  match a_name a with
  | [] => a_email a
  | n => n ++ B " <" ++ a_email a ++ B ">"
  end.

Definition address_field (name : str) (l : list address) : list str :=
  match l with
  | [] => []
  | _ => [name ++ B ": " ++ join (B ", ") (map show_address l)]
  end.

Definition header_fields (m : message) : list str :=
  [B "From: " ++ show_address (m_from m)] ++
  address_field (B "To") (listed (m_to m)) ++
  address_field (B "Cc") (listed (m_cc m)) ++
  [B "Subject: " ++ m_subject m; B "Content-Type: multipart/related; boundary=sep"].

Definition text_headers (m : message) : list str :=
  [B "Content-Type: " ++ (match m_kind m with Plaintext => B "text/plain" | Html => B "text/html" end)
   ++ B "; charset=UTF-8"].
Definition text_lines (m : message) : list str :=
  [B "--sep"] ++ text_headers m ++ [[]; m_body m; []].

Definition attachment_headers (a : attachment) : list str :=
  [B "Content-Type: " ++ getMimeType a ++ B "; file=""" ++ at_name a ++ B """"] ++
  (match at_cid a with
   | [] => [B "Content-Disposition: Inline; filename=""" ++ at_name a ++ B """"]
   | cid => [B "X-Attachment-Id: " ++ cid; B "Content-ID: <" ++ cid ++ B ">";
             B "Content-Disposition: attachment; filename=""" ++ at_name a ++ B """"]
   end) ++
  [B "Content-Transfer-Encoding: base64"].
Definition file_text (fs : filesystem) (a : attachment) : str :=
  match getBase64EncodedFile fs a with Some t => t | None => [] end.
Definition attachment_lines (fs : filesystem) (a : attachment) : list str :=
  [B "--sep"] ++ attachment_headers a ++ [[]; file_text fs a].

Definition body_lines (fs : filesystem) (m : message) : list str :=
  text_lines m ++
  match listed (m_atts m) with
  | [] => []
  | l => flat_map (attachment_lines fs) l ++ [B "--sep--"]
  end.
Definition body_text (fs : filesystem) (m : message) : str := join CRLF (body_lines fs m).

(** Header section (ends with an empty line) and complete text. *)
Definition header_text (m : message) : str := concat (map (fun l => l ++ CRLF) (header_fields m)) ++ CRLF.
Definition mail_text (fs : filesystem) (m : message) : str := header_text m ++ body_text fs m.
