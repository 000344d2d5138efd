(** Model of src/credential.cpp and src/message.cpp, src/plaintextmessage.cpp,
    src/htmlmessage.cpp (values; ownership is in ModelHeap.v), and of the text
    rendering functions of src/smtpclientbase.cpp. *)

From Coq Require Import Ascii String List NArith ZArith Bool.
From Verif Require Import Base ModelUtil ModelBase64 ModelAddress ModelAttachment.
Import ListNotations.

(** ** Credential *)

(** credential.h: enum RecommendedAuthenticationMethod. *)
Inductive authmethod :=
| kImplicit | kPlain | kLogin | kXOauth2 | kPlainClientToken | kOAuthBearer | kXOAuth.

Record credential := mkCred { cr_user : str; cr_pass : str; cr_method : authmethod }.

(** credential.cpp:9-31, constructor; [None] = null pointer. *)
Definition credential_new (user pass : option str) : outcome credential :=
  obind (null_or_blank user) (fun bad =>
  if bad then Throw
  else match pass with
       | None => Throw
       | Some p0 =>
           match cstr p0 with
           | [] => Throw
           | p => Done (mkCred (match user with Some u => cstr u | None => [] end) p kImplicit)
           end
       end).

(** credential.cpp:54-58, constructor with a recommended method. *)
Definition credential_new3 (user pass : option str) (m : authmethod) : outcome credential :=
  obind (credential_new user pass) (fun c => Done (mkCred (cr_user c) (cr_pass c) m)).

(** The setters return the object after the call; when they throw the object
    is the one given (nothing was assigned before the throw). *)
(** credential.cpp:124-135 [setUsername]. *)
Definition setUsername (c : credential) (user : option str) : outcome unit * credential :=
  match null_or_blank user with
  | Done true => (Throw, c)
  | Done false => (Done tt, mkCred (match user with Some u => cstr u | None => [] end)
                                   (cr_pass c) (cr_method c))
  | Throw => (Throw, c)
  | Undef u => (Undef u, c)
  | Blocked => (Blocked, c)
  | Killed => (Killed, c)
  | Diverge => (Diverge, c)
  end.

(** credential.cpp:137-147 [setPassword]. *)
Definition setPassword (c : credential) (pass : option str) : outcome unit * credential :=
  match pass with
  | None => (Throw, c)
  | Some p0 => match cstr p0 with
               | [] => (Throw, c)
               | p => (Done tt, mkCred (cr_user c) p (cr_method c))
               end
  end.

(** credential.cpp:149-152 [setRecommendedAuthOption]. *)
Definition setRecommendedAuthOption (c : credential) (m : authmethod) : credential :=
  mkCred (cr_user c) (cr_pass c) m.

(** ** Message *)

(** An array member of Message: the pointer (null or an array whose length is
    the count) together with its count.  message.cpp:35-43 stores the count
    even when the pointer stays null. *)
Inductive arr (A : Type) : Type :=
| ANull (count : nat)
| AArr (l : list A).
Arguments ANull {A} count.
Arguments AArr {A} l.

Definition arr_count {A} (a : arr A) : nat :=
  match a with ANull n => n | AArr l => length l end.

(** plaintextmessage.cpp / htmlmessage.cpp: the concrete message class. *)
Inductive msgkind := Plaintext | Html.

(** plaintextmessage.cpp and htmlmessage.cpp [getMimeType]. *)
Definition msg_mime (k : msgkind) : str :=
  match k with Plaintext => B "text/plain" | Html => B "text/html" end.

(** message.h: the members.  A moved-from message (null subject/body) is not a
    value of this type; it is covered by the ownership model. *)
Record message := mkMsg {
  m_kind : msgkind;
  m_from : address;
  m_to : arr address;
  m_cc : arr address;
  m_bcc : arr address;
  m_subject : str;
  m_body : str;
  m_atts : arr attachment }.

(** message.cpp:62-88: copying an argument array of [count] elements.  [None]
    is a null pointer: the member stays null, the count is kept. *)
Definition arr_new {A} (p : option (list A)) (count : nat) : arr A :=
  match p with
  | None => ANull count
  | Some l => AArr (firstn count l)
  end.

(** message.cpp:22-89, constructor (arrays must have at least the announced
    number of elements: the caller's obligation). *)
Definition message_new (k : msgkind) (from : address)
  (to : option (list address)) (nto : nat)
  (subject body : option str)
  (cc : option (list address)) (ncc : nat)
  (bcc : option (list address)) (nbcc : nat)
  (atts : option (list attachment)) (natts : nat) : message :=
  mkMsg k from (arr_new to nto) (arr_new cc ncc) (arr_new bcc nbcc)
    (match subject with None => [] | Some s => cstr s end)
    (match body with None => [] | Some s => cstr s end)
    (arr_new atts natts).

(** message.cpp:8-20, single-recipient constructor. *)
Definition message_new1 (k : msgkind) (from to : address) (subject body : option str)
  (cc bcc : option address) (atts : option (list attachment)) (natts : nat) : message :=
  message_new k from (Some [to]) 1 subject body
    (option_map (fun a => [a]) cc) (match cc with Some _ => 1 | None => 0 end)
    (option_map (fun a => [a]) bcc) (match bcc with Some _ => 1 | None => 0 end)
    atts natts.

(** message.cpp:151-181: copying one array member in the copy constructor.
    With count > 0 and a null pointer it dereferences null. With count = 0 the
    new pointer stays null. *)
Definition arr_copy {A} (a : arr A) : outcome (arr A) :=
  match a with
  | ANull O => Done (ANull 0)
  | ANull (S _) => Undef (UB_NullDeref PArray)
  | AArr [] => Done (ANull 0)
  | AArr l => Done (AArr l)
  end.

(** message.cpp:131-182, copy constructor. *)
Definition message_copy (m : message) : outcome message :=
  obind (arr_copy (m_to m)) (fun t =>
  obind (arr_copy (m_cc m)) (fun c =>
  obind (arr_copy (m_bcc m)) (fun b =>
  obind (arr_copy (m_atts m)) (fun a =>
  Done (mkMsg (m_kind m) (m_from m) t c b (m_subject m) (m_body m) a))))).

(** ** Rendering *)

(** smtpclientbase.cpp:1047-1063: one attachment. *)
Definition attachment_text (fs : filesystem) (a : attachment) : str :=
  CRLF ++ B "--sep" ++ CRLF ++
  B "Content-Type: " ++ getMimeType a ++ B "; file=""" ++ at_name a ++ B """" ++ CRLF ++
  (match at_cid a with
   | [] =>
       B "Content-Disposition: Inline; filename=""" ++ at_name a ++ B """" ++ CRLF
   | cid =>
       B "X-Attachment-Id: " ++ cid ++ CRLF ++
       B "Content-ID: <" ++ cid ++ B ">" ++ CRLF ++
       B "Content-Disposition: attachment; filename=""" ++ at_name a ++ B """" ++ CRLF
   end) ++
  B "Content-Transfer-Encoding: base64" ++ CRLF ++ CRLF ++
  (match getBase64EncodedFile fs a with
   | None => []
   | Some b64 => cstr b64
   end).

(** smtpclientbase.cpp:1045-1066 [createAttachmentsText]. *)
Fixpoint attachments_loop (fs : filesystem) (l : list attachment) : str :=
  match l with
  | [] => CRLF ++ B "--sep--"
  | a :: r => attachment_text fs a ++ attachments_loop fs r
  end.
Definition createAttachmentsText (fs : filesystem) (l : list attachment) : str :=
  attachments_loop fs l.

(** smtpclientbase.cpp:961-963: the text part of the body. *)
Definition body_text_part (m : message) : str :=
  B "--sep" ++ CRLF ++ B "Content-Type: " ++ msg_mime (m_kind m) ++
  B "; charset=UTF-8" ++ CRLF ++ CRLF ++ m_body m ++ CRLF.

(** smtpclientbase.cpp:961-973: the complete body.  Line 969 builds a vector
    from the array: a null pointer with a positive count is dereferenced. *)
Definition body_real (fs : filesystem) (m : message) : outcome str :=
  match m_atts m with
  | ANull O => Done (body_text_part m)
  | ANull (S _) => Undef (UB_NullDeref PArray)
  | AArr [] => Done (body_text_part m)
  | AArr l => Done (body_text_part m ++ createAttachmentsText fs l)
  end.

(** smtpclientbase.cpp:978-987: the pieces, with the code's own index
    arithmetic ([index_start + 512 > length - 1] chooses the last piece). The
    fuel bounds the number of pieces by the length of the body. *)
Fixpoint chunk_loop (fuel : nat) (body : str) (index_start : nat) : list str :=
  match fuel with
  | O => []
  | S f =>
      if (index_start <? length body)%nat then
        let len := if (length body - 1 <? index_start + 512)%nat
                   then (length body - index_start)%nat else 512%nat in
        substr body index_start len :: chunk_loop f body (index_start + 512)
      else []
  end.

(** smtpclientbase.cpp:975-993: the list of texts written for the body. *)
Definition body_chunks (body : str) : list str :=
  if (512 <? length body)%nat then chunk_loop (S (length body)) body 0 else [body].

(** smtpclientbase.cpp:844-846: the three MAIL FROM formats. *)
Definition mail_formats (from : address) : list str :=
  [ B "MAIL FROM: <" ++ a_email from ++ B ">" ++ CRLF;
    B "MAIL FROM: <" ++ a_name from ++ B " " ++ a_email from ++ B ">" ++ CRLF;
    B "MAIL FROM: " ++ a_email from ++ CRLF ].

(** smtpclientbase.cpp:887. *)
Definition rcpt_command (a : address) : str :=
  B "RCPT TO: <" ++ a_email a ++ B ">" ++ CRLF.

(** smtpclientbase.cpp:954. *)
Definition header_line (field value : str) : str := field ++ B ": " ++ value ++ CRLF.
