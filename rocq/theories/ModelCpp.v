(** Model of src/cpp: the classes of namespace jed_utils::cpp, which take
    std::string and std::vector and hand the data to the classes of the C API
    (ownership of their credential is in ModelHeap.v). *)

From Coq Require Import Ascii String List NArith ZArith Bool.
From Verif Require Import Base ModelUtil ModelBase64 ModelAddress ModelAttachment
  ModelErrors ModelReply ModelMessage ModelState ModelClient ModelWorld.
Import ListNotations.

(** [s.c_str()]: a pointer to the bytes, never null. *)
Definition c_str (s : str) : option str := Some s.

(** ** Addresses *)

(** cpp/messageaddress.cpp:6-9, constructor.  The class derives from
    jed_utils::MessageAddress and has no member of its own. *)
Definition cpp_address_new (email name : str) : outcome address :=
  address_new (c_str email) (c_str name).

(** cpp/messageaddress.cpp:11-21. *)
Definition cpp_address_str (a : address) : str := address_str a.
Definition cpp_getEmailAddress (a : address) : str := a_email a.
Definition cpp_getDisplayName (a : address) : str := a_name a.

(** cpp/messageaddress.cpp:23-26 [toStdMessageAddress]: constructed anew. *)
Definition toStdMessageAddress (a : address) : outcome address :=
  address_new (Some (a_email a)) (Some (a_name a)).

(** ** Attachments *)

(** cpp/attachment.cpp:5-7, constructor. *)
Definition cpp_attachment_new (file name cid : str) : outcome attachment :=
  attachment_new (c_str file) (c_str name) (c_str cid).

(** cpp/attachment.cpp:9-11. *)
Definition cpp_setContentId (a : attachment) (cid : str) : outcome attachment :=
  setContentId a (c_str cid).

(** cpp/attachment.cpp:13-23. *)
Definition cpp_getName (a : attachment) : str := at_name a.
Definition cpp_getFilename (a : attachment) : str := at_file a.
Definition cpp_getContentId (a : attachment) : str := at_cid a.

(** cpp/attachment.cpp:25-28: null becomes the empty string. *)
Definition cpp_getBase64EncodedFile (fs : filesystem) (a : attachment) : str :=
  match getBase64EncodedFile fs a with None => [] | Some s => cstr s end.

(** cpp/attachment.cpp:30-32. *)
Definition cpp_getMimeType (a : attachment) : str := getMimeType a.

(** cpp/attachment.cpp:34-38 [toStdAttachment]: constructed anew. *)
Definition toStdAttachment (a : attachment) : outcome attachment :=
  attachment_new (Some (at_file a)) (Some (at_name a)) (Some (at_cid a)).

(** ** Credentials *)

(** cpp/credential.cpp:5-7. *)
Definition cpp_credential_new (user pass : str) : outcome credential :=
  credential_new (c_str user) (c_str pass).
(** cpp/credential.cpp:9-13. *)
Definition cpp_credential_new3 (user pass : str) (m : authmethod) : outcome credential :=
  obind (cpp_credential_new user pass) (fun c => Done (setRecommendedAuthOption c m)).
(** cpp/credential.cpp:15-39. *)
Definition cpp_getUsername (c : credential) : str := cr_user c.
Definition cpp_getPassword (c : credential) : str := cr_pass c.
Definition cpp_setUsername (c : credential) (user : str) : outcome unit * credential :=
  setUsername c (c_str user).
Definition cpp_setPassword (c : credential) (pass : str) : outcome unit * credential :=
  setPassword c (c_str pass).

(** ** Messages *)

(** cpp/message.hpp: the members; the kind is the class, PlaintextMessage or
    HTMLMessage. *)
Record cpp_message := mkCM {
  q_kind : msgkind;
  q_from : address;
  q_to : list address;
  q_subject : str;
  q_body : str;
  q_cc : list address;
  q_bcc : list address;
  q_atts : list attachment }.

(** cpp/message.cpp:8-25, constructor: an empty list of recipients is
    refused. *)
Definition cpp_message_new (k : msgkind) (from : address) (to : list address) (subject body : str)
  (cc bcc : list address) (atts : list attachment) : outcome cpp_message :=
  match to with
  | [] => Throw
  | _ => Done (mkCM k from to subject body cc bcc atts)
  end.

(** [std::transform] with a function that may throw. *)
Fixpoint transform {A C} (f : A -> outcome C) (l : list A) : outcome (list C) :=
  match l with
  | [] => Done []
  | a :: r => obind (f a) (fun c => obind (transform f r) (fun q => Done (c :: q)))
  end.

(** cpp/message.cpp:71-87. *)
Definition getStdMessageAddressVec (l : list address) : outcome (list address) := transform toStdMessageAddress l.
Definition getStdAttachmentVec (l : list attachment) : outcome (list attachment) := transform toStdAttachment l.

(** What the C++ standard leaves to the implementation: whether [data()] of an
    empty vector is null, and whether the copy of the local variable that is
    returned is elided. *)
Record implementation := mkImpl { empty_null : bool; elides : bool }.

(** [v.data()]. *)
Definition vec_data {A} (im : implementation) (l : list A) : option (list A) :=
  match l with
  | [] => if empty_null im then None else Some []
  | _ => Some l
  end.

(** cpp/plaintextmessage.cpp:25-41 and cpp/htmlmessage.cpp:30-47: the
    conversion operators. *)
Definition toStdMessage (im : implementation) (m : cpp_message) : outcome message :=
  obind (getStdMessageAddressVec (q_to m)) (fun to =>
  obind (getStdMessageAddressVec (q_cc m)) (fun cc =>
  obind (getStdMessageAddressVec (q_bcc m)) (fun bcc =>
  obind (getStdAttachmentVec (q_atts m)) (fun att =>
  obind (toStdMessageAddress (q_from m)) (fun from =>
  let msg := message_new (q_kind m) from (vec_data im to) (length to)
               (c_str (q_subject m)) (c_str (q_body m))
               (vec_data im cc) (length cc) (vec_data im bcc) (length bcc)
               (vec_data im att) (length att) in
  if elides im then Done msg else message_copy msg))))).

(** ** Clients *)

(** cpp/smtpclient.cpp:50-53: the credential given to the base class drops the
    recommended method; cpp/opportunisticsecuresmtpclient.cpp:54-57 and
    cpp/forcedsecuresmtpclient.cpp:54-57 keep it. *)
Definition toStdCredential (k : clientkind) (c : credential) : outcome credential :=
  match k with
  | KPlain => credential_new (c_str (cr_user c)) (c_str (cr_pass c))
  | _ => credential_new3 (c_str (cr_user c)) (c_str (cr_pass c)) (cr_method c)
  end.

(** cpp/smtpclient.cpp:65-72 and the two secure clients: a buffer of 1024
    bytes ([junk] is its content), then its C string. *)
Definition cpp_getErrorMessage_r (code : Z) (junk : str) : outcome (Z * str) :=
  obind (getErrorMessage_r code (Some junk) 1024) (fun r =>
  Done (fst r, match snd r with Some b => cstr b | None => [] end)).
(** cpp/smtpclient.cpp:61-63. *)
Definition cpp_getErrorMessage (code : Z) : str := getErrorMessage code.

(** The text arguments of one mail, and the operations of a program written
    against the string API.  Objects are constructed where they are used. *)
Record mail_text := mkText {
  x_kind : msgkind;
  x_from : str * str;
  x_to : list (str * str);
  x_subject : str;
  x_body : str;
  x_cc : list (str * str);
  x_bcc : list (str * str);
  x_atts : list (str * str * str) }.

Inductive cop :=
| PNew (k : clientkind) (server : str) (port : N)
| PSend (i : nat) (t : mail_text)
| PSetServer (i : nat) (server : str)
| PSetCred (i : nat) (user pass : str) (m : option authmethod)
| POther (o : op).          (* the operations without text *)

Definition cpp_addresses (l : list (str * str)) : outcome (list address) :=
  transform (fun x => cpp_address_new (fst x) (snd x)) l.
Definition cpp_attachments (l : list (str * str * str)) : outcome (list attachment) :=
  transform (fun x => cpp_attachment_new (fst (fst x)) (snd (fst x)) (snd x)) l.

(** Building the objects, in the order a program names them. *)
Definition cpp_build (t : mail_text) : outcome cpp_message :=
  obind (cpp_address_new (fst (x_from t)) (snd (x_from t))) (fun from =>
  obind (cpp_addresses (x_to t)) (fun to =>
  obind (cpp_addresses (x_cc t)) (fun cc =>
  obind (cpp_addresses (x_bcc t)) (fun bcc =>
  obind (cpp_attachments (x_atts t)) (fun att =>
  cpp_message_new (x_kind t) from to (x_subject t) (x_body t) cc bcc att))))).

Definition cpp_cred (user pass : str) (m : option authmethod) : outcome credential :=
  match m with
  | None => cpp_credential_new user pass
  | Some m => cpp_credential_new3 user pass m
  end.

(** An operation that is not carried out because an argument could not be
    built. *)
Definition given {A} (o : outcome A) (w : world) (f : A -> outcome Z * world) : outcome Z * world :=
  match o with
  | Done a => f a
  | Throw => (Throw, w)
  | Undef u => (Undef u, w)
  | Blocked => (Blocked, w)
  | Killed => (Killed, w)
  | Diverge => (Diverge, w)
  end.

(** cpp/smtpclient.cpp:6-8 (constructor), 34-36 (setServerName), 50-55
    (setCredentials), 82-84 (sendMail); the same functions of the two secure
    clients. *)
Definition cpp_step (im : implementation) (o : cop) (w : world) : outcome Z * world :=
  match o with
  | PNew k server port => step (ONew k (c_str server) port) w
  | PSend i t =>
      given (obind (cpp_build t) (toStdMessage im)) w (fun m => step (OSend i m) w)
  | PSetServer i server => step (OSetServer i (c_str server)) w
  | PSetCred i user pass m =>
      match get_client w i with
      | None => (Throw, w)
      | Some c =>
          given (obind (cpp_cred user pass m) (toStdCredential (c_kind c))) w (fun cr => step (OSetCred i cr) w)
      end
  | POther o => step o w
  end.

Fixpoint cpp_run (im : implementation) (ops : list cop) (w : world) : list (outcome Z) * world :=
  match ops with
  | [] => ([], w)
  | o :: r =>
      let '(x, w') := cpp_step im o w in
      if continues x then let '(xs, w'') := cpp_run im r w' in (x :: xs, w'')
      else ([x], w')
  end.
