(** What "the same program written against the C API" means for the
    properties of the string API (C50): the same texts, handed to the C
    constructors as pointers, arrays with their length, and the same
    operations. *)

From Coq Require Import Ascii String List NArith ZArith Bool.
From Verif Require Import Base ModelUtil ModelAddress ModelAttachment ModelMessage ModelState ModelClient ModelWorld ModelCpp.
Import ListNotations.

Fixpoint all {A C} (f : A -> outcome C) (l : list A) : outcome (list C) :=
  match l with
  | [] => Done []
  | a :: r => obind (f a) (fun c => obind (all f r) (fun q => Done (c :: q)))
  end.

Definition c_addresses (l : list (str * str)) : outcome (list address) :=
  all (fun x => address_new (Some (fst x)) (Some (snd x))) l.
Definition c_attachments (l : list (str * str * str)) : outcome (list attachment) :=
  all (fun x => attachment_new (Some (fst (fst x))) (Some (snd (fst x))) (Some (snd x))) l.

(** The message a C program builds: every array is given with its length. *)
Definition c_message (t : mail_text) : outcome message :=
  obind (address_new (Some (fst (x_from t))) (Some (snd (x_from t)))) (fun from =>
  obind (c_addresses (x_to t)) (fun to =>
  obind (c_addresses (x_cc t)) (fun cc =>
  obind (c_addresses (x_bcc t)) (fun bcc =>
  obind (c_attachments (x_atts t)) (fun att =>
  Done (message_new (x_kind t) from (Some to) (length to) (Some (x_subject t)) (Some (x_body t))
          (Some cc) (length cc) (Some bcc) (length bcc) (Some att) (length att))))))).

Definition c_credential (user pass : str) (m : option authmethod) : outcome credential :=
  match m with
  | None => credential_new (Some user) (Some pass)
  | Some m => credential_new3 (Some user) (Some pass) m
  end.

(** One operation of the C program. *)
Definition c_step (o : cop) (w : world) : outcome Z * world :=
  match o with
  | PNew k server port => step (ONew k (Some server) port) w
  | PSend i t => given (c_message t) w (fun m => step (OSend i m) w)
  | PSetServer i server => step (OSetServer i (Some server)) w
  | PSetCred i user pass m =>
      match get_client w i with
      | None => (Throw, w)
      | Some _ => given (c_credential user pass m) w (fun cr => step (OSetCred i cr) w)
      end
  | POther o => step o w
  end.
Fixpoint c_run (ops : list cop) (w : world) : list (outcome Z) * world :=
  match ops with
  | [] => ([], w)
  | o :: r =>
      let '(x, w') := c_step o w in
      if continues x then let '(xs, w'') := c_run r w' in (x :: xs, w'')
      else ([x], w')
  end.

(** Every mail has a recipient. *)
Definition addressed (o : cop) : Prop := match o with PSend _ t => x_to t <> [] | _ => True end.

(** No method is recommended. *)
Definition no_method (o : cop) : Prop :=
  match o with PSetCred _ _ _ (Some m) => m = kImplicit | _ => True end.

(** No client of class SmtpClient is created. *)
Definition secure (o : cop) : Prop :=
  match o with PNew k _ _ => k <> KPlain | POther (ONew k _ _) => k <> KPlain | _ => True end.

(** No text contains a NUL character. *)
Definition plain_texts (t : mail_text) : Prop :=
  ~ In NUL (fst (x_from t)) /\ ~ In NUL (snd (x_from t)) /\
  Forall (fun x => ~ In NUL (fst x) /\ ~ In NUL (snd x)) (x_to t) /\
  Forall (fun x => ~ In NUL (fst x) /\ ~ In NUL (snd x)) (x_cc t) /\
  Forall (fun x => ~ In NUL (fst x) /\ ~ In NUL (snd x)) (x_bcc t) /\
  ~ In NUL (x_subject t) /\ ~ In NUL (x_body t) /\
  Forall (fun x => ~ In NUL (fst (fst x)) /\ ~ In NUL (snd (fst x)) /\ ~ In NUL (snd x)) (x_atts t).

(** Message [m] has exactly these texts. *)
Definition elements {A} (a : arr A) : list A := match a with ANull _ => [] | AArr l => l end.
Definition carries_texts (t : mail_text) (m : message) : Prop :=
  m_kind m = x_kind t /\ (a_email (m_from m), a_name (m_from m)) = x_from t /\
  map (fun a => (a_email a, a_name a)) (elements (m_to m)) = x_to t /\
  map (fun a => (a_email a, a_name a)) (elements (m_cc m)) = x_cc t /\
  map (fun a => (a_email a, a_name a)) (elements (m_bcc m)) = x_bcc t /\
  m_subject m = x_subject t /\ m_body m = x_body t /\
  map (fun a => (at_file a, at_name a, at_cid a)) (elements (m_atts m)) = x_atts t.

(** An optional recipient as a list. *)
Definition listed {A} (o : option A) : list A := match o with None => [] | Some a => [a] end.
