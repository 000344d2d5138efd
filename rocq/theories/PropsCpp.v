(** The string API of namespace jed_utils::cpp (C50, C66), the constructors for a
    single recipient (C65) and the comparison of addresses (C81). *)

From Coq Require Import Ascii String List NArith ZArith Bool Arith.
From Verif Require Import Base ModelUtil ModelBase64 ModelAddress ModelAttachment
  ModelErrors ModelReply ModelMessage ModelState ModelClient ModelWorld ModelCpp SpecBase64 SpecCpp Samples ProofCpp ProofCpp2.
Import ListNotations.
Open Scope nat_scope.

(** ** C50 *)

(** C50: an address, attachment or credential built from texts without NUL
    character gives these texts back, and its conversion to the class of the C
    API succeeds and changes nothing. *)
Theorem C50_address : forall e n a, ~ In NUL e -> ~ In NUL n -> cpp_address_new e n = Done a ->
  cpp_getEmailAddress a = e /\ cpp_getDisplayName a = n /\ toStdMessageAddress a = Done a.
Proof. exact address_text. Qed.
Print Assumptions C50_address.
Theorem C50_attachment : forall f n c a, ~ In NUL f -> ~ In NUL n -> ~ In NUL c -> cpp_attachment_new f n c = Done a ->
  cpp_getFilename a = f /\ cpp_getName a = n /\ cpp_getContentId a = c /\ toStdAttachment a = Done a.
Proof. exact attachment_text_kept. Qed.
Print Assumptions C50_attachment.
Theorem C50_credential : forall u p m c, ~ In NUL u -> ~ In NUL p -> cpp_credential_new3 u p m = Done c ->
  cpp_getUsername c = u /\ cpp_getPassword c = p /\ cr_method c = m.
Proof. exact credential_text. Qed.
Print Assumptions C50_credential.
(** C50: a message built from texts without NUL character is converted to a
    message of the C API with exactly these texts, in the same order. *)
Theorem C50_message : forall im t q, plain_texts t -> cpp_build t = Done q ->
  exists m, toStdMessage im q = Done m /\ carries_texts t m.
Proof. exact converted_text. Qed.
Print Assumptions C50_message.
(** C50: a program written against the string API has the results and the
    network traffic of the same program written against the C API, for any
    texts, if every mail has a recipient and either there are only secure
    clients or no method is recommended. *)
Theorem C50_same_run_secure : forall im e ops, Forall addressed ops -> Forall secure ops ->
  cpp_run im ops (initial_world e) = c_run ops (initial_world e).
Proof. exact cpp_same_secure. Qed.
Print Assumptions C50_same_run_secure.
Theorem C50_same_run_partial : forall im e ops, Forall addressed ops -> Forall no_method ops ->
  cpp_run im ops (initial_world e) = c_run ops (initial_world e).
Proof. exact cpp_same_plain. Qed.
Print Assumptions C50_same_run_partial.
(** C50 fails for SmtpClient: setCredentials drops the recommended method, and
    the client logs in differently. *)
Theorem C50_recommended_method_refuted : exists im e ops, Forall addressed ops /\
  w_trace (snd (cpp_run im ops (initial_world e))) <> w_trace (snd (c_run ops (initial_world e))).
Proof. exact plain_client_drops. Qed.
Print Assumptions C50_recommended_method_refuted.

(** C50: the setters of the string API store a text without NUL character and
    change nothing else. *)
Theorem C50_setUsername : forall c u c', ~ In NUL u -> cpp_setUsername c u = (Done tt, c') ->
  cpp_getUsername c' = u /\ cpp_getPassword c' = cpp_getPassword c /\ cr_method c' = cr_method c.
Proof. exact set_username. Qed.
Print Assumptions C50_setUsername.
Theorem C50_setPassword : forall c p c', ~ In NUL p -> cpp_setPassword c p = (Done tt, c') ->
  cpp_getPassword c' = p /\ cpp_getUsername c' = cpp_getUsername c /\ cr_method c' = cr_method c.
Proof. exact set_password. Qed.
Print Assumptions C50_setPassword.
Theorem C50_setContentId : forall a id, ~ In NUL id ->
  exists a', cpp_setContentId a id = Done a' /\ cpp_getContentId a' = id /\
    cpp_getName a' = cpp_getName a /\ cpp_getFilename a' = cpp_getFilename a.
Proof. exact set_content_id. Qed.
Print Assumptions C50_setContentId.
(** C50: an address is shown as a text as it was given. *)
Theorem C50_address_shown : forall e n a, ~ In NUL e -> ~ In NUL n -> cpp_address_new e n = Done a ->
  cpp_address_str a = match n with [] => e | _ => n ++ B " <" ++ e ++ B ">" end.
Proof. exact shown_address. Qed.
Print Assumptions C50_address_shown.
(** C50: the encoded file decodes (RFC 2045) to the contents of the file; it is
    empty when the file cannot be opened. *)
Theorem C50_encoded_file : forall fs a,
  match fs (cpp_getFilename a) with
  | None => cpp_getBase64EncodedFile fs a = []
  | Some contents => (slen contents < 4294967296)%N -> mime_decode (cpp_getBase64EncodedFile fs a) = Some contents
  end.
Proof. exact encoded_file. Qed.
Print Assumptions C50_encoded_file.
Example C50_setters_example :
  (exists c', cpp_setUsername (mkCred (B "joe") (B "secret") kLogin) (B "jane") = (Done tt, c')) /\
  (exists c', cpp_setPassword (mkCred (B "joe") (B "secret") kLogin) (B " ") = (Done tt, c')) /\
  cpp_address_str (mkAddr (B "joe@example.com") (B "Joe")) = B "Joe <joe@example.com>" /\
  cpp_getBase64EncodedFile (fun f => if str_eqb f (B "a.txt") then Some (B "Hello") else None)
    (mkAtt (B "a") (B "a.txt") []) = B "SGVsbG8=" /\
  cpp_getMimeType (mkAtt (B "a") (B "a.txt") []) = B "text/plain".
Proof. split; [ eexists; vm_compute; reflexivity | ]. split; [ eexists; vm_compute; reflexivity | ]. repeat split; reflexivity. Qed.

(** ** C65: the constructors for a single recipient *)

(** C65: a message constructed for one recipient has exactly that recipient,
    at most one Cc and one Bcc recipient, and the given attachments. *)
Theorem C65_single_recipient : forall k from to subject body cc bcc atts,
  let m := message_new1 k from to subject body cc bcc (Some atts) (length atts) in
  m_kind m = k /\ m_from m = from /\ elements (m_to m) = [to] /\ elements (m_cc m) = listed cc /\
  elements (m_bcc m) = listed bcc /\ elements (m_atts m) = atts /\
  arr_count (m_cc m) = length (listed cc) /\ arr_count (m_bcc m) = length (listed bcc) /\
  arr_count (m_to m) = 1 /\ arr_count (m_atts m) = length atts.
Proof. exact single_elements. Qed.
Print Assumptions C65_single_recipient.
(** C65: it is sent exactly as the message constructed with arrays of these
    recipients. *)
Theorem C65_single_recipient_sent : forall k from to subject body cc bcc atts i w,
  step (OSend i (message_new1 k from to subject body cc bcc (Some atts) (length atts))) w =
  step (OSend i (message_new k from (Some [to]) 1 subject body (Some (listed cc)) (length (listed cc))
       (Some (listed bcc)) (length (listed bcc)) (Some atts) (length atts))) w.
Proof. exact single_sent. Qed.
Print Assumptions C65_single_recipient_sent.
Example C65_single_example :
  let m := message_new1 Html joe jane (Some (B "Hi")) None (Some joe) None (Some []) 0 in
  elements (m_cc m) = [joe] /\ elements (m_bcc m) = [] /\ m_subject m = B "Hi" /\ m_body m = [] /\
  result [ONew KPlain server 25; OSend 0 m] (wire (hello ++ said "250 ok" ++ mail_replies))
  = [Done 0%Z; Done 0%Z].
Proof. vm_compute. repeat split; reflexivity. Qed.

(** ** C81 *)

(** C81: two addresses compare equal exactly when they were given the same
    e-mail address and the same display name (letter case included). *)
Theorem C81_comparison : forall e n a e' n' b,
  address_new (Some e) (Some n) = Done a -> address_new (Some e') (Some n') = Done b ->
  ~ In NUL e -> ~ In NUL n -> ~ In NUL e' -> ~ In NUL n' ->
  (address_eqb a b = true <-> e = e' /\ n = n').
Proof. exact same_address. Qed.
Print Assumptions C81_comparison.
Example C81_example : exists a b c,
  address_new (Some (B "joe@example.com")) (Some (B "Joe")) = Done a /\
  address_new (Some (B "joe@example.com")) (Some (B "joe")) = Done b /\
  address_new (Some (B "Joe@example.com")) (Some (B "Joe")) = Done c /\
  address_eqb a a = true /\ address_eqb a b = false /\ address_eqb a c = false.
Proof. do 3 eexists. split; [ vm_compute; reflexivity | ]. split; [ vm_compute; reflexivity | ]. split; [ vm_compute; reflexivity | ]. repeat split; reflexivity. Qed.

Example C50_text_example :
  plain_texts sample_text /\ (exists q, cpp_build sample_text = Done q) /\
  (exists a, cpp_address_new (B "joe@example.com") (B "Joe") = Done a) /\
  (exists a, cpp_attachment_new (B "/a.png") (B "a.png") (B "") = Done a) /\
  (exists c, cpp_credential_new3 (B "joe") (B "secret") kLogin = Done c).
Proof.
  split.
  { assert (X : forall s, forallb (fun c => negb (Ascii.eqb c NUL)) s = true -> ~ In NUL s).
    { intros s H I. rewrite forallb_forall in H. specialize (H _ I). now rewrite Ascii.eqb_refl in H. }
    unfold plain_texts. cbn [x_from x_to x_cc x_bcc x_subject x_body x_atts sample_text fst snd].
    repeat split; try (apply X; reflexivity); repeat constructor; apply X; reflexivity. }
  split; [ eexists; vm_compute; reflexivity | ]. repeat split; eexists; vm_compute; reflexivity.
Qed.

(** A forced client with a recommendation sends a mail; the run does not stop
    early. *)
Definition forced_env : env :=
  tls_wire [] (said "220 ready" ++ [RData (B "250-AUTH LOGIN XOAUTH2 PLAIN" ++ CRLF ++ B "250 ok" ++ CRLF); RErr 11] ++
    said "235 ok" ++ said "250 ok" ++ said "250 ok" ++ said "250 ok" ++ said "250 ok" ++ said "354 go" ++ said "250 queued")
    [good_tls].
Example C50_run_example : Forall addressed (recommending KForced) /\ Forall secure (recommending KForced) /\
  fst (cpp_run (mkImpl true false) (recommending KForced) (initial_world forced_env)) = repeat (Done 0%Z) 4.
Proof. split; [ repeat constructor; discriminate | ]. split; [ repeat constructor; discriminate | ]. vm_compute. reflexivity. Qed.

(** ** C66 *)

(** C66: getErrorMessage_r of the string API yields the whole message of the
    code, and 0, for every code. *)
Theorem C66_error_message : forall code junk, slen junk = 1024%N ->
  cpp_getErrorMessage_r code junk = Done (0%Z, cpp_getErrorMessage code).
Proof. exact cpp_error_message. Qed.
Print Assumptions C66_error_message.

Example C66_example : slen (repeat "x"%char 1024) = 1024%N /\
  cpp_getErrorMessage (-1)%Z <> [].
Proof. split; [ reflexivity | vm_compute; discriminate ]. Qed.
