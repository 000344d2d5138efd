(** C05, C06, C10, C11: text utilities and validation of names. *)

From Coq Require Import Ascii String List NArith ZArith Bool.
From Verif Require Import Base ModelUtil ModelMessage ModelState ModelWorld SpecText ProofText.
Import ListNotations.

(** C05: trim returns [t] exactly when the text is white space, then [t] (with
    visible ASCII characters at both ends, or empty), then white space. *)
Theorem C05_trim : forall s t : str,
  trim s = Done t <->
  exists l r, s = l ++ t ++ r /\ Forall is_ws l /\ Forall is_ws r /\
              begins solid t /\ ends solid t.
Proof. exact trim_spec. Qed.
Print Assumptions C05_trim.

Theorem C05_trim_left : forall s t : str,
  trimLeft s = Done t <-> exists l, s = l ++ t /\ Forall is_ws l /\ begins solid t.
Proof. exact trimLeft_spec. Qed.
Print Assumptions C05_trim_left.

Theorem C05_trim_right : forall s t : str,
  trimRight s = Done t <-> exists r, s = t ++ r /\ Forall is_ws r /\ ends solid t.
Proof. exact trimRight_spec. Qed.
Print Assumptions C05_trim_right.

(** C05: trim is defined unless the first or the last character that is not
    white space is a byte >= 128, in which case isspace() gets a negative
    argument. *)
Theorem C05_trim_defined : forall s : str,
  (exists t, trim s = Done t) \/
  (trim s = Undef UB_IsspaceNegative /\
   exists l c r, s = l ++ c :: r /\ (128 <= code c)%N /\ (Forall is_ws l \/ Forall is_ws r)).
Proof. exact trim_defined. Qed.
Print Assumptions C05_trim_defined.

Example C05_example :
  trim (B "  a b" ++ [LF; CR]) = Done (B "a b") /\ trim (B "   ") = Done [] /\
  trim [" "%char; ascii_of_nat 233] = Undef UB_IsspaceNegative.
Proof. repeat split; reflexivity. Qed.

(** C06 *)
Theorem C06_case_conversion : forall s : str,
  Forall2 (case_mapped upper_letters lower_letters) s (toLower s) /\
  Forall2 (case_mapped lower_letters upper_letters) s (toUpper s) /\
  toLower (toLower s) = toLower s /\ toUpper (toUpper s) = toUpper s /\
  toLower (toUpper s) = toLower s /\ toUpper (toLower s) = toUpper s /\
  length (toLower s) = length s /\ length (toUpper s) = length s.
Proof. exact case_conversion. Qed.
Print Assumptions C06_case_conversion.

Example C06_example :
  toLower (B "Ab-Z[9") = B "ab-z[9" /\ toUpper (B "Ab-z{9") = B "AB-Z{9".
Proof. split; reflexivity. Qed.

(** C10: the constructor accepts exactly usable user names and passwords. *)
Theorem C10_credential_constructor_partial : forall (user pass : option str) (m : authmethod),
  outer_ascii user ->
  (usable user /\ usable_password pass /\
   credential_new3 user pass m = Done (mkCred (ptext user) (ptext pass) m)) \/
  (~ (usable user /\ usable_password pass) /\ credential_new3 user pass m = Throw).
Proof. exact credential_new_spec. Qed.
Print Assumptions C10_credential_constructor_partial.

(** C10: any sequence of setter calls (with user names whose outer
    characters are ASCII) succeeds or throws
    call by call as specified, and leaves the last accepted values. *)
Theorem C10_credential_history_partial : forall (ops : list cred_call) (c : credential),
  Forall (fun o => match o with CallUser p => outer_ascii p | _ => True end) ops ->
  history c ops (fst (calls c ops)) (snd (calls c ops)).
Proof. exact calls_history. Qed.
Print Assumptions C10_credential_history_partial.

(** C10: whatever the calls, a credential always holds a user name with a
    visible character and a non-empty password. *)
Theorem C10_credential_always_valid : forall user pass m c ops,
  credential_new3 user pass m = Done c -> valid_credential (snd (calls c ops)).
Proof. exact calls_always_valid. Qed.
Print Assumptions C10_credential_always_valid.

Example C10_example :
  exists c, credential_new3 (Some (B "joe")) (Some (B "secret")) kLogin = Done c /\
  calls c [CallUser (Some (B "  ")); CallPassword (Some (B "p2")); CallUser None; CallMethod kPlain]
  = ([Throw; Done tt; Throw; Done tt], mkCred (B "joe") (B "p2") kPlain).
Proof. eexists. split; reflexivity. Qed.

(** C10: the user names left out above are exactly those for which the check
    itself is undefined behaviour. *)
Theorem C10_undefined_exactly :
  (forall user pass m, credential_new3 user pass m = Undef UB_IsspaceNegative <-> ~ outer_ascii user) /\
  (forall c p, fst (setUsername c p) = Undef UB_IsspaceNegative <-> ~ outer_ascii p).
Proof. exact undefined_users. Qed.
Print Assumptions C10_undefined_exactly.

(** A user name starting with a byte >= 128 reaches undefined behaviour: the
    claim without the ASCII hypothesis is false of the model. *)
Theorem C10_non_ascii_user_refuted : exists user pass,
  usable (Some user) /\ usable_password (Some pass) /\
  credential_new3 (Some user) (Some pass) kImplicit = Undef UB_IsspaceNegative.
Proof. exact non_ascii_user. Qed.
Print Assumptions C10_non_ascii_user_refuted.

(** C11: server names. *)
(** Like a user name, a server name starting with a byte >= 128 reaches
    undefined behaviour, in the constructor and in the setter. *)
Theorem C11_non_ascii_name_refuted : exists name, usable (Some name) /\
  (forall k port, client_new k (Some name) port = Undef UB_IsspaceNegative) /\
  (forall c, client_setServerName c (Some name) = Undef UB_IsspaceNegative).
Proof. exact non_ascii_server. Qed.
Print Assumptions C11_non_ascii_name_refuted.

Theorem C11_server_name_constructor_partial : forall k p port, outer_ascii p ->
  (usable p /\ exists c, client_new k p port = Done c /\ c_server c = Some (ptext p) /\
                         c_port c = u32 port /\ c_kind c = k /\ c_conn c = false) \/
  (~ usable p /\ client_new k p port = Throw).
Proof. exact client_new_spec. Qed.
Print Assumptions C11_server_name_constructor_partial.

Theorem C11_server_name_setter_partial : forall c p, outer_ascii p ->
  (usable p /\ client_setServerName c p = Done (set_server (Some (ptext p)) c)) \/
  (~ usable p /\ client_setServerName c p = Throw).
Proof. exact setServerName_spec. Qed.
Print Assumptions C11_server_name_setter_partial.

(** C11: the names left out above are exactly those for which the check itself
    is undefined behaviour. *)
Theorem C11_undefined_exactly :
  (forall k p port, client_new k p port = Undef UB_IsspaceNegative <-> ~ outer_ascii p) /\
  (forall c p, client_setServerName c p = Undef UB_IsspaceNegative <-> ~ outer_ascii p).
Proof. exact undefined_servers. Qed.
Print Assumptions C11_undefined_exactly.

Example C11_example :
  (exists c, client_new KOpp (Some (B "smtp.example.com")) 587 = Done c) /\
  client_new KOpp (Some (B "  ")) 587 = Throw /\ client_new KPlain None 25 = Throw.
Proof. split; [eexists|split]; reflexivity. Qed.
