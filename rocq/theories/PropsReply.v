(** C16 - C19: interpretation of server replies. *)

From Coq Require Import Ascii String List NArith ZArith Bool.
From Verif Require Import Base ModelReply SpecText SpecReply ProofReply.
Import ListNotations.

(** C16: three digits. *)
Theorem C16_code_value : forall c1 c2 c3 v1 v2 v3 rest,
  digit_value c1 v1 -> digit_value c2 v2 -> digit_value c3 v3 ->
  extractReturnCode (Some (c1 :: c2 :: c3 :: rest)) = (100 * v1 + 10 * v2 + v3)%Z.
Proof. exact extract_three_digits. Qed.
Print Assumptions C16_code_value.
Example C16_example : digit_value "3"%char 3 /\ digit_value "5"%char 5 /\ digit_value "4"%char 4 /\
  extractReturnCode (Some (B "354 go ahead")) = 354%Z.
Proof. repeat split; discriminate || reflexivity. Qed.

Theorem C16_no_reply : extractReturnCode None = (-1)%Z.
Proof. exact extract_null. Qed.
Print Assumptions C16_no_reply.
Theorem C16_short_reply : forall s, (length (cstr s) < 3)%nat -> extractReturnCode (Some s) = (-1)%Z.
Proof. exact extract_short. Qed.
Print Assumptions C16_short_reply.
(** No leading number: the text does not begin with a digit, white space or a
    sign; or there is no digit among the first three characters. *)
Theorem C16_no_leading_number : forall c r, ~ is_ws c -> c <> "-"%char -> c <> "+"%char ->
  (forall v, ~ digit_value c v) -> extractReturnCode (Some (c :: r)) = (-1)%Z.
Proof. exact extract_no_number. Qed.
Print Assumptions C16_no_leading_number.
Theorem C16_no_digit : forall s, Forall (fun c => forall v, ~ digit_value c v) (firstn 3 (cstr s)) ->
  extractReturnCode (Some s) = (-1)%Z.
Proof. exact extract_no_digit. Qed.
Print Assumptions C16_no_digit.
Theorem C16_bounds : forall p, (-99 <= extractReturnCode p <= 999)%Z.
Proof. exact extract_bounds. Qed.
Print Assumptions C16_bounds.
Example C16_other_examples : extractReturnCode (Some (B "-99")) = (-99)%Z /\
  extractReturnCode (Some (B "x250")) = (-1)%Z /\ extractReturnCode (Some (B "25")) = (-1)%Z.
Proof. repeat split. Qed.

(** C17: [pre] is the complete lines before the last one. *)
Theorem C17_complete_terminated : forall pre last,
  (pre = [] \/ exists p, pre = p ++ CRLF) -> single_line last ->
  containsAllOptions (pre ++ last ++ CRLF) = true <-> starts_with (B "250 ") last.
Proof. exact containsAllOptions_terminated. Qed.
Print Assumptions C17_complete_terminated.
Theorem C17_complete_unterminated : forall pre last,
  (pre = [] \/ exists p, pre = p ++ CRLF) -> single_line last -> last <> [] ->
  containsAllOptions (pre ++ last) = true <-> starts_with (B "250 ") last.
Proof. exact containsAllOptions_unterminated. Qed.
Print Assumptions C17_complete_unterminated.
Example C17_example :
  containsAllOptions (B "250-a" ++ CRLF ++ B "250 b" ++ CRLF) = true /\
  containsAllOptions (B "250-a" ++ CRLF ++ B "250 b") = true /\
  containsAllOptions (B "250 a" ++ CRLF ++ B "250-b" ++ CRLF) = false.
Proof. repeat split. Qed.

(** C18: the first line announcing AUTH decides, whatever follows it. *)
Theorem C18_mechanisms : forall before line after,
  Forall single_line before -> single_line line -> auth_line line ->
  (forall x, In x before -> ~ auth_line x) ->
  ~ In NUL (text_of before ++ line ++ CRLF) ->
  exists o, extractAuthenticationOptions (Some (text_of before ++ line ++ CRLF ++ after)) = Some o /\
            options_of line o.
Proof. exact extract_auth_found. Qed.
Print Assumptions C18_mechanisms.
Theorem C18_no_mechanism : forall lines, Forall single_line lines ->
  (forall l, In l lines -> ~ auth_line l) -> ~ In NUL (text_of lines) ->
  extractAuthenticationOptions (Some (text_of lines)) = None.
Proof. exact extract_auth_none. Qed.
Print Assumptions C18_no_mechanism.
Example C18_example :
  auth_line (B "250-AUTH LOGIN PLAIN") /\
  extractAuthenticationOptions (Some (text_of [B "250-host"; B "250-AUTH LOGIN PLAIN"; B "250 SIZE"]))
    = Some (mkAuth true true false false false false).
Proof. split; [left; eexists; reflexivity | reflexivity]. Qed.

(** An AUTH line that is not terminated (the TLS receiver cuts the last byte
    of a reply, leaving a trailing CR): the words are those of the cut line. *)
Theorem C18_last_line : forall lines last, lines <> [] -> Forall single_line lines -> single_line last ->
  (forall l, In l lines -> ~ auth_line l) -> auth_line last -> ~ In NUL (text_of lines ++ last) ->
  exists o, extractAuthenticationOptions (Some (text_of lines ++ last)) = Some o /\ options_of last o.
Proof. exact extract_auth_last. Qed.
Print Assumptions C18_last_line.

(** So a mechanism that is the last word of the whole reply is missed there. *)
Theorem C18_tls_last_mechanism_refuted : exists before line,
  Forall single_line before /\ single_line line /\ auth_line line /\
  (forall x, In x before -> ~ auth_line x) /\ is_word (B "PLAIN") line /\
  exists o, extractAuthenticationOptions (Some (removelast (text_of (before ++ [line])))) = Some o /\
            ao_plain o = false.
Proof. exact tls_last_auth_line. Qed.
Print Assumptions C18_tls_last_mechanism_refuted.

(** C19: STARTTLS is noticed exactly when some "250-STARTTLS" is in the text. *)
Theorem C19_starttls_partial : forall s, Forall ascii7 (cstr s) ->
  exists b, isStartTLSSupported (Some s) = Done b /\
  (b = true <-> exists x y, cstr s = x ++ B "250-STARTTLS" ++ y).
Proof. exact starttls_spec. Qed.
Print Assumptions C19_starttls_partial.
Example C19_example : isStartTLSSupported (Some (text_of [B "250-STARTTLS"; B "250 SIZE"])) = Done true.
Proof. reflexivity. Qed.
(** Not noticed on the last line of the reply. *)
Theorem C19_starttls_refuted : exists lines, Forall single_line lines /\
  In (B "250 STARTTLS") lines /\ containsAllOptions (text_of lines) = true /\
  isStartTLSSupported (Some (text_of lines)) = Done false.
Proof. exact starttls_last_line. Qed.
Print Assumptions C19_starttls_refuted.
