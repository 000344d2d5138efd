(** C07, C08, C09, C60: e-mail addresses. *)

From Coq Require Import Ascii String List NArith ZArith Bool.
From Verif Require Import Base ModelAddress ModelMessage SpecText SpecAddress ProofAddress.
Import ListNotations.

(** C07: the constructor accepts exactly the valid addresses and keeps both
    texts. *)
Theorem C07_address_accepted : forall (e n : str) (a : address),
  address_new (Some e) (Some n) = Done a <-> valid_address (cstr e) /\ a = mkAddr (cstr e) (cstr n).
Proof. exact address_new_done. Qed.
Print Assumptions C07_address_accepted.

(** C07: everything else is refused with std::invalid_argument; for texts that
    are not ASCII the refusal may go through an undefined call of isspace. *)
Theorem C07_address_refused : forall e n : str, ~ valid_address (cstr e) ->
  address_new (Some e) (Some n) = Throw \/
  (address_new (Some e) (Some n) = Undef UB_IsspaceNegative /\
   exists c, In c (cstr e) /\ (128 <= code c)%N).
Proof. exact address_new_refused. Qed.
Print Assumptions C07_address_refused.

Theorem C07_address_refused_partial : forall e n : str,
  Forall ascii7 (cstr e) -> ~ valid_address (cstr e) -> address_new (Some e) (Some n) = Throw.
Proof. exact address_new_ascii_refused. Qed.
Print Assumptions C07_address_refused_partial.

(** C07 fails for other texts: an address of one byte >= 128 is invalid, and
    checking it is undefined behaviour instead of an exception. *)
Theorem C07_non_ascii_refuted : exists e n : str, ~ valid_address (cstr e) /\
  address_new (Some e) (Some n) = Undef UB_IsspaceNegative.
Proof. exact non_ascii_address. Qed.
Print Assumptions C07_non_ascii_refuted.

Example C07_example :
  address_new (Some (B "Joe_1.x-y@Mail.example.COM")) (Some (B "Joe"))
  = Done (mkAddr (B "Joe_1.x-y@Mail.example.COM") (B "Joe")) /\
  address_new (Some (B "joe@@example.com")) (Some (B "")) = Throw /\
  address_new (Some (B "joe@example.a")) (Some (B "")) = Throw.
Proof. split; [|split]; vm_compute; reflexivity. Qed.

(** C08 *)
Theorem C08_no_line_injection : forall e n a, address_new e n = Done a ->
  ~ In CR (a_email a) /\ ~ In LF (a_email a) /\ ~ In NUL (a_email a) /\ In "@"%char (a_email a).
Proof. exact address_new_clean. Qed.
Print Assumptions C08_no_line_injection.

Theorem C08_commands_are_one_line : forall e n a, address_new e n = Done a ->
  one_line (rcpt_command a) /\
  exists f1 f2 f3, mail_formats a = [f1; f2; f3] /\ one_line f1 /\ one_line f3.
Proof. exact address_commands_one_line. Qed.
Print Assumptions C08_commands_are_one_line.

(** C09 *)
Theorem C09_header_value : forall l : list address, exists items,
  Forall2 rendered l items /\ generateHeaderAddressValues l = join (B ", ") items.
Proof. exact header_values_spec. Qed.
Print Assumptions C09_header_value.

Example C09_example :
  generateHeaderAddressValues [mkAddr (B "a@x.org") (B "Ann"); mkAddr (B "b@x.org") []]
  = B "Ann <a@x.org>, b@x.org".
Proof. reflexivity. Qed.

(** C60: an accepted address is not always safe between angle brackets and
    need not have a dot in its domain. *)
Theorem C60_address_syntax_refuted : exists e a, address_new (Some e) (Some []) = Done a /\
  In ">"%char (a_email a) /\ In " "%char (a_email a) /\ ~ In "."%char (a_email a).
Proof. exact bracket_accepted. Qed.
Print Assumptions C60_address_syntax_refuted.
