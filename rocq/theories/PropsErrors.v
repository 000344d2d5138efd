(** C14, C15: error messages. *)

From Coq Require Import Ascii String List NArith ZArith Bool.
From Verif Require Import Base ModelErrors SpecErrors ProofErrors.
Import ListNotations.
Open Scope Z_scope.

(** C14 *)
Theorem C14_message_nonempty : forall c : Z, getErrorMessage c <> [].
Proof. exact error_message_nonempty. Qed.
Print Assumptions C14_message_nonempty.
Theorem C14_message_specific : forall c, In c defined_codes -> getErrorMessage c <> generic_text.
Proof. exact error_message_specific. Qed.
Print Assumptions C14_message_specific.
Theorem C14_messages_distinct : forall a b, In a defined_codes -> In b defined_codes ->
  getErrorMessage a = getErrorMessage b -> a = b.
Proof. exact error_messages_distinct. Qed.
Print Assumptions C14_messages_distinct.
Theorem C14_message_generic : forall c, ~ In c defined_codes -> getErrorMessage c = generic_text.
Proof. exact error_message_default. Qed.
Print Assumptions C14_message_generic.
Example C14_example : In (-84) defined_codes /\ ~ In 250 defined_codes /\
  getErrorMessage (-6) = B "Unable to get host by name".
Proof. split; [vm_compute; tauto|split; [vm_compute; intuition discriminate|reflexivity]]. Qed.

(** C15: no buffer or no room. *)
Theorem C15_null_buffer : forall c maxLength, getErrorMessage_r c None maxLength = Done (-1, None).
Proof. exact error_r_null. Qed.
Print Assumptions C15_null_buffer.
Theorem C15_no_room : forall c b, getErrorMessage_r c (Some b) 0 = Done (-1, Some b).
Proof. exact error_r_zero. Qed.
Print Assumptions C15_no_room.
(** C15: the longest prefix that fits, a NUL, and nothing else is changed. *)
Theorem C15_buffer : forall c b maxLength, (0 < maxLength)%N -> (maxLength <= slen b)%N ->
  exists stored rest,
    getErrorMessage_r c (Some b) maxLength =
      Done (if (slen (getErrorMessage c) <? maxLength)%N then 0 else Z.of_N (maxLength - 1),
            Some (stored ++ NUL :: rest)) /\
    stored = firstn (N.to_nat (maxLength - 1)) (getErrorMessage c) /\
    length (stored ++ NUL :: rest) = length b /\
    rest = skipn (S (length stored)) b.
Proof. exact error_r_spec. Qed.
Print Assumptions C15_buffer.
Theorem C15_within_claim : forall c b mx r b', (mx <= slen b)%N ->
  getErrorMessage_r c (Some b) mx = Done (r, Some b') ->
  skipn (N.to_nat mx) b' = skipn (N.to_nat mx) b /\
  (mx = 0%N \/ (In NUL (firstn (N.to_nat mx) b') /\ exists t, getErrorMessage c = cstr b' ++ t /\
     (t = [] \/ slen (cstr b') = (mx - 1)%N))).
Proof. exact error_r_within_claim. Qed.
Print Assumptions C15_within_claim.
Example C15_example : getErrorMessage_r (-1) (Some (B "##########")) 7 =
  Done (6, Some (B "Unable" ++ NUL :: B "###")).
Proof. reflexivity. Qed.

(** With room for one character the text is cut and yet 0 is returned. *)
Theorem C15_zero_means_complete_refuted : exists c b mx, (0 < mx)%N /\ (mx <= slen b)%N /\
  exists b', getErrorMessage_r c (Some b) mx = Done (0, Some b') /\ cstr b' <> getErrorMessage c.
Proof. exact error_r_truncated_zero. Qed.
Print Assumptions C15_zero_means_complete_refuted.
