(** C01-C04: base64 (src/base64.cpp). *)

From Coq Require Import Ascii String List NArith ZArith Bool.
From Verif Require Import Base ModelBase64 SpecBase64 ProofBase64.
Import ListNotations.

(** C01: the encoded text contains only alphabet characters, '=' and CRLF line
    breaks, and an RFC 2045 decoder recovers the input, for every byte
    sequence. *)
Theorem C01_encode_lossless : forall s : str,
  mime_decode (Encode s) = Some s /\
  Forall (fun c => In c alphabet \/ c = PAD \/ c = CR \/ c = LF) (Encode s) /\
  crlf_only (Encode s) = true.
Proof. intros s. exact (conj (mime_decode_encode s) (conj (encode_charset s) (encode_crlf_only s))). Qed.
Print Assumptions C01_encode_lossless.

Example C01_example :
  Encode (B "foobar!" ++ [ascii_of_nat 0; ascii_of_nat 255]) = B "Zm9vYmFyIQD/" /\
  mime_decode (B "Zm9v" ++ CRLF ++ B "YmFyIQD/" ++ CRLF ++ B "QQ==")
  = Some (B "foobar!" ++ [ascii_of_nat 0; ascii_of_nat 255] ++ B "A") /\
  mime_decode (B "Zm9vYg=") = None.
Proof. repeat split; reflexivity. Qed.

(** C02: the text is the RFC 4648 encoding with a CRLF after every 65536
    characters of complete groups; its length; its longest line. *)
Theorem C02_encode_layout : forall s : str,
  Encode s =
    broken_lines 65536 0 (firstn (4 * (length s / 3)) (rfc4648 s)) ++
    skipn (4 * (length s / 3)) (rfc4648 s) /\
  slen (Encode s) = (4 * ((slen s + 2) / 3) + 2 * (4 * (slen s / 3) / 65536))%N /\
  (longest_line 0 (Encode s) <= 65536)%N.
Proof. intros s. exact (conj (encode_layout s) (conj (encode_length s) (encode_longest_line s))). Qed.
Print Assumptions C02_encode_layout.

Example C02_example :
  rfc4648 (B "fooba") = B "Zm9vYmE=" /\
  broken_lines 4 0 (B "Zm9vYmFyIQ") = B "Zm9v" ++ CRLF ++ B "YmFy" ++ CRLF ++ B "IQ" /\
  longest_line 0 (B "abc" ++ CRLF ++ B "defgh" ++ CRLF) = 5%N.
Proof. repeat split; reflexivity. Qed.

(** C03: decoding the encoded text gives the first 49152 bytes of the input,
    hence the input itself exactly when it is not longer. *)
Theorem C03_decode_encode : forall x : str,
  Decode (Encode x) = Done (firstn (N.to_nat 49152) x) /\
  (Decode (Encode x) = Done x <-> (slen x <= 49152)%N).
Proof. intros x. exact (conj (decode_encode x) (decode_encode_iff x)). Qed.
Print Assumptions C03_decode_encode.

Example C03_example : Decode (Encode (B "hello, world")) = Done (B "hello, world").
Proof. reflexivity. Qed.

(** C03, the unconditional claim is false: some input does not survive. *)
Theorem C03_decode_encode_refuted : exists x : str, Decode (Encode x) <> Done x.
Proof. exact decode_encode_loses. Qed.
Print Assumptions C03_decode_encode_refuted.

(** C04: Decode looks only at the leading alphabet characters; when there are
    fewer than 2^31 of them it returns the bytes their bits form, otherwise its
    index overflows. *)
Theorem C04_decode_total : forall s : str,
  ((slen s < 2147483648)%N ->
   exists r, Decode s = Done r /\
             option_map bytes_of_bits (chars_bits (leading s)) = Some r /\
             length r = (6 * length (leading s) / 8)%nat) /\
  Decode s = Decode (leading s) /\
  ((2147483648 <= slen (leading s))%N -> Decode s = Undef UB_SignedOverflow).
Proof. exact decode_total_all. Qed.
Print Assumptions C04_decode_total.

Example C04_example :
  Decode (B "Zm9vYmF*garbage") = Done (B "fooba") /\ leading (B "Zm9vYmF*garbage") = B "Zm9vYmF".
Proof. repeat split; reflexivity. Qed.
