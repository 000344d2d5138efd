(** C12, C13: attachments. *)

From Coq Require Import Ascii String List NArith ZArith Bool.
From Verif Require Import Base ModelAttachment SpecText SpecBase64 SpecAttachment ProofAttachment.
Import ListNotations.

(** C12: every file name has exactly one extension ... *)
Theorem C12_extension_exists : forall f, exists e, extension_of f e.
Proof. exact extension_exists. Qed.
Print Assumptions C12_extension_exists.
Theorem C12_extension_unique : forall f e1 e2, extension_of f e1 -> extension_of f e2 -> e1 = e2.
Proof. exact extension_unique. Qed.
Print Assumptions C12_extension_unique.

(** ... which alone, in upper case, determines the type. *)
Theorem C12_known_type : forall a e k m,
  extension_of (at_file a) e -> upper_of e k -> In (k, m) mime_table -> getMimeType a = m.
Proof. exact getMimeType_known. Qed.
Print Assumptions C12_known_type.
Theorem C12_unknown_type : forall a e k,
  extension_of (at_file a) e -> upper_of e k -> (forall m, ~ In (k, m) mime_table) ->
  getMimeType a = [].
Proof. exact getMimeType_unknown. Qed.
Print Assumptions C12_unknown_type.
Theorem C12_only_extension_matters : forall a b e1 e2 k,
  extension_of (at_file a) e1 -> extension_of (at_file b) e2 -> upper_of e1 k -> upper_of e2 k ->
  getMimeType a = getMimeType b.
Proof. exact getMimeType_case_insensitive. Qed.
Print Assumptions C12_only_extension_matters.

Example C12_example :
  getMimeType (mkAtt [] (B "/home/joe.d/a.b.Pdf") []) = B "application/pdf" /\
  getMimeType (mkAtt [] (B "/x/Makefile") []) = [] /\
  extension_of (B "/home/joe.d/a.b.Pdf") (B "Pdf").
Proof.
  split; [reflexivity|split; [reflexivity|]]. left. exists (B "/home/joe.d/a.b").
  split; [reflexivity|]. vm_compute. intuition discriminate.
Qed.

(** C13 *)
Theorem C13_file_complete : forall fs a contents, fs (at_file a) = Some contents ->
  (slen contents < 4294967296)%N ->
  exists text, getBase64EncodedFile fs a = Some text /\ mime_decode text = Some contents.
Proof. exact getBase64_complete. Qed.
Print Assumptions C13_file_complete.

(** C13, any size: what is encoded is the first (size mod 2^32) bytes. *)
Theorem C13_file_prefix : forall fs a contents, fs (at_file a) = Some contents ->
  exists text, getBase64EncodedFile fs a = Some text /\
    mime_decode text = Some (firstn (N.to_nat (slen contents mod 4294967296)%N) contents).
Proof. exact getBase64_spec. Qed.
Print Assumptions C13_file_prefix.

Theorem C13_large_file_refuted : exists contents : str, forall fs a, fs (at_file a) = Some contents ->
  contents <> [] /\ getBase64EncodedFile fs a = Some [].
Proof. exact getBase64_truncates. Qed.
Print Assumptions C13_large_file_refuted.

Example C13_example :
  getBase64EncodedFile (fun f => if str_eqb f (B "a.txt") then Some (B "Hello") else None)
    (mkAtt (B "a") (B "a.txt") []) = Some (B "SGVsbG8=").
Proof. reflexivity. Qed.
