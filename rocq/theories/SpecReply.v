(** Server replies, described as lines and words. *)

From Coq Require Import Ascii String List NArith ZArith Bool.
From Verif Require Import Base ModelReply.
Import ListNotations.

(** A decimal digit and its value. *)
Definition digit_value (c : ascii) (v : Z) : Prop :=
  (0 <= v <= 9)%Z /\ c = ascii_of_N (48 + Z.to_N v).

(** A text without line break, resp. without NUL. *)
Definition single_line (s : str) : Prop := forall a b, s <> a ++ CRLF ++ b.

(** CRLF-terminated lines. *)
Definition text_of (lines : list str) : str := concat (map (fun l => l ++ CRLF) lines).

Definition starts_with (p s : str) : Prop := exists r, s = p ++ r.

(** [w] is one of the space separated words of [line]. *)
Definition is_word (w line : str) : Prop :=
  ~ In " "%char w /\
  exists a b, line = a ++ w ++ b /\
    (a = [] \/ exists a', a = a' ++ [" "%char]) /\ (b = [] \/ exists b', b = " "%char :: b').

(** A line announcing authentication mechanisms. *)
Definition auth_line (l : str) : Prop := starts_with (B "250-AUTH") l \/ starts_with (B "250 AUTH") l.

(** [o] says exactly which of the six known mechanisms are words of [line]. *)
Definition options_of (line : str) (o : authopts) : Prop :=
  (ao_plain o = true <-> is_word (B "PLAIN") line) /\
  (ao_login o = true <-> is_word (B "LOGIN") line) /\
  (ao_xoauth2 o = true <-> is_word (B "XOAUTH2") line) /\
  (ao_plain_clienttoken o = true <-> is_word (B "PLAIN-CLIENTTOKEN") line) /\
  (ao_oauthbearer o = true <-> is_word (B "OAUTHBEARER") line) /\
  (ao_xoauth o = true <-> is_word (B "XOAUTH") line).
