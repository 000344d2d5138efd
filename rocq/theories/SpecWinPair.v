(** Pairs of runs of the Windows build. *)

From Coq Require Import Ascii String List NArith ZArith Bool.
From Verif Require Import Base ModelMessage ModelState ModelWorld ModelWin SpecPair.
Import ListNotations.

(** Two calls are equal, or they write the same form of line for two
    credentials. *)
Definition same_wevent (secrets : list (credential * credential)) (e1 e2 : wevent) : Prop :=
  e1 = e2 \/ exists a b, e1 = WSock a /\ e2 = WSock b /\ same_event secrets a b.

(** A user name and a password of at most 10^9 bytes together: their base64 text
    has less than 2^31 bytes. *)
Definition short_secret (c : credential) : Prop := (slen (cr_user c) + slen (cr_pass c) <= 1000000000)%N.
Definition short_secrets (l : list (credential * credential)) : Prop :=
  Forall (fun p => short_secret (fst p) /\ short_secret (snd p)) l.
