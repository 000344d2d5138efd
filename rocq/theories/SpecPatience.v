(** What it means that the server was given its time. *)

From Coq Require Import Ascii String List NArith ZArith Bool.
From Verif Require Import Base ModelUtil ModelAddress ModelAttachment ModelMessage ModelState SpecReply SpecDialogue SpecConn.
Import ListNotations.
Open Scope Z_scope.

(** The codes with "TIMEOUT" in their name (src/socketerrors.h,
    src/sslerrors.h, src/smtpclienterrors.h). *)
Definition timeout_codes : list Z := [-3; -21; -31; -60; -82; -86; -88; -90; -98].

(** Somewhere in [t] the program slept for [n] seconds or more during which it
    received and wrote nothing. *)
Definition calm (ev : event) : Prop :=
  match ev with
  | EvSend _ _ _ | EvPuts _ _ _ | EvRecv _ (RData (_ :: _)) | EvRead _ (RData (_ :: _)) => False
  | _ => True
  end.
Definition silence (n : N) (t : list event) : Prop :=
  exists a b c, t = a ++ b ++ c /\ Forall calm b /\ (n <= slept b)%N.

(** Everything received begins with three digits and a further byte. *)
Definition begins_with_code (d : str) : Prop :=
  exists c1 c2 c3 c4 v1 v2 v3 r, d = c1 :: c2 :: c3 :: c4 :: r /\
    digit_value c1 v1 /\ digit_value c2 v2 /\ digit_value c3 v3.
Definition coded_reads (t : list event) : Prop :=
  forall ev c d, In ev t -> (exists fd, ev = EvRecv fd (RData (c :: d))) \/ (exists b, ev = EvRead b (RData (c :: d))) ->
  begins_with_code (c :: d).

(** The connection attempt waited for [n] seconds in vain (the answer of
    [select] is the next one of the script). *)
Definition connection_expired (n : N) (e : env) (t : list event) : Prop :=
  nth_answer 0 (e_select e) SelReady = SelTimeout /\ exists fd, In (EvSelect fd n) t.
