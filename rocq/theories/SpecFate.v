(** Specification for the influence of what a mail says. *)

From Coq Require Import List Bool ZArith.
From Verif Require Import Base ModelAddress ModelMessage ModelErrors ModelState ModelWorld.
Import ListNotations.

(** Two arrays of the same length. *)
Definition same_count {A} (x y : arr A) : Prop :=
  match x, y with ANull n, ANull k => n = k | AArr l, AArr l' => length l = length l' | _, _ => False end.
(** Two messages with as many recipients and attachments; all texts, addresses
    and files may differ. *)
Definition same_shape (m1 m2 : message) : Prop :=
  same_count (m_to m1) (m_to m2) /\ same_count (m_cc m1) (m_cc m2) /\ same_count (m_bcc m1) (m_bcc m2) /\ same_count (m_atts m1) (m_atts m2).
(** The same call, except for the contents of a message. *)
Definition same_form (o1 o2 : op) : Prop :=
  match o1, o2 with OSend i m1, OSend j m2 => i = j /\ same_shape m1 m2 | _, _ => o1 = o2 end.
(** No write fails. *)
Definition lossless (e : env) : Prop := e_send e = [] /\ e_bputs e = [].
(** Everything but what is written. *)
Definition not_written (ev : event) : bool := match ev with EvSend _ _ _ | EvPuts _ _ _ => false | _ => true end.
(** The same client, except for the log. *)
Definition same_besides_log (c d : client) : Prop := exists l n, d = set_log l n c.
(** The same result.  The two codes for a body that could not be written, one for
    short and one for long bodies, count as one. *)
Definition body_failure (o : outcome Z) : Prop := o = Done CLIENT_SENDMAIL_BODY_ERROR \/ o = Done CLIENT_SENDMAIL_BODYPART_ERROR.
Definition same_fate (o1 o2 : outcome Z) : Prop := o1 = o2 \/ body_failure o1 /\ body_failure o2.
