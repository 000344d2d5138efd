(** Specification for the setting about self-signed certificates. *)

From Coq Require Import List ZArith.
From Verif Require Import Base ModelState ModelWorld.

(** OpenSSL never says that a certificate is self-signed
    (X509_V_ERR_DEPTH_ZERO_SELF_SIGNED_CERT is 18). *)
Definition no_self_signed (e : env) : Prop := Forall (fun t => t_verify t <> 18%Z) (e_tls e).
(** The same call, except for the value given to the setting. *)
Definition same_call (o1 o2 : op) : Prop :=
  match o1, o2 with OSetSelfSigned i _, OSetSelfSigned j _ => i = j | _, _ => o1 = o2 end.
(** The same client, except for the setting. *)
Definition same_but_setting (c d : client) : Prop := exists b, d = set_selfsigned b c.
