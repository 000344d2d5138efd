(** Specification for error texts. *)

From Coq Require Import List NArith ZArith.
From Verif Require Import Base ModelState ModelWorld.

(** The same system with other texts for its error numbers ([f]) and for the
    results of the verification of certificates ([g]): another language, say. *)
Definition texts (f g : Z -> str) (e : env) : env :=
  mkEnv (e_recv e) (e_send e) (e_bread e) (e_bputs e) (e_sock e) (e_host e) (e_fcntl e) (e_conn e)
    (e_select e) (e_sopt e) (e_tls e) (e_fs e) f g (e_next e).

(** The same programs cannot tell two clients apart except by their log. *)
Definition same_but_log (c d : client) : Prop := exists l n, d = set_log l n c.
