(** Specification for error texts on Windows. *)

From Coq Require Import List NArith ZArith.
From Verif Require Import Base ModelState ModelWin.

(** The same Windows with other texts for its error numbers, or without some. *)
Definition wtexts (h : Z -> option str) (x : wenv) : wenv :=
  mkWenv (x_start x) (x_addr x) (x_clean x) (x_ioctl x) (x_store x) h.
