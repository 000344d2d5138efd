(** The error codes the library defines (src/socketerrors.h, src/sslerrors.h,
    src/smtpclienterrors.h) and the server codes it explains. *)

From Coq Require Import Ascii String List NArith ZArith Bool.
From Verif Require Import Base.
Import ListNotations.
Open Scope Z_scope.

Definition socket_codes : list Z := [-1; -2; -3; -4; -5; -6; -7; -8; -9; -10; -20; -21; -30; -31].
Definition ssl_codes : list Z := [-51; -52; -53; -54; -55; -56; -57; -58; -59; -60].
Definition client_codes : list Z :=
  [-81; -82; -83; -84; -85; -86; -87; -88; -89; -90; -91; -92; -93; -94; -95; -96; -97; -98; -99].
Definition explained_server_codes : list Z := [530; 534; 535; 538; 334].
Definition defined_codes : list Z :=
  socket_codes ++ ssl_codes ++ client_codes ++ explained_server_codes.

Definition generic_text : str := B "No message correspond to this error code".
