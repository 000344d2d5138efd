(** Sample data used in examples and counterexamples. *)

From Coq Require Import Ascii String List NArith ZArith Bool.
From Verif Require Import Base ModelAddress ModelAttachment ModelMessage.
Import ListNotations.

Definition joe : address := mkAddr (B "joe@example.com") (B "Joe").
Definition jane : address := mkAddr (B "jane@example.com") [].
Definition letter (body : str) (atts : arr attachment) : message :=
  mkMsg Plaintext joe (AArr [jane]) (ANull 0) (ANull 0) (B "Hi") body atts.
Definition files : filesystem := fun f => if str_eqb f (B "/a.png") then Some (B "Hello") else None.


(** Network behaviours. *)
From Verif Require Import ModelReply ModelState ModelClient ModelWorld.
Open Scope Z_scope.

Definition said (s : string) : list recv_res := [RData (B s ++ CRLF); RErr 11].
Definition told (s : string) : list recv_res := [RData (B s ++ CRLF)].
Definition network (socks : list sock_res) (recv bread : list recv_res) (send puts : list send_res)
  (tls : list tls_res) : env :=
  mkEnv recv send bread puts socks [] [] [] [] [] tls files (fun _ => B "error") (fun _ => B "bad certificate") 0.
(** A working network in clear. *)
Definition wire (recv : list recv_res) : env :=
  network [SkFd 3; SkFd 4; SkFd 5; SkFd 6] recv [] [] [] [].
Definition good_tls : tls_res := mkTls true true true true true true 0 true 0.
(** A working network whose TLS negotiations have the results [tls]. *)
Definition tls_wire (recv bread : list recv_res) (tls : list tls_res) : env :=
  network [SkFd 3; SkFd 4; SkFd 5; SkFd 6] recv bread [] [] tls.

Definition server : option str := Some (B "smtp.example.com").
Definition hello : list recv_res := told "220 ready" ++ said "250 ok".
(** MAIL, one RCPT, DATA, end of data. *)
Definition mail_replies : list recv_res := said "250 ok" ++ said "250 ok" ++ said "354 go" ++ said "250 queued".
Definition hi : message := letter (B "hello") (ANull 0).
Definition result (ops : list op) (e : env) : list (outcome Z) := fst (run ops (initial_world e)).
Definition events (ops : list op) (e : env) : list event := w_trace (snd (run ops (initial_world e))).
Definition joe_cred : credential := mkCred (B "joe") (B "secret") kImplicit.
(** A server that offers STARTTLS, and its answer to STARTTLS. *)
Definition tls_hello : list recv_res :=
  told "220 ready" ++ [RData (B "250-STARTTLS" ++ CRLF ++ B "250 ok" ++ CRLF); RErr 11] ++ said "220 go".
(** Its answer to EHLO over TLS. *)
Definition tls_ident : list recv_res := [RData (B "250-AUTH PLAIN LOGIN" ++ CRLF ++ B "250 ok" ++ CRLF); RErr 11].
Definition two_recipients : message :=
  mkMsg Plaintext joe (AArr [jane; joe]) (ANull 0) (ANull 0) (B "Hi") (B "hello") (ANull 0).
