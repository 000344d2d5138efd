(** A mail sent after another one failed (C45). *)

From Coq Require Import Ascii String List NArith ZArith Bool.
From Verif Require Import Base ModelUtil ModelAddress ModelAttachment ModelMessage ModelReply ModelState ModelClient ModelWorld
  SpecDialogue SpecLife SpecDead Samples ProofAgain.
Import ListNotations.
Open Scope Z_scope.

(** C45 as far as it holds: after a mail failed the client has no connection, or
    the code is the server's and that mail left no transaction open, unless a
    recipient or DATA was refused. *)
Theorem C45_failed_partial : forall i m w code w' t,
  step (OSend i m) w = (Done code, w') -> w_trace w' = w_trace w ++ t -> standard t -> code <> 0 ->
  disconnected w' i \/ (0 < code /\ (~ leaves_open (exchanges t) \/ refused (exchanges t))).
Proof. exact world_send_again. Qed.
Print Assumptions C45_failed_partial.
(** Without a connection the next mail begins with a new socket. *)
Theorem C45_reconnects : forall i m w x w' t,
  disconnected w i -> step (OSend i m) w = (x, w') -> w_trace w' = w_trace w ++ t -> new_socket_first t.
Proof. exact world_reconnects. Qed.
Print Assumptions C45_reconnects.
(** C45 in full for the failures detected by the client, which are the negative
    codes: the next mail begins with a new socket. *)
Theorem C45_lost_partial : forall i m m2 w code w1 t x w2 t2,
  step (OSend i m) w = (Done code, w1) -> w_trace w1 = w_trace w ++ t -> standard t -> code < 0 ->
  step (OSend i m2) w1 = (x, w2) -> w_trace w2 = w_trace w1 ++ t2 -> new_socket_first t2.
Proof. exact world_lost_again. Qed.
Print Assumptions C45_lost_partial.

(** The write of DATA fails, the second mail is sent over a new connection. *)
Definition second_try : env :=
  network [SkFd 3; SkFd 4] (hello ++ said "250 ok" ++ said "250 ok" ++ hello ++ mail_replies) [] [WFull; WFull; WFull; WErr 32] [] [].
Example C45_example : result [ONew KPlain server 25; OSend 0 hi; OSend 0 hi] second_try = [Done 0; Done (-89); Done 0].
Proof. vm_compute. reflexivity. Qed.
(** The sender is refused, then accepted on the same connection. *)
Example C45_example_sender :
  result [ONew KPlain server 25; OSend 0 hi; OSend 0 hi] (wire (hello ++ said "451 later" ++ mail_replies)) = [Done 0; Done 451; Done 0] /\
  ~ leaves_open (exchanges (events [ONew KPlain server 25; OSend 0 hi] (wire (hello ++ said "451 later")))).
Proof.
  split; [vm_compute; reflexivity|].
  assert (E : exchanges (events [ONew KPlain server 25; OSend 0 hi] (wire (hello ++ said "451 later"))) =
    [(B "ehlo localhost" ++ CRLF, B "250 ok" ++ CRLF); (B "MAIL FROM: <joe@example.com>" ++ CRLF, B "451 later" ++ CRLF)])
    by (vm_compute; reflexivity).
  rewrite E. intros (l1 & line & reply & l2 & Es & [q M] & [q2 A] & _).
  destruct l1 as [|x [|y [|z l1]]]; inversion Es; subst; discriminate.
Qed.

(** C45 fails after a refused recipient: the next mail sends MAIL on the same
    connection, in the open transaction, which a server answers with 503. *)
Theorem C45_refused_recipient_refuted : exists ops e t1 t2,
  ops = [ONew KPlain server 25; OSend 0 hi; OSend 0 hi] /\ result ops e = [Done 0; Done 550; Done 503] /\
  events ops e = t1 ++ EvSend 3 (B "MAIL FROM: <joe@example.com>" ++ CRLF) WFull :: t2 /\
  leaves_open (exchanges t1) /\ (forall r, In (EvSocket r) (events ops e) -> r = SkFd 3) /\ ~ In (EvClose 3) t1.
Proof.
  pose (ops := [ONew KPlain server 25; OSend 0 hi; OSend 0 hi]).
  pose (e := wire (hello ++ said "250 ok" ++ said "550 no" ++ said "503 nested MAIL")).
  exists ops, e, (firstn 29 (events ops e)), (skipn 30 (events ops e)). split; [reflexivity|]. split; [vm_compute; reflexivity|].
  split; [vm_compute; reflexivity|]. split; [|split].
  - exists [(B "ehlo localhost" ++ CRLF, B "250 ok" ++ CRLF)], (B "MAIL FROM: <joe@example.com>" ++ CRLF), (B "250 ok" ++ CRLF),
      [(B "RCPT TO: <jane@example.com>" ++ CRLF, B "550 no" ++ CRLF)].
    split; [vm_compute; reflexivity|]. split; [eexists; reflexivity|]. split; [eexists; reflexivity|].
    vm_compute. intuition discriminate.
  - assert (X : forallb (fun ev => match ev with EvSocket (SkFd 3) => true | EvSocket _ => false | _ => true end) (events ops e) = true)
      by (vm_compute; reflexivity).
    rewrite forallb_forall in X. intros r H. specialize (X _ H). destruct r as [n|er]; [|discriminate X].
    destruct n as [|[[?|?|]|?|]]; try discriminate X. reflexivity.
  - vm_compute. intuition discriminate.
Qed.
Print Assumptions C45_refused_recipient_refuted.
