(** C105: a used client behaves like a new one. *)

From Coq Require Import Ascii String List NArith ZArith Bool Lia.
From Verif Require Import Base ModelAddress ModelAttachment ModelMessage ModelReply ModelErrors ModelState ModelClient ModelWorld
  SpecPast Samples ProofPast ProofPast2.
Import ListNotations.
Open Scope Z_scope.

(** C105: the last answer, the last error number, the mechanisms a server offered
    and the log of an earlier connection never show in what a program does next:
    every call ends in the same way and does the same, for good. *)
Theorem C105_past : forall ops w1 w2, same_world w1 w2 ->
  fst (run ops w1) = fst (run ops w2) /\ w_trace (snd (run ops w1)) = w_trace (snd (run ops w2)) /\ same_world (snd (run ops w1)) (snd (run ops w2)).
Proof.
  intros ops w1 w2 W. destruct (run_same ops w1 w2 W) as [E W']. split; [exact E|]. split; [apply W'|exact W'].
Qed.
Print Assumptions C105_past.

(** In particular a client without a connection can be replaced by a new one
    with the same settings. *)
Theorem C105_reuse : forall ops w i c, get_client w i = Some c -> at_rest c ->
  let new := put_client i (Some (as_new c)) w in
  fst (run ops w) = fst (run ops new) /\ w_trace (snd (run ops w)) = w_trace (snd (run ops new)) /\ w_env (snd (run ops w)) = w_env (snd (run ops new)).
Proof.
  intros ops w i c G R new. destruct (run_same ops w new (rest_world w i c G R)) as [E (_ & W & T)]. split; [exact E|]. split; [exact T|exact W].
Qed.
Print Assumptions C105_reuse.

(** The log of its next mail, too, is that of a new client. *)
Theorem C105_log : forall i m w1 w2 c1 c2, same_world w1 w2 ->
  get_client (snd (step (OSend i m) w1)) i = Some c1 -> get_client (snd (step (OSend i m) w2)) i = Some c2 ->
  getCommunicationLog c1 = getCommunicationLog c2.
Proof. intros i m w1 w2 c1 c2 W G1 G2. unfold getCommunicationLog. rewrite (send_log_same i m w1 w2 c1 c2 W G1 G2). reflexivity. Qed.
Print Assumptions C105_log.

(** Nothing but a name and what is set distinguishes a new client. *)
Theorem C105_new : forall k name port c, client_new k name port = Done c -> at_rest c /\ as_new c = c.
Proof. intros k name port c H. unfold client_new, obind in H. destruct (check_server_name name); try discriminate. injection H as <-. repeat split. Qed.
Print Assumptions C105_new.

(** A client that has sent a mail and closed its connection: it keeps an answer,
    mechanisms and a log, and is at rest; its next mail goes out like that of a
    new client. *)
Definition first_mail : list op := [ONew KPlain server 25; OSend 0 hi].
Definition offered : list recv_res := Samples.told "220 ready"%string ++ tls_ident.
Definition two_mails : env := wire (offered ++ mail_replies ++ hello ++ mail_replies).
Example C105_example : let w := snd (run first_mail (initial_world two_mails)) in
  exists c, get_client w 0 = Some c /\ at_rest c /\ c_resp c <> None /\ c_auth c <> None /\ (100 < slen (getCommunicationLog c))%N /\
    fst (run [OSend 0 hi] w) = [Done 0] /\ (length (w_trace w) + 10 < length (w_trace (snd (run [OSend 0 hi] w))))%nat.
Proof.
  eexists. split; [vm_compute; reflexivity|]. split; [repeat split|]. split; [discriminate|]. split; [discriminate|]. split; [vm_compute; reflexivity|]. split; [vm_compute; reflexivity|].
  apply PeanoNat.Nat.ltb_lt. vm_compute. reflexivity.
Qed.

(** Sending a mail leaves the settings as they are, so that the new client is the
    one the program has asked for; but an opportunistic client may set its flag
    for sending in clear. *)
Theorem C105_settings : forall i m w c c', get_client w i = Some c -> get_client (snd (step (OSend i m) w)) i = Some c' ->
  as_new c' = as_new c \/ c_kind c = KOpp /\ as_new c' = as_new (set_keep true c).
Proof. exact send_settings. Qed.
Print Assumptions C105_settings.

(** That flag is not a setting of the program: after a mail to a server without
    STARTTLS, the next mail of an opportunistic client is not that of a new
    client. *)
Definition opp_mail : list op := [ONew KOpp server 25; OSend 0 hi].
Definition starttls_later : env := tls_wire (hello ++ mail_replies ++ tls_hello) (tls_ident ++ mail_replies) [good_tls].
Theorem C105_opportunistic_refuted : exists w c new, w = snd (run opp_mail (initial_world starttls_later)) /\ get_client w 0 = Some c /\ at_rest c /\ client_new KOpp server 25 = Done new /\ fst (run [OSend 0 hi] (put_client 0 (Some new) w)) = [Done 0] /\ fst (run [OSend 0 hi] w) <> [Done 0].
Proof.
  eexists. eexists. eexists. split; [reflexivity|]. split; [vm_compute; reflexivity|]. split; [repeat split|]. split; [vm_compute; reflexivity|]. split; [vm_compute; reflexivity|]. vm_compute. discriminate.
Qed.
Print Assumptions C105_opportunistic_refuted.
