(** C22: credentials stay secret; C59: segmentation. *)

From Coq Require Import Ascii String List NArith ZArith Bool Lia.
From Verif Require Import Base ModelAddress ModelAttachment ModelMessage ModelReply ModelErrors ModelState ModelClient ModelWorld
  SpecReply SpecDialogue SpecAuth SpecPair Samples PropsAuth ProofPair2 ProofPair3.
Import ListNotations.
Open Scope Z_scope.

(** C22: two programs that differ only in user names and passwords, run against
    the same network, have the same results, leave the same objects apart from
    the credentials in them, and make the same calls apart from the base64 text
    of the authentication lines. *)
Theorem C22_credentials_secret : forall p1 p2 e, Forall2 same_but_secret p1 p2 ->
  let w1 := snd (run p1 (initial_world e)) in let w2 := snd (run p2 (initial_world e)) in
  fst (run p1 (initial_world e)) = fst (run p2 (initial_world e)) /\ w_env w1 = w_env w2 /\
  Forall2 (same_event (secrets_of p1 p2)) (w_trace w1) (w_trace w2) /\
  forall i, option_map (set_cred None) (get_client w1 i) = option_map (set_cred None) (get_client w2 i).
Proof. exact secrets_run. Qed.
Print Assumptions C22_credentials_secret.

(** In particular the communication logs are the same. *)
Theorem C22_log_secret : forall p1 p2 e i c1 c2, Forall2 same_but_secret p1 p2 ->
  get_client (snd (run p1 (initial_world e))) i = Some c1 -> get_client (snd (run p2 (initial_world e))) i = Some c2 ->
  getCommunicationLog c1 = getCommunicationLog c2.
Proof. exact secrets_log. Qed.
Print Assumptions C22_log_secret.

(** C59: as long as the data keep arriving, it does not matter how they are cut
    (only for clear text, pieces smaller than the buffer, and not for the
    greeting). *)
Theorem C59_segments_partial : forall i m w c l1 l2, get_client w i = Some c -> (0 < c_timeout c)%N ->
  (c_conn c = true /\ resplit l1 l2 \/ resplit_later l1 l2) ->
  fst (step (OSend i m) (with_recv l1 w)) = fst (step (OSend i m) (with_recv l2 w)) /\
  let w1 := snd (step (OSend i m) (with_recv l1 w)) in let w2 := snd (step (OSend i m) (with_recv l2 w)) in
  w_clients w1 = w_clients w2 /\ besides_recv (w_trace w1) = besides_recv (w_trace w2) /\
  w_env w2 = set_recv (e_recv (w_env w2)) (w_env w1) /\ resplit (e_recv (w_env w1)) (e_recv (w_env w2)).
Proof. exact world_resplit. Qed.
Print Assumptions C59_segments_partial.

(** C22: LOGIN is used with two different credentials; the logs do not differ
    although the wires do. *)
Definition ann_cred : credential := mkCred (B "annabel") (B "another") kImplicit.
Definition logging_in (c : credential) : list op := [ONew KPlain server 25; OSetCred 0 c; OSend 0 hi].
Example C22_example : Forall2 same_but_secret (logging_in joe_cred) (logging_in ann_cred) /\
  result (logging_in joe_cred) login_env = [Done 0; Done 0; Done 0] /\
  events (logging_in joe_cred) login_env <> events (logging_in ann_cred) login_env /\
  exists c, get_client (snd (run (logging_in joe_cred) (initial_world login_env))) 0 = Some c /\ (200 < slen (getCommunicationLog c))%N.
Proof.
  split; [|split; [vm_compute; reflexivity|split]].
  - constructor; [apply sbs_same|]. constructor; [apply sbs_cred; reflexivity|]. constructor; [apply sbs_same|constructor].
  - intros H. apply (f_equal (fun t => nth 22 t (EvSleep 0))) in H. vm_compute in H. discriminate H.
  - eexists. split; [vm_compute; reflexivity|]. vm_compute. reflexivity.
Qed.

(** C59: an answer to EHLO in one piece and in three pieces. *)
Definition offer : str := B "250-localhost" ++ CRLF ++ B "250-AUTH PLAIN" ++ CRLF ++ B "250 OK" ++ CRLF.
Definition offer_client : world := with_cred joe_cred (wire []).
Definition plain_session (answer : list recv_res) : list recv_res := told "220 ready" ++ answer ++ said "235 ok" ++ mail_replies.
Example C59_example : exists c, get_client offer_client 0 = Some c /\ (0 < c_timeout c)%N /\
  resplit_later (plain_session [RData offer; RErr 11]) (plain_session [RData (firstn 10 offer); RData (firstn 7 (skipn 10 offer)); RData (skipn 17 offer); RErr 11]) /\
  fst (step (OSend 0 hi) (with_recv (plain_session [RData offer; RErr 11]) offer_client)) = Done 0.
Proof.
  eexists. split; [vm_compute; reflexivity|]. split; [vm_compute; reflexivity|]. split; [|vm_compute; reflexivity].
  apply rl_first; [discriminate|]. 
  refine (rs_burst [offer] [firstn 10 offer; firstn 7 (skipn 10 offer); skipn 17 offer] 11 _ _ _ _ eq_refl _).
  3: { induction (said "235 ok" ++ mail_replies); constructor; assumption. }
  all: repeat constructor; try (vm_compute; discriminate); try (intros H; vm_compute in H; intuition discriminate).
Qed.

(** C59 fails when the data stop arriving between two lines of the answer: the
    mail is sent if they arrive at once; otherwise the mechanisms are not
    recognised and the program crashes. *)
Theorem C59_segments_refuted : exists i m w l1 l2, bytes_of l1 = bytes_of l2 /\
  fst (step (OSend i m) (with_recv l1 w)) = Done 0 /\ fst (step (OSend i m) (with_recv l2 w)) = Undef (UB_NullDeref PAuth).
Proof.
  exists 0%nat, hi, offer_client, (plain_session [RData offer; RErr 11]), (plain_session [RData (firstn 15 offer); RErr 11; RData (skipn 15 offer); RErr 11]).
  split; [|split]; vm_compute; reflexivity.
Qed.
Print Assumptions C59_segments_refuted.

(** Over TLS two reads instead of one are enough: the mail is not sent. *)
Definition tls_client : world :=
  snd (run [ONew KForced server 465; OSetCred 0 joe_cred] (initial_world (tls_wire [] [] [good_tls]))).
Definition tls_offer : str := B "250-AUTH PLAIN LOGIN" ++ CRLF ++ B "250 OK" ++ CRLF.
Definition tls_session (answer : list recv_res) : list recv_res :=
  told "220 ready" ++ answer ++ told "235 ok" ++ told "250 ok" ++ told "250 ok" ++ told "354 go" ++ told "250 queued".
Theorem C59_tls_segments_refuted : exists i m w l1 l2, bytes_of l1 = bytes_of l2 /\
  fst (step (OSend i m) (with_bread l1 w)) = Done 0 /\ fst (step (OSend i m) (with_bread l2 w)) = Done SSL_CLIENT_INITSECURECLIENT_TIMEOUT.
Proof.
  exists 0%nat, hi, tls_client, (tls_session [RData tls_offer]), (tls_session [RData (firstn 10 tls_offer); RData (skipn 10 tls_offer)]).
  split; [|split]; vm_compute; reflexivity.
Qed.
Print Assumptions C59_tls_segments_refuted.
