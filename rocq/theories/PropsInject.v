(** C103: what is said over TLS does not depend on what was received in clear. *)

From Coq Require Import Ascii String List NArith ZArith Bool Lia.
From Verif Require Import Base ModelAddress ModelAttachment ModelMessage ModelReply ModelErrors ModelState ModelClient ModelWorld
  SpecInject Samples ProofInject3 ProofInject4.
Import ListNotations.
Open Scope Z_scope.

(** C103: a client of a class that encrypts, not connected and without a
    channel, sends a mail in two environments whose TLS side and files are the
    same and in which everything else may differ: the answers to name lookups
    and connections, all that is received in clear and how it is cut, failing
    writes.  However the calls end, what is said and heard over TLS in one is a
    beginning of what is said and heard over TLS in the other. *)
Theorem C103_clear_text_cannot_change : forall i m w c e1 e2, get_client w i = Some c -> unconnected c -> same_tls_side e1 e2 ->
  let t1 := w_trace (snd (step (OSend i m) (in_env e1 w))) in let t2 := w_trace (snd (step (OSend i m) (in_env e2 w))) in
  begins (conversation t1) (conversation t2) \/ begins (conversation t2) (conversation t1).
Proof. intros i m w c e1 e2 G U S. exact (proj1 (same_conversation i m w c e1 e2 G U S)). Qed.
Print Assumptions C103_clear_text_cannot_change.

(** If both calls return and both create a channel, the conversations are the
    same, and the mail is reported as sent by both or by none. *)
Theorem C103_same_conversation : forall i m w c e1 e2 a b, get_client w i = Some c -> unconnected c -> same_tls_side e1 e2 ->
  let x1 := step (OSend i m) (in_env e1 w) in let x2 := step (OSend i m) (in_env e2 w) in
  fst x1 = Done a -> fst x2 = Done b -> started_since (w_trace w) (w_trace (snd x1)) -> started_since (w_trace w) (w_trace (snd x2)) ->
  conversation (w_trace (snd x1)) = conversation (w_trace (snd x2)) /\ (a = 0 <-> b = 0).
Proof. exact same_conversation_result. Qed.
Print Assumptions C103_same_conversation.

(** In batch mode this goes on as long as the connection does.  The first mail is
    sent over TLS in both environments, and then further mails [ms], all reported
    as sent in the first; if in the second the calls return, the mails are
    reported as sent there too, and the conversations are the same.  The
    conversations of the mail after these are the same as far as they go, and if
    both calls return, they are the same and both mails are sent or none. *)
Theorem C103_same_connection : forall i m0 ms m w c e1 e2, get_client w i = Some c -> unconnected c -> c_batch c = true -> same_tls_side e1 e2 ->
  let x1 := step (OSend i m0) (in_env e1 w) in let x2 := step (OSend i m0) (in_env e2 w) in
  fst x1 = Done 0 -> fst x2 = Done 0 -> started_since (w_trace w) (w_trace (snd x1)) -> started_since (w_trace w) (w_trace (snd x2)) ->
  let r1 := run (map (OSend i) ms) (snd x1) in let r2 := run (map (OSend i) ms) (snd x2) in
  (forall o, In o (fst r1) -> o = Done 0) -> (forall o, In o (fst r2) -> exists b, o = Done b) ->
  fst r2 = fst r1 /\ conversation (w_trace (snd r1)) = conversation (w_trace (snd r2)) /\
  let y1 := step (OSend i m) (snd r1) in let y2 := step (OSend i m) (snd r2) in
  let t1 := w_trace (snd y1) in let t2 := w_trace (snd y2) in
  (begins (conversation t1) (conversation t2) \/ begins (conversation t2) (conversation t1)) /\
  forall a b, fst y1 = Done a -> fst y2 = Done b -> conversation t1 = conversation t2 /\ (a = 0 <-> b = 0).
Proof. exact same_later. Qed.
Print Assumptions C103_same_connection.

(** Two answers in clear: an honest one, and one in which somebody has put other
    mechanisms, and after the answer to STARTTLS the answers to an EHLO and an
    AUTH that were never asked for.  The mechanism is chosen from what is offered
    over TLS, and the conversations are the same. *)
Definition honest : list recv_res := told "220 ready" ++ [RData (B "250-localhost" ++ CRLF ++ B "250-STARTTLS" ++ CRLF ++ B "250 OK" ++ CRLF); RErr 11] ++ said "220 go".
Definition forged : list recv_res := [RErr 11] ++ told "220 somebody else" ++
  [RData (B "250-localhost" ++ CRLF ++ B "250-AUTH PLAIN" ++ CRLF); RData (B "250-STARTTLS" ++ CRLF ++ B "250 OK" ++ CRLF); RErr 11] ++
  [RData (B "220 go" ++ CRLF ++ B "250-AUTH PLAIN" ++ CRLF ++ B "250 OK" ++ CRLF ++ B "235 come in" ++ CRLF); RErr 11].
Definition private_answers : list recv_res := [RData (B "250-AUTH LOGIN" ++ CRLF ++ B "250 OK" ++ CRLF)] ++ told "334 name" ++ told "334 word" ++ told "235 ok" ++
  told "250 ok" ++ told "250 ok" ++ told "354 go" ++ told "250 queued".
Definition opp_world : world := snd (run [ONew KOpp server 25; OSetCred 0 joe_cred] (initial_world (tls_wire [] [] []))).
Definition seen (clear : list recv_res) : outcome Z * world := step (OSend 0 hi) (in_env (tls_wire clear private_answers [good_tls]) opp_world).
Example C103_example :
  (exists c, get_client opp_world 0 = Some c /\ unconnected c) /\
  same_tls_side (tls_wire honest private_answers [good_tls]) (tls_wire forged private_answers [good_tls]) /\
  fst (seen honest) = Done 0 /\ fst (seen forged) = Done 0 /\
  started_since [] (w_trace (snd (seen honest))) /\ started_since [] (w_trace (snd (seen forged))) /\
  (20 < length (conversation (w_trace (snd (seen honest)))))%nat.
Proof.
  split; [eexists; split; [vm_compute; reflexivity|]|].
  { split; [discriminate|]. split; [reflexivity|]. split; reflexivity. }
  split; [split; [reflexivity|]; split; [reflexivity|]; split; [reflexivity|]; split; reflexivity|].
  split; [vm_compute; reflexivity|]. split; [vm_compute; reflexivity|].
  assert (W : forall t, existsb (fun ev => match ev with EvBioNew _ _ => true | _ => false end) t = true -> started_since [] t).
  { intros t H. apply existsb_exists in H. destruct H as (ev & I0 & E). destruct ev; try discriminate E. exists t, id, fd. split; [reflexivity|exact I0]. }
  split; [apply W; vm_compute; reflexivity|]. split; [apply W; vm_compute; reflexivity|].
  apply Nat.ltb_lt. vm_compute. reflexivity.
Qed.

Definition more_answers : list recv_res := private_answers ++ told "250 ok" ++ told "250 ok" ++ told "354 go" ++ told "250 queued" ++
  told "250 ok" ++ told "250 ok" ++ told "354 go" ++ told "554 no".
Definition batch_world : world := snd (run [ONew KOpp server 25; OSetCred 0 joe_cred; OSetBatch 0 true] (initial_world (tls_wire [] [] []))).
Definition seen2 (clear : list recv_res) : list (outcome Z) * world := run [OSend 0 hi; OSend 0 hi; OSend 0 hi] (in_env (tls_wire clear more_answers [good_tls]) batch_world).
Definition seen1 (clear : list recv_res) : outcome Z * world := step (OSend 0 hi) (in_env (tls_wire clear more_answers [good_tls]) batch_world).
Example C103_same_connection_example :
  (exists c, get_client batch_world 0 = Some c /\ unconnected c /\ c_batch c = true) /\
  same_tls_side (tls_wire honest more_answers [good_tls]) (tls_wire forged more_answers [good_tls]) /\
  fst (seen1 honest) = Done 0 /\ fst (seen1 forged) = Done 0 /\
  started_since [] (w_trace (snd (seen1 honest))) /\ started_since [] (w_trace (snd (seen1 forged))) /\
  fst (run (map (OSend 0) [hi]) (snd (seen1 honest))) = [Done 0] /\ fst (run (map (OSend 0) [hi]) (snd (seen1 forged))) = [Done 0] /\
  fst (seen2 honest) = [Done 0; Done 0; Done 554] /\ fst (seen2 forged) = [Done 0; Done 0; Done 554] /\
  (40 < length (conversation (w_trace (snd (seen2 honest)))))%nat.
Proof.
  split; [eexists; split; [vm_compute; reflexivity|]|].
  { split; [|reflexivity]. split; [discriminate|]. split; [reflexivity|]. split; reflexivity. }
  split; [split; [reflexivity|]; split; [reflexivity|]; split; [reflexivity|]; split; reflexivity|].
  split; [vm_compute; reflexivity|]. split; [vm_compute; reflexivity|].
  assert (W : forall t, existsb (fun ev => match ev with EvBioNew _ _ => true | _ => false end) t = true -> started_since [] t).
  { intros t H. apply existsb_exists in H. destruct H as (ev & I0 & E). destruct ev; try discriminate E. exists t, id, fd. split; [reflexivity|exact I0]. }
  split; [apply W; vm_compute; reflexivity|]. split; [apply W; vm_compute; reflexivity|].
  split; [vm_compute; reflexivity|]. split; [vm_compute; reflexivity|]. split; [vm_compute; reflexivity|]. split; [vm_compute; reflexivity|].
  apply Nat.ltb_lt. vm_compute. reflexivity.
Qed.
