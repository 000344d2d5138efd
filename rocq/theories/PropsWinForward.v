(** C93 and C94: what the Windows build does when everything succeeds. *)

From Coq Require Import Ascii String List NArith ZArith Bool.
From Verif Require Import Base ModelAddress ModelAttachment ModelMessage ModelState ModelReply ModelUtil ModelErrors ModelClient ModelWorld
  SpecText SpecReply SpecMime SpecDialogue SpecAuth SpecForward ModelWin SpecWin SpecWinPair SpecWinForward ProofWinForward2
  PropsWin PropsWinMail Samples SamplesForward PropsForward.
Import ListNotations.
Open Scope Z_scope.

(** ** C93: a server that agrees with everything *)

(** C93: a client that is not connected.  The server's replies are the [clear]
    ones, then the [secure] ones over TLS, then [rs] to the mail.  sendMail
    returns 0; what was said and answered is the connection as listed by the
    session and then exactly the mail; and exactly that was put on the wire.
    Partial: every reply arrives in one piece of less than 1024 bytes. *)
Theorem C93_new_connection_partial : forall i c m w tls clear secure turns rs more1 more2,
  get_client (ww w) i = Some c -> c_conn c = false -> calm (ww_env w) -> session c tls clear secure turns -> mail_answers m rs ->
  wreliable (w_env (ww w)) -> (tls = true -> wnegotiates c (w_env (ww w))) -> named c -> short_login c -> (0 < c_timeout c)%N -> text_ok m -> message_ok m ->
  (slen (concat (mail_commands m)) <= 2147483647)%N -> (slen (mail_text (e_fs (w_env (ww w))) m) <= 2147483647)%N ->
  e_recv (w_env (ww w)) = clear ++ (if tls then [] else in_clear rs) ++ more1 ->
  (tls = true -> e_bread (w_env (ww w)) = over_tls (secure ++ rs) ++ more2) ->
  exists w' t conn mail, wstep (OSend i m) w = (Done 0, w') /\ ww_trace w' = ww_trace w ++ t /\ exchanges (wtalk t) = conn ++ mail /\
    as_listed conn turns /\ mail_dialogue (e_fs (w_env (ww w))) m (c_batch c) rs mail /\ transmitted (wtalk t) = concat (map fst (conn ++ mail)).
Proof. exact wworld_cooperative. Qed.
Print Assumptions C93_new_connection_partial.

(** C93: a client of a program whose connection was kept from a previous mail
    (batch mode): the dialogue is the mail alone. *)
Theorem C93_kept_connection_partial : forall ops e x i c m tls rs more, let w := snd (wrun ops (initial_wworld e x)) in
  get_client (ww w) i = Some c -> c_conn c = true -> calm (ww_env w) -> carries tls c -> mail_answers m rs ->
  e_send (w_env (ww w)) = [] -> e_bputs (w_env (ww w)) = [] -> (0 < c_timeout c)%N -> text_ok m -> message_ok m ->
  (slen (getCommunicationLog c) < 281474976710656)%N ->
  (slen (concat (mail_commands m)) <= 2147483647)%N -> (slen (mail_text (e_fs (w_env (ww w))) m) <= 2147483647)%N ->
  (if tls then e_bread (w_env (ww w)) else e_recv (w_env (ww w))) = arrives tls rs ++ more ->
  exists w' t conn mail, wstep (OSend i m) w = (Done 0, w') /\ ww_trace w' = ww_trace w ++ t /\ exchanges (wtalk t) = conn ++ mail /\
    as_listed conn [] /\ mail_dialogue (e_fs (w_env (ww w))) m (c_batch c) rs mail /\ transmitted (wtalk t) = concat (map fst (conn ++ mail)).
Proof. exact wworld_kept. Qed.
Print Assumptions C93_kept_connection_partial.

(** C93: if the answer to EHLO announces mechanisms and the credential allows
    none of them, sendMail says so and nothing was sent but what comes before
    the authentication. *)
Theorem C93_none_applies_partial : forall i c cr m w tls clear secure l more1 more2,
  get_client (ww w) i = Some c -> c_conn c = false -> calm (ww_env w) -> c_cred c = Some cr -> session_without c cr tls clear secure l ->
  wreliable (w_env (ww w)) -> (tls = true -> wnegotiates c (w_env (ww w))) -> named c -> (0 < c_timeout c)%N ->
  e_recv (w_env (ww w)) = clear ++ more1 -> (tls = true -> e_bread (w_env (ww w)) = over_tls secure ++ more2) ->
  exists w' t, wstep (OSend i m) w = (Done CLIENT_AUTHENTICATION_METHOD_NOTSUPPORTED, w') /\ ww_trace w' = ww_trace w ++ t /\
    exchanges (wtalk t) = l /\ transmitted (wtalk t) = concat (map fst l).
Proof. exact wworld_none_applies. Qed.
Print Assumptions C93_none_applies_partial.

(** ** The hypotheses are met *)

Definition on_windows (w : world) : wworld := mkWW w (map (fun _ => false) (w_clients w)) windows [].
Definition wmeets (w : wworld) (tls : bool) (clear : list recv_res) (secure : list str) : Prop :=
  exists c turns, get_client (ww w) 0 = Some c /\ c_conn c = false /\ calm (ww_env w) /\ session c tls clear secure turns /\ mail_answers letter2 answered_mail /\
    wreliable (w_env (ww w)) /\ (tls = true -> wnegotiates c (w_env (ww w))) /\ named c /\ short_login c /\ (0 < c_timeout c)%N /\ text_ok letter2 /\ message_ok letter2 /\
    (slen (concat (mail_commands letter2)) <= 2147483647)%N /\ (slen (mail_text (e_fs (w_env (ww w))) letter2) <= 2147483647)%N /\
    e_recv (w_env (ww w)) = clear ++ (if tls then [] else in_clear answered_mail) ++ [] /\ (tls = true -> e_bread (w_env (ww w)) = over_tls (secure ++ answered_mail) ++ []).
Lemma joe_short : forall cr, Some joe_cred = Some cr -> short_secret cr.
Proof. intros cr E. injection E as <-. vm_compute. discriminate. Qed.
Ltac wmet S := eexists _, _; split; [vm_compute; reflexivity|]; split; [reflexivity|]; split; [repeat split; reflexivity|]; split; [S|]; split; [exact answered_ok|];
  split; [constructor; try reflexivity; eexists _, _; vm_compute; reflexivity|];
  split; [first [discriminate | intros _; eexists _, _; split; [vm_compute; reflexivity|]; repeat (split; [reflexivity|]); left; reflexivity]|];
  split; [eexists; split; [reflexivity|vm_compute; discriminate]|]; split; [exact joe_short|]; split; [vm_compute; reflexivity|]; split; [exact (proj1 letter2_ok)|]; split; [exact (proj2 letter2_ok)|];
  split; [vm_compute; discriminate|]; split; [vm_compute; discriminate|]; split; [vm_compute; reflexivity|]; first [discriminate | intros _; vm_compute; reflexivity].
Example C93_new_examples : wmeets (on_windows plain_world) false plain_clear [] /\ wmeets (on_windows poor_world) false poor_clear [] /\
  wmeets (on_windows opp_world) true opp_clear opp_secure /\ wmeets (on_windows forced_world) true [] forced_secure.
Proof. split; [wmet s_plain|]. split; [wmet s_poor|]. split; [wmet s_opp|wmet s_forced]. Qed.

Definition wkept_meets (k : clientkind) (tls : bool) : Prop := let w := wbefore (kept_ops k) (kept_env k) windows in
  exists c, get_client (ww w) 0 = Some c /\ c_conn c = true /\ calm (ww_env w) /\ carries tls c /\ mail_answers letter2 answered_mail /\
    e_send (w_env (ww w)) = [] /\ e_bputs (w_env (ww w)) = [] /\ (0 < c_timeout c)%N /\ text_ok letter2 /\ message_ok letter2 /\
    (slen (getCommunicationLog c) < 281474976710656)%N /\ (slen (concat (mail_commands letter2)) <= 2147483647)%N /\
    (slen (mail_text (e_fs (w_env (ww w))) letter2) <= 2147483647)%N /\
    (if tls then e_bread (w_env (ww w)) else e_recv (w_env (ww w))) = arrives tls answered_mail ++ [].
Ltac wkept C := eexists; split; [vm_compute; reflexivity|]; split; [reflexivity|]; split; [vm_compute; repeat split|]; split; [C|]; split; [exact answered_ok|];
  do 2 (split; [vm_compute; reflexivity|]); split; [vm_compute; reflexivity|]; split; [exact (proj1 letter2_ok)|]; split; [exact (proj2 letter2_ok)|];
  split; [vm_compute; reflexivity|]; do 2 (split; [vm_compute; discriminate|]); vm_compute; reflexivity.
Example C93_kept_examples : wkept_meets KPlain false /\ wkept_meets KOpp true /\ wkept_meets KForced true.
Proof. split; [wkept in_the_clear|]. split; [wkept in_tls|wkept in_tls]. Qed.

Definition wodd_meets (w : wworld) (tls : bool) (clear : list recv_res) (secure : list str) : Prop :=
  exists c l, get_client (ww w) 0 = Some c /\ c_conn c = false /\ calm (ww_env w) /\ c_cred c = Some joe_cred /\ session_without c joe_cred tls clear secure l /\ wreliable (w_env (ww w)) /\
    (tls = true -> wnegotiates c (w_env (ww w))) /\ named c /\ (0 < c_timeout c)%N /\ e_recv (w_env (ww w)) = clear ++ [] /\ (tls = true -> e_bread (w_env (ww w)) = over_tls secure ++ []).
Ltac wodd_met S := eexists _, _; split; [vm_compute; reflexivity|]; split; [reflexivity|]; split; [repeat split; reflexivity|]; split; [reflexivity|]; split; [S|];
  split; [constructor; try reflexivity; eexists _, _; vm_compute; reflexivity|];
  split; [first [discriminate | intros _; eexists _, _; split; [vm_compute; reflexivity|]; repeat (split; [reflexivity|]); left; reflexivity]|];
  split; [eexists; split; [reflexivity|vm_compute; discriminate]|]; split; [vm_compute; reflexivity|]; split; [vm_compute; reflexivity|]; first [discriminate | intros _; vm_compute; reflexivity].
Example C93_none_applies_examples :
  wodd_meets (on_windows (with_env KPlain false (wire odd_clear))) false odd_clear [] /\
  wodd_meets (on_windows (with_env KOpp false (tls_wire opp_clear (over_tls [odd_ehlo]) [good_tls]))) true opp_clear [odd_ehlo] /\
  wodd_meets (on_windows (with_env KForced false (tls_wire [] (over_tls [greeting; odd_ehlo]) [good_tls]))) true [] [greeting; odd_ehlo].
Proof. split; [wodd_met n_plain|]. split; [wodd_met n_opp|wodd_met n_forced]. Qed.

(** C93 fails for a positive reply of 1024 bytes: the client writes outside its
    buffer, on Windows too. *)
Theorem C93_long_reply_refuted : exists reply, starts_with (B "250") reply /\ length reply = 1024%nat /\
  fst (wrun [ONew KPlain server 25; OSend 0 hi] (initial_wworld (wire (told "220 ready" ++ [RData reply; RErr 11] ++ mail_replies)) windows)) =
    [Done 0; Undef (UB_BufferOverflow BufRecv)].
Proof.
  exists (B "250 ok" ++ repeat " "%char 1016 ++ CRLF). split; [eexists; reflexivity|]. split; vm_compute; reflexivity.
Qed.
Print Assumptions C93_long_reply_refuted.

(** ** C94: the same program on both systems *)

(** C94: if the calls that only Windows makes succeed, and the POSIX build with
    the same network creates and connects its sockets at the first attempt and
    sends no text in clear of more than 2^31 - 1 bytes, the Windows build
    returns the same results, makes the same calls (apart from those that only
    one of the builds makes) and leaves the same clients. *)
Theorem C94_same_as_posix : forall ops e x, calm x -> let u := run ops (initial_world (posix_env [] e)) in Forall ordinary (w_trace (snd u)) ->
  exists w', wrun ops (initial_wworld e x) = (fst u, w') /\ wtalk (ww_trace w') = SpecWin.talk (w_trace (snd u)) /\ w_clients (ww w') = w_clients (snd u).
Proof. exact wrun_same. Qed.
Print Assumptions C94_same_as_posix.

(** A batch of two mails over TLS with authentication, and a refused mail. *)
Definition both_ops : list op := kept_ops KOpp ++ [OSend 0 letter2; ODestroy 0].
Example C94_example : calm windows /\ let u := run both_ops (initial_world (posix_env [] (kept_env KOpp))) in
  Forall ordinary (w_trace (snd u)) /\ fst u = [Done 0; Done 0; Done 0; Done 0; Done 0; Done 0] /\ (30 < length (w_trace (snd u)))%nat.
Proof.
  split; [repeat split; reflexivity|]. cbv zeta. split; [|split; [vm_compute; reflexivity|apply PeanoNat.Nat.ltb_lt; vm_compute; reflexivity]].
  apply Forall_forall. intros ev H. assert (X : forallb (fun ev => match ev with EvSend _ d _ => (slen d <=? 2147483647)%N | EvSocket (SkErr _) => false | EvConnect _ _ ok => ok | _ => true end)
    (w_trace (snd (run both_ops (initial_world (posix_env [] (kept_env KOpp)))))) = true) by (vm_compute; reflexivity).
  rewrite forallb_forall in X. specialize (X ev H). destruct ev as [ | | | | | | | | | | | | | | | | | ]; try exact Logic.I; try exact X; try (apply N.leb_le; exact X).
  destruct r; [exact Logic.I|discriminate X].
Qed.
(** Without the condition on connect() the two builds differ: with the answer
    EINPROGRESS the POSIX build waits, the Windows build gives up. *)
Example C94_condition_needed :
  exists e, calm windows /\ fst (run [ONew KPlain server 25; OSend 0 hi] (initial_world (posix_env [] e))) <> fst (wrun [ONew KPlain server 25; OSend 0 hi] (initial_wworld e windows)).
Proof.
  exists (let e := wire (hello ++ mail_replies) in mkEnv (e_recv e) (e_send e) (e_bread e) (e_bputs e) (e_sock e) (e_host e) (e_fcntl e) [Some EINPROGRESS]
    (e_select e) (e_sopt e) (e_tls e) (e_fs e) (e_strerror e) (e_x509str e) (e_next e)).
  split; [repeat split; reflexivity|]. vm_compute. discriminate.
Qed.
