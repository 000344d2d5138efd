(** Proofs for C72: no operation depends on the names in the certificates. *)

From Coq Require Import Ascii String List NArith ZArith Bool Lia.
From Verif Require Import Base ModelUtil ModelAddress ModelAttachment ModelErrors ModelReply ModelMessage
  ModelState ModelClient ModelWorld SpecNames.
Import ListNotations.
Open Scope Z_scope.

Definition hide_st (s : st) : st := mkSt (s_c s) (all_misnamed (s_e s)) (map misname_event (s_t s)).
Definition blind {A} (m : M A) : Prop := forall s, m (hide_st s) = (fst (m s), hide_st (snd (m s))).

Lemma blind_ret : forall {A} (a : A), blind (ret a).
Proof. intros A a s. reflexivity. Qed.
Lemma blind_stop : forall {A} (o : outcome A), blind (fun s => (o, s)).
Proof. intros A o s. reflexivity. Qed.
Lemma blind_bind : forall {A C} (m : M A) (k : A -> M C), blind m -> (forall a, blind (k a)) -> blind (bind m k).
Proof.
  intros A C m k Hm Hk s. unfold bind. rewrite (Hm s).
  destruct (m s) as [o s']; cbn [fst snd].
  destruct o as [a| |u| | |]; try reflexivity. apply Hk.
Qed.
Lemma blind_getc : forall {C} (k : client -> M C), (forall c, blind (k c)) -> blind (bind getc k).
Proof. intros C k Hk s. exact (Hk (s_c s) s). Qed.
Lemma blind_gete : forall {C} (k : env -> M C), (forall e, k (all_misnamed e) = k e) -> (forall e, blind (k e)) ->
  blind (bind gete k).
Proof.
  intros C k He Hk s. change (bind gete k (hide_st s)) with (k (all_misnamed (s_e s)) (hide_st s)).
  change (bind gete k s) with (k (s_e s) s). rewrite He. apply Hk.
Qed.
Lemma blind_updc : forall f, blind (updc f).
Proof. intros f s. reflexivity. Qed.
Lemma blind_upde : forall f, (forall e, f (all_misnamed e) = all_misnamed (f e)) -> blind (upde f).
Proof. intros f Hf s. unfold upde, hide_st; cbn. rewrite Hf. reflexivity. Qed.
Lemma blind_emits : forall l, map misname_event l = l -> blind (emits l).
Proof. intros l Hl s. unfold emits, hide_st; cbn. rewrite map_app, Hl. reflexivity. Qed.
Lemma blind_emit : forall ev, misname_event ev = ev -> blind (emit ev).
Proof. intros ev H s. unfold emit, hide_st; cbn. rewrite map_app. cbn. rewrite H. reflexivity. Qed.

Lemma wait_loop_names : forall mk timeout rs wait o evs rest, (forall r, misname_event (mk r) = mk r) ->
  wait_loop mk timeout wait rs = (o, evs, rest) -> map misname_event evs = evs.
Proof.
  intros mk timeout rs. induction rs as [|r rs IH]; intros wait o evs rest Hm H; cbn [wait_loop] in H.
  - injection H as _ <- _. reflexivity.
  - destruct (rbytes r) as [|x d].
    + destruct (wait <? timeout)%N.
      * destruct (wait_loop mk timeout (wait + 1) rs) as [[o' evs'] rest'] eqn:E.
        injection H as _ <- _. cbn. rewrite Hm, (IH _ _ _ _ Hm E). reflexivity.
      * injection H as _ <- _. cbn. rewrite Hm. reflexivity.
    + injection H as _ <- _. cbn. rewrite Hm. reflexivity.
Qed.
Lemma raw_loop_names : forall fd timeout rs wait got acc o evs rest,
  raw_loop fd timeout wait got acc rs = (o, evs, rest) -> map misname_event evs = evs.
Proof.
  intros fd timeout rs. induction rs as [|r rs IH]; intros wait got acc o evs rest H; cbn [raw_loop] in H.
  - injection H as _ <- _. reflexivity.
  - destruct (rbytes r) as [|x d].
    + destruct (is_err r && got); [injection H as _ <- _; reflexivity|].
      destruct (wait + 1 <? timeout)%N; [|injection H as _ <- _; reflexivity].
      destruct (raw_loop fd timeout (wait + 1) got acc rs) as [[o' evs'] rest'] eqn:E.
      injection H as _ <- _. cbn. rewrite (IH _ _ _ _ _ _ E). reflexivity.
    + destruct (SERVERRESPONSE_BUFFER_LENGTH <=? length (x :: d))%nat; [injection H as _ <- _; reflexivity|].
      destruct (wait <? timeout)%N; [|injection H as _ <- _; reflexivity].
      destruct (raw_loop fd timeout wait true (acc ++ cstr (x :: d)) rs) as [[o' evs'] rest'] eqn:E.
      injection H as _ <- _. cbn. rewrite (IH _ _ _ _ _ _ E). reflexivity.
Qed.

Create HintDb blind.
Ltac b1 :=
  lazymatch goal with
  | |- blind getc => intros ?; reflexivity
  | |- blind (ret _) => apply blind_ret
  | |- blind (fail_ub _) => apply blind_stop
  | |- blind blocked => apply blind_stop
  | |- blind diverge => apply blind_stop
  | |- blind killed => apply blind_stop
  | |- blind (lift _) => apply blind_stop
  | |- blind (updc _) => apply blind_updc
  | |- blind (setLastSocketErrNo _) => apply blind_updc
  | |- blind (setLastServerResponse _) => apply blind_updc
  | |- blind (upde _) => apply blind_upde; reflexivity
  | |- blind (emit _) => apply blind_emit; reflexivity
  | |- blind (bind getc _) => apply blind_getc; intros ?
  | |- blind (bind gete _) => apply blind_gete; [reflexivity|intros ?]
  | |- blind (bind _ _) => apply blind_bind; [|intros ?]
  | |- blind (if ?b then _ else _) => destruct b
  | |- blind (match ?x with _ => _ end) => destruct x eqn:?
  | |- blind _ => solve [eauto with blind nocore]
  end.
Ltac bs := repeat (b1; cbv zeta).

Lemma blind_addLog : forall i p, blind (addLog i p).
Proof. intros. unfold addLog. bs. Qed.
#[local] Hint Resolve blind_addLog : blind.
Lemma blind_logc : forall i, blind (logc i).
Proof. intros. apply blind_addLog. Qed.
Lemma blind_logs : forall i, blind (logs i).
Proof. intros. apply blind_addLog. Qed.
#[local] Hint Resolve blind_logc blind_logs : blind.
Lemma blind_log_errno : forall er, blind (log_errno er).
Proof. intros. unfold log_errno. bs. Qed.
#[local] Hint Resolve blind_log_errno : blind.
Lemma blind_fcntl : forall m, blind (sys_fcntl m).
Proof. intros. unfold sys_fcntl. bs. Qed.
#[local] Hint Resolve blind_fcntl : blind.
Lemma blind_nonblocking : blind setSocketToNonBlocking.
Proof. unfold setSocketToNonBlocking. bs. Qed.
Lemma blind_blocking : blind setSocketToBlocking.
Proof. unfold setSocketToBlocking. bs. Qed.
Lemma blind_resolve : forall n, blind (sys_gethostbyname n).
Proof. intros. unfold sys_gethostbyname. bs. Qed.
Lemma blind_connect : blind sys_connect.
Proof. unfold sys_connect. bs. Qed.
Lemma blind_wait_connect : blind wait_connect.
Proof. unfold wait_connect. bs. Qed.
#[local] Hint Resolve blind_nonblocking blind_blocking blind_resolve blind_connect blind_wait_connect : blind.
Lemma blind_initialize : blind initializeSession.
Proof. unfold initializeSession, initializeSessionPOSIX. bs. Qed.
Lemma blind_greeting_result : forall r, blind (greeting_result r).
Proof. intros. unfold greeting_result. bs. Qed.
#[local] Hint Resolve blind_initialize blind_greeting_result : blind.
Lemma blind_greetings : blind checkServerGreetings.
Proof.
  unfold checkServerGreetings. apply blind_getc; intros c. apply blind_gete; [reflexivity|intros e].
  destruct (wait_loop _ _ _ _) as [[o evs] rest] eqn:E.
  apply blind_bind; [b1|intros _]. apply blind_bind; [|intros _; bs].
  apply blind_emits. exact (wait_loop_names _ _ _ _ _ _ _ (fun _ => eq_refl) E).
Qed.
Lemma blind_wait_bio : blind wait_bio.
Proof.
  unfold wait_bio, wait_null_bio. apply blind_getc; intros c. destruct (c_bio c) as [b|]; [|bs].
  apply blind_gete; [reflexivity|intros e].
  destruct (wait_loop _ _ _ _) as [[o evs] rest] eqn:E.
  apply blind_bind; [b1|intros _]. apply blind_bind; [|intros _; bs].
  apply blind_emits. exact (wait_loop_names _ _ _ _ _ _ _ (fun _ => eq_refl) E).
Qed.
#[local] Hint Resolve blind_greetings blind_wait_bio : blind.
Lemma blind_greetings_tls : blind checkServerGreetingsTLS.
Proof. unfold checkServerGreetingsTLS. bs. Qed.
Lemma blind_raw_reply : blind getRawCommandReply.
Proof.
  unfold getRawCommandReply. apply blind_bind; [bs|intros _]. apply blind_getc; intros c.
  apply blind_gete; [reflexivity|intros e].
  destruct (raw_loop _ _ _ _ _ _) as [[o evs] rest] eqn:E.
  apply blind_bind; [b1|intros _]. apply blind_bind; [|intros _; bs].
  apply blind_emits. exact (raw_loop_names _ _ _ _ _ _ _ _ _ E).
Qed.
Lemma blind_tls_reply : blind getServerReplyTLS.
Proof. unfold getServerReplyTLS. bs. Qed.
#[local] Hint Resolve blind_greetings_tls blind_raw_reply blind_tls_reply : blind.
Lemma blind_reply : blind getServerReply.
Proof. unfold getServerReply. bs. Qed.
Lemma blind_send : forall d, blind (sys_send d).
Proof. intros. unfold sys_send. bs. Qed.
Lemma blind_puts : forall b d, blind (sys_puts b d).
Proof. intros. unfold sys_puts. bs. Qed.
#[local] Hint Resolve blind_reply blind_send blind_puts : blind.
Lemma blind_cmd_with : forall k d err, blind k -> blind (sendCommandPtr_with k d err).
Proof. intros. unfold sendCommandPtr_with, sendRaw2_with, sendCommandTLS_with. bs. Qed.
#[local] Hint Resolve blind_cmd_with : blind.
Lemma blind_cleanup_f : forall n, blind (cleanup_f n).
Proof.
  induction n as [|n IH]; cbn [cleanup_f]; unfold sendQuit_with, free_tls, close_socket; bs.
Qed.
Lemma blind_cleanup : blind cleanup.
Proof.
  intros s. unfold cleanup. rewrite <- (blind_cleanup_f (cleanup_fuel (s_e s)) s). reflexivity.
Qed.
#[local] Hint Resolve blind_cleanup : blind.
Lemma blind_cmd : forall d err, blind (sendCommandPtr d err).
Proof. intros. apply blind_cmd_with, blind_cleanup. Qed.
Lemma blind_quit : blind sendQuitCommand.
Proof. unfold sendQuitCommand, sendQuit_with. bs. Qed.
#[local] Hint Resolve blind_cmd blind_quit : blind.
Lemma blind_raw3 : forall d err tmo, blind (sendRaw3 d err tmo).
Proof. intros. unfold sendRaw3, sendRaw2, sendRaw2_with. bs. Qed.
#[local] Hint Resolve blind_raw3 : blind.
Lemma blind_feedback : forall d err tmo, blind (sendFeedback d err tmo).
Proof. intros. unfold sendFeedback, sendFeedbackTLS. bs. Qed.
#[local] Hint Resolve blind_feedback : blind.
Lemma blind_fb : forall d err tmo, blind (sendFeedbackPtr d err tmo).
Proof. intros. unfold sendFeedbackPtr. bs. Qed.
#[local] Hint Resolve blind_fb : blind.
Lemma blind_ehlo_loop : forall n tmo o, blind (ehlo_loop n tmo o).
Proof. induction n as [|n IH]; intros tmo o; cbn [ehlo_loop]; bs. Qed.
#[local] Hint Resolve blind_ehlo_loop : blind.
Lemma blind_ehlo : forall err tmo, blind (ehlo_with err tmo).
Proof. intros. unfold ehlo_with. bs. Qed.
#[local] Hint Resolve blind_ehlo : blind.
Lemma blind_auth : blind authenticateClient.
Proof. unfold authenticateClient, authPlain, authLogin, authXOauth2. bs. Qed.
#[local] Hint Resolve blind_auth : blind.
Lemma blind_auth_if : blind authenticate_if_needed.
Proof. unfold authenticate_if_needed. bs. Qed.
#[local] Hint Resolve blind_auth_if : blind.

Lemma blind_fresh : blind fresh_id.
Proof. unfold fresh_id. bs. Qed.
#[local] Hint Resolve blind_fresh : blind.

(** Two computations of which the first sees misnamed certificates. *)
Definition blind2 {A} (m1 m2 : M A) : Prop := forall s, m1 (hide_st s) = (fst (m2 s), hide_st (snd (m2 s))).
Lemma blind2_bind : forall {A C} (m1 m2 : M A) (k1 k2 : A -> M C), blind2 m1 m2 -> (forall a, blind2 (k1 a) (k2 a)) ->
  blind2 (bind m1 k1) (bind m2 k2).
Proof.
  intros A C m1 m2 k1 k2 Hm Hk s. unfold bind. rewrite (Hm s).
  destruct (m2 s) as [o s']; cbn [fst snd].
  destruct o as [a| |u| | |]; try reflexivity. apply Hk.
Qed.
Lemma blind2_getc : forall {C} (k1 k2 : client -> M C), (forall c, blind2 (k1 c) (k2 c)) ->
  blind2 (bind getc k1) (bind getc k2).
Proof. intros C k1 k2 Hk s. exact (Hk (s_c s) s). Qed.
Lemma blind2_same : forall {A} (m : M A), blind m -> blind2 m m.
Proof. intros A m H. exact H. Qed.
Lemma blind2_verify : forall b r h, blind2 (emit (EvVerify b r false)) (emit (EvVerify b r h)).
Proof. intros b r h s. unfold emit, hide_st; cbn. rewrite map_app. reflexivity. Qed.

(** The only place where a negotiation result is used. *)
Lemma blind_starttls : blind startTLSNegotiation.
Proof.
  unfold startTLSNegotiation. apply blind_bind; [bs|intros _]. intros s.
  match goal with |- bind gete ?k _ = _ => 
    change (bind gete k (hide_st s)) with (k (all_misnamed (s_e s)) (hide_st s));
    change (bind gete k s) with (k (s_e s) s) end.
  cbv beta.
  change (e_tls (all_misnamed (s_e s))) with (map misname (e_tls (s_e s))).
  destruct (e_tls (s_e s)) as [|t l] eqn:Et; [reflexivity|].
  cbn [map].
  clear Et. revert s.
  match goal with |- forall s, ?m1 (hide_st s) = (fst (?m2 s), _) => change (blind2 m1 m2) end.
  cbn [misname t_ctx t_bio t_paths t_connect t_handshake t_cert t_verify t_host t_err].
  apply blind2_bind; [intros s; reflexivity|intros _].
  destruct (negb (t_ctx t)); [apply blind2_same; bs|].
  do 3 (apply blind2_bind; [apply blind2_same; bs|intros ?]).
  destruct (negb (t_bio t)); [apply blind2_same; bs|].
  apply blind2_bind; [apply blind2_same; bs|intros ?].
  apply blind2_getc; intros c.
  do 2 (apply blind2_bind; [apply blind2_same; bs|intros ?]).
  destruct (c_server c) as [name|]; [|apply blind2_same; bs].
  destruct (_ <? _)%N; [apply blind2_same; bs|].
  destruct (negb (t_paths t)); [apply blind2_same; bs|].
  destruct (negb (t_connect t)); [apply blind2_same; bs|].
  do 2 (apply blind2_bind; [apply blind2_same; bs|intros ?]).
  destruct (negb (t_handshake t)); [apply blind2_same; bs|].
  do 2 (apply blind2_bind; [apply blind2_same; bs|intros ?]).
  destruct (negb (t_cert t)); [apply blind2_same; bs|].
  apply blind2_bind; [apply blind2_verify|intros _].
  apply blind2_same; bs.
Qed.
#[local] Hint Resolve blind_starttls : blind.
Lemma blind_identify : blind sendServerIdentification.
Proof. apply blind_ehlo. Qed.
Lemma blind_identify_tls : blind getServerSecureIdentification.
Proof. unfold getServerSecureIdentification. bs. Qed.
#[local] Hint Resolve blind_identify blind_identify_tls : blind.
Lemma blind_establish : blind establish.
Proof.
  unfold establish, establishPlain, establishOpp, establishForced, upgradeToSecureConnection. bs.
Qed.
#[local] Hint Resolve blind_establish : blind.
Lemma blind_mail_from : forall l n, blind (mail_from_loop l n).
Proof. induction l as [|f l IH]; intros n; cbn [mail_from_loop]; bs. Qed.
Lemma blind_add : forall l n, blind (addMailRecipients l n).
Proof. induction l as [|f l IH]; intros n; cbn [addMailRecipients]; bs. Qed.
#[local] Hint Resolve blind_mail_from blind_add : blind.
Lemma blind_recipients_loop : forall l, blind (recipients_loop l).
Proof. induction l as [|a l IH]; cbn [recipients_loop]; bs. Qed.
#[local] Hint Resolve blind_recipients_loop : blind.
Lemma blind_recipients : forall m, blind (setMailRecipients m).
Proof. intros. unfold setMailRecipients. bs. Qed.
Lemma blind_header : forall f v err, blind (addMailHeader f v err).
Proof. intros. unfold addMailHeader. bs. Qed.
#[local] Hint Resolve blind_recipients blind_header : blind.
Lemma blind_address_header : forall f a, blind (address_header f a).
Proof. intros. unfold address_header. bs. Qed.
#[local] Hint Resolve blind_address_header : blind.
Lemma blind_headers : forall m, blind (setMailHeaders m).
Proof. intros. unfold setMailHeaders. bs. Qed.
Lemma blind_chunks : forall l err, blind (send_chunks l err).
Proof. induction l as [|x l IH]; intros err; cbn [send_chunks]; bs. Qed.
#[local] Hint Resolve blind_headers blind_chunks : blind.
Lemma blind_body : forall m, blind (setMailBody m).
Proof. intros. unfold setMailBody. bs. Qed.
#[local] Hint Resolve blind_body : blind.
Lemma blind_sendMail : forall m, blind (sendMail m).
Proof. intros. unfold sendMail, mail_transaction. bs. Qed.

Definition hide_world (w : world) : world :=
  mkWorld (w_clients w) (all_misnamed (w_env w)) (map misname_event (w_trace w)).

Lemma hide_run_on : forall {A} i (m : M A) f w, blind m ->
  run_on i m f (hide_world w) = (fst (run_on i m f w), hide_world (snd (run_on i m f w))).
Proof.
  intros A i m f w Hm. unfold run_on. change (get_client (hide_world w) i) with (get_client w i).
  destruct (get_client w i) as [c|]; [|reflexivity].
  pose proof (Hm (mkSt c (w_env w) (w_trace w))) as H.
  change (hide_st (mkSt c (w_env w) (w_trace w))) with (mkSt c (w_env (hide_world w)) (w_trace (hide_world w))) in H.
  rewrite H. destruct (m (mkSt c (w_env w) (w_trace w))) as [o s]. reflexivity.
Qed.
Lemma hide_alter : forall i f w,
  alter i f (hide_world w) = (fst (alter i f w), hide_world (snd (alter i f w))).
Proof.
  intros i f w. unfold alter. change (get_client (hide_world w) i) with (get_client w i).
  destruct (get_client w i) as [c|]; [|reflexivity]. destruct (f c); reflexivity.
Qed.
Lemma hide_create : forall o w,
  create o (hide_world w) = (fst (create o w), hide_world (snd (create o w))).
Proof. intros o w. destruct o; reflexivity. Qed.

Lemma hide_step : forall o w, step o (hide_world w) = (fst (step o w), hide_world (snd (step o w))).
Proof.
  intros o w. destruct o; cbn [step]; repeat change (get_client (hide_world w)) with (get_client w);
    try apply hide_alter; try apply hide_create.
  - destruct (get_client w src) as [c|]; [apply hide_create|reflexivity].
  - destruct (get_client w src) as [c|]; reflexivity.
  - destruct (get_client w dst) as [d|]; [|reflexivity]. destruct (get_client w src) as [c|]; [|reflexivity].
    destruct (Nat.eqb dst src); [reflexivity|].
    destruct (kind_eqb (c_kind d) (c_kind c)); [apply hide_alter|reflexivity].
  - destruct (get_client w dst) as [d|]; [|reflexivity]. destruct (get_client w src) as [c|]; [|reflexivity].
    destruct (Nat.eqb dst src); [reflexivity|].
    destruct (kind_eqb (c_kind d) (c_kind c)); reflexivity.
  - apply hide_run_on, blind_sendMail.
  - apply hide_run_on. bs.
Qed.
Lemma hide_run : forall ops w, run ops (hide_world w) = (fst (run ops w), hide_world (snd (run ops w))).
Proof.
  induction ops as [|o ops IH]; intros w; [reflexivity|]. cbn [run]. rewrite hide_step.
  destruct (step o w) as [x w']; cbn [fst snd]. destruct (continues x); [|reflexivity].
  rewrite IH. destruct (run ops w') as [xs w'']. reflexivity.
Qed.

(** A program whose certificates are all misnamed. *)
Lemma program_misnamed : forall ops e,
  fst (run ops (initial_world (all_misnamed e))) = fst (run ops (initial_world e)) /\
  w_clients (snd (run ops (initial_world (all_misnamed e)))) = w_clients (snd (run ops (initial_world e))) /\
  w_trace (snd (run ops (initial_world (all_misnamed e)))) = map misname_event (w_trace (snd (run ops (initial_world e)))).
Proof.
  intros ops e. pose proof (hide_run ops (initial_world e)) as H.
  change (hide_world (initial_world e)) with (initial_world (all_misnamed e)) in H. rewrite H.
  repeat split.
Qed.

Lemma writes_misnamed : forall ops e b d r,
  In (EvPuts b d r) (w_trace (snd (run ops (initial_world e)))) ->
  In (EvPuts b d r) (w_trace (snd (run ops (initial_world (all_misnamed e))))) /\
  ~ named_right b (w_trace (snd (run ops (initial_world (all_misnamed e))))).
Proof.
  intros ops e b d r H. destruct (program_misnamed ops e) as (_ & _ & ->). split.
  - exact (in_map misname_event _ _ H).
  - intros (res & Hin). apply in_map_iff in Hin. destruct Hin as (ev & E & _). destruct ev; discriminate E.
Qed.
