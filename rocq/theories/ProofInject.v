(** Two runs that differ in everything but TLS. *)

From Coq Require Import Ascii String List NArith ZArith Bool Lia ZifyBool ZifyNat ZifyN.
From Verif Require Import Base Lib ModelUtil ModelBase64 ModelAddress ModelAttachment ModelMessage ModelReply ModelErrors ModelState ModelClient ModelWorld
  SpecInject.
Import ListNotations.
Open Scope Z_scope.

(** ** Traces only grow *)
Definition grw {A} (m : M A) : Prop := forall s, begins (s_t s) (s_t (snd (m s))).
Lemma begins_refl : forall {A} (a : list A), begins a a.
Proof. intros A a. exists []. symmetry. apply app_nil_r. Qed.
Lemma begins_trans : forall {A} (a b c : list A), begins a b -> begins b c -> begins a c.
Proof. intros A a b c [x ->] [y ->]. exists (x ++ y). symmetry. apply app_assoc. Qed.
Lemma begins_conv : forall a b, begins a b -> begins (conversation a) (conversation b).
Proof. intros a b [x ->]. exists (conversation x). apply filter_app. Qed.
Lemma grw_bind : forall {A C} (m : M A) (k : A -> M C), grw m -> (forall a, grw (k a)) -> grw (bind m k).
Proof.
  intros A C m k H1 H2 s. unfold bind. specialize (H1 s). destruct (m s) as [o s1]. cbn [snd] in H1.
  destruct o; try exact H1. eapply begins_trans; [exact H1|apply H2].
Qed.
Lemma grw_same : forall {A} (m : M A), (forall s, s_t (snd (m s)) = s_t s) -> grw m.
Proof. intros A m H s. rewrite H. apply begins_refl. Qed.
Lemma grw_getc : forall {A} (k : client -> M A), (forall c, grw (k c)) -> grw (bind getc k).
Proof. intros A k H s. unfold bind, getc. apply H. Qed.
Lemma grw_gete : forall {A} (k : env -> M A), (forall c, grw (k c)) -> grw (bind gete k).
Proof. intros A k H s. unfold bind, gete. apply H. Qed.
Lemma grw_emits : forall l, grw (emits l).
Proof. intros l s. exists l. reflexivity. Qed.
Lemma grw_emit : forall l, grw (emit l).
Proof. intros l s. exists [l]. reflexivity. Qed.
Lemma addLog_shape : forall i p s, exists l n, snd (addLog i p s) = mkSt (set_log l n (s_c s)) (s_e s) (s_t s).
Proof.
  intros i p s. assert (I0 : exists l n, s = mkSt (set_log l n (s_c s)) (s_e s) (s_t s)).
  { destruct s as [c e t]. exists (c_log c), (c_logsize c). destruct c. reflexivity. }
  unfold addLog, bind, getc. destruct (c_log (s_c s)); [|exact I0]. cbv zeta.
  repeat match goal with |- context [(if ?b then _ else _) s] => destruct b end; try exact I0; eexists _, _; reflexivity.
Qed.
Lemma grw_addLog : forall i p, grw (addLog i p).
Proof. intros i p. apply grw_same. intros s. destruct (addLog_shape i p s) as (l & n & ->). reflexivity. Qed.
Ltac g0 := lazymatch goal with
  | |- grw (ret _) => apply grw_same; reflexivity
  | |- grw (lift _) => apply grw_same; reflexivity
  | |- grw (fail_ub _) => apply grw_same; reflexivity
  | |- grw blocked => apply grw_same; reflexivity
  | |- grw killed => apply grw_same; reflexivity
  | |- grw diverge => apply grw_same; reflexivity
  | |- grw (updc _) => apply grw_same; reflexivity
  | |- grw (upde _) => apply grw_same; reflexivity
  | |- grw (emit _) => apply grw_emit
  | |- grw (emits _) => apply grw_emits
  | |- grw (addLog _ _) => apply grw_addLog
  | |- grw (logc _) => apply grw_addLog
  | |- grw (logs _) => apply grw_addLog
  | |- grw (setLastServerResponse _) => apply grw_same; reflexivity
  | |- grw (setLastSocketErrNo _) => apply grw_same; reflexivity
  | |- grw (bind getc _) => apply grw_getc; intros ?
  | |- grw (bind gete _) => apply grw_gete; intros ?
  | |- grw (bind _ _) => apply grw_bind; [|intros ?]
  | |- grw (if ?b then _ else _) => destruct b
  | |- grw (let '(_, _) := ?x in _) => destruct x
  | |- grw (match ?x with _ => _ end) => destruct x
  end.
Ltac gs := repeat (g0; cbv zeta).
Lemma grw_log_errno : forall e, grw (log_errno e). Proof. intros. unfold log_errno. gs. Qed.
Lemma grw_fcntl : forall m, grw (sys_fcntl m). Proof. intros. unfold sys_fcntl. gs. Qed.
Lemma grw_nonblocking : grw setSocketToNonBlocking. Proof. unfold setSocketToNonBlocking. gs; first [apply grw_fcntl|apply grw_log_errno]. Qed.
Lemma grw_blocking : grw setSocketToBlocking. Proof. unfold setSocketToBlocking. gs; first [apply grw_fcntl|apply grw_log_errno]. Qed.
Lemma grw_wait_bio : grw wait_bio. Proof. unfold wait_bio, wait_null_bio. gs. Qed.
Lemma grw_reply_tls : grw getServerReplyTLS. Proof. unfold getServerReplyTLS. gs. apply grw_wait_bio. Qed.
Lemma grw_raw_reply : grw getRawCommandReply. Proof. unfold getRawCommandReply. gs; first [apply grw_nonblocking|apply grw_blocking]. Qed.
Lemma grw_reply : grw getServerReply. Proof. unfold getServerReply. gs; first [apply grw_raw_reply|apply grw_reply_tls]. Qed.
Lemma grw_send : forall d, grw (sys_send d). Proof. intros. unfold sys_send. gs. Qed.
Lemma grw_puts : forall b d, grw (sys_puts b d). Proof. intros. unfold sys_puts. gs. Qed.
Lemma grw_cmd_with : forall cl d err, grw cl -> grw (sendCommandPtr_with cl d err).
Proof. intros. unfold sendCommandPtr_with, sendRaw2_with, sendCommandTLS_with. gs; first [apply grw_send|apply grw_puts|assumption]. Qed.
Lemma grw_cleanup_f : forall f, grw (cleanup_f f).
Proof. induction f as [|f IH]; cbn [cleanup_f]; unfold sendQuit_with, free_tls, close_socket; gs. apply grw_cmd_with, IH. Qed.
Lemma grw_cleanup : grw cleanup. Proof. intros s. apply grw_cleanup_f. Qed.
Lemma grw_cmd : forall d err, grw (sendCommandPtr d err). Proof. intros. apply grw_cmd_with, grw_cleanup. Qed.
Lemma grw_raw3 : forall d e t, grw (sendRaw3 d e t).
Proof. intros. unfold sendRaw3, sendRaw2, sendRaw2_with. gs; first [apply grw_send|apply grw_cleanup|apply grw_raw_reply]. Qed.
Lemma grw_feedback : forall d e t, grw (sendFeedback d e t).
Proof. intros. unfold sendFeedback, sendFeedbackTLS. gs; first [apply grw_raw3|apply grw_puts|apply grw_cleanup|apply grw_reply]. Qed.
Lemma grw_fb : forall d e t, grw (sendFeedbackPtr d e t).
Proof. intros. unfold sendFeedbackPtr. gs; first [apply grw_raw3|apply grw_feedback]. Qed.
Lemma grw_ehlo_loop : forall f t o, grw (ehlo_loop f t o).
Proof. induction f as [|f IH]; intros t o; cbn [ehlo_loop]; gs; first [apply grw_reply|apply IH]. Qed.
Lemma grw_ehlo : forall e t, grw (ehlo_with e t).
Proof. intros. unfold ehlo_with. gs; first [apply grw_feedback|apply grw_ehlo_loop]. Qed.
Lemma grw_auth : grw authenticate_if_needed.
Proof. unfold authenticate_if_needed, authenticateClient, authPlain, authLogin, authXOauth2. gs; apply grw_fb. Qed.
Lemma grw_starttls : grw startTLSNegotiation.
Proof. unfold startTLSNegotiation, fresh_id. gs; apply grw_cleanup. Qed.
Lemma grw_from : forall l r, grw (mail_from_loop l r).
Proof. induction l as [|x l IH]; intros r; cbn [mail_from_loop]; gs; first [apply grw_fb|apply IH]. Qed.
Lemma grw_add : forall l r, grw (addMailRecipients l r).
Proof. induction l as [|x l IH]; intros r; cbn [addMailRecipients]; gs; first [apply grw_fb|apply IH]. Qed.
Lemma grw_rcpts : forall l, grw (recipients_loop l).
Proof. induction l as [|x l IH]; cbn [recipients_loop]; gs; first [apply grw_add|apply IH]. Qed.
Lemma grw_set_rcpts : forall m, grw (setMailRecipients m).
Proof. intros. unfold setMailRecipients. gs; first [apply grw_from|apply grw_rcpts]. Qed.
Lemma grw_address_header : forall f a, grw (address_header f a).
Proof. intros. unfold address_header, addMailHeader. gs; apply grw_cmd. Qed.
Lemma grw_headers : forall m, grw (setMailHeaders m).
Proof. intros. unfold setMailHeaders, addMailHeader. gs; first [apply grw_fb|apply grw_cmd|apply grw_address_header]. Qed.
Lemma grw_chunks : forall l e, grw (send_chunks l e).
Proof. induction l as [|x l IH]; intros e; cbn [send_chunks]; gs; first [apply grw_cmd|apply IH]. Qed.
Lemma grw_body : forall m, grw (setMailBody m).
Proof. intros. unfold setMailBody, sendQuitCommand, sendQuit_with. gs; first [apply grw_chunks|apply grw_fb|apply grw_cmd]. Qed.
Lemma grw_transaction : forall m, grw (mail_transaction m).
Proof. intros. unfold mail_transaction. gs; first [apply grw_set_rcpts|apply grw_headers|apply grw_body|apply grw_cleanup]. Qed.
Lemma grw_greeting_result : forall r, grw (greeting_result r). Proof. intros. unfold greeting_result. gs. Qed.

(** ** Without a channel nothing is said over TLS *)
Definition settings (c : client) := (c_kind c, c_server c, c_port c, c_batch c, c_timeout c, c_cred c, c_selfsigned c, c_rawptr c).
Definition side (e : env) := (e_tls e, e_bread e, e_bputs e, e_fs e, e_next e).
Definition loud (ev : event) : bool := match ev with EvPuts _ _ _ | EvRead _ _ | EvBioNew _ _ => true | _ => false end.
Definition okm (rp : bool) (c : client) : Prop := c_kind c <> KPlain /\ c_rawptr c = rp.
Definition okc : client -> Prop := okm false.
Record calm (s s' : st) : Prop := {
  cl_bio : c_bio (s_c s') = None;
  cl_set : settings (s_c s') = settings (s_c s);
  cl_side : side (s_e s') = side (s_e s);
  cl_loud : filter loud (s_t s') = filter loud (s_t s);
  cl_conn : c_conn (s_c s) = false -> c_conn (s_c s') = false }.
Lemma okc_settings : forall {rp} c c', settings c' = settings c -> okm rp c -> okm rp c'.
Proof. unfold settings, okm. intros rp c c' E [H1 H2]. inversion E. split; congruence. Qed.
Lemma calm_trans : forall a b c, calm a b -> calm b c -> calm a c.
Proof. intros a b c [] []. constructor; [assumption|congruence|congruence|congruence|auto]. Qed.
Lemma calm_refl : forall s, c_bio (s_c s) = None -> calm s s.
Proof. intros s H. constructor; auto. Qed.
Definition mute {A} (rp : bool) (F : A -> Prop) (m : M A) : Prop := forall s, okm rp (s_c s) -> c_bio (s_c s) = None ->
  calm s (snd (m s)) /\ forall a, fst (m s) = Done a -> F a.
Definition any {A} (a : A) : Prop := True.
Lemma mute_bind : forall {rp : bool} {A C} G F (m : M A) (k : A -> M C), mute rp G m -> (forall a, G a -> mute rp F (k a)) -> mute rp F (bind m k).
Proof.
  intros rp A C G F m k H1 H2 s O N. unfold bind. destruct (H1 s O N) as [K X]. destruct (m s) as [o s1]. cbn [fst snd] in *.
  destruct o as [a| | | | |]; try (split; [exact K|discriminate]).
  destruct (H2 a (X a eq_refl) s1 (okc_settings _ _ (cl_set _ _ K) O) (cl_bio _ _ K)) as [K2 X2].
  split; [exact (calm_trans _ _ _ K K2)|exact X2].
Qed.
Lemma mute_weaken : forall {rp : bool} {A} (F G : A -> Prop) (m : M A), mute rp F m -> (forall a, F a -> G a) -> mute rp G m.
Proof. intros rp A F G m H W s O N. destruct (H s O N) as [K X]. split; [exact K|auto]. Qed.
Lemma mute_any : forall {rp : bool} {A} F (m : M A), mute rp F m -> mute rp any m.
Proof. intros rp A F m H. eapply mute_weaken; [exact H|]. intros. exact Logic.I. Qed.
Lemma mute_getc : forall {rp : bool} {A} F (k : client -> M A), (forall c, okm rp c -> c_bio c = None -> mute rp F (k c)) -> mute rp F (bind getc k).
Proof. intros rp A F k H s O N. unfold bind, getc. apply H; assumption. Qed.
Lemma mute_gete : forall {rp : bool} {A} F (k : env -> M A), (forall c, mute rp F (k c)) -> mute rp F (bind gete k).
Proof. intros rp A F k H s O N. unfold bind, gete. apply H; assumption. Qed.
Lemma mute_ret : forall {rp : bool} {A} (F : A -> Prop) a, F a -> mute rp F (ret a).
Proof. intros rp A F a H s O N. split; [apply calm_refl, N|]. intros b E. inversion E; subst. exact H. Qed.
Lemma mute_lift : forall {rp : bool} {A} (F : A -> Prop) o, (forall a, o = Done a -> F a) -> mute rp F (lift o).
Proof. intros rp A F a H s O N. split; [apply calm_refl, N|]. intros b E. exact (H b E). Qed.
Lemma mute_stop : forall {rp : bool} {A} (F : A -> Prop) o, (forall a, o <> Done a) -> mute rp F (fun s => (o, s)).
Proof. intros rp A F o H s O N. split; [apply calm_refl, N|]. intros b E. exact (False_ind _ (H b E)). Qed.
Lemma mute_updc : forall {rp : bool} (F : unit -> Prop) f, F tt -> (forall c, c_bio c = None -> c_bio (f c) = None /\ settings (f c) = settings c /\ (c_conn c = false -> c_conn (f c) = false)) ->
  mute rp F (updc f).
Proof.
  intros rp F f Ft H s O N. destruct (H _ N) as (H1 & H2 & H3). split; [constructor; cbn; auto|]. intros []; auto.
Qed.
Lemma mute_upde : forall {rp : bool} (F : unit -> Prop) f, F tt -> (forall e, side (f e) = side e) -> mute rp F (upde f).
Proof. intros rp F f Ft H s O N. split; [constructor; cbn; auto|]. intros []; auto. Qed.
Lemma mute_emits : forall {rp : bool} (F : unit -> Prop) l, F tt -> filter loud l = [] -> mute rp F (emits l).
Proof.
  intros rp F f Ft H s O N. split; [constructor; cbn; auto|]. { rewrite filter_app, H. apply app_nil_r. } intros []; auto.
Qed.
Lemma mute_emit : forall {rp : bool} (F : unit -> Prop) l, F tt -> loud l = false -> mute rp F (emit l).
Proof. intros rp F l Ft H. apply (mute_emits F [l] Ft). cbn. rewrite H. reflexivity. Qed.
Lemma mute_addLog : forall {rp : bool} (F : unit -> Prop) i p, F tt -> mute rp F (addLog i p).
Proof.
  intros rp F i p Ft s O N. destruct (addLog_shape i p s) as (l & n & ->). split; [constructor; cbn; auto|]. intros []; auto.
Qed.
Ltac ft := first [exact Logic.I|reflexivity|assumption|idtac].
Ltac m0 := lazymatch goal with
  | |- mute _ _ (ret _) => apply mute_ret; ft
  | |- mute _ _ (lift _) => apply mute_lift; intros ? ?; ft
  | |- mute _ _ (fail_ub _) => apply mute_stop; discriminate
  | |- mute _ _ blocked => apply mute_stop; discriminate
  | |- mute _ _ killed => apply mute_stop; discriminate
  | |- mute _ _ diverge => apply mute_stop; discriminate
  | |- mute _ _ (updc _) => apply mute_updc; [ft|intros ? ?; split; [first [assumption|reflexivity]|split; [reflexivity|first [reflexivity|auto]]]]
  | |- mute _ _ (upde _) => apply mute_upde; [ft|reflexivity]
  | |- mute _ _ (emit _) => apply mute_emit; [ft|reflexivity]
  | |- mute _ _ (addLog _ _) => apply mute_addLog; ft
  | |- mute _ _ (logc _) => apply mute_addLog; ft
  | |- mute _ _ (logs _) => apply mute_addLog; ft
  | |- mute _ _ (setLastServerResponse _) => unfold setLastServerResponse; m0
  | |- mute _ _ (setLastSocketErrNo _) => unfold setLastSocketErrNo; m0
  | |- mute _ _ (bind getc _) => apply mute_getc; intros ? ? ?
  | |- mute _ _ (bind gete _) => apply mute_gete; intros ?
  | |- mute _ _ (bind _ _) => apply (mute_bind any); [|intros ? _]
  | |- mute _ _ (if ?b then _ else _) => destruct b
  | |- mute _ _ (let '(_, _) := ?x in _) => destruct x
  | |- mute _ _ (match ?x with _ => _ end) => destruct x
  end.
Ltac ms := repeat (m0; cbv zeta).
Lemma mute_log_errno : forall {rp : bool} e, mute rp any (log_errno e). Proof. intros. unfold log_errno. ms. Qed.
Lemma mute_fcntl : forall {rp : bool} m, mute rp any (sys_fcntl m). Proof. intros. unfold sys_fcntl. ms. Qed.
Lemma mute_nonblocking : forall {rp : bool}, mute rp any setSocketToNonBlocking. Proof. intros rp. unfold setSocketToNonBlocking. ms; first [apply mute_fcntl|apply mute_log_errno]. Qed.
Lemma mute_blocking : forall {rp : bool}, mute rp any setSocketToBlocking. Proof. intros rp. unfold setSocketToBlocking. ms; first [apply mute_fcntl|apply mute_log_errno]. Qed.
Lemma mute_initialize : forall {rp : bool}, mute rp any initializeSession.
Proof.
  intros rp. unfold initializeSession, initializeSessionPOSIX, sys_gethostbyname, sys_connect, wait_connect. ms;
  first [apply mute_nonblocking|apply mute_blocking|apply mute_log_errno].
Qed.
Lemma wait_loop_quiet : forall fd rs tmo w o evs rest, wait_loop (EvRecv fd) tmo w rs = (o, evs, rest) -> filter loud evs = [].
Proof.
  intros fd. induction rs as [|r rs IH]; intros tmo w o evs rest H; cbn [wait_loop] in H; [inversion H; reflexivity|].
  destruct (rbytes r); [|inversion H; reflexivity]. destruct (w <? tmo)%N; [|inversion H; reflexivity].
  destruct (wait_loop (EvRecv fd) tmo (w + 1) rs) as [[o' evs'] rest'] eqn:E. inversion H; subst. cbn. eapply IH; exact E.
Qed.
Lemma raw_loop_quiet : forall fd rs tmo w g acc o evs rest, raw_loop fd tmo w g acc rs = (o, evs, rest) -> filter loud evs = [].
Proof.
  intros fd. induction rs as [|r rs IH]; intros tmo w g acc o evs rest H; cbn [raw_loop] in H; [inversion H; reflexivity|].
  destruct (rbytes r) as [|x d].
  - destruct (is_err r && g); [inversion H; reflexivity|]. destruct (w + 1 <? tmo)%N; [|inversion H; reflexivity].
    destruct (raw_loop fd tmo (w + 1) g acc rs) as [[o' evs'] rest'] eqn:E. inversion H; subst. cbn. eapply IH; exact E.
  - destruct (SERVERRESPONSE_BUFFER_LENGTH <=? length (x :: d))%nat; [inversion H; reflexivity|]. destruct (w <? tmo)%N; [|inversion H; reflexivity].
    destruct (raw_loop fd tmo w true (acc ++ cstr (x :: d)) rs) as [[o' evs'] rest'] eqn:E. inversion H; subst. cbn. eapply IH; exact E.
Qed.
Lemma mute_greetings : forall {rp : bool}, mute rp any checkServerGreetings.
Proof.
  intros rp. unfold checkServerGreetings. m0. m0. destruct (wait_loop _ _ _ _) as [[o evs] rest] eqn:E. apply wait_loop_quiet in E.
  m0; [ms|]. m0; [apply mute_emits; [exact Logic.I|exact E]|]. unfold greeting_result. ms.
Qed.
Lemma mute_raw_reply : forall {rp : bool}, mute rp any getRawCommandReply.
Proof.
  intros rp. unfold getRawCommandReply. m0; [apply mute_nonblocking|]. m0. m0. destruct (raw_loop _ _ _ _ _ _) as [[o evs] rest] eqn:E. apply raw_loop_quiet in E.
  m0; [ms|]. m0; [apply mute_emits; [exact Logic.I|exact E]|]. ms. apply mute_blocking.
Qed.
Lemma mute_wait_bio : forall {rp : bool}, mute rp any wait_bio.
Proof. intros rp. unfold wait_bio, wait_null_bio. m0. rewrite H0. ms. Qed.
Lemma mute_reply_tls : forall {rp : bool}, mute rp any getServerReplyTLS.
Proof. intros rp. unfold getServerReplyTLS. ms. apply mute_wait_bio. Qed.
Lemma mute_reply : forall {rp : bool}, mute rp any getServerReply.
Proof. intros rp. unfold getServerReply. ms; first [apply mute_raw_reply|apply mute_reply_tls]. Qed.
Lemma mute_send : forall {rp : bool} d, mute rp any (sys_send d).
Proof. intros. unfold sys_send. ms. Qed.
Lemma mute_raw2_with : forall {rp : bool} cl d err, mute rp any cl -> mute rp (fun z => z = 0 \/ z = err) (sendRaw2_with cl d err).
Proof. intros. unfold sendRaw2_with. ms; try (left; reflexivity); try (right; reflexivity); try apply mute_send; assumption. Qed.
Lemma mute_cmd_with : forall cl d err, mute false any cl -> mute false (eq err) (sendCommandPtr_with cl d err).
Proof.
  intros cl d err H. unfold sendCommandPtr_with. m0. destruct H0 as [K R]. rewrite R. destruct (c_kind c) eqn:E; [contradiction| |];
  (unfold sendCommandTLS_with; apply mute_getc; intros c2 _ N2; rewrite N2; ms; assumption).
Qed.
Lemma mute_cmd_any_with : forall {rp : bool} cl d err, mute rp any cl -> mute rp any (sendCommandPtr_with cl d err).
Proof.
  intros rp cl d err H. unfold sendCommandPtr_with. m0. destruct (c_rawptr c); [eapply mute_any, mute_raw2_with, H|]. destruct (c_kind c) eqn:E; [eapply mute_any, mute_raw2_with, H| |];
  (unfold sendCommandTLS_with; apply mute_getc; intros c2 _ N2; rewrite N2; ms; assumption).
Qed.
Lemma mute_free : forall {rp : bool}, mute rp any free_tls.
Proof. intros rp. unfold free_tls. ms. Qed.
Lemma mute_cleanup_f : forall {rp : bool} f, mute rp any (cleanup_f f).
Proof.
  intros rp. induction f as [|f IH]; cbn [cleanup_f]; unfold sendQuit_with, close_socket; ms; try apply mute_free.
  apply mute_cmd_any_with, IH.
Qed.
Lemma mute_cleanup : forall {rp : bool}, mute rp any cleanup.
Proof. intros rp. intros s. apply mute_cleanup_f. Qed.
Lemma mute_cmd_any : forall {rp : bool} d err, mute rp any (sendCommandPtr d err).
Proof. intros. apply mute_cmd_any_with, mute_cleanup. Qed.
Lemma mute_cmd : forall d err, mute false (eq err) (sendCommandPtr d err).
Proof. intros. apply mute_cmd_with, mute_cleanup. Qed.
Lemma mute_raw3 : forall {rp : bool} d e t, mute rp any (sendRaw3 d e t).
Proof.
  intros. unfold sendRaw3, sendRaw2. ms; try apply mute_raw_reply; try apply mute_cleanup.
  eapply mute_any, mute_raw2_with, mute_cleanup.
Qed.
Lemma mute_feedback : forall {rp : bool} d e t, mute rp any (sendFeedback d e t).
Proof.
  intros. unfold sendFeedback. m0. destruct (c_kind c); [apply mute_raw3| |];
  (unfold sendFeedbackTLS; apply mute_getc; intros c2 _ N2; rewrite N2; apply mute_raw3).
Qed.
Lemma mute_fb : forall {rp : bool} d e t, mute rp any (sendFeedbackPtr d e t).
Proof. intros. unfold sendFeedbackPtr. ms; first [apply mute_raw3|apply mute_feedback]. Qed.
Lemma mute_ehlo_loop : forall {rp : bool} f t o, mute rp any (ehlo_loop f t o).
Proof. intros rp. induction f as [|f IH]; intros t o; cbn [ehlo_loop]; ms; first [apply mute_reply|apply IH]. Qed.
Lemma mute_ehlo : forall {rp : bool} e t, mute rp any (ehlo_with e t).
Proof. intros. unfold ehlo_with. ms; first [apply mute_feedback|apply mute_ehlo_loop]. Qed.
Lemma mute_upgrade : forall {rp : bool}, mute rp any upgradeToSecureConnection.
Proof. intros rp. unfold upgradeToSecureConnection. ms. apply mute_raw3. Qed.
(** Recipients refused stay refused. *)
Lemma mute_add : forall {rp : bool} l r, r <> 250 -> mute rp (fun z => z <> 250) (addMailRecipients l r).
Proof.
  intros rp. induction l as [|x l IH]; intros r H; cbn [addMailRecipients]; [ms|]. m0; [ms|]. m0; [apply mute_fb|].
  apply IH. destruct (a0 =? 250) eqn:E; lia.
Qed.
Lemma mute_address_header : forall {rp : bool} f a, mute rp any (address_header f a).
Proof. intros. unfold address_header, addMailHeader. ms; apply mute_cmd_any. Qed.

(** The whole mail, whatever the pointers say. *)
Lemma mute_from : forall {rp : bool} l r, mute rp any (mail_from_loop l r).
Proof. intros rp. induction l as [|x l IH]; intros r; cbn [mail_from_loop]; ms; first [apply mute_fb|apply IH]. Qed.
Lemma mute_add_any : forall {rp : bool} l r, mute rp any (addMailRecipients l r).
Proof. intros rp. induction l as [|x l IH]; intros r; cbn [addMailRecipients]; ms; first [apply mute_fb|apply IH]. Qed.
Lemma mute_rcpts : forall {rp : bool} l, mute rp any (recipients_loop l).
Proof. intros rp. induction l as [|x l IH]; cbn [recipients_loop]; ms; first [apply mute_add_any|apply IH]. Qed.
Lemma mute_set_rcpts : forall {rp : bool} m, mute rp any (setMailRecipients m).
Proof. intros. unfold setMailRecipients. ms; first [apply mute_from|apply mute_rcpts]. Qed.
Lemma mute_headers : forall {rp : bool} m, mute rp any (setMailHeaders m).
Proof. intros. unfold setMailHeaders, addMailHeader. ms; first [apply mute_fb|apply mute_cmd_any|apply mute_address_header]. Qed.
Lemma mute_chunks_any : forall {rp : bool} l e, mute rp any (send_chunks l e).
Proof. intros rp. induction l as [|x l IH]; intros e; cbn [send_chunks]; ms; first [apply mute_cmd_any|apply IH]. Qed.
Lemma mute_body_any : forall {rp : bool} m, mute rp any (setMailBody m).
Proof. intros. unfold setMailBody, sendQuitCommand, sendQuit_with. ms; first [apply mute_chunks_any|apply mute_fb|apply mute_cmd_any]. Qed.
Lemma mute_transaction : forall {rp : bool} m, mute rp any (mail_transaction m).
Proof. intros. unfold mail_transaction. ms; first [apply mute_set_rcpts|apply mute_headers|apply mute_body_any|apply mute_cleanup]. Qed.
