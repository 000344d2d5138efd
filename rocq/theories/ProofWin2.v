(** The simulation for every function of the Windows build, and for programs. *)

From Coq Require Import Ascii String List NArith ZArith Bool Lia.
From Verif Require Import Base ModelUtil ModelBase64 ModelAddress ModelAttachment
  ModelErrors ModelReply ModelMessage ModelState ModelClient ModelWorld ModelWin SpecWin ProofWin.
Import ListNotations.
Open Scope Z_scope.

Local Arguments posix_env : simpl never.

(** ** Every function extends the trace *)

Definition extw {A} (m : W A) : Prop := forall v, exists o c on e x tw, m v = (o, mkV c on e x (v_t v ++ tw)).
Lemma ext_base {A} (m : M A) : extw (base m).
Proof. intros v. unfold base. destruct (m _) as [o s]. repeat eexists. Qed.
Lemma ext_ret {A} (a : A) : extw (wret a).
Proof. intros [c on e x t]. exists (Done a), c, on, e, x, []. cbn. now rewrite app_nil_r. Qed.
Lemma ext_bind {A C} (m : W A) (k : A -> W C) : extw m -> (forall a, extw (k a)) -> extw (wbind m k).
Proof.
  intros H K v. destruct (H v) as (o & c & on & e & x & tw & E). unfold wbind. rewrite E.
  destruct o as [a| | | | |]; try (repeat eexists; fail).
  destruct (K a (mkV c on e x (v_t v ++ tw))) as (o2 & c2 & on2 & e2 & x2 & tw2 & E2).
  exists o2, c2, on2, e2, x2, (tw ++ tw2). rewrite E2. cbn. now rewrite app_assoc.
Qed.
Lemma ext_put ev : extw (wput ev).
Proof. intros [c on e x t]. repeat eexists. Qed.
Lemma ext_on b : extw (set_on b).
Proof. intros [c on e x t]. exists (Done tt), c, b, e, x, []. cbn. now rewrite app_nil_r. Qed.
Lemma ext_get : extw get_on.
Proof. intros [c on e x t]. exists (Done on), c, on, e, x, []. cbn. now rewrite app_nil_r. Qed.
Lemma ext_next {R} get set (d : R) : extw (next get set d).
Proof.
  intros [c on e x t]. unfold next. cbn. destruct (get x) as [|r l].
  - exists (Done d), c, on, e, x, []. cbn. now rewrite app_nil_r.
  - exists (Done r), c, on, e, (set l x), []. cbn. now rewrite app_nil_r.
Qed.
Lemma ext_msg er : extw (addWSAMessage er).
Proof.
  intros v. unfold addWSAMessage. destruct (x_format (v_w v) er) as [s|]; [apply ext_base|].
  destruct v as [c on e x t]. exists (Done tt), c, on, e, x, []. cbn. now rewrite app_nil_r.
Qed.
Ltac extw := repeat first
  [ apply ext_base | apply ext_ret | apply ext_put | apply ext_on | apply ext_get | apply ext_next | apply ext_msg
  | match goal with
    | |- extw (wbind _ _) => apply ext_bind; [|intros ?]
    | |- extw (match ?x with _ => _ end) => destruct x
    end ].
Lemma ext_clean : extw doWSACleanup.
Proof. unfold doWSACleanup. extw. Qed.

(** ** WinSock *)

Lemma bind_ret_r {A} (m : M A) s : bind m (fun a => ret a) s = m s.
Proof. unfold bind. destruct (m s) as [[]]; reflexivity. Qed.
Lemma sim_get_on {C} (kw : bool -> W C) kp : (forall b, simw (kw b) kp) -> simw (wbind get_on kw) kp.
Proof. intros H v. apply (H (v_on v) v). Qed.
Lemma sim_on b : simw (set_on b) (ret tt).
Proof.
  eapply sim_ext; [| |apply (sim_silent (set_on b) (wret tt)); [apply sil_on|apply sim_ret]]; reflexivity.
Qed.
Lemma sim_then {C} (mw : W unit) (kw : W C) kp : simw mw (ret tt) -> simw kw kp -> simw (mw ;;# kw) kp.
Proof. intros H K. exact (sim_bind mw (ret tt) (fun _ => kw) (fun _ => kp) H (fun _ => K)). Qed.
Lemma sim_doclean : simw doWSACleanup (ret tt).
Proof.
  apply sim_next.
  - discriminate.
  - intros r S. cbn in S. subst r. apply sim_then; [apply sim_ret|apply sim_on].
  - intros r. match goal with |- forall v, _ => fold (extw (wbind (if r =? 0 then wret tt else
      base (setLastSocketErrNo r) ;;# base (logc (B "WSACleanup failed with error: " ++ dec_of_N (Z.to_N r)))) (fun _ => set_on false))) end.
    extw.
Qed.
Lemma sim_release : simw release_winsock (ret tt).
Proof.
  apply sim_get_on. intros b. apply sim_then; [|apply sim_on].
  destruct b; [apply sim_doclean|apply sim_ret].
Qed.

(** ** Modes of the socket *)

Definition posix_mode (b : bool) : M Z := if b then setSocketToNonBlocking else setSocketToBlocking.
Lemma posix_modes b c e r f : exists tp, talk tp = [] /\ forall t, posix_mode b (mkSt c (posix_env (None :: r :: f) e) t) =
  (match r with None => ret 0 | Some er => log_errno er;; ret SOCKET_INIT_SESSION_FCNTL_SET_ERROR end)
    (mkSt c (posix_env f e) (t ++ tp)).
Proof.
  exists [EvFcntl (c_sock c) None true; EvFcntl (c_sock c) (Some b) (match r with None => true | _ => false end)].
  split; [reflexivity|]. intros t. destruct r, b; unfold posix_mode, setSocketToNonBlocking, setSocketToBlocking, sys_fcntl, bind, getc, gete, upde, emit, ret;
    unfold posix_env; cbn; rewrite <- app_assoc; reflexivity.
Qed.

Lemma sim_mode b : simw (setSocketMode b ;;# wret tt) (posix_mode b;; ret tt).
Proof.
  intros v. set (r := match x_ioctl (v_w v) with [] => None | r :: _ => r end).
  set (x := match x_ioctl (v_w v) with [] => v_w v | _ :: l => set_xioctl l (v_w v) end).
  set (ev := WIoctl (c_sock (v_c v)) b r).
  assert (N : neutral (match r with None => ret tt | Some er => log_errno er end)) by (destruct r; [apply neu_log_errno|apply neu_ret]).
  destruct (N (v_c v) (v_e v)) as (o & c & e & tl & F & X).
  exists o, c, (v_on v), e, x, ([ev] ++ map WSock tl). split.
  - destruct (X [] []) as [X0 _]. destruct v as [c0 on0 e0 x0 t0]. subst ev x r.
    unfold setSocketMode, wbind, next, wput, base, getc. cbn [v_c v_on v_e v_w v_t s_c s_e s_t map] in *.
    destruct (x_ioctl x0) as [|[er|] l] eqn:L; cbn [v_c v_on v_e v_w v_t s_c s_e s_t map] in *; rewrite ?app_nil_r.
    + injection X0 as <- <- <- <-. reflexivity.
    + rewrite X0. cbn [v_c v_on v_e v_w v_t s_c s_e s_t]. rewrite <- app_assoc. destruct o as [[]| | | | |]; reflexivity.
    + injection X0 as <- <- <- <-. reflexivity.
  - intros _ f'. destruct (posix_modes b (v_c v) (v_e v) r f') as (tp & T & Y). exists (None :: r :: f'), (tp ++ tl).
    split; [rewrite talk_app, T, wtalk_app, wtalk_sock; reflexivity|]. intros t. unfold bind at 1. rewrite Y.
    destruct (X (t ++ tp) f') as [_ X0]. rewrite app_assoc.
    destruct r as [er|].
    + unfold bind. rewrite X0. destruct o as [[]| | | | |]; reflexivity.
    + destruct (X [] []) as [X1 _]. unfold ret in X1. injection X1 as <- <- <- <-. now rewrite app_nil_r.
Qed.
Lemma sim_mode_bind {C} b (kw : W C) kp : simw kw kp -> simw (setSocketMode b ;;# kw) (posix_mode b;; kp).
Proof.
  intros K. eapply sim_ext; [| |exact (sim_bind _ _ (fun _ => kw) (fun _ => kp) (sim_mode b) (fun _ => K))].
  - intros v. unfold wbind. destruct (setSocketMode b v) as [[]]; reflexivity.
  - intros s. unfold bind. destruct (posix_mode b s) as [[]]; reflexivity.
Qed.

(** ** Receiving *)

Lemma sim_raw_reply : simw getRawCommandReplyW getRawCommandReply.
Proof.
  pose (loop := fun c => e <- gete;;
             let '(o, evs, rest) := raw_loop (c_sock c) (c_timeout c) 0 false [] (e_recv e) in
             upde (set_recv rest);;
             emits evs;;
             lift o).
  pose (fin := fun c (w : N * bool * str) => let '(wait, got, full) := w in
    if (wait <? c_timeout c)%N || got then
          setLastServerResponse full;;
          logs full;;
          ret (extractReturnCode (Some full))
        else ret (-1)).
  eapply (sim_ext (setSocketMode true ;;# (c <# base getc ;; w <# base (loop c) ;; setSocketMode false ;;# base (fin c w)))
    _ (posix_mode true;; (c <- getc;; w <- loop c;; posix_mode false;; fin c w))).
  - intros v. unfold getRawCommandReplyW, wbind. destruct (setSocketMode true v) as [[]]; try reflexivity.
    destruct (base getc v0) as [[]]; try reflexivity. fold (loop a0). destruct (base (loop a0) v1) as [[[[? ?] ?]| | | | |]]; reflexivity.
  - intros s. unfold getRawCommandReply, bind, posix_mode. destruct (setSocketToNonBlocking s) as [[] s1]; try reflexivity.
    cbn. unfold loop, bind, gete. cbn. destruct (raw_loop _ _ _ _ _ _) as [[[[[? ?] ?]| | | | |] ?] ?]; reflexivity.
  - apply sim_mode_bind. apply sim_bind; [apply sim_base, neu_getc|]. intros c. apply sim_bind.
    + apply sim_base. apply neu_gete; [|reflexivity]. intros e. destruct (raw_loop _ _ _ _ _ _) as [[o evs] rest] eqn:L.
      apply neu_bind; [apply neu_upde; reflexivity|]. intros _. apply neu_bind; [apply neu_emits; eapply raw_shared; eauto|].
      intros _. apply neu_lift.
    + intros w. apply sim_mode_bind. apply sim_base. destruct w as [[? ?] ?]. unfold fin. neu.
Qed.
Lemma sim_reply : simw getServerReplyW getServerReply.
Proof.
  apply sim_bind; [apply sim_base, neu_getc|]. intros c. destruct (c_kind c); try apply sim_raw_reply; apply sim_base, neu_replyTLS.
Qed.

(** ** Sending and cleanup *)

(** One step of the walk along both programs. *)
Ltac sim1 := first
  [ apply sim_ret
  | match goal with
    | |- simw (base _) _ => apply sim_base; neu
    | |- simw (wbind (base gete) _) (bind gete _) => apply sim_gete; [intros ?|reflexivity]
    | |- simw (wbind (base _) _) (bind _ _) => apply sim_bind; [apply sim_base; neu|intros ?]
    | |- simw (match ?x with _ => _ end) (match ?x with _ => _ end) => destruct x eqn:?
    end ].
Ltac simc := repeat sim1.

Lemma sim_long {C} d (kw : W C) kp : extw kw -> simw (wput (WTooLong d) ;;# kw) kp.
Proof.
  intros K v. destruct (K (mkV (v_c v) (v_on v) (v_e v) (v_w v) (v_t v ++ [WTooLong d]))) as (o & c & on & e & x & tw & E).
  exists o, c, on, e, x, (WTooLong d :: tw). split; [unfold wbind, wput; rewrite E; cbn; now rewrite <- app_assoc|].
  intros S. inversion S as [|? ? Q _]. destruct Q.
Qed.
Lemma sim_raw2 cw cp cmd err : simw cw cp -> simw (sendRaw2W cw cmd err) (sendRaw2_with cp cmd err).
Proof.
  intros H. unfold sendRaw2W, sendRaw2_with. destruct (INT_MAX <? _)%N; [apply sim_long; apply ext_ret|].
  apply sim_bind; [apply sim_base, neu_send|]. intros r. destruct r; simc. apply sim_bind; [exact H|]. intros. simc.
Qed.
Lemma sim_tls cw cp cmd err : simw cw cp -> simw (sendCommandTLSW cw cmd err) (sendCommandTLS_with cp cmd err).
Proof.
  intros H. unfold sendCommandTLSW, sendCommandTLS_with. sim1. destruct (c_bio a) as [b|].
  - apply sim_bind; [apply sim_base, neu_puts|]. intros r. destruct r; simc. apply sim_bind; [exact H|]. intros. simc.
  - simc. apply sim_bind; [exact H|]. intros. simc.
Qed.
Lemma sim_ptr cw cp cmd err : simw cw cp -> simw (sendCommandPtrW cw cmd err) (sendCommandPtr_with cp cmd err).
Proof.
  intros H. unfold sendCommandPtrW, sendCommandPtr_with. sim1. destruct (c_rawptr a); [now apply sim_raw2|].
  destruct (c_kind a); [now apply sim_raw2|now apply sim_tls..].
Qed.
Lemma sim_quit cw cp : simw cw cp -> simw (sendQuitW cw) (sendQuit_with cp).
Proof. intros H. unfold sendQuitW, sendQuit_with. sim1. now apply sim_ptr. Qed.
Lemma sim_getc {C} (kw : client -> W C) kp : (forall c, simw (kw c) kp) -> simw (wbind (base getc) kw) kp.
Proof.
  intros H v. destruct (H (v_c v) v) as (o & c & on & e & x & tw & E & X). exists o, c, on, e, x, tw. split; [|exact X].
  unfold wbind, base, getc. cbn. rewrite app_nil_r. destruct v; exact E.
Qed.
Lemma sim_close : simw close_socketW close_socket.
Proof.
  apply sim_getc. intros c. destruct (c_sock c =? 0).
  - eapply sim_ext; [| |apply sim_base, neu_close]; reflexivity.
  - apply sim_silent; [now apply sil_put|]. apply sim_base, neu_close.
Qed.
Lemma sim_cleanup_f n : simw (cleanup_fW n) (cleanup_f n).
Proof.
  induction n as [|n IH]; [apply sim_base, neu_diverge|]. cbn [cleanup_fW cleanup_f]. sim1.
  apply sim_bind.
  { destruct (_ && _); [|apply sim_ret]. apply sim_bind; [now apply sim_quit|]. intros. apply sim_ret. }
  intros _. sim1. apply sim_bind; [apply sim_base; destruct (c_kind a); [apply neu_ret|apply neu_free..]|]. intros _.
  eapply (sim_ext (close_socketW ;;# release_winsock) _ (close_socket;; ret tt)); [reflexivity| |].
  - intros s. unfold bind. destruct (close_socket s) as [[[]| | | | |]]; reflexivity.
  - apply sim_bind; [apply sim_close|]. intros. apply sim_release.
Qed.
Lemma sim_cleanup : simw cleanupW cleanup.
Proof.
  intros v. destruct (sim_cleanup_f (cleanup_fuel (v_e v)) v) as (o & c & on & e & x & tw & E & X).
  exists o, c, on, e, x, tw. split; [exact E|]. intros S f'. destruct (X S f') as (f & tp & T & Y). exists f, tp.
  split; [exact T|]. exact Y.
Qed.

Lemma sim_raw3 cmd err tm : simw (sendRaw3W cmd err tm) (sendRaw3 cmd err tm).
Proof.
  unfold sendRaw3W, sendRaw3. apply sim_bind; [apply sim_raw2, sim_cleanup|]. intros r. sim1; [sim1|].
  apply sim_bind; [apply sim_raw_reply|]. intros code. sim1; [sim1|]. apply sim_bind; [apply sim_cleanup|]. intros. sim1.
Qed.
Lemma sim_feedTLS cmd err tm : simw (sendFeedbackTLSW cmd err tm) (sendFeedbackTLS cmd err tm).
Proof.
  unfold sendFeedbackTLSW, sendFeedbackTLS. sim1. destruct (c_bio a) as [b|]; [|apply sim_raw3].
  apply sim_bind; [apply sim_base, neu_puts|]. intros r. destruct r.
  1-2: apply sim_bind; [apply sim_reply|]; intros code; sim1; [sim1|]; apply sim_bind; [apply sim_cleanup|]; intros; sim1.
  - sim1. apply sim_bind; [apply sim_cleanup|]. intros. sim1.
  - sim1.
Qed.
Lemma sim_feed cmd err tm : simw (sendFeedbackW cmd err tm) (sendFeedback cmd err tm).
Proof.
  unfold sendFeedbackW, sendFeedback. sim1. destruct (c_kind a); [apply sim_raw3|apply sim_feedTLS..].
Qed.
Lemma sim_feedptr cmd err tm : simw (sendFeedbackPtrW cmd err tm) (sendFeedbackPtr cmd err tm).
Proof. unfold sendFeedbackPtrW, sendFeedbackPtr. sim1. destruct (c_rawptr a); [apply sim_raw3|apply sim_feed]. Qed.

(** ** EHLO and authentication *)

Lemma sim_ehlo_loop n tc : forall op, simw (ehlo_loopW n tc op) (ehlo_loop n tc op).
Proof.
  induction n as [|n IH]; intros op; cbn [ehlo_loopW ehlo_loop]; destruct (containsAllOptions op); simc.
  apply sim_bind; [apply sim_reply|]. intros code. simc. apply IH.
Qed.
Lemma sim_ehlo err tm : simw (ehlo_withW err tm) (ehlo_with err tm).
Proof.
  unfold ehlo_withW, ehlo_with. sim1. apply sim_bind; [apply sim_feed|]. intros code. sim1; [sim1|].
  sim1. sim1; [|sim1]. sim1. apply sim_ehlo_loop.
Qed.
Lemma sim_ident : simw sendServerIdentificationW sendServerIdentification.
Proof. apply sim_ehlo. Qed.
Lemma sim_secure : simw getServerSecureIdentificationW getServerSecureIdentification.
Proof. unfold getServerSecureIdentificationW, getServerSecureIdentification. sim1. apply sim_ehlo. Qed.
Lemma sim_plain cr : simw (authPlainW cr) (authPlain cr).
Proof. unfold authPlainW, authPlain. sim1. apply sim_feedptr. Qed.
Lemma sim_login cr : simw (authLoginW cr) (authLogin cr).
Proof.
  unfold authLoginW, authLogin. sim1. apply sim_bind; [apply sim_feedptr|]. intros r1. sim1; [sim1|].
  apply sim_bind; [apply sim_feedptr|]. intros r2. sim1; [sim1|]. apply sim_feedptr.
Qed.
Lemma sim_xoauth cr : simw (authXOauth2W cr) (authXOauth2 cr).
Proof. unfold authXOauth2W, authXOauth2. sim1. apply sim_feedptr. Qed.
Lemma sim_auth : simw authenticateClientW authenticateClient.
Proof.
  unfold authenticateClientW, authenticateClient. simc; [apply sim_plain|apply sim_login|apply sim_xoauth].
Qed.
Lemma sim_auth_if : simw authenticate_if_neededW authenticate_if_needed.
Proof.
  unfold authenticate_if_neededW, authenticate_if_needed. sim1. sim1; [|sim1]. apply sim_bind; [apply sim_auth|]. intros. simc.
Qed.
