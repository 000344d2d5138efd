(** The Windows build does what the POSIX build does, as long as the calls that
    only Windows makes succeed and no text is too long. *)

From Coq Require Import Ascii String List NArith ZArith Bool Lia.
From Verif Require Import Base ModelUtil ModelBase64 ModelAddress ModelAttachment
  ModelErrors ModelReply ModelMessage ModelState ModelClient ModelWorld ProofWorld ProofOwn ModelWin SpecWin SpecWinForward ProofWin ProofWin2 ProofWin3.
Import ListNotations.
Open Scope Z_scope.

Local Arguments posix_env : simpl never.

Section Forward.
(** The calls that the Windows build makes too. *)
Variable fine : event -> Prop.
Hypothesis fine_send : forall fd d r, fine (EvSend fd d r) -> (slen d <= INT_MAX)%N.

Definition fs {A} (P : env -> Prop) (mw : W A) (mp : M A) : Prop := forall c e x, calm x -> P e -> exists o c' e' tp,
  (forall t, mp (mkSt c (posix_env [] e) t) = (o, mkSt c' (posix_env [] e') (t ++ tp))) /\
  (Forall fine tp -> forall on t0, exists on' tw, mw (mkV c on e x t0) = (o, mkV c' on' e' x (t0 ++ tw)) /\ wtalk tw = talk tp).
Definition anyenv (_ : env) : Prop := True.
Notation fsim := (fs anyenv).
Lemma fs_weaken {A} P (mw : W A) mp : fsim mw mp -> fs P mw mp.
Proof. intros H c e x C _. exact (H c e x C Logic.I). Qed.
Lemma fs_base {A} (m : M A) : neutral m -> fsim (base m) m.
Proof.
  intros H c0 e0 x _ _. destruct (H c0 e0) as (o & c & e & tp & F & X). exists o, c, e, tp. split; [intros t; apply (X t [])|].
  intros _ on t0. exists on, (map WSock tp). split; [|apply wtalk_sock]. unfold base. cbn [v_c v_e v_on v_w v_t]. destruct (X [] []) as [-> _]. reflexivity.
Qed.
Lemma fs_ret {A} (a : A) : fsim (wret a) (ret a).
Proof.
  intros c e x _ _. exists (Done a), c, e, []. split; [intros t; cbn; now rewrite app_nil_r|]. intros _ on t0. exists on, [].
  split; [cbn; now rewrite app_nil_r|reflexivity].
Qed.
Lemma fs_bind_to {A C} P (mw : W A) mp (kw : A -> W C) kp : fs P mw mp -> (forall a, fsim (kw a) (kp a)) ->
  fs P (wbind mw kw) (bind mp kp).
Proof.
  intros H K c0 e0 x Cv Pv. destruct (H c0 e0 x Cv Pv) as (o & c & e & tp & E & X).
  destruct o as [a| | | | |];
    try (eexists _, c, e, tp; split; [intros t; unfold bind; rewrite E; reflexivity|];
         intros S on0 t0; destruct (X S on0 t0) as (on & tw & Y & T); exists on, tw; split; [|exact T];
         unfold wbind; rewrite Y; reflexivity).
  destruct (K a c e x Cv Logic.I) as (o2 & c2 & e2 & tp2 & E2 & X2).
  exists o2, c2, e2, (tp ++ tp2). split; [intros t; unfold bind; rewrite E, E2; now rewrite app_assoc|].
  intros S on0 t0. apply Forall_app in S as [S1 S2]. destruct (X S1 on0 t0) as (on & tw & Y & T).
  destruct (X2 S2 on (t0 ++ tw)) as (on2 & tw2 & Y2 & T2).
  exists on2, (tw ++ tw2). split; [|now rewrite talk_app, wtalk_app, T, T2]. unfold wbind. rewrite Y, Y2. now rewrite app_assoc.
Qed.
Lemma fs_bind {A C} (mw : W A) mp (kw : A -> W C) kp : fsim mw mp -> (forall a, fsim (kw a) (kp a)) -> fsim (wbind mw kw) (bind mp kp).
Proof. apply fs_bind_to. Qed.
Lemma fs_gete_to {C} (P : env -> Prop) (kw : env -> W C) (kp : env -> M C) : (forall e, P e -> fs P (kw e) (kp e)) ->
  (forall e, kp (posix_env [] e) = kp e) -> fs P (wbind (base gete) kw) (bind gete kp).
Proof.
  intros K H c e x Cv Pv. destruct (K e Pv c e x Cv Pv) as (o & c2 & e2 & tp & E & X). exists o, c2, e2, tp. split.
  - intros t. unfold bind, gete. cbn [s_e]. rewrite H. apply E.
  - intros S on t0. destruct (X S on t0) as (on2 & tw & Y & T). exists on2, tw. split; [|exact T].
    unfold wbind, base, gete. cbn [s_c s_e s_t v_c v_e v_on v_w v_t map]. rewrite app_nil_r. exact Y.
Qed.
Lemma fs_gete {C} (kw : env -> W C) (kp : env -> M C) : (forall e, fsim (kw e) (kp e)) ->
  (forall e, kp (posix_env [] e) = kp e) -> fsim (wbind (base gete) kw) (bind gete kp).
Proof. intros K H. apply fs_gete_to; [|exact H]. intros e _. apply K. Qed.
Lemma fs_ext {A} P (mw mw' : W A) mp mp' : (forall v, mw v = mw' v) -> (forall s, mp s = mp' s) -> fs P mw mp -> fs P mw' mp'.
Proof.
  intros H H' S c e x Cv Pv. destruct (S c e x Cv Pv) as (o & c2 & e2 & tp & E & X). exists o, c2, e2, tp. split.
  - intros t. rewrite <- H'. apply E.
  - intros Q on t0. rewrite <- H. apply X, Q.
Qed.
(** What only Windows does. *)
Lemma fs_only {C} P (mw : W unit) (kw : W C) kp : (forall v, calm (v_w v) -> exists on' tw, mw v = (Done tt, mkV (v_c v) on' (v_e v) (v_w v) (v_t v ++ tw)) /\ wtalk tw = []) ->
  fs P kw kp -> fs P (mw ;;# kw) kp.
Proof.
  intros H K c e x Cv Pv. destruct (K c e x Cv Pv) as (o & c2 & e2 & tp & E & X). exists o, c2, e2, tp. split; [exact E|].
  intros S on t0. destruct (H (mkV c on e x t0) Cv) as (on1 & tw1 & Y1 & T1). cbn [v_c v_on v_e v_w v_t] in Y1.
  destruct (X S on1 (t0 ++ tw1)) as (on2 & tw & Y & T). exists on2, (tw1 ++ tw). split; [unfold wbind; rewrite Y1, Y; now rewrite app_assoc|].
  now rewrite wtalk_app, T1, T.
Qed.
Lemma only_put ev : (forall e, ev <> WSock e) -> forall v, calm (v_w v) -> exists on' tw, wput ev v = (Done tt, mkV (v_c v) on' (v_e v) (v_w v) (v_t v ++ tw)) /\ wtalk tw = [].
Proof. intros H v _. exists (v_on v), [ev]. split; [reflexivity|]. destruct ev; try reflexivity. now destruct (H ev). Qed.
Lemma only_on b : forall v, calm (v_w v) -> exists on' tw, set_on b v = (Done tt, mkV (v_c v) on' (v_e v) (v_w v) (v_t v ++ tw)) /\ wtalk tw = [].
Proof. intros v _. exists b, []. split; [unfold set_on; now rewrite app_nil_r|reflexivity]. Qed.
Lemma only_release : forall v, calm (v_w v) -> exists on' tw, release_winsock v = (Done tt, mkV (v_c v) on' (v_e v) (v_w v) (v_t v ++ tw)) /\ wtalk tw = [].
Proof.
  intros [c on e x t] (_ & _ & C & _). cbn [v_w v_c v_e v_t] in *. unfold release_winsock, wbind, get_on, set_on, wret. cbn [v_on v_c v_e v_w v_t]. destruct on.
  - exists false, [WCleanup 0]. split; [|reflexivity]. unfold doWSACleanup, wbind, next, wput, wret, set_on. cbn [v_w v_c v_on v_e v_t]. rewrite C. reflexivity.
  - exists false, []. split; [now rewrite app_nil_r|reflexivity].
Qed.
Lemma fs_next {C R} P get set (d : R) (kw : R -> W C) kp : (forall x, calm x -> get x = []) -> fs P (kw d) kp -> fs P (wbind (next get set d) kw) kp.
Proof.
  intros G K c e x Cv Pv. destruct (K c e x Cv Pv) as (o & c2 & e2 & tp & E & X). exists o, c2, e2, tp. split; [exact E|].
  intros S on t0. unfold wbind, next. cbn [v_w]. rewrite (G x Cv). apply X, S.
Qed.
(** What only the POSIX build does. *)
Lemma fs_posix {A C} P (m : M A) a (mw : W C) kp :
  (forall c e, exists tp, talk tp = [] /\ forall t, m (mkSt c (posix_env [] e) t) = (Done a, mkSt c (posix_env [] e) (t ++ tp))) ->
  fs P mw (kp a) -> fs P mw (bind m kp).
Proof.
  intros H K c e x Cv Pv. destruct (K c e x Cv Pv) as (o & c2 & e2 & tp & E & X). destruct (H c e) as (tp0 & T0 & Z). exists o, c2, e2, (tp0 ++ tp). split.
  - intros t. unfold bind. rewrite Z, E. now rewrite app_assoc.
  - intros S on t0. apply Forall_app in S as [_ S]. destruct (X S on t0) as (on2 & tw & Y & T). exists on2, tw. split; [exact Y|]. now rewrite talk_app, T0, T.
Qed.
Lemma mode_on b c e : exists tp, talk tp = [] /\ forall t, posix_mode b (mkSt c (posix_env [] e) t) = (Done 0, mkSt c (posix_env [] e) (t ++ tp)).
Proof.
  exists [EvFcntl (c_sock c) None true; EvFcntl (c_sock c) (Some b) true]. split; [reflexivity|]. intros t.
  destruct b; unfold posix_mode, setSocketToNonBlocking, setSocketToBlocking, sys_fcntl, bind, getc, gete, upde, emit, ret; unfold posix_env; cbn; rewrite <- app_assoc; reflexivity.
Qed.
Lemma fs_mode_bind {C} P b (kw : W C) kp : fs P kw kp -> fs P (setSocketMode b ;;# kw) (posix_mode b;; kp).
Proof.
  intros K. eapply fs_posix; [apply mode_on|].
  eapply (fs_ext P ((setSocketMode b ;;# wret tt) ;;# kw)); [|reflexivity|].
  - intros v. unfold wbind. destruct (setSocketMode b v) as [[]]; reflexivity.
  - apply fs_only; [|exact K]. intros [c on e x t] (_ & _ & _ & I & _). cbn [v_w v_c v_e v_t] in *. exists on, [WIoctl (c_sock c) b None]. split; [|reflexivity].
    unfold setSocketMode, wbind, base, getc, next, wput, wret. cbn [v_w v_c v_on v_e v_t s_c s_e s_t map]. rewrite I. now rewrite app_nil_r.
Qed.

Lemma fs_first {C} P g (kw : W C) kp : fs P kw kp -> fs P (base (updc g) ;;# kw) (updc g;; kp).
Proof.
  intros K c e x Cv Pv. destruct (K (g c) e x Cv Pv) as (o & c2 & e2 & tp & E & X). exists o, c2, e2, tp. split; [exact E|].
  intros S on t0. unfold wbind, base, updc. cbn [s_c s_e s_t v_c v_e v_on v_w v_t map]. rewrite app_nil_r. apply X, S.
Qed.
Lemma fs_getc_to {C} P (kw : client -> W C) kp : (forall c, fs P (kw c) (kp c)) -> fs P (wbind (base getc) kw) (bind getc kp).
Proof.
  intros K c e x Cv Pv. destruct (K c c e x Cv Pv) as (o & c2 & e2 & tp & E & X). exists o, c2, e2, tp. split; [exact E|].
  intros S on t0. unfold wbind, base, getc. cbn [s_c s_e s_t v_c v_e v_on v_w v_t map]. rewrite app_nil_r. apply X, S.
Qed.
Lemma fs_getc_only {C} P (kw : client -> W C) kp : (forall c, fs P (kw c) kp) -> fs P (wbind (base getc) kw) kp.
Proof.
  intros K c e x Cv Pv. destruct (K c c e x Cv Pv) as (o & c2 & e2 & tp & E & X). exists o, c2, e2, tp. split; [exact E|].
  intros S on t0. unfold wbind, base, getc. cbn [s_c s_e s_t v_c v_e v_on v_w v_t map]. rewrite app_nil_r. apply X, S.
Qed.

(** ** Receiving *)

Lemma fs_raw_reply : fsim getRawCommandReplyW getRawCommandReply.
Proof.
  pose (loop := fun c => e <- gete;;
             let '(o, evs, rest) := raw_loop (c_sock c) (c_timeout c) 0 false [] (e_recv e) in
             upde (set_recv rest);;
             emits evs;;
             lift o).
  pose (fin := fun c (w : N * bool * str) => let '(wait, got, full) := w in
    if (wait <? c_timeout c)%N || got then
          setLastServerResponse full;;
          logs full;;
          ret (extractReturnCode (Some full))
        else ret (-1)).
  eapply (fs_ext _ (setSocketMode true ;;# (c <# base getc ;; w <# base (loop c) ;; setSocketMode false ;;# base (fin c w)))
    _ (posix_mode true;; (c <- getc;; w <- loop c;; posix_mode false;; fin c w))).
  - intros v. unfold getRawCommandReplyW, wbind. destruct (setSocketMode true v) as [[]]; try reflexivity.
    destruct (base getc v0) as [[]]; try reflexivity. fold (loop a0). destruct (base (loop a0) v1) as [[[[? ?] ?]| | | | |]]; reflexivity.
  - intros s. unfold getRawCommandReply, bind, posix_mode. destruct (setSocketToNonBlocking s) as [[] s1]; try reflexivity.
    cbn. unfold loop, bind, gete. cbn. destruct (raw_loop _ _ _ _ _ _) as [[[[[? ?] ?]| | | | |] ?] ?]; reflexivity.
  - apply fs_mode_bind. apply fs_bind; [apply fs_base, neu_getc|]. intros c. apply fs_bind.
    + apply fs_base. apply neu_gete; [|reflexivity]. intros e. destruct (raw_loop _ _ _ _ _ _) as [[o evs] rest] eqn:L.
      apply neu_bind; [apply neu_upde; reflexivity|]. intros _. apply neu_bind; [apply neu_emits; eapply raw_shared; eauto|].
      intros _. apply neu_lift.
    + intros w. apply fs_mode_bind. apply fs_base. destruct w as [[? ?] ?]. unfold fin. neu.
Qed.
Lemma fs_reply : fsim getServerReplyW getServerReply.
Proof.
  apply fs_bind; [apply fs_base, neu_getc|]. intros c. destruct (c_kind c); try apply fs_raw_reply; apply fs_base, neu_replyTLS.
Qed.

(** ** Sending and cleanup *)

(** One step of the walk along both programs. *)
Ltac fst1 := first
  [ apply fs_ret
  | match goal with
    | |- fsim (base _) _ => apply fs_base; neu
    | |- fsim (wbind (base gete) _) (bind gete _) => apply fs_gete; [intros ?|reflexivity]
    | |- fsim (wbind (base _) _) (bind _ _) => apply fs_bind; [apply fs_base; neu|intros ?]
    | |- fsim (match ?x with _ => _ end) (match ?x with _ => _ end) => destruct x eqn:?
    end ].
Ltac fsc := repeat fst1.

Lemma fs_raw2 cw cp cmd err : fsim cw cp -> fsim (sendRaw2W cw cmd err) (sendRaw2_with cp cmd err).
Proof.
  intros H. destruct (INT_MAX <? slen (cstr cmd))%N eqn:L.
  - (* too long: the POSIX build sends it *)
    assert (K : fsim (r <# base (sys_send (cstr cmd)) ;; match r with WErr er => base (setLastSocketErrNo er) ;;# cw ;;# wret err | WSigpipe => base killed | _ => wret 0 end) (sendRaw2_with cp cmd err)).
    { unfold sendRaw2_with. apply fs_bind; [apply fs_base, neu_send|]. intros r. destruct r; fsc. apply fs_bind; [exact H|]. intros. fsc. }
    intros c e x Cv _. destruct (K c e x Cv Logic.I) as (o & c2 & e2 & tp & E & _). exists o, c2, e2, tp. split; [exact E|]. intros S. exfalso.
    assert (I : exists fd r, In (EvSend fd (cstr cmd) r) tp).
    { specialize (E []). unfold sendRaw2_with, bind at 1 in E.
      assert (X : exists r e', sys_send (cstr cmd) (mkSt c (posix_env [] e) []) = (Done r, mkSt c e' [EvSend (c_sock c) (cstr cmd) r])).
      { unfold sys_send, bind, getc, gete. cbn [s_c s_e s_t]. change (e_send (posix_env [] e)) with (e_send e). destruct (e_send e); eexists _, _; reflexivity. }
      destruct X as (r & e' & X). rewrite X in E. exists (c_sock c), r.
      assert (G : forall (m : M Z) s, (exists l, s_t (snd (m s)) = s_t s ++ l) -> m s = (o, mkSt c2 (posix_env [] e2) tp) -> forall y, In y (s_t s) -> In y tp).
      { intros m s [l El] Em y Iy. rewrite Em in El. cbn [snd s_t] in El. rewrite El. apply in_or_app. now left. }
      eapply G; [|exact E|left; reflexivity]. destruct r as [|n|er|]; try (exists []; symmetry; apply app_nil_r).
      assert (Ee : exists g, e' = posix_env [] g) by (unfold sys_send, bind, getc, gete, upde, emit, ret in X; cbn [s_c s_e s_t] in X; change (e_send (posix_env [] e)) with (e_send e) in X; destruct (e_send e) as [|w l]; [discriminate X|]; exists (set_send l e); injection X as _ X; rewrite <- X; reflexivity).
      destruct Ee as [g ->]. destruct (H (set_errno er c) g x Cv Logic.I) as (o4 & c4 & e4 & tp4 & E4 & _).
      exists tp4. unfold bind, setLastSocketErrNo, updc. cbn [s_c s_e s_t]. rewrite E4. destruct o4; reflexivity. }
    destruct I as (fd & r & I). rewrite Forall_forall in S. specialize (S _ I). apply fine_send in S. apply N.ltb_lt in L. lia.
  - unfold sendRaw2W, sendRaw2_with. rewrite L. apply fs_bind; [apply fs_base, neu_send|]. intros r. destruct r; fsc. apply fs_bind; [exact H|]. intros. fsc.
Qed.
Lemma fs_tls cw cp cmd err : fsim cw cp -> fsim (sendCommandTLSW cw cmd err) (sendCommandTLS_with cp cmd err).
Proof.
  intros H. unfold sendCommandTLSW, sendCommandTLS_with. fst1. destruct (c_bio a) as [b|].
  - apply fs_bind; [apply fs_base, neu_puts|]. intros r. destruct r; fsc. apply fs_bind; [exact H|]. intros. fsc.
  - fsc. apply fs_bind; [exact H|]. intros. fsc.
Qed.
Lemma fs_ptr cw cp cmd err : fsim cw cp -> fsim (sendCommandPtrW cw cmd err) (sendCommandPtr_with cp cmd err).
Proof.
  intros H. unfold sendCommandPtrW, sendCommandPtr_with. fst1. destruct (c_rawptr a); [now apply fs_raw2|].
  destruct (c_kind a); [now apply fs_raw2|now apply fs_tls..].
Qed.
Lemma fs_quit cw cp : fsim cw cp -> fsim (sendQuitW cw) (sendQuit_with cp).
Proof. intros H. unfold sendQuitW, sendQuit_with. fst1. now apply fs_ptr. Qed.
Lemma fs_close : fsim close_socketW close_socket.
Proof.
  apply fs_getc_only. intros c. apply fs_only; [|apply fs_base, neu_close]. destruct (c_sock c =? 0); [|now apply only_put].
  intros v _. exists (v_on v), []. split; [destruct v; cbn; now rewrite app_nil_r|reflexivity].
Qed.
Lemma fs_cleanup_f n : fsim (cleanup_fW n) (cleanup_f n).
Proof.
  induction n as [|n IH]; [apply fs_base, neu_diverge|]. cbn [cleanup_fW cleanup_f]. fst1.
  apply fs_bind.
  { destruct (_ && _); [|apply fs_ret]. apply fs_bind; [now apply fs_quit|]. intros. apply fs_ret. }
  intros _. fst1. apply fs_bind; [apply fs_base; destruct (c_kind a); [apply neu_ret|apply neu_free..]|]. intros _.
  eapply (fs_ext _ (close_socketW ;;# (release_winsock ;;# wret tt)) _ (close_socket;; ret tt)).
  - intros v. unfold wbind. destruct (close_socketW v) as [[] v1]; try reflexivity. destruct (release_winsock v1) as [[[]| | | | |]]; reflexivity.
  - intros s. unfold bind. destruct (close_socket s) as [[[]| | | | |]]; reflexivity.
  - apply fs_bind; [apply fs_close|]. intros. apply fs_only; [apply only_release|apply fs_ret].
Qed.
Lemma fs_cleanup : fsim cleanupW cleanup.
Proof. intros c e x Cv Pv. exact (fs_cleanup_f (cleanup_fuel e) c e x Cv Pv). Qed.

Lemma fs_raw3 cmd err tm : fsim (sendRaw3W cmd err tm) (sendRaw3 cmd err tm).
Proof.
  unfold sendRaw3W, sendRaw3. apply fs_bind; [apply fs_raw2, fs_cleanup|]. intros r. fst1; [fst1|].
  apply fs_bind; [apply fs_raw_reply|]. intros code. fst1; [fst1|]. apply fs_bind; [apply fs_cleanup|]. intros. fst1.
Qed.
Lemma fs_feedTLS cmd err tm : fsim (sendFeedbackTLSW cmd err tm) (sendFeedbackTLS cmd err tm).
Proof.
  unfold sendFeedbackTLSW, sendFeedbackTLS. fst1. destruct (c_bio a) as [b|]; [|apply fs_raw3].
  apply fs_bind; [apply fs_base, neu_puts|]. intros r. destruct r.
  1-2: apply fs_bind; [apply fs_reply|]; intros code; fst1; [fst1|]; apply fs_bind; [apply fs_cleanup|]; intros; fst1.
  - fst1. apply fs_bind; [apply fs_cleanup|]. intros. fst1.
  - fst1.
Qed.
Lemma fs_feed cmd err tm : fsim (sendFeedbackW cmd err tm) (sendFeedback cmd err tm).
Proof.
  unfold sendFeedbackW, sendFeedback. fst1. destruct (c_kind a); [apply fs_raw3|apply fs_feedTLS..].
Qed.
Lemma fs_feedptr cmd err tm : fsim (sendFeedbackPtrW cmd err tm) (sendFeedbackPtr cmd err tm).
Proof. unfold sendFeedbackPtrW, sendFeedbackPtr. fst1. destruct (c_rawptr a); [apply fs_raw3|apply fs_feed]. Qed.

(** ** EHLO and authentication *)

Lemma fs_ehlo_loop n tc : forall op, fsim (ehlo_loopW n tc op) (ehlo_loop n tc op).
Proof.
  induction n as [|n IH]; intros op; cbn [ehlo_loopW ehlo_loop]; destruct (containsAllOptions op); fsc.
  apply fs_bind; [apply fs_reply|]. intros code. fsc. apply IH.
Qed.
Lemma fs_ehlo err tm : fsim (ehlo_withW err tm) (ehlo_with err tm).
Proof.
  unfold ehlo_withW, ehlo_with. fst1. apply fs_bind; [apply fs_feed|]. intros code. fst1; [fst1|].
  fst1. fst1; [|fst1]. fst1. apply fs_ehlo_loop.
Qed.
Lemma fs_ident : fsim sendServerIdentificationW sendServerIdentification.
Proof. apply fs_ehlo. Qed.
Lemma fs_secure : fsim getServerSecureIdentificationW getServerSecureIdentification.
Proof. unfold getServerSecureIdentificationW, getServerSecureIdentification. fst1. apply fs_ehlo. Qed.
Lemma fs_plain cr : fsim (authPlainW cr) (authPlain cr).
Proof. unfold authPlainW, authPlain. fst1. apply fs_feedptr. Qed.
Lemma fs_login cr : fsim (authLoginW cr) (authLogin cr).
Proof.
  unfold authLoginW, authLogin. fst1. apply fs_bind; [apply fs_feedptr|]. intros r1. fst1; [fst1|].
  apply fs_bind; [apply fs_feedptr|]. intros r2. fst1; [fst1|]. apply fs_feedptr.
Qed.
Lemma fs_xoauth cr : fsim (authXOauth2W cr) (authXOauth2 cr).
Proof. unfold authXOauth2W, authXOauth2. fst1. apply fs_feedptr. Qed.
Lemma fs_auth : fsim authenticateClientW authenticateClient.
Proof.
  unfold authenticateClientW, authenticateClient. fsc; [apply fs_plain|apply fs_login|apply fs_xoauth].
Qed.
Lemma fs_auth_if : fsim authenticate_if_neededW authenticate_if_needed.
Proof.
  unfold authenticate_if_neededW, authenticate_if_needed. fst1. fst1; [|fst1]. apply fs_bind; [apply fs_auth|]. intros. fsc.
Qed.

(** ** Connecting *)

Definition opens (e : env) : Prop := e_conn e = [] /\ exists fd l, e_sock e = SkFd fd :: l.
Lemma quiet_log item c e t : s_e (snd (logc item (mkSt c e t))) = e /\ s_t (snd (logc item (mkSt c e t))) = t.
Proof.
  unfold logc, addLog, bind, getc. cbn [s_c]. destruct (c_log c) as [lg|]; [|split; reflexivity]. cbv zeta. destruct (_ && _); [split; reflexivity|].
  destruct (_ && _)%N; split; reflexivity.
Qed.
Lemma fs_open : fs opens open_socket initializeSessionPOSIX.
Proof.
  unfold open_socket, initializeSessionPOSIX. apply fs_gete_to; [|reflexivity]. intros e (_ & fd & l & E). rewrite E. clear E e.
  set (Q := fun e : env => e_conn e = []).
  assert (K : fs Q (c <# base getc ;; match c_server c with None => base (fail_ub (UB_NullDeref PServer)) | Some name =>
      base (logc (B "Trying to connect to " ++ name ++ B " on port " ++ dec_of_N (c_port c))) ;;#
      r <# base sys_connect ;; match r with None => wret 0 | Some er => addWSAMessage er ;;# base (setLastSocketErrNo er) ;;# doWSACleanup ;;# wret SOCKET_INIT_SESSION_CONNECT_ERROR end end)
    (c <- getc;; match c_server c with None => fail_ub (UB_NullDeref PServer) | Some name =>
          h <- sys_gethostbyname name;;
          match h with
          | None => ret SOCKET_INIT_SESSION_GETHOSTBYNAME_ERROR
          | Some len =>
              if len <? 0 then ret SOCKET_INIT_SESSION_GETHOSTBYNAME_ERROR
              else if 4 <? len then fail_ub (UB_BufferOverflow BufHost)
              else
                nb <- setSocketToNonBlocking;;
                if negb (nb =? 0) then ret 1
                else
                  logc (B "Trying to connect to " ++ name ++ B " on port " ++ dec_of_N (c_port c));;
                  r <- sys_connect;;
                  match r with
                  | None => setSocketToBlocking
                  | Some er =>
                      if er =? EINPROGRESS then
                        w <- wait_connect;;
                        if w =? 0 then setSocketToBlocking else ret w
                      else log_errno er;; ret SOCKET_INIT_SESSION_CONNECT_ERROR
                  end
          end
      end)).
  { apply fs_getc_to. intros c. destruct (c_server c) as [name|]; [|apply fs_weaken, fs_base, neu_ub].
    eapply fs_posix; [intros; exists [EvResolve name true]; split; reflexivity|]. cbn [Z.ltb Z.compare Pos.compare Pos.compare_cont].
    apply (fs_posix _ (posix_mode true) 0); [apply mode_on|]. cbn [negb Z.eqb].
    set (item := B "Trying to connect to " ++ name ++ B " on port " ++ dec_of_N (c_port c)).
    intros c0 e0 x Cv Pv. destruct (neu_logc item c0 e0) as (o & c1 & e1 & tp & F & X).
    assert (X' : e1 = e0 /\ tp = []).
    { destruct (X [] []) as [Y _]. pose proof (quiet_log item c0 e0 [] ) as Z. rewrite Y in Z. cbn in Z. exact Z. }
    destruct X' as [-> ->]. destruct o as [u| | | | |].
    2-6: eexists _, c1, e0, []; split; [intros t; unfold bind; destruct (X t []) as [_ ->]; reflexivity|];
      intros _ on t0; exists on, []; (split; [|reflexivity]); unfold wbind, base; cbn [v_c v_e v_on v_w v_t]; destruct (X [] []) as [-> _]; reflexivity.
    destruct (mode_on false c1 e0) as (tp & T & Y).
    eexists (Done 0), c1, e0, ([EvConnect (c_sock c1) (c_port c1 mod 65536)%N true] ++ tp). split.
    - intros t. unfold bind at 1. destruct (X t []) as [_ ->]. unfold bind, sys_connect, bind, getc, gete. cbn [s_c s_e s_t].
      change (e_conn (posix_env [] e0)) with (e_conn e0). red in Pv. rewrite Pv. cbn [emit s_c s_e s_t ret]. rewrite app_nil_r. rewrite app_assoc. apply Y.
    - intros _ on t0. exists on, [WSock (EvConnect (c_sock c1) (c_port c1 mod 65536)%N true)]. split; [|rewrite talk_app, T; reflexivity].
      unfold wbind at 1. unfold base at 1. cbn [v_c v_e v_on v_w v_t]. destruct (X [] []) as [-> _]. cbn [s_c s_e s_t map app]. unfold wbind, base, sys_connect, bind, getc, gete. cbn [s_c s_e s_t v_c v_e v_on v_w v_t].
      red in Pv. rewrite Pv. cbn [emit s_c s_e s_t ret map app v_t]. now rewrite app_nil_r. }
  intros c e x Cv Pv. destruct (K (set_sock (Z.of_N fd) c) (set_esock l e) x Cv (proj1 Pv)) as (o & c2 & e2 & tp & E & X).
  exists o, c2, e2, ([EvSocket (SkFd fd)] ++ tp). split.
  - intros t. rewrite app_assoc. exact (E (t ++ [EvSocket (SkFd fd)])).
  - intros S on t0. apply Forall_app in S as [_ S]. destruct (X S on (t0 ++ [WSock (EvSocket (SkFd fd))])) as (on2 & tw & Y & T).
    exists on2, ([WSock (EvSocket (SkFd fd))] ++ tw). split; [|rewrite wtalk_app, talk_app, T; reflexivity]. rewrite app_assoc, <- Y.
    unfold wbind at 1 2 3, base at 1 2 3, upde, emit, updc. cbn [s_c s_e s_t v_c v_e v_on v_w v_t map app]. rewrite !app_nil_r. reflexivity.
Qed.
Lemma win_again v : (st <# next x_start set_xstart 0 ;; wput (WStartup st) ;;#
    if negb (st =? 0) then
      base (setLastSocketErrNo st) ;;#
      base (logc (B "WSAStartup failed with error: " ++ dec_of_N (Z.to_N st))) ;;#
      wret SOCKET_INIT_SESSION_WINSOCKET_STARTUP_ERROR
    else set_on true ;;# c <# base getc ;; ga <# next x_addr set_xaddr 0 ;;
    wput (WAddr (c_server c) (c_port c) ga) ;;#
    if negb (ga =? 0) then
      addWSAMessage ga ;;#
      base (setLastSocketErrNo ga) ;;#
      doWSACleanup ;;#
      wret SOCKET_INIT_SESSION_WINSOCKET_GETADDRINFO_ERROR
    else open_socket) v = initializeSessionWinSock v.
Proof.
  unfold initializeSessionWinSock. apply wbind_ext. intros st v1 _. apply wbind_ext. intros _ v2 _.
  destruct (negb (st =? 0)); [reflexivity|]. apply wbind_ext. intros _ v3 _. apply wbind_ext. intros c v4 E4.
  assert (X4 : v_c v4 = c) by (destruct v3; unfold base, getc in E4; cbn in E4; injection E4 as <- <-; reflexivity).
  apply wbind_ext. intros ga v5 E5.
  assert (X5 : v_c v5 = c).
  { rewrite <- X4. unfold next in E5. destruct (x_addr (v_w v4)); injection E5 as <- <-; reflexivity. }
  apply wbind_ext. intros [] v6 E6.
  assert (X6 : v_c v6 = c) by (unfold wput in E6; injection E6 as <-; exact X5).
  destruct (negb (ga =? 0)); [reflexivity|]. symmetry. exact (open_again c v6 X6).
Qed.
Lemma fs_init_win P : fs P open_socket initializeSessionPOSIX -> fs P initializeSessionWinSock initializeSessionPOSIX.
Proof.
  intros HO. eapply (fs_ext _ (st <# next x_start set_xstart 0 ;; wput (WStartup st) ;;#
    if negb (st =? 0) then
      base (setLastSocketErrNo st) ;;#
      base (logc (B "WSAStartup failed with error: " ++ dec_of_N (Z.to_N st))) ;;#
      wret SOCKET_INIT_SESSION_WINSOCKET_STARTUP_ERROR
    else set_on true ;;# c <# base getc ;; ga <# next x_addr set_xaddr 0 ;;
    wput (WAddr (c_server c) (c_port c) ga) ;;#
    if negb (ga =? 0) then
      addWSAMessage ga ;;#
      base (setLastSocketErrNo ga) ;;#
      doWSACleanup ;;#
      wret SOCKET_INIT_SESSION_WINSOCKET_GETADDRINFO_ERROR
    else open_socket)); [apply win_again|reflexivity|].
  apply fs_next; [intros x C; apply C|]. apply fs_only; [now apply only_put|]. cbn [negb Z.eqb].
  apply fs_only; [apply only_on|]. apply fs_getc_only. intros c. apply fs_next; [intros x C; apply C|]. apply fs_only; [now apply only_put|]. exact HO.
Qed.
Lemma fs_init P : fs P open_socket initializeSessionPOSIX -> fs P initializeSessionW initializeSession.
Proof. intros HO. unfold initializeSessionW, initializeSession. now apply fs_first, fs_init_win. Qed.

(** ** TLS *)

Ltac fsc' := repeat first [fst1 | match goal with
  | |- fsim (wbind cleanupW _) (bind cleanup _) => apply fs_bind; [apply fs_cleanup|intros ?]
  | |- fsim (wbind (wput _) _) _ => apply fs_only; [now apply only_put|] end].

Lemma fs_regroup {A C D E} (a : M A) (b : A -> M C) (d : C -> M D) mw (k : D -> M E) :
  fsim mw (bind (bind a (fun x => bind (b x) d)) k) -> fsim mw (bind a (fun x => bind (b x) (fun y => bind (d y) k))).
Proof.
  apply fs_ext; [reflexivity|]. intros s. unfold bind. destruct (a s) as [[] s1]; try reflexivity.
  destruct (b a0 s1) as [[] s2]; reflexivity.
Qed.
Lemma fs_regroup2 {A C E} (a : M A) (b : A -> M C) mw (k : C -> M E) :
  fsim mw (bind (bind a b) k) -> fsim mw (bind a (fun x => bind (b x) k)).
Proof.
  apply fs_ext; [reflexivity|]. intros s. unfold bind. destruct (a s) as [[] s1]; reflexivity.
Qed.

Lemma fs_tls_script {C} (kw : tls_res -> list tls_res -> W C) kp :
  (forall t l, fsim (kw t l) (kp (trusting t) (map trusting l))) ->
  fsim (e <# base gete ;; match e_tls e with [] => base blocked | t :: l => kw t l end)
       (e <- gete;; match e_tls e with [] => blocked | t :: l => kp t l end).
Proof.
  intros K c e x Cv _. destruct (e_tls e) as [|t l] eqn:L.
  - exists Blocked, c, e, []. split.
    + intros t. unfold bind, gete. cbn [v_c v_on v_e v_w v_t s_c s_e s_t map].
      change (e_tls (posix_env [] e)) with (map trusting (e_tls e)). rewrite L. cbn. unfold blocked. now rewrite app_nil_r.
    + intros _ on t0. exists on, []. split; [|reflexivity]. unfold wbind, base, gete. cbn [v_c v_on v_e v_w v_t s_c s_e s_t map]. rewrite L. unfold blocked. cbn. now rewrite !app_nil_r.
  - destruct (K t l c e x Cv Logic.I) as (o & c2 & e2 & tp & E & X). exists o, c2, e2, tp. split.
    + intros t1. rewrite <- E. unfold bind, gete. cbn [v_c v_on v_e v_w v_t s_c s_e s_t].
      change (e_tls (posix_env [] e)) with (map trusting (e_tls e)). rewrite L. reflexivity.
    + intros S on t0. destruct (X S on t0) as (on2 & tw & Y & T). exists on2, tw. split; [|exact T].
      unfold wbind, base, gete. cbn [v_c v_on v_e v_w v_t s_c s_e s_t map]. rewrite L, app_nil_r. exact Y.
Qed.
Lemma fs_set_tls l : fsim (base (upde (set_tls l))) (upde (set_tls (map trusting l))).
Proof.
  intros c e x _ _. exists (Done tt), c, (set_tls l e), []. split; [intros t; unfold upde; cbn [s_c s_e s_t]; now rewrite app_nil_r|].
  intros _ on t0. exists on, []. split; reflexivity.
Qed.

Lemma fs_starttls : fsim startTLSNegotiationW startTLSNegotiation.
Proof.
  unfold startTLSNegotiationW, startTLSNegotiation. fst1. apply fs_tls_script. intros t l.
  apply fs_bind; [apply fs_set_tls|]. intros _.
  unfold trusting. cbn [t_ctx t_bio t_paths t_connect t_handshake t_cert t_verify t_host t_err].
  fst1; [apply fs_regroup2; fst1; fst1|].
  apply fs_bind; [apply fs_base, neu_fresh|]. intros i. apply fs_regroup2. fst1. fst1; [fsc|].
  apply fs_bind; [apply fs_base, neu_fresh|]. intros b. fst1. apply fs_regroup2. fst1.
  fst1; [|fst1]. fst1; [fst1|]. cbn [negb]. apply fs_next; [intros x C; apply C|]. apply fs_only; [now apply only_put|]. fst1; [fsc'|]. fsc'.
Qed.

(** ** Establishing the connection and the mail transaction *)

Ltac call H := apply fs_bind; [apply H|intros ?].

Lemma fs_establish_plain P : fs P open_socket initializeSessionPOSIX -> fs P establishPlainW establishPlain.
Proof.
  intros HO.
  unfold establishPlainW, establishPlain. apply fs_bind_to; [now apply fs_init|intros ?]. fst1; [fst1|].
  apply fs_bind; [apply fs_base, neu_greetings|intros ?]. fst1; [fst1|]. call fs_ident. fst1; [fst1|]. apply fs_auth_if.
Qed.
Lemma fs_upgrade : fsim upgradeToSecureConnectionW upgradeToSecureConnection.
Proof. unfold upgradeToSecureConnectionW, upgradeToSecureConnection. fst1. apply fs_raw3. Qed.
Lemma fs_establish_opp P : fs P open_socket initializeSessionPOSIX -> fs P establishOppW establishOpp.
Proof.
  intros HO.
  unfold establishOppW, establishOpp. apply fs_bind_to; [now apply fs_init|intros ?]. fst1; [fst1|].
  apply fs_bind; [apply fs_base, neu_greetings|intros ?]. fst1; [fst1|]. call fs_ident. fst1; [fst1|].
  fst1. fst1. fst1.
  - fst1. call fs_upgrade. fst1; [fst1|]. call fs_starttls. fst1; [fst1|]. call fs_secure. fst1; [fst1|]. apply fs_auth_if.
  - fsc.
Qed.
Lemma fs_establish_forced P : fs P open_socket initializeSessionPOSIX -> fs P establishForcedW establishForced.
Proof.
  intros HO.
  unfold establishForcedW, establishForced. apply fs_bind_to; [now apply fs_init|intros ?]. fst1; [fst1|]. call fs_starttls. fst1; [fst1|].
  apply fs_bind; [apply fs_base, neu_greetingsTLS|intros ?]. fst1; [fst1|]. call fs_secure. fst1; [fst1|]. apply fs_auth_if.
Qed.
Lemma fs_establish P : fs P open_socket initializeSessionPOSIX -> fs P establishW establish.
Proof.
  intros HO.
  unfold establishW, establish. apply fs_getc_to. intros a. destruct (c_kind a);
    [now apply fs_establish_plain|now apply fs_establish_opp|now apply fs_establish_forced].
Qed.

Lemma fs_mail_from l : forall z, fsim (mail_from_loopW l z) (mail_from_loop l z).
Proof. induction l as [|f l IH]; intros z; cbn [mail_from_loopW mail_from_loop]; [fst1|]. fst1. call fs_feedptr. fsc. apply IH. Qed.
Lemma fs_add_rcpt l : forall z, fsim (addMailRecipientsW l z) (addMailRecipients l z).
Proof. induction l as [|f l IH]; intros z; cbn [addMailRecipientsW addMailRecipients]; [fst1|]. fst1. call fs_feedptr. apply IH. Qed.
Lemma fs_rcpts l : fsim (recipients_loopW l) (recipients_loop l).
Proof.
  induction l as [|a l IH]; cbn [recipients_loopW recipients_loop]; [fst1|]. destruct a; [apply IH|].
  call fs_add_rcpt. fst1; [fst1|]. apply IH.
Qed.
Lemma fs_set_rcpts m : fsim (setMailRecipientsW m) (setMailRecipients m).
Proof. unfold setMailRecipientsW, setMailRecipients. call fs_mail_from. fst1; [fst1|]. apply fs_rcpts. Qed.
Lemma fs_ptr' cmd err : fsim (sendCommandPtrW cleanupW cmd err) (sendCommandPtr cmd err).
Proof. apply fs_ptr, fs_cleanup. Qed.
Lemma fs_header f x err : fsim (addMailHeaderW f x err) (addMailHeader f x err).
Proof. unfold addMailHeaderW, addMailHeader. fst1. apply fs_ptr'. Qed.
Lemma fs_addr_header f a : fsim (address_headerW f a) (address_header f a).
Proof.
  unfold address_headerW, address_header. destruct a as [[|n]|[|a l]]; try fst1. call fs_header. fst1.
Qed.
Lemma fs_headers m : fsim (setMailHeadersW m) (setMailHeaders m).
Proof.
  unfold setMailHeadersW, setMailHeaders. fst1. call fs_feedptr. fst1; [fst1|]. call fs_header. fst1; [fst1|].
  call fs_addr_header. call fs_addr_header. fst1. call fs_ptr'. fst1; [fst1|]. fst1. call fs_ptr'. fsc.
Qed.
Lemma fs_chunks l err : fsim (send_chunksW l err) (send_chunks l err).
Proof. induction l as [|x l IH]; cbn [send_chunksW send_chunks]; [fst1|]. call fs_ptr'. fst1; [fst1|]. apply IH. Qed.
Lemma fs_body m : fsim (setMailBodyW m) (setMailBody m).
Proof.
  unfold setMailBodyW, setMailBody. fst1. fst1. fst1. call fs_chunks. fst1; [fst1|]. fst1. call fs_feedptr. fst1; [fst1|].
  fst1. fst1; [fst1|]. apply fs_bind; [apply fs_quit, fs_cleanup|intros ?]. fsc.
Qed.
Lemma fs_transaction m : fsim (mail_transactionW m) (mail_transaction m).
Proof.
  unfold mail_transactionW, mail_transaction. call fs_set_rcpts. fst1; [fst1|]. call fs_headers. fst1; [fst1|].
  call fs_body. fst1; [fst1|]. fst1. apply fs_bind; [destruct (c_batch a2); [fst1|apply fs_cleanup]|]. intros ?. fst1.
Qed.
Lemma fs_send_to m (P : env -> Prop) : fs P open_socket initializeSessionPOSIX -> forall c e x, calm x -> (c_conn c = false -> P e) -> exists o c' e' tp,
  (forall t, sendMail m (mkSt c (posix_env [] e) t) = (o, mkSt c' (posix_env [] e') (t ++ tp))) /\
  (Forall fine tp -> forall on t0, exists on' tw, sendMailW m (mkV c on e x t0) = (o, mkV c' on' e' x (t0 ++ tw)) /\ wtalk tw = talk tp).
Proof.
  intros HO c e x Cv Pv.
  assert (K : forall r, fsim (if negb (r =? 0) then wret r else base (updc (set_conn true)) ;;# mail_transactionW m) (if negb (r =? 0) then ret r else updc (set_conn true);; mail_transaction m)).
  { intros r. fst1; [fst1|]. fst1. apply fs_transaction. }
  assert (Ew : forall on t0, sendMailW m (mkV c on e x t0) = (r <# (if c_conn c then wret 0 else establishW) ;; if negb (r =? 0) then wret r else base (updc (set_conn true)) ;;# mail_transactionW m) (mkV c on e x t0)).
  { intros on t0. unfold sendMailW at 1. unfold wbind at 1, base at 1, getc. cbn [s_c s_e s_t v_c v_e v_on v_w v_t map]. now rewrite app_nil_r. }
  destruct (c_conn c) eqn:Cn.
  - destruct (fs_bind (wret 0) (ret 0) _ _ (fs_ret 0) K c e x Cv Logic.I) as (o & c2 & e2 & tp & E & X). exists o, c2, e2, tp. split.
    + intros t. rewrite <- E. unfold sendMail, bind at 1, getc. cbn [s_c]. rewrite Cn. reflexivity.
    + intros S on t0. rewrite Ew. apply X, S.
  - destruct (fs_bind_to P establishW establish _ _ (fs_establish P HO) K c e x Cv (Pv eq_refl)) as (o & c2 & e2 & tp & E & X). exists o, c2, e2, tp. split.
    + intros t. rewrite <- E. unfold sendMail, bind at 1, getc. cbn [s_c]. rewrite Cn. reflexivity.
    + intros S on t0. rewrite Ew. apply X, S.
Qed.

(** ** Without assumptions about the environment *)

Hypothesis fine_sock : forall er, ~ fine (EvSocket (SkErr er)).
Hypothesis fine_connect : forall fd port, ~ fine (EvConnect fd port false).

Lemma lin_wait : forall er, fsim (if er =? EINPROGRESS then w <# base wait_connect ;; if w =? 0 then setSocketMode false ;;# wret 0 else wret w
    else base (log_errno er) ;;# wret SOCKET_INIT_SESSION_CONNECT_ERROR)
  (if er =? EINPROGRESS then w <- wait_connect;; if w =? 0 then setSocketToBlocking else ret w
    else log_errno er;; ret SOCKET_INIT_SESSION_CONNECT_ERROR).
Proof.
  intros er. destruct (er =? EINPROGRESS); [|apply fs_bind; [apply fs_base, neu_log_errno|intros ?; apply fs_ret]]. apply fs_bind.
  - apply fs_base. unfold wait_connect. apply neu_bind; [apply neu_getc|intros c]. destruct (_ <=? _); [apply neu_ub|].
    apply neu_bind; [apply neu_emit; reflexivity|intros _]. apply neu_gete; [intros e|reflexivity].
    apply neu_bind; [destruct (e_select e); [apply neu_ret|apply neu_bind; [apply neu_upde; reflexivity|intros _; apply neu_ret]]|]. intros r. destruct r as [| |z].
    + apply neu_gete; [intros e'|reflexivity].
      apply neu_bind; [destruct (e_sopt e'); [apply neu_ret|apply neu_bind; [apply neu_upde; reflexivity|intros _; apply neu_ret]]|]. intros o. destruct o as [z|z].
      * apply neu_bind; [apply neu_log_errno|intros _; apply neu_ret].
      * destruct (z =? 0); [apply neu_ret|]. apply neu_bind; [apply neu_log_errno|intros _; apply neu_ret].
    + apply neu_ret.
    + destruct (z =? EINTR); [apply neu_ret|]. apply neu_bind; [apply neu_log_errno|intros _; apply neu_ret].
  - intros w. destruct (w =? 0); [|apply fs_ret]. intros c e x Cv _. destruct (mode_on false c e) as (tp & T & Y). exists (Done 0), c, e, tp. split; [exact Y|].
    intros S on t0. exists on, [WIoctl (c_sock c) false None]. split; [|rewrite T; reflexivity].
    destruct Cv as (_ & _ & _ & I & _). unfold setSocketMode, wbind, base, getc, next, wput, wret. cbn [v_w v_c v_on v_e v_t s_c s_e s_t map]. rewrite I. now rewrite app_nil_r.
Qed.
Lemma fs_connect : fsim (r <# base sys_connect ;; match r with None => wret 0 | Some er => addWSAMessage er ;;# base (setLastSocketErrNo er) ;;# doWSACleanup ;;# wret SOCKET_INIT_SESSION_CONNECT_ERROR end)
  (r <- sys_connect;; match r with
                  | None => setSocketToBlocking
                  | Some er =>
                      if er =? EINPROGRESS then
                        w <- wait_connect;;
                        if w =? 0 then setSocketToBlocking else ret w
                      else log_errno er;; ret SOCKET_INIT_SESSION_CONNECT_ERROR
                  end).
Proof.
  intros c e x Cv _.
  destruct (e_conn e) as [|[er|] l] eqn:L.
  - destruct (mode_on false c e) as (tp & T & Y).
    eexists (Done 0), c, e, ([EvConnect (c_sock c) (c_port c mod 65536)%N true] ++ tp). split.
    + intros t. unfold bind, sys_connect, bind, getc, gete. cbn [s_c s_e s_t]. change (e_conn (posix_env [] e)) with (e_conn e). rewrite L. cbn [emit s_c s_e s_t ret]. rewrite app_assoc. apply Y.
    + intros _ on t0. exists on, [WSock (EvConnect (c_sock c) (c_port c mod 65536)%N true)]. split; [|rewrite talk_app, T; reflexivity].
      unfold wbind, base, sys_connect, bind, getc, gete. cbn [s_c s_e s_t v_c v_e v_on v_w v_t]. rewrite L. reflexivity.
  - destruct (lin_wait er c (set_econn l e) x Cv Logic.I) as (o & c2 & e2 & tp & E & _).
    exists o, c2, e2, ([EvConnect (c_sock c) (c_port c mod 65536)%N false] ++ tp). split.
    + intros t. rewrite app_assoc, <- E. unfold bind at 1, sys_connect, bind at 1 2, getc, gete. cbn [s_c s_e s_t]. change (e_conn (posix_env [] e)) with (e_conn e). rewrite L. reflexivity.
    + intros S. exfalso. inversion S; subst. eapply fine_connect; eassumption.
  - destruct (mode_on false c (set_econn l e)) as (tp & T & Y).
    eexists (Done 0), c, (set_econn l e), ([EvConnect (c_sock c) (c_port c mod 65536)%N true] ++ tp). split.
    + intros t. rewrite app_assoc, <- Y. unfold bind at 1, sys_connect, bind at 1 2, getc, gete. cbn [s_c s_e s_t]. change (e_conn (posix_env [] e)) with (e_conn e). rewrite L. reflexivity.
    + intros _ on t0. exists on, [WSock (EvConnect (c_sock c) (c_port c mod 65536)%N true)]. split; [|rewrite talk_app, T; reflexivity].
      unfold wbind, base, sys_connect, bind, getc, gete. cbn [s_c s_e s_t v_c v_e v_on v_w v_t]. rewrite L. reflexivity.
Qed.
Lemma fs_open_any : fs anyenv open_socket initializeSessionPOSIX.
Proof.
  unfold open_socket, initializeSessionPOSIX. apply fs_gete; [|reflexivity]. intros e. destruct (e_sock e) as [|[fd|er] l]; [apply fs_base, neu_blocked| |].
  2:{ assert (L : fsim (base (log_errno er) ;;# wret SOCKET_INIT_SESSION_CREATION_ERROR) (log_errno er;; ret SOCKET_INIT_SESSION_CREATION_ERROR)) by (apply fs_bind; [apply fs_base, neu_log_errno|intros ?; apply fs_ret]).
    intros c e1 x Cv _. destruct (L (set_sock (-1) c) (set_esock l e1) x Cv Logic.I) as (o & c2 & e2 & tp & E & _).
    exists o, c2, e2, ([EvSocket (SkErr er)] ++ tp). split; [intros t; rewrite app_assoc; exact (E (t ++ [EvSocket (SkErr er)]))|].
    intros S. exfalso. inversion S; subst. eapply fine_sock; eassumption. }
  - assert (K : fsim (c <# base getc ;; match c_server c with None => base (fail_ub (UB_NullDeref PServer)) | Some name =>
      base (logc (B "Trying to connect to " ++ name ++ B " on port " ++ dec_of_N (c_port c))) ;;#
      r <# base sys_connect ;; match r with None => wret 0 | Some er => addWSAMessage er ;;# base (setLastSocketErrNo er) ;;# doWSACleanup ;;# wret SOCKET_INIT_SESSION_CONNECT_ERROR end end)
    (c <- getc;; match c_server c with None => fail_ub (UB_NullDeref PServer) | Some name =>
          h <- sys_gethostbyname name;;
          match h with
          | None => ret SOCKET_INIT_SESSION_GETHOSTBYNAME_ERROR
          | Some len =>
              if len <? 0 then ret SOCKET_INIT_SESSION_GETHOSTBYNAME_ERROR
              else if 4 <? len then fail_ub (UB_BufferOverflow BufHost)
              else
                nb <- setSocketToNonBlocking;;
                if negb (nb =? 0) then ret 1
                else
                  logc (B "Trying to connect to " ++ name ++ B " on port " ++ dec_of_N (c_port c));;
                  r <- sys_connect;;
                  match r with
                  | None => setSocketToBlocking
                  | Some er =>
                      if er =? EINPROGRESS then
                        w <- wait_connect;;
                        if w =? 0 then setSocketToBlocking else ret w
                      else log_errno er;; ret SOCKET_INIT_SESSION_CONNECT_ERROR
                  end
          end
      end)).
    { apply fs_getc_to. intros c. destruct (c_server c) as [name|]; [|apply fs_base, neu_ub].
      eapply fs_posix; [intros; exists [EvResolve name true]; split; reflexivity|]. cbn [Z.ltb Z.compare Pos.compare Pos.compare_cont].
      apply (fs_posix _ (posix_mode true) 0); [apply mode_on|]. cbn [negb Z.eqb].
      apply fs_bind; [apply fs_base, neu_logc|]. intros _. apply fs_connect. }
    intros c e1 x Cv _. destruct (K (set_sock (Z.of_N fd) c) (set_esock l e1) x Cv Logic.I) as (o & c2 & e2 & tp & E & X).
    exists o, c2, e2, ([EvSocket (SkFd fd)] ++ tp). split.
    + intros t. rewrite app_assoc. exact (E (t ++ [EvSocket (SkFd fd)])).
    + intros S on t0. apply Forall_app in S as [_ S]. destruct (X S on (t0 ++ [WSock (EvSocket (SkFd fd))])) as (on2 & tw & Y & T).
      exists on2, ([WSock (EvSocket (SkFd fd))] ++ tw). split; [|rewrite wtalk_app, talk_app, T; reflexivity]. rewrite app_assoc, <- Y.
      unfold wbind at 1 2 3, base at 1 2 3, upde, emit, updc. cbn [s_c s_e s_t v_c v_e v_on v_w v_t map app]. rewrite !app_nil_r. reflexivity.
Qed.
Lemma fs_send_any m : forall c e x, calm x -> exists o c' e' tp,
  (forall t, sendMail m (mkSt c (posix_env [] e) t) = (o, mkSt c' (posix_env [] e') (t ++ tp))) /\
  (Forall fine tp -> forall on t0, exists on' tw, sendMailW m (mkV c on e x t0) = (o, mkV c' on' e' x (t0 ++ tw)) /\ wtalk tw = talk tp).
Proof. intros c e x Cv. apply (fs_send_to m anyenv fs_open_any c e x Cv). intros _. exact Logic.I. Qed.
Lemma fs_destroy : forall c e x, calm x -> exists o c' e' tp,
  (forall t, (cleanup;; ret 0) (mkSt c (posix_env [] e) t) = (o, mkSt c' (posix_env [] e') (t ++ tp))) /\
  (Forall fine tp -> forall on t0, exists on' tw, (cleanupW ;;# wret 0) (mkV c on e x t0) = (o, mkV c' on' e' x (t0 ++ tw)) /\ wtalk tw = talk tp).
Proof. intros c e x Cv. exact (fs_bind cleanupW cleanup _ _ fs_cleanup (fun _ => fs_ret 0) c e x Cv Logic.I). Qed.
End Forward.

Lemma fs_send m (P : client -> env -> Prop) : (forall c e, P c e -> c_conn c = false -> opens e) ->
  forall c e x, calm x -> P c e -> exists o c' e' tp,
  (forall t, sendMail m (mkSt c (posix_env [] e) t) = (o, mkSt c' (posix_env [] e') (t ++ tp))) /\
  (Forall fits tp -> forall on t0, exists on' tw, sendMailW m (mkV c on e x t0) = (o, mkV c' on' e' x (t0 ++ tw)) /\ wtalk tw = talk tp).
Proof. intros HP c e x Cv Pv. apply (fs_send_to fits (fun _ _ _ H => H) m opens (fs_open fits) c e x Cv). intros Cn. exact (HP c e Pv Cn). Qed.

(** ** Programs *)

Section Programs.
Variable fine : event -> Prop.
Hypothesis fine_send : forall fd d r, fine (EvSend fd d r) -> (slen d <= INT_MAX)%N.
Hypothesis fine_sock : forall er, ~ fine (EvSocket (SkErr er)).
Hypothesis fine_connect : forall fd port, ~ fine (EvConnect fd port false).

(** The Windows world [w] and the POSIX world [u]. *)
Definition twins (w : wworld) (u : world) : Prop := w_clients (ww w) = w_clients u /\ w_env u = posix_env [] (w_env (ww w)) /\ calm (ww_env w) /\ w_trace (ww w) = [].
Lemma fwd_run {A} i (mw : W A) mp f w u x u' t : (forall c e x, calm x -> exists o c' e' tp,
    (forall t, mp (mkSt c (posix_env [] e) t) = (o, mkSt c' (posix_env [] e') (t ++ tp))) /\
    (Forall fine tp -> forall on t0, exists on' tw, mw (mkV c on e x t0) = (o, mkV c' on' e' x (t0 ++ tw)) /\ wtalk tw = talk tp)) ->
  twins w u -> run_on i mp f u = (x, u') -> w_trace u' = w_trace u ++ t -> Forall fine t ->
  exists w' tw, run_onW i mw f w = (x, w') /\ twins w' u' /\ ww_trace w' = ww_trace w ++ tw /\ wtalk tw = talk t.
Proof.
  intros H (Ec & Ee & C & Et) S T F. unfold run_on in S. unfold run_onW, get_client in *. rewrite Ec. destruct (nth_error (w_clients u) i) as [[c|]|].
  - destruct (H c (w_env (ww w)) (ww_env w) C) as (o & c' & e' & tp & P & X). rewrite Ee, P in S. injection S as <- <-.
    cbn [w_trace s_t] in T. apply app_inv_head in T. subst tp. destruct (X F (nth i (ww_on w) false) (ww_trace w)) as (on' & tw & Ew & Tw). rewrite Ew.
    eexists _, tw. split; [reflexivity|]. split; [|split; [reflexivity|exact Tw]]. repeat split; cbn [ww w_clients v_c s_c w_env v_e s_e ww_env v_w w_trace]; try apply C.
  - injection S as <- <-. rewrite <- (app_nil_r (w_trace u)) in T at 1. apply app_inv_head in T. subst t. exists w, []. rewrite app_nil_r. repeat split; try assumption; try apply C.
  - injection S as <- <-. rewrite <- (app_nil_r (w_trace u)) in T at 1. apply app_inv_head in T. subst t. exists w, []. rewrite app_nil_r. repeat split; try assumption; try apply C.
Qed.
Lemma fwd_step o w u x u' t : twins w u -> step o u = (x, u') -> w_trace u' = w_trace u ++ t -> Forall fine t ->
  exists w' tw, wstep o w = (x, w') /\ twins w' u' /\ ww_trace w' = ww_trace w ++ tw /\ wtalk tw = talk t.
Proof.
  intros Tw S T F. destruct (talks o) eqn:Q.
  - destruct o; try discriminate Q.
    + eapply fwd_run; try eassumption. apply fs_send_any; assumption.
    + eapply fwd_run; try eassumption. apply fs_destroy; assumption.
  - destruct Tw as (Ec & Ee & C & Et). destruct u as [cl e tr], w as [[cl' e1 t1] on x1 tw]. cbn [w_clients w_env w_trace ww ww_env] in *. subst cl' e t1.
    destruct (step_quiet o cl (posix_env [] e1) tr Q e1 []) as (y & cl2 & E1 & E2). rewrite E1 in S. injection S as <- <-.
    cbn [w_trace] in T. rewrite <- (app_nil_r tr) in T at 1. apply app_inv_head in T. subst t.
    exists (mkWW (mkWorld cl2 e1 []) (on ++ repeat false (length cl2 - length cl)) x1 tw), []. split.
    + assert (W : wstep o (mkWW (mkWorld cl e1 []) on x1 tw) = let '(x, w') := step o (mkWorld cl e1 []) in
        (x, mkWW w' (on ++ repeat false (length (w_clients w') - length cl)) x1 tw)) by (destruct o; try discriminate Q; reflexivity).
      rewrite W, E2. reflexivity.
    + cbn [ww_trace]. rewrite app_nil_r. repeat split; try apply C.
Qed.
Lemma fwd_programs ops : forall w u t, twins w u -> w_trace (snd (run ops u)) = w_trace u ++ t -> Forall fine t ->
  exists w' tw, wrun ops w = (fst (run ops u), w') /\ twins w' (snd (run ops u)) /\ ww_trace w' = ww_trace w ++ tw /\ wtalk tw = talk t.
Proof.
  induction ops as [|o ops IH]; intros w u t Tw T F; cbn [run wrun] in *.
  - cbn [snd] in T. rewrite <- (app_nil_r (w_trace u)) in T at 1. apply app_inv_head in T. subst t. exists w, []. rewrite app_nil_r. auto.
  - destruct (step o u) as [x u1] eqn:S. destruct (step_trace _ _ _ _ S) as (t1 & T1). destruct (continues x) eqn:Cx.
    + destruct (run_trace ops u1) as (t2 & T2). destruct (run ops u1) as [xs u2] eqn:R. cbn [fst snd] in *. rewrite T2, T1, <- app_assoc in T. apply app_inv_head in T. subst t.
      apply Forall_app in F as [F1 F2]. destruct (fwd_step _ _ _ _ _ _ Tw S T1 F1) as (w1 & tw1 & E1 & Tw1 & Y1 & Z1). rewrite E1, Cx.
      specialize (IH w1 u1 t2 Tw1). rewrite R in IH. destruct (IH T2 F2) as (w2 & tw2 & E2 & Tw2 & Y2 & Z2). cbn [fst snd] in *. rewrite E2.
      exists w2, (tw1 ++ tw2). split; [reflexivity|]. split; [exact Tw2|]. split; [now rewrite Y2, Y1, app_assoc|]. now rewrite wtalk_app, talk_app, Z1, Z2.
    + cbn [fst snd] in *. rewrite T1 in T. apply app_inv_head in T. subst t1.
      destruct (fwd_step _ _ _ _ _ _ Tw S T1 F) as (w1 & tw1 & E1 & Tw1 & Y1 & Z1). rewrite E1, Cx. exists w1, tw1. auto.
Qed.
End Programs.
