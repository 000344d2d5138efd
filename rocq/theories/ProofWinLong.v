(** Texts that are too long for the Windows build: a message is not reported as
    sent when one of its commands or texts was left out. *)

From Coq Require Import Ascii String List NArith ZArith Bool Lia.
From Verif Require Import Base ModelUtil ModelBase64 ModelAddress ModelAttachment
  ModelErrors ModelReply ModelMessage ModelState ModelClient ModelWorld SpecReply SpecDialogue ProofDialogue ProofMail
  ModelWin SpecWin ProofWin ProofWin2 ProofWin3 ProofWinRef ProofWinRef2 ProofWinRef3 ProofWinRef4 ProofWinEv.
Import ListNotations.
Open Scope Z_scope.

(** ** The conversation of the shared calls *)

Lemma dialogue_talk t : dialogue (SpecWin.talk t) = dialogue t.
Proof.
  unfold SpecWin.talk. induction t as [|ev t IH]; [reflexivity|]. destruct ev; cbn [filter shared dialogue]; try rewrite IH; try reflexivity.
Qed.
Lemma exchanges_talk t : exchanges (SpecWin.talk t) = exchanges t.
Proof. unfold exchanges. now rewrite dialogue_talk. Qed.
Lemma nonstandard_talk t : nonstandard (SpecWin.talk t) <-> nonstandard t.
Proof. unfold nonstandard. now rewrite exchanges_talk. Qed.

(** ** Results that show what was left out *)

(** Left out: only texts that [L] allows. *)
Definition clear (L : str -> Prop) (ev : wevent) : Prop :=
  match ev with WTooLong d => L d | WOpenStore r => r = None | _ => True end.

Definition zeroed (t : list wevent) : Prop := nonstandard (wtalk t).
Lemma zeroed_l a b : zeroed a -> zeroed (a ++ b).
Proof. unfold zeroed. rewrite wtalk_app. apply nonstandard_l. Qed.
Lemma zeroed_r a b : zeroed b -> zeroed (a ++ b).
Proof. unfold zeroed. rewrite wtalk_app. apply nonstandard_r. Qed.

Section Shown.
Variable C : wevent -> Prop.

(** A result that is not [bad] means that all events are in [C]. *)
Definition shown {A} (bad : A -> Prop) (m : W A) : Prop := forall v, exists tw, v_t (snd (m v)) = v_t v ++ tw /\
  forall a, fst (m v) = Done a -> zeroed tw \/ bad a \/ Forall C tw.
Definition ends {A} (bad : A -> Prop) (m : W A) : Prop := forall v, exists tw, v_t (snd (m v)) = v_t v ++ tw /\
  forall a, fst (m v) = Done a -> zeroed tw \/ bad a.

Lemma sh_weak {A} (P Q : A -> Prop) m : (forall a, P a -> Q a) -> shown P m -> shown Q m.
Proof. intros H K v. destruct (K v) as (tw & E & F). exists tw. split; [exact E|]. intros a D. destruct (F a D) as [X|[X|X]]; auto. Qed.
Lemma sh_only {A} (P : A -> Prop) m : only C m -> shown P m.
Proof. intros H v. destruct (H v) as (tw & E & F). exists tw. split; [exact E|]. intros. auto. Qed.
Lemma sh_bind {A D} (P : A -> Prop) (Q : D -> Prop) (m : W A) (k : A -> W D) :
  shown P m -> (forall a, shown Q (k a)) -> (forall a, P a -> ends Q (k a)) -> shown Q (wbind m k).
Proof.
  intros H K N v. destruct (H v) as (tw & E & F). unfold wbind. destruct (m v) as [[a| | | | |] v1]; cbn [fst snd] in *;
    try (exists tw; split; [exact E|]; discriminate).
  destruct (K a v1) as (t2 & E2 & F2). destruct (k a v1) as [o v2] eqn:EK. cbn [fst snd] in *. exists (tw ++ t2). split; [now rewrite E2, E, app_assoc|].
  intros d ->. destruct (F a eq_refl) as [X|[X|X]]; [left; now apply zeroed_l| |].
  - destruct (N a X v1) as (t3 & E3 & F3). rewrite EK in E3, F3. cbn [fst snd] in *. rewrite E2 in E3. apply app_inv_head in E3. subst t3.
    destruct (F3 d eq_refl) as [Y|Y]; [left; now apply zeroed_r|auto].
  - destruct (F2 d eq_refl) as [Y|[Y|Y]]; [left; now apply zeroed_r|auto|]. right. right. now apply Forall_app.
Qed.
Lemma sh_first {A D} (Q : D -> Prop) (m : W A) (k : A -> W D) : only C m -> (forall a, shown Q (k a)) -> shown Q (wbind m k).
Proof. intros H K. apply (sh_bind (fun _ => False)); [now apply sh_only|exact K|contradiction]. Qed.
Lemma en_ret {A} (P : A -> Prop) a : P a -> ends P (wret a).
Proof. intros H v. exists []. cbn. rewrite app_nil_r. split; [reflexivity|]. intros b E. injection E as <-. auto. Qed.
Lemma en_bind {A D} (P : A -> Prop) (Q : D -> Prop) (m : W A) (k : A -> W D) :
  ends P m -> (forall a, extw (k a)) -> (forall a, P a -> ends Q (k a)) -> ends Q (wbind m k).
Proof.
  intros H X K v. destruct (H v) as (tw & E & F). unfold wbind. destruct (m v) as [[a| | | | |] v1]; cbn [fst snd] in *;
    try (exists tw; split; [exact E|]; discriminate).
  destruct (F a eq_refl) as [Z|Z].
  - destruct (X a v1) as (o & c & on & e & x & t2 & E2). rewrite E2. cbn [fst snd v_t]. exists (tw ++ t2). split; [now rewrite E, app_assoc|].
    intros. left. now apply zeroed_l.
  - destruct (K a Z v1) as (t2 & E2 & F2). exists (tw ++ t2). split; [now rewrite E2, E, app_assoc|].
    intros d D1. destruct (F2 d D1) as [Y|Y]; [left; now apply zeroed_r|auto].
Qed.
End Shown.

(** ** Commands *)

Definition neat (ev : wevent) : Prop :=
  match ev with WTooLong _ => False | WOpenStore r => r = None | WCleanup r => r = 0 | _ => True end.
Lemma passive_smooth ev : passive ev -> neat ev -> smooth ev.
Proof. unfold passive. destruct ev as [[]| | | | | | | | |]; cbn; try exact (fun _ _ => Logic.I); try discriminate; auto. Qed.

Section Commands.
Variable C : wevent -> Prop.
Hypothesis CS : forall ev, C (WSock ev).
Hypothesis CI : forall fd b r, C (WIoctl fd b r).
Hypothesis CQ : forall fd, C (WShutdown fd).
Variable cleaned : Prop.
Hypothesis CC : cleaned -> forall r, C (WCleanup r).

Lemma oc_base {A} (m : M A) : only C (base m).
Proof. intros v. unfold base. destruct (m _) as [o s]. cbn. exists (map WSock (s_t s)). split; [reflexivity|]. apply Forall_map, Forall_forall. intros; apply CS. Qed.
Ltac oc := repeat match goal with
  | |- only _ (wbind _ _) => apply only_bind; [|intros ?]
  | |- only _ (base _) => apply oc_base
  | |- only _ (wret _) => apply only_same; reflexivity
  | |- only _ (set_on _) => apply only_same; reflexivity
  | |- only _ get_on => apply only_same; reflexivity
  | |- only _ (next _ _ _) => apply only_next
  | |- only _ (wput _) => apply only_put; auto
  | H : only _ ?m |- only _ ?m => exact H
  | |- only _ (match ?x with _ => _ end) => destruct x
  end.
Lemma oc_raw_reply : only C getRawCommandReplyW.
Proof. unfold getRawCommandReplyW, setSocketMode. oc. Qed.
Lemma oc_reply : only C getServerReplyW.
Proof. unfold getServerReplyW. pose proof oc_raw_reply. oc. Qed.
Lemma oc_short cl cmd err : (INT_MAX <? slen (cstr cmd))%N = false -> only C cl -> only C (sendCommandPtrW cl cmd err).
Proof. intros N H. unfold sendCommandPtrW, sendRaw2W, sendCommandTLSW. rewrite N. oc. Qed.
Lemma oc_quit cl : only C cl -> only C (sendQuitW cl).
Proof. intros H. unfold sendQuitW. apply only_bind; [oc|]. intros _. now apply oc_short. Qed.
Lemma oc_cleanup : cleaned -> only C cleanupW.
Proof.
  intros K. enough (G : forall n, only C (cleanup_fW n)) by (intros v; apply G). intros n.
  induction n as [|n IH]; cbn [cleanup_fW]; [oc|]. pose proof (oc_quit _ IH). unfold close_socketW, release_winsock, doWSACleanup. oc.
Qed.

(** A cleanup that is followed by a bad result. *)
Lemma sh_cleanup {A} (P : A -> Prop) (a : A) : (cleaned \/ P a) -> shown C P (cleanupW ;;# wret a).
Proof.
  intros [K|K]; [apply sh_only, only_bind; [apply oc_cleanup, K|intros; oc]|].
  intros v. destruct (o_cleanup v) as (tw & E & _). unfold wbind. destruct (cleanupW v) as [o v1]. cbn [fst snd] in *.
  exists tw. destruct o; cbn; (split; [exact E|]); try discriminate. intros b X. injection X as <-. auto.
Qed.
Lemma sh_ret {A} (P : A -> Prop) a : shown C P (wret a).
Proof. apply sh_only. oc. Qed.
Lemma sh_errno {A} (P : A -> Prop) er (a : A) : (cleaned \/ P a) -> shown C P (base (setLastSocketErrNo er) ;;# cleanupW ;;# wret a).
Proof. intros H. apply sh_first; [oc|]. intros _. now apply sh_cleanup. Qed.
Lemma sh_long (P : Z -> Prop) d err : P err -> shown C P (wput (WTooLong d) ;;# wret err).
Proof. intros H v. exists [WTooLong d]. split; [reflexivity|]. intros a E. injection E as <-. auto. Qed.
Lemma sh_raw2 cmd err : shown C (fun r => r = err) (sendRaw2W cleanupW cmd err).
Proof.
  unfold sendRaw2W. destruct (_ <? _)%N; [now apply sh_long|]. apply sh_first; [oc|].
  intros r. destruct r; try (apply sh_only; oc; fail). apply sh_errno. now right.
Qed.
Lemma sh_ptr cmd err : shown C (fun r => r = err) (sendCommandPtrW cleanupW cmd err).
Proof.
  assert (T : shown C (fun r => r = err) (sendCommandTLSW cleanupW cmd err)).
  { unfold sendCommandTLSW. apply sh_first; [oc|]. intros d. destruct (c_bio d).
    - apply sh_first; [oc|]. intros r. destruct r; try (apply sh_only; oc; fail); apply sh_errno; now right.
    - apply sh_errno. now right. }
  unfold sendCommandPtrW. apply sh_first; [oc|]. intros c. destruct (c_rawptr c); [apply sh_raw2|]. destruct (c_kind c); [apply sh_raw2|exact T|exact T].
Qed.
Definition no_answer (err tm r : Z) : Prop := r = err \/ (r = tm /\ ~ cleaned).
Lemma sh_after (D : {cleaned} + {~ cleaned}) err tm (m : W Z) : only C m -> shown C (no_answer err tm) (code <# m ;; if negb (code =? -1) then wret code else cleanupW ;;# wret tm).
Proof.
  intros H. apply sh_first; [exact H|]. intros code. destruct (negb _); [apply sh_ret|]. apply sh_cleanup.
  destruct D as [K|K]; [now left|]. right. right. auto.
Qed.
Lemma sh_raw3 (D : {cleaned} + {~ cleaned}) cmd err tm : err <> 0 -> shown C (no_answer err tm) (sendRaw3W cmd err tm).
Proof.
  intros N. unfold sendRaw3W. apply (sh_bind C (fun r => r = err)); [apply sh_raw2| |].
  - intros r. destruct (negb _); [apply sh_ret|]. apply sh_after; [exact D|]. apply oc_raw_reply.
  - intros r ->. destruct (err =? 0) eqn:Z0; [apply Z.eqb_eq in Z0; contradiction|]. cbn. apply en_ret. now left.
Qed.
Lemma sh_feed (D : {cleaned} + {~ cleaned}) cmd err tm : err <> 0 -> shown C (no_answer err tm) (sendFeedbackW cmd err tm).
Proof.
  intros N.
  assert (T : shown C (no_answer err tm) (sendFeedbackTLSW cmd err tm)).
  { unfold sendFeedbackTLSW. apply sh_first; [oc|]. intros d. destruct (c_bio d); [|now apply sh_raw3].
    apply sh_first; [oc|]. intros r. destruct r; try (apply sh_after; [exact D|apply oc_reply]); [|apply sh_only; oc]. apply sh_errno. right. now left. }
  unfold sendFeedbackW. apply sh_first; [oc|]. intros c. destruct (c_kind c); [now apply sh_raw3|exact T|exact T].
Qed.
Lemma sh_feedptr (D : {cleaned} + {~ cleaned}) cmd err tm : err <> 0 -> shown C (no_answer err tm) (sendFeedbackPtrW cmd err tm).
Proof.
  intros N. unfold sendFeedbackPtrW. apply sh_first; [oc|]. intros c. destruct (c_rawptr c); [now apply sh_raw3|now apply sh_feed].
Qed.
End Commands.

(** A command that ends with 0 was answered with code 0. *)
Lemma feedptr_zero cmd err tm : err <> 0 -> tm <> 0 -> ends (fun r => r <> 0) (sendFeedbackPtrW cmd err tm).
Proof.
  intros N1 N2 v. assert (S := sh_feedptr neat (fun _ => Logic.I) (fun _ _ _ => Logic.I) (fun _ => Logic.I) False (fun F => match F with end) (right (fun F => F)) cmd err tm N1 v).
  assert (P := rel_feedptr false cmd err tm v ltac:(discriminate)). destruct P as (_ & _ & tw & E & P & _).
  destruct (sim_feedptr cmd err tm v) as (o & c' & on' & e' & x' & tw1 & E1 & X). rewrite E1 in *. cbn [fst snd v_t] in *.
  apply app_inv_head in E. subst tw1. destruct S as (tw1 & E2 & S). apply app_inv_head in E2. subst tw1.
  exists tw. split; [reflexivity|]. intros r ->. destruct (Z.eq_dec r 0) as [->|Nr]; [|auto].
  destruct (S 0 eq_refl) as [Z|[[Z|[Z _]]|Z]]; [auto|congruence|congruence|].
  left. assert (F : Forall smooth tw).
  { rewrite Forall_forall in *. intros ev I. apply passive_smooth; auto. }
  destruct (X F []) as (f & tp & TT & Y). specialize (Y []). apply fb_reach in Y as (h & R & K); [|assumption|congruence|congruence].
  apply (reach_zero _ _ _ _ R) in K as (t & Et & NS). cbn in Et. subst t. unfold zeroed. rewrite <- TT. now apply nonstandard_talk.
Qed.

(** ** The whole message *)

Definition told_all : wevent -> Prop := clear recipient_field.
Lemma te ev : told_all (WSock ev). Proof. exact Logic.I. Qed.
Lemma ti fd b r : told_all (WIoctl fd b r). Proof. exact Logic.I. Qed.
Lemma tq fd : told_all (WShutdown fd). Proof. exact Logic.I. Qed.
Lemma tc : True -> forall r, told_all (WCleanup r). Proof. intros _ r. exact Logic.I. Qed.
Notation sht := (shown told_all).
Lemma o_extw {A} P (m : W A) : only P m -> extw m.
Proof. intros H v. destruct (H v) as (tw & E & _). destruct (m v) as [o [c on e x t]]. cbn in E. subst t. repeat eexists. Qed.

Definition ot_base {A} (m : M A) : only told_all (base m) := oc_base told_all te m.
Definition ot_cleanup : only told_all cleanupW := oc_cleanup told_all te tq True tc Logic.I.
Definition ot_reply : only told_all getServerReplyW := oc_reply told_all te ti.
Lemma ot_msg er : only told_all (addWSAMessage er).
Proof. intros v. unfold addWSAMessage. destruct (x_format (v_w v) er); [apply ot_base|]. exists []. rewrite app_nil_r. auto. Qed.
Ltac ot := repeat match goal with
  | |- only _ (wbind _ _) => apply only_bind; [|intros ?]
  | |- only _ (base _) => apply ot_base
  | |- only _ (wret _) => apply only_same; reflexivity
  | |- only _ (set_on _) => apply only_same; reflexivity
  | |- only _ get_on => apply only_same; reflexivity
  | |- only _ (next _ _ _) => apply only_next
  | |- only _ (addWSAMessage _) => apply ot_msg
  | |- only _ cleanupW => apply ot_cleanup
  | |- only _ getServerReplyW => apply ot_reply
  | |- only _ (sendQuitW cleanupW) => apply (oc_quit told_all te), ot_cleanup
  | |- only _ (wput _) => apply only_put; (exact Logic.I || reflexivity)
  | H : only _ ?m |- only _ ?m => exact H
  | |- only _ (match ?x with _ => _ end) => destruct x
  end.
Lemma feed_all cmd err tm : err <> 0 -> sht (fun r => r = err) (sendFeedbackPtrW cmd err tm).
Proof.
  intros N. eapply sh_weak; [|exact (sh_feedptr told_all te ti tq True tc (left Logic.I) cmd err tm N)]. intros r [H|[_ H]]; [exact H|destruct (H Logic.I)].
Qed.
Lemma ehlo_feed_all cmd err tm : err <> 0 -> sht (fun r => r = err) (sendFeedbackW cmd err tm).
Proof.
  intros N. eapply sh_weak; [|exact (sh_feed told_all te ti tq True tc (left Logic.I) cmd err tm N)]. intros r [H|[_ H]]; [exact H|destruct (H Logic.I)].
Qed.
Lemma raw3_all cmd err tm : err <> 0 -> sht (fun r => r = err) (sendRaw3W cmd err tm).
Proof.
  intros N. eapply sh_weak; [|exact (sh_raw3 told_all te ti tq True tc (left Logic.I) cmd err tm N)]. intros r [H|[_ H]]; [exact H|destruct (H Logic.I)].
Qed.
Lemma ptr_all cmd err : sht (fun r => r = err) (sendCommandPtrW cleanupW cmd err).
Proof. eapply sh_ptr; [exact te|exact tq|exact tc]. Qed.

(** A result other than the one asked for is handed on. *)
Lemma sh_check {D} (good : Z) (bad : Z -> Prop) (Q : D -> Prop) (m : W Z) (f : Z -> W D) (k : W D) : sht bad m -> (forall r, bad r -> r <> good) ->
  (forall r, only told_all (f r)) -> (forall r, bad r -> ends Q (f r)) -> sht Q k -> sht Q (r <# m ;; if negb (r =? good) then f r else k).
Proof.
  intros H N O E K. apply (sh_bind told_all bad); [exact H| |].
  - intros r. destruct (negb _); [apply sh_only, O|exact K].
  - intros r B. destruct (r =? good) eqn:G; [apply Z.eqb_eq in G; destruct (N r B G)|]. cbn. now apply E.
Qed.
Definition fails (r : Z) : Prop := r <> 0.
Lemma sh_pass (good : Z) (bad : Z -> Prop) (m k : W Z) : sht bad m -> (forall r, bad r -> r <> good /\ r <> 0) -> sht fails k ->
  sht fails (r <# m ;; if negb (r =? good) then wret r else k).
Proof.
  intros H N K. apply sh_check with (bad := bad); [exact H|intros r B; apply (N r B)|intros; ot|intros r B; apply en_ret, (N r B)|exact K].
Qed.

Lemma ot_ehlo_loop n tc0 : forall op, only told_all (ehlo_loopW n tc0 op).
Proof. induction n as [|n IH]; intros op; cbn [ehlo_loopW]; ot. apply IH. Qed.
Lemma sh_ehlo err tm : err <> 0 -> err <> 250 -> sht (fun r => r = err) (ehlo_withW err tm).
Proof.
  intros N N2. unfold ehlo_withW. apply sh_first; [ot|]. intros _. apply sh_check with (bad := fun r => r = err); [now apply ehlo_feed_all|now intros r ->|intros; ot|intros r ->; now apply en_ret|].
  apply sh_first; [ot|]. intros c. destruct (c_resp c); [|apply sh_only; ot]. apply sh_first; [ot|]. intros e. apply sh_only, ot_ehlo_loop.
Qed.
Definition rejects (r : Z) : Prop := r <> STATUS_CODE_AUTHENTICATION_SUCCEEDED /\ r <> 0.
Lemma sh_auth cr : sht rejects (authPlainW cr) /\ sht rejects (authLoginW cr) /\ sht rejects (authXOauth2W cr).
Proof.
  assert (F : forall d, sht (fun r => r = CLIENT_AUTHENTICATE_ERROR) (sendFeedbackPtrW d CLIENT_AUTHENTICATE_ERROR CLIENT_AUTHENTICATE_TIMEOUT)) by (intros d; apply feed_all; discriminate).
  assert (G : forall d, sht rejects (sendFeedbackPtrW d CLIENT_AUTHENTICATE_ERROR CLIENT_AUTHENTICATE_TIMEOUT)) by (intros d; eapply sh_weak; [|apply F]; intros r ->; split; discriminate).
  repeat split; [unfold authPlainW|unfold authLoginW|unfold authXOauth2W]; (apply sh_first; [ot|]); intros _; try apply G.
  assert (S : forall d k, sht rejects k -> sht rejects (r1 <# sendFeedbackPtrW d CLIENT_AUTHENTICATE_ERROR CLIENT_AUTHENTICATE_TIMEOUT ;;
    if negb (r1 =? STATUS_CODE_SERVER_CHALLENGE) then wret CLIENT_AUTHENTICATE_ERROR else k)).
  { intros d k K. apply sh_check with (bad := fun r => r = CLIENT_AUTHENTICATE_ERROR); [apply F|intros r ->; discriminate|intros; ot|intros r ->; apply en_ret; split; discriminate|exact K]. }
  apply S, S, G.
Qed.
Lemma sh_auth_if : sht fails authenticate_if_neededW.
Proof.
  unfold authenticate_if_neededW. apply sh_first; [ot|]. intros c. destruct (c_cred c); [|apply sh_only; ot].
  apply sh_pass with (bad := rejects); [|intros r [H1 H2]; auto|apply sh_only; ot].
  unfold authenticateClientW. apply sh_first; [ot|]. intros d. destruct (c_cred d) as [cr|]; [|apply sh_only; ot]. destruct (c_auth d) as [o|]; [|apply sh_only; ot].
  destruct (sh_auth cr) as (P & L & X). repeat match goal with |- sht _ (if ?b then _ else _) => destruct b end; auto. apply sh_only; ot.
Qed.
Lemma sh_store (st : option Z) (k : W Z) : sht fails k ->
  sht fails (wput (WOpenStore st) ;;# match st with Some er => base (setLastSocketErrNo er) ;;# wret SSL_CLIENT_STARTTLS_WIN_CERTOPENSYSTEMSTORE_ERROR | None => k end).
Proof.
  intros H. destruct st as [er|]; [|apply sh_first; [ot|intros; exact H]].
  intros v. unfold wbind, wput, base, setLastSocketErrNo, updc, wret. cbn. exists [WOpenStore (Some er)]. rewrite app_nil_r. split; [reflexivity|].
  intros a X. injection X as <-. right. left. discriminate.
Qed.
Lemma sh_startTLS : sht fails startTLSNegotiationW.
Proof.
  unfold startTLSNegotiationW. apply sh_first; [ot|]. intros _. apply sh_first; [ot|]. intros e. destruct (e_tls e) as [|t l]; [apply sh_only; ot|].
  apply sh_first; [ot|]. intros _. destruct (negb (t_ctx t)); [apply sh_only; ot|]. apply sh_first; [ot|]. intros i. apply sh_first; [ot|]. intros _.
  destruct (negb (t_bio t)); [apply sh_only; ot|]. apply sh_first; [ot|]. intros b. apply sh_first; [ot|]. intros c. apply sh_first; [ot|]. intros _.
  destruct (c_server c) as [name|]; [|apply sh_only; ot]. destruct (_ <? _)%N; [apply sh_only; ot|]. apply sh_first; [ot|]. intros st.
  apply sh_store. apply sh_only. ot.
Qed.
Lemma ot_init : only told_all initializeSessionW.
Proof. unfold initializeSessionW, initializeSessionWinSock, doWSACleanup. ot. Qed.
Lemma sh_secure_auth : sht fails (s <# getServerSecureIdentificationW ;; if negb (s =? STATUS_CODE_REQUESTED_MAIL_ACTION_OK_OR_COMPLETED) then wret s else authenticate_if_neededW).
Proof.
  apply sh_pass with (bad := fun r => r = SSL_CLIENT_INITSECURECLIENT_ERROR); [|intros r ->; split; discriminate|apply sh_auth_if].
  unfold getServerSecureIdentificationW. apply sh_first; [ot|]. intros _. apply sh_ehlo; discriminate.
Qed.
Lemma sh_ident : sht (fun r => r = SOCKET_INIT_CLIENT_SEND_EHLO_ERROR) sendServerIdentificationW.
Proof. unfold sendServerIdentificationW. apply sh_ehlo; discriminate. Qed.
Lemma sh_ok (good : Z) (m k : W Z) : only told_all m -> sht fails k -> sht fails (r <# m ;; if negb (r =? good) then wret r else k).
Proof. intros H K. apply sh_pass with (bad := fun _ => False); [now apply sh_only|contradiction|exact K]. Qed.
Lemma sh_establish : sht fails establishW.
Proof.
  unfold establishW. apply sh_first; [ot|]. intros c. destruct (c_kind c).
  - unfold establishPlainW. apply sh_ok; [apply ot_init|]. apply sh_ok; [ot|].
    apply sh_pass with (bad := fun r => r = SOCKET_INIT_CLIENT_SEND_EHLO_ERROR); [apply sh_ident|intros r ->; split; discriminate|apply sh_auth_if].
  - unfold establishOppW. apply sh_ok; [apply ot_init|]. apply sh_ok; [ot|].
    apply sh_pass with (bad := fun r => r = SOCKET_INIT_CLIENT_SEND_EHLO_ERROR); [apply sh_ident|intros r ->; split; discriminate|].
    apply sh_first; [ot|]. intros d. apply sh_first; [ot|]. intros [|]; [|apply sh_only; ot]. apply sh_first; [ot|]. intros _.
    apply sh_pass with (bad := fun r => r = SOCKET_INIT_CLIENT_SEND_STARTTLS_ERROR); [|intros r ->; split; discriminate|].
    { unfold upgradeToSecureConnectionW. apply sh_first; [ot|]. intros _. apply raw3_all. discriminate. }
    apply sh_pass with (bad := fails); [apply sh_startTLS|intros r H; auto|apply sh_secure_auth].
  - unfold establishForcedW. apply sh_ok; [apply ot_init|]. apply sh_pass with (bad := fails); [apply sh_startTLS|intros r H; auto|].
    apply sh_ok; [ot|]. apply sh_secure_auth.
Qed.

(** *** The transaction *)

Definition refused (r : Z) : Prop := r <> 250 /\ r <> 0.
Lemma sh_mail_from l : forall z, sht refused (mail_from_loopW l z).
Proof.
  induction l as [|f l IH]; intros z; cbn [mail_from_loopW]; [apply sh_only; ot|]. apply sh_first; [ot|]. intros _.
  apply (sh_bind told_all (fun r => r = CLIENT_SENDMAIL_MAILFROM_ERROR)); [apply feed_all; discriminate| |intros r ->; cbn; apply en_ret; split; discriminate].
  intros r. destruct (r =? 250); [apply sh_only; ot|]. destruct (negb _); [apply sh_only; ot|apply IH].
Qed.
Lemma ex_add l : forall z, extw (addMailRecipientsW l z).
Proof. intros z. apply (o_extw plainly), o_add_rcpt. Qed.
Lemma en_add l : forall z, refused z -> ends refused (addMailRecipientsW l z).
Proof.
  induction l as [|a l IH]; intros z H; cbn [addMailRecipientsW]; [now apply en_ret|].
  apply (en_bind (fun _ => True)); [intros v; destruct (ot_base (logc (rcpt_command a)) v) as (tw & E & _); exists tw; auto| |].
  { intros _. apply ext_bind; [apply (o_extw plainly), o_feedptr|]. intros; apply ex_add. }
  intros _ _. apply (en_bind (fun r => r <> 0)); [apply feedptr_zero; discriminate|intros; apply ex_add|].
  intros r N. destruct (r =? 250) eqn:Q; apply IH; [exact H|]. apply Z.eqb_neq in Q. split; assumption.
Qed.
Lemma sh_add l : forall z, sht refused (addMailRecipientsW l z).
Proof.
  induction l as [|a l IH]; intros z; cbn [addMailRecipientsW]; [apply sh_only; ot|]. apply sh_first; [ot|]. intros _.
  apply (sh_bind told_all (fun r => r = CLIENT_SENDMAIL_RCPTTO_ERROR)); [apply feed_all; discriminate|intros; apply IH|].
  intros r ->. cbn. apply en_add. split; discriminate.
Qed.
Lemma sh_rcpts l : sht fails (recipients_loopW l).
Proof.
  induction l as [|a l IH]; cbn [recipients_loopW]; [apply sh_only; ot|]. destruct a; [apply IH|].
  apply sh_pass with (bad := refused); [apply sh_add|auto|exact IH].
Qed.
Lemma sh_header f v0 err : sht (fun r => r = err) (addMailHeaderW f v0 err).
Proof. unfold addMailHeaderW. apply sh_first; [ot|]. intros _. apply ptr_all. Qed.
Lemma cstr_starts p x : no_nul p -> starts_with p (cstr (p ++ x)).
Proof.
  intros N. exists (cstr x). induction p as [|a p IH]; [reflexivity|]. cbn [cstr app]. destruct (Ascii.eqb a NUL) eqn:E.
  - apply Ascii.eqb_eq in E. subst. destruct N. now left.
  - rewrite IH; [reflexivity|]. intros H. apply N. now right.
Qed.
Lemma ot_field f l : f = B "To" \/ f = B "Cc" -> only told_all (address_headerW f l).
Proof.
  intros F. unfold address_headerW. destruct l as [[|n]|[|a l]]; try (ot; fail). apply only_bind; [|intros; ot]. unfold addMailHeaderW. apply only_bind; [ot|]. intros _.
  assert (T : told_all (WTooLong (cstr (header_line f (generateHeaderAddressValues (a :: l)))))).
  { cbn. unfold header_line. unfold recipient_field. destruct F as [->| ->]; [left|right];
      [change (starts_with (B "To: ") (cstr (B "To: " ++ generateHeaderAddressValues (a :: l) ++ CRLF)))|change (starts_with (B "Cc: ") (cstr (B "Cc: " ++ generateHeaderAddressValues (a :: l) ++ CRLF)))];
      apply cstr_starts; unfold no_nul, NUL; cbn; intuition discriminate. }
  unfold sendCommandPtrW, sendRaw2W, sendCommandTLSW. ot; apply only_put; exact T.
Qed.
Lemma sh_headers m : sht fails (setMailHeadersW m).
Proof.
  unfold setMailHeadersW. apply sh_first; [ot|]. intros _.
  apply sh_pass with (bad := fun r => r = CLIENT_SENDMAIL_DATA_ERROR); [apply feed_all; discriminate|intros r ->; split; discriminate|].
  apply sh_pass with (bad := fun r => r = CLIENT_SENDMAIL_HEADERFROM_ERROR); [apply sh_header|intros r ->; split; discriminate|].
  apply sh_first; [apply ot_field; auto|]. intros _. apply sh_first; [apply ot_field; auto|]. intros _. apply sh_first; [ot|]. intros _.
  apply sh_pass with (bad := fun r => r = CLIENT_SENDMAIL_HEADERSUBJECT_ERROR); [apply ptr_all|intros r ->; split; discriminate|].
  apply sh_first; [ot|]. intros _.
  apply sh_pass with (bad := fun r => r = CLIENT_SENDMAIL_HEADERCONTENTTYPE_ERROR); [apply ptr_all|intros r ->; split; discriminate|apply sh_only; ot].
Qed.
Lemma sh_chunks l err : err <> 0 -> sht fails (send_chunksW l err).
Proof.
  intros N. induction l as [|x l IH]; cbn [send_chunksW]; [apply sh_only; ot|].
  apply sh_pass with (bad := fun r => r = err); [apply ptr_all|intros r ->; auto|exact IH].
Qed.
Lemma sh_body m : sht fails (setMailBodyW m).
Proof.
  unfold setMailBodyW. apply sh_first; [ot|]. intros _. apply sh_first; [ot|]. intros e. apply sh_first; [ot|]. intros body.
  apply sh_pass with (bad := fails); [apply sh_chunks; destruct (_ <? _)%nat; discriminate|auto|]. apply sh_first; [ot|]. intros _.
  apply sh_pass with (bad := fun r => r = CLIENT_SENDMAIL_END_DATA_ERROR); [apply feed_all; discriminate|intros r ->; split; discriminate|].
  apply sh_only. ot.
Qed.
Lemma sh_send m : sht fails (sendMailW m).
Proof.
  unfold sendMailW. apply sh_first; [ot|]. intros c. apply sh_pass with (bad := fails); [destruct (c_conn c); [apply sh_only; ot|apply sh_establish]|auto|].
  apply sh_first; [ot|]. intros _. unfold mail_transactionW. apply sh_pass with (bad := fails); [|auto|].
  { unfold setMailRecipientsW. apply sh_pass with (bad := refused); [apply sh_mail_from|auto|apply sh_rcpts]. }
  apply sh_pass with (bad := fails); [apply sh_headers|auto|]. apply sh_pass with (bad := fails); [apply sh_body|auto|]. apply sh_only. ot.
Qed.

Lemma send_told i m w w' t : wstep (OSend i m) w = (Done 0, w') -> ww_trace w' = ww_trace w ++ t -> standard (wtalk t) -> Forall told_all t.
Proof.
  cbn [wstep]. unfold run_onW. destruct (get_client (ww w) i) as [cl|]; [|discriminate].
  match goal with |- context [sendMailW m ?v] => destruct (sh_send m v) as (tw & E & F); destruct (sendMailW m v) as [o v'] end. cbn [fst snd v_t] in *.
  intros X T S. injection X as -> <-. cbn in T. rewrite E in T. apply app_inv_head in T. subst t. destruct (F 0 eq_refl) as [Z|[Z|Z]]; [|destruct (Z eq_refl)|exact Z].
  exfalso. eapply standard_nonstandard; eauto.
Qed.
