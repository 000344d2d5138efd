(** The same on Windows. *)

From Coq Require Import Ascii String List NArith ZArith Bool Lia ZifyBool ZifyNat ZifyN.
From Verif Require Import Base Lib ModelUtil ModelBase64 ModelAddress ModelAttachment ModelMessage ModelReply ModelErrors ModelState ModelClient ModelWorld ModelWin
  SpecPast ProofPast.
Import ListNotations.
Open Scope Z_scope.

Definition alike (R : client -> client -> Prop) (v1 v2 : vst) : Prop :=
  (exists r n a, v_c v2 = hist r n a (v_c v1)) /\ R (v_c v1) (v_c v2) /\ v_on v1 = v_on v2 /\ v_e v1 = v_e v2 /\ v_w v1 = v_w v2 /\ v_t v1 = v_t v2.
Definition wrel {A} (P : vst -> vst -> Prop) (Q : A -> vst -> vst -> Prop) (m1 m2 : W A) : Prop :=
  forall v1 v2, P v1 v2 -> fst (m1 v1) = fst (m2 v2) /\ alike R0 (snd (m1 v1)) (snd (m2 v2)) /\ forall a, fst (m1 v1) = Done a -> Q a (snd (m1 v1)) (snd (m2 v2)).
Definition wtwo {A} (m1 m2 : W A) : Prop := wrel (alike R0) (fun _ => alike R0) m1 m2.
Definition wob {A} (m : W A) : Prop := wtwo m m.

Lemma alike_0 : forall (R : client -> client -> Prop) s1 s2, alike R s1 s2 -> alike R0 s1 s2.
Proof. intros R s1 s2 (A & _ & B0). split; [exact A|split; [exact Logic.I|exact B0]]. Qed.
Lemma wrel_bind : forall {A C} P (Q : A -> vst -> vst -> Prop) (Q' : C -> vst -> vst -> Prop) (m1 m2 : W A) (k1 k2 : A -> W C),
  wrel P Q m1 m2 -> (forall a, wrel (Q a) Q' (k1 a) (k2 a)) -> wrel P Q' (wbind m1 k1) (wbind m2 k2).
Proof.
  intros A C P Q Q' m1 m2 k1 k2 Hm Hk s1 s2 H. destruct (Hm s1 s2 H) as (E & L & D). unfold wbind.
  destruct (m1 s1) as [o1 q1], (m2 s2) as [o2 q2]. cbn [fst snd] in *. subst o2.
  destruct o1 as [a| | | | |]; cbn [fst snd]; try (split; [reflexivity|split; [exact L|discriminate]]). exact (Hk a q1 q2 (D a eq_refl)).
Qed.
Lemma wrel_pre : forall {A} (P P' : vst -> vst -> Prop) (Q : A -> vst -> vst -> Prop) m1 m2, (forall a b, P' a b -> P a b) -> wrel P Q m1 m2 -> wrel P' Q m1 m2.
Proof. intros A P P' Q m1 m2 H R s1 s2 X. apply R, H, X. Qed.
Lemma wrel_post : forall {A} P (Q Q' : A -> vst -> vst -> Prop) m1 m2, (forall a s t, Q a s t -> Q' a s t) -> wrel P Q m1 m2 -> wrel P Q' m1 m2.
Proof. intros A P Q Q' m1 m2 H R s1 s2 X. destruct (R s1 s2 X) as (E & L & D). split; [exact E|split; [exact L|]]. intros a Ha. apply H, D, Ha. Qed.
Lemma wrel_ret : forall {A} (P : vst -> vst -> Prop) (Q : A -> vst -> vst -> Prop) a, (forall s t, P s t -> alike R0 s t /\ Q a s t) -> wrel P Q (wret a) (wret a).
Proof. intros A P Q a H s1 s2 X. destruct (H s1 s2 X) as [L q]. split; [reflexivity|split; [exact L|]]. intros b E. injection E as <-. exact q. Qed.
(** A function shared with the POSIX build. *)
Lemma wrel_base : forall {A} (R : client -> client -> Prop) (F : A -> client -> client -> Prop) m1 m2, rel (like R) (fun a => like (F a)) m1 m2 ->
  wrel (alike R) (fun a => alike (F a)) (base m1) (base m2).
Proof.
  intros A R F m1 m2 H v1 v2 (X & r & On & Ee & Ew & Et).
  assert (L : like R (mkSt (v_c v1) (v_e v1) []) (mkSt (v_c v2) (v_e v2) [])) by (split; [exact X|split; [exact r|split; [exact Ee|reflexivity]]]).
  specialize (H _ _ L). unfold base. destruct (m1 _) as [o1 q1], (m2 _) as [o2 q2]. cbn [fst snd] in *. destruct H as (-> & (X1 & Y1 & E1 & T1) & D).
  assert (Z0 : forall Q, like Q q1 q2 -> alike Q (mkV (s_c q1) (v_on v1) (s_e q1) (v_w v1) (v_t v1 ++ map WSock (s_t q1))) (mkV (s_c q2) (v_on v2) (s_e q2) (v_w v2) (v_t v2 ++ map WSock (s_t q2)))).
  { intros Q (X2 & Y2 & E2 & T2). split; [exact X2|]. split; [exact Y2|]. cbn [v_on v_e v_w v_t]. rewrite T2, Et. repeat split; assumption. }
  split; [reflexivity|]. split; [apply Z0; split; [exact X1|split; [exact Y1|split; assumption]]|]. intros a Ha. apply Z0, D, Ha.
Qed.
Lemma wob_base : forall {A} (m : M A), ob m -> wob (base m). Proof. intros A m H. exact (wrel_base R0 (fun _ => R0) m m H). Qed.
Lemma wrel_stop : forall {A} (R : client -> client -> Prop) (Q : A -> vst -> vst -> Prop) o, (forall a, o <> Done a) -> wrel (alike R) Q (base (fun s => (o, s))) (base (fun s => (o, s))).
Proof.
  intros A R Q o N v1 v2 L. apply alike_0 in L. destruct (wob_base (fun s => (o, s)) (rel_stop R0 _ o N) v1 v2 L) as (E & L' & _).
  split; [exact E|split; [exact L'|]]. intros a X. exfalso. exact (N a X).
Qed.
Lemma wrel_getc : forall {A} (R : client -> client -> Prop) (Q : A -> vst -> vst -> Prop) (k : client -> W A),
  (forall c r n a, R c (hist r n a c) -> wrel (alike R) Q (k c) (k (hist r n a c))) -> wrel (alike R) Q (wbind (base getc) k) (wbind (base getc) k).
Proof.
  intros A R Q k H v1 v2 L. pose proof L as ((r & n & a & E) & X & L0). rewrite E in X. specialize (H _ r n a X).
  assert (L' : alike R (mkV (v_c v1) (v_on v1) (v_e v1) (v_w v1) (v_t v1 ++ [])) (mkV (v_c v2) (v_on v2) (v_e v2) (v_w v2) (v_t v2 ++ []))).
  { rewrite !app_nil_r. destruct v1, v2. exact L. }
  specialize (H _ _ L'). rewrite <- E in H. exact H.
Qed.
Lemma wrel_gete : forall {A} (R : client -> client -> Prop) (Q : A -> vst -> vst -> Prop) (k : env -> W A), (forall e, wrel (alike R) Q (k e) (k e)) -> wrel (alike R) Q (wbind (base gete) k) (wbind (base gete) k).
Proof.
  intros A R Q k H v1 v2 L. pose proof L as (_ & _ & _ & E & _). specialize (H (v_e v1)).
  assert (L' : alike R (mkV (v_c v1) (v_on v1) (v_e v1) (v_w v1) (v_t v1 ++ [])) (mkV (v_c v2) (v_on v2) (v_e v2) (v_w v2) (v_t v2 ++ []))).
  { rewrite !app_nil_r. destruct v1, v2. exact L. }
  specialize (H _ _ L'). unfold wbind, base, gete. cbn [s_c s_e s_t map]. rewrite <- E. rewrite <- E in H. exact H.
Qed.
Lemma wob_bind : forall {A C} (m : W A) (k1 k2 : A -> W C), wob m -> (forall a, wtwo (k1 a) (k2 a)) -> wtwo (wbind m k1) (wbind m k2).
Proof. intros A C m k1 k2 H K. exact (wrel_bind _ _ _ _ _ _ _ H K). Qed.
Lemma wob_getc : forall {A} (k : client -> W A), (forall c r n a, wtwo (k c) (k (hist r n a c))) -> wtwo (wbind (base getc) k) (wbind (base getc) k).
Proof. intros A k H. apply wrel_getc. intros c r n a _. apply H. Qed.
Lemma wob_gete : forall {A} (k : env -> W A), (forall e, wob (k e)) -> wtwo (wbind (base gete) k) (wbind (base gete) k).
Proof. intros A k H. apply wrel_gete, H. Qed.
Lemma wob_ret : forall {A} (a : A), wtwo (wret a) (wret a). Proof. intros A a. apply wrel_ret. auto. Qed.
Lemma wob_put : forall ev, wtwo (wput ev) (wput ev).
Proof.
  intros ev v1 v2 (X & Y & On & Ee & Ew & Et). assert (L : alike R0 (snd (wput ev v1)) (snd (wput ev v2))).
  { split; [exact X|]. split; [exact Y|]. cbn. rewrite Et. repeat split; assumption. }
  split; [reflexivity|]. split; [exact L|]. intros ? _. exact L.
Qed.
Lemma wob_set_on : forall b, wtwo (set_on b) (set_on b).
Proof.
  intros b v1 v2 (X & Y & On & Ee & Ew & Et). assert (L : alike R0 (snd (set_on b v1)) (snd (set_on b v2))).
  { split; [exact X|]. split; [exact Y|]. cbn. repeat split; assumption. }
  split; [reflexivity|]. split; [exact L|]. intros ? _. exact L.
Qed.
Lemma wob_get_on : wtwo get_on get_on.
Proof. intros v1 v2 L. pose proof L as (_ & _ & On & _). unfold get_on. cbn [fst snd]. rewrite On. split; [reflexivity|]. split; [exact L|]. intros ? _. exact L. Qed.
Lemma wob_next : forall {A} g s (d : A), wtwo (next g s d) (next g s d).
Proof.
  intros A g s d v1 v2 L. pose proof L as (X & Y & On & Ee & Ew & Et). unfold next. rewrite <- Ew. destruct (g (v_w v1)).
  - split; [reflexivity|]. split; [exact L|]. intros ? _. exact L.
  - cbn [fst snd]. match goal with |- _ /\ ?l /\ _ => assert (L' : l) end. { split; [exact X|]. split; [exact Y|]. cbn. repeat split; assumption. }
    split; [reflexivity|]. split; [exact L'|]. intros ? _. exact L'.
Qed.
Ltac wsb := repeat (lazymatch goal with
  | |- wob _ => unfold wob
  | |- wtwo (let _ := _ in _) _ => cbv zeta
  | |- wtwo (wbind (base getc) _) (wbind (base getc) _) => apply wob_getc; intros ? ? ? ?; fields
  | |- wtwo (wbind (base gete) _) (wbind (base gete) _) => apply wob_gete; intros ?
  | |- wtwo (wbind _ _) (wbind _ _) => apply wob_bind; [|intros ?]
  | |- wtwo (wret _) (wret _) => apply wob_ret
  | |- wtwo (wput _) (wput _) => apply wob_put
  | |- wtwo (set_on _) (set_on _) => apply wob_set_on
  | |- wtwo get_on get_on => apply wob_get_on
  | |- wtwo (next _ _ _) (next _ _ _) => apply wob_next
  | |- wtwo (if ?b then _ else _) (if ?b then _ else _) => destruct b
  | |- wtwo (match ?x with _ => _ end) (match ?x with _ => _ end) => destruct x
  | |- wtwo (base _) (base _) => apply wob_base
  | |- ob (logc _) => apply ob_addLog
  | |- ob (logs _) => apply ob_addLog
  | |- ob (addLog _ _) => apply ob_addLog
  | |- ob (log_errno _) => apply ob_log_errno
  | |- ob (setLastSocketErrNo _) => apply ob_errno
  | |- ob sys_connect => apply ob_connect
  | |- ob (sys_send _) => apply ob_send
  | |- ob (sys_puts _ _) => apply ob_puts
  | |- ob _ => unfold close_socket, free_tls, fresh_id; sb
  | |- two (setLastSocketErrNo _) _ => apply ob_errno
  end).
Lemma wob_wsa : forall er, wob (addWSAMessage er).
Proof.
  intros er v1 v2 L. unfold addWSAMessage. pose proof L as (_ & _ & _ & _ & Ew & _). rewrite <- Ew. destruct (x_format (v_w v1) er).
  - exact (wob_base _ (ob_addLog _ _) v1 v2 L).
  - exact (wob_ret tt v1 v2 L).
Qed.
Lemma wob_doclean : wob doWSACleanup. Proof. unfold doWSACleanup. wsb. Qed.
Lemma wob_release : wob release_winsock. Proof. unfold release_winsock. wsb. apply wob_doclean. Qed.
Lemma wob_init : wob initializeSessionWinSock. Proof. unfold initializeSessionWinSock. wsb; first [apply wob_wsa|apply wob_doclean]. Qed.
Lemma wob_mode : forall b, wob (setSocketMode b). Proof. intros b. unfold setSocketMode. wsb. Qed.

(** Replies. *)
Definition wgot (z : Z) : client -> client -> Prop := if z =? -1 then R0 else Rresp.
Lemma got_wgot : forall z s t, got_reply z s t -> like (wgot z) s t. Proof. intros z s t H. unfold got_reply, wgot in *. destruct (z =? -1); exact H. Qed.
Lemma wrel_base_reply : forall m, rel (like R0) got_reply m m -> wrel (alike R0) (fun z => alike (wgot z)) (base m) (base m).
Proof. intros m H. apply wrel_base. eapply rel_post; [exact got_wgot|exact H]. Qed.
Lemma wrel_raw_reply : wrel (alike R0) (fun z => alike (wgot z)) getRawCommandReplyW getRawCommandReplyW.
Proof.
  unfold getRawCommandReplyW. eapply wrel_bind; [apply wob_mode|]. intros ?; cbv beta. apply wrel_getc. intros c r n a0 _. fields. eapply wrel_bind.
  { apply wob_base. sb. }
  intros [[wait got] full]; cbv beta. eapply wrel_bind; [apply wob_mode|]. intros ?; cbv beta. apply wrel_base_reply. destruct (_ || _); [apply rel_answered|apply rel_noreply].
Qed.
Lemma wrel_reply : wrel (alike R0) (fun z => alike (wgot z)) getServerReplyW getServerReplyW.
Proof.
  unfold getServerReplyW. apply wrel_getc. intros c r n a _. fields.
  destruct (c_kind c); [apply wrel_raw_reply|apply wrel_base_reply, rel_reply_tls|apply wrel_base_reply, rel_reply_tls].
Qed.

(** Commands. *)
Lemma wob_cmd_with : forall cl d err, wob cl -> wob (sendCommandPtrW cl d err).
Proof. intros cl d err H. unfold sendCommandPtrW, sendRaw2W, sendCommandTLSW. wsb; exact H. Qed.
Lemma wob_cleanup_f : forall f, wob (cleanup_fW f).
Proof.
  induction f as [|f IH]; cbn [cleanup_fW]; [apply wob_base, ob_diverge|]. unfold sendQuitW, close_socketW. wsb; first [apply wob_release|apply wob_cmd_with, IH].
Qed.
Lemma wob_cleanup : wob cleanupW.
Proof. intros s1 s2 L. unfold cleanupW. pose proof L as (_ & _ & _ & E & _). rewrite <- E. exact (wob_cleanup_f _ s1 s2 L). Qed.
Lemma wob_cmd : forall d err, wob (sendCommandPtrW cleanupW d err). Proof. intros. apply wob_cmd_with, wob_cleanup. Qed.
Lemma wob_raw2 : forall d err, wob (sendRaw2W cleanupW d err). Proof. intros. unfold sendRaw2W. wsb; apply wob_cleanup. Qed.
Definition wtold (err tmo z : Z) (s1 s2 : vst) : Prop := alike R0 s1 s2 /\ (z <> err -> z <> tmo -> alike Rresp s1 s2).
Lemma wrel_failed : forall err tmo z, z = err \/ z = tmo -> wrel (alike R0) (wtold err tmo) (wret z) (wret z).
Proof. intros err tmo z H. apply wrel_ret. intros s t L. split; [exact L|]. split; [exact L|]. intros. destruct H; contradiction. Qed.
Lemma wrel_after_reply : forall err tmo m, wrel (alike R0) (fun z => alike (wgot z)) m m -> wrel (alike R0) (wtold err tmo)
  (code <# m ;; if negb (code =? -1) then wret code else cleanupW ;;# wret tmo) (code <# m ;; if negb (code =? -1) then wret code else cleanupW ;;# wret tmo).
Proof.
  intros err tmo m H. eapply wrel_bind; [exact H|]. intros z. cbv beta. unfold wgot. destruct (z =? -1); cbn [negb].
  - eapply wrel_bind; [apply wob_cleanup|]. intros ?; cbv beta. apply wrel_failed. auto.
  - apply wrel_ret. intros s t L. split; [exact (alike_0 _ _ _ L)|]. split; [exact (alike_0 _ _ _ L)|]. auto.
Qed.
Lemma wrel_raw3 : forall d err tmo, wrel (alike R0) (wtold err tmo) (sendRaw3W d err tmo) (sendRaw3W d err tmo).
Proof.
  intros d err tmo. unfold sendRaw3W. eapply wrel_bind; [apply wob_raw2|]. intros z. destruct (negb _); [apply wrel_failed; auto|]. apply wrel_after_reply, wrel_raw_reply.
Qed.
Lemma wrel_feedback : forall d err tmo, wrel (alike R0) (wtold err tmo) (sendFeedbackW d err tmo) (sendFeedbackW d err tmo).
Proof.
  intros d err tmo. unfold sendFeedbackW. apply wrel_getc. intros c r n a _. fields.
  assert (V : wrel (alike R0) (wtold err tmo) (sendFeedbackTLSW d err tmo) (sendFeedbackTLSW d err tmo)).
  { unfold sendFeedbackTLSW. apply wrel_getc. intros c' r' n' a' _. fields. destruct (c_bio c') as [b|]; [|apply wrel_raw3].
    eapply wrel_bind; [apply wob_base, ob_puts|]. intros [| |er|]; try (apply wrel_after_reply, wrel_reply).
    - eapply wrel_bind; [apply wob_base, ob_errno|]. intros ?; cbv beta. eapply wrel_bind; [apply wob_cleanup|]. intros ?; cbv beta. apply wrel_failed. auto.
    - apply wrel_stop. discriminate. }
  destruct (c_kind c); [apply wrel_raw3|exact V|exact V].
Qed.
Lemma wob_raw3 : forall d err tmo, wob (sendRaw3W d err tmo).
Proof. intros. eapply wrel_post; [|apply wrel_raw3]. intros a s t [L _]. exact L. Qed.
Lemma wob_fb : forall d err tmo, wob (sendFeedbackPtrW d err tmo).
Proof.
  intros d err tmo. unfold sendFeedbackPtrW. wsb; [apply wob_raw3|]. eapply wrel_post; [|apply wrel_feedback]. intros x s t [L _]. exact L.
Qed.

(** EHLO. *)
Definition widentified (z : Z) (s1 s2 : vst) : Prop := if z =? 250 then alike Rboth s1 s2 else alike R0 s1 s2.
Lemma wrel_ehlo_loop : forall f t o, t <> 250 -> wrel (alike Rresp) widentified (ehlo_loopW f t o) (ehlo_loopW f t o).
Proof.
  assert (D : forall o, wrel (alike Rresp) widentified (base (updc (set_auth (extractAuthenticationOptions (Some o)))) ;;# wret 250) (base (updc (set_auth (extractAuthenticationOptions (Some o)))) ;;# wret 250)).
  { intros o. apply (wrel_bind _ (fun _ => alike Rboth)).
    - apply (wrel_base _ (fun _ => Rboth)). apply rel_updc. intros [] r n a X. exists r, n. eexists. split; [reflexivity|]. split; [exact X|reflexivity].
    - intros _. apply wrel_ret. intros s t L. split; [exact (alike_0 _ _ _ L)|exact L]. }
  induction f as [|f IH]; intros t o T; cbn [ehlo_loopW]; destruct (containsAllOptions o); try apply D. { apply wrel_stop. discriminate. }
  eapply wrel_bind; [apply (wrel_pre (alike R0)); [intros ? ?; apply alike_0|apply wrel_reply]|].
  intros z. cbv beta. unfold wgot. destruct (z =? -1) eqn:Ez.
  { apply wrel_ret. intros s u L. split; [exact L|]. unfold widentified. replace (t =? 250) with false by lia. exact L. }
  destruct (negb (z =? 250)) eqn:E2.
  { apply wrel_ret. intros s u L. split; [exact (alike_0 _ _ _ L)|]. unfold widentified. replace (z =? 250) with false by lia. exact (alike_0 _ _ _ L). }
  apply wrel_getc. intros c r n a X. unfold Rresp in X. rewrite <- X. destruct (c_resp c); [apply IH; exact T|]. apply wrel_stop. discriminate.
Qed.
Lemma wrel_ehlo : forall err tmo, err <> 250 -> tmo <> 250 -> wrel (alike R0) widentified (ehlo_withW err tmo) (ehlo_withW err tmo).
Proof.
  intros err tmo E1 E2. unfold ehlo_withW. eapply wrel_bind; [apply wob_base, ob_addLog|]. intros ?; cbv beta. eapply wrel_bind; [apply wrel_feedback|]. intros z.
  destruct (negb (z =? 250)) eqn:Ez.
  { apply wrel_ret. intros s u [L _]. split; [exact L|]. unfold widentified. replace (z =? 250) with false by lia. exact L. }
  apply (wrel_pre (alike Rresp)). { intros s u [_ L]. apply L; lia. }
  apply wrel_getc. intros c r n ao X. unfold Rresp in X. rewrite <- X. destruct (c_resp c); [|apply wrel_stop; discriminate].
  apply wrel_gete. intros e. apply wrel_ehlo_loop, E2.
Qed.
Lemma wrel_auth : wrel (alike Rauth) (fun _ => alike R0) authenticate_if_neededW authenticate_if_neededW.
Proof.
  unfold authenticate_if_neededW. apply wrel_getc. intros c r n a X. fields. destruct (c_cred c); [|apply wrel_ret; intros s t L; split; exact (alike_0 _ _ _ L)].
  apply (wrel_bind _ (fun _ => alike R0)).
  - unfold authenticateClientW. apply wrel_getc. intros c' r' n' a' X'. fields. destruct (c_cred c') as [cr|]; [|apply wrel_ret; intros s t L; split; exact (alike_0 _ _ _ L)].
    unfold Rauth in X'. rewrite <- X'. apply (wrel_pre (alike R0)); [intros ? ?; apply alike_0|].
    assert (V : wob (match c_auth c' with None => base (fail_ub (UB_NullDeref PAuth)) | Some o =>
          if ao_plain o && method_ok (cr_method cr) kPlain then authPlainW cr
          else if ao_login o && method_ok (cr_method cr) kLogin then authLoginW cr
          else if ao_xoauth2 o && method_ok (cr_method cr) kXOauth2 then authXOauth2W cr
          else wret CLIENT_AUTHENTICATION_METHOD_NOTSUPPORTED end)).
    { unfold authPlainW, authLoginW, authXOauth2W. wsb; apply wob_fb. }
    exact V.
  - intros z. change (wob (if negb (z =? STATUS_CODE_AUTHENTICATION_SUCCEEDED) then wret z else wret 0)). wsb.
Qed.
Lemma wob_starttls : wob startTLSNegotiationW. Proof. unfold startTLSNegotiationW. wsb; apply wob_cleanup. Qed.

(** The mail. *)
Lemma wob_from : forall l r, wob (mail_from_loopW l r).
Proof. induction l as [|x l IH]; intros r; cbn [mail_from_loopW]; wsb; first [apply wob_fb|apply IH]. Qed.
Lemma wob_add : forall l r, wob (addMailRecipientsW l r).
Proof. induction l as [|x l IH]; intros r; cbn [addMailRecipientsW]; wsb; first [apply wob_fb|apply IH]. Qed.
Lemma wob_rcpts : forall l, wob (recipients_loopW l).
Proof. induction l as [|[k|x] l IH]; cbn [recipients_loopW]; [apply wob_ret|exact IH|]. wsb; first [apply wob_add|apply IH]. Qed.
Lemma wob_chunks : forall l err, wob (send_chunksW l err).
Proof. induction l as [|x l IH]; intros err; cbn [send_chunksW]; wsb; first [apply wob_cmd|apply IH]. Qed.
Lemma wob_transaction : forall m, wob (mail_transactionW m).
Proof.
  intros m. unfold mail_transactionW, setMailRecipientsW, setMailHeadersW, address_headerW, addMailHeaderW, setMailBodyW, sendQuitW. wsb; lazymatch goal with
  | |- wtwo (sendFeedbackPtrW _ _ _) _ => apply wob_fb
  | |- wtwo (sendCommandPtrW _ _ _) _ => apply wob_cmd
  | |- wtwo (send_chunksW _ _) _ => apply wob_chunks
  | |- wtwo (mail_from_loopW _ _) _ => apply wob_from
  | |- wtwo (recipients_loopW _) _ => apply wob_rcpts
  | |- wtwo cleanupW _ => apply wob_cleanup
  end.
Qed.

(** The connection. *)
Definition anolog (v1 v2 : vst) : Prop :=
  (exists r n a l z, v_c v2 = hist r n a (set_log l z (v_c v1))) /\ v_on v1 = v_on v2 /\ v_e v1 = v_e v2 /\ v_w v1 = v_w v2 /\ v_t v1 = v_t v2.
Lemma wrel_initialize : wrel anolog (fun _ => alike R0) initializeSessionW initializeSessionW.
Proof.
  unfold initializeSessionW. eapply (wrel_bind _ (fun _ => alike R0)); [|intros _; exact wob_init].
  intros v1 v2 ((r & n & a & l & z & E) & On & Ee & Ew & Et). unfold base, updc. cbn [fst snd s_c s_e s_t map].
  match goal with |- _ /\ ?g /\ _ => assert (L : g) end.
  { split; [exists r, n, a; cbn [v_c]; rewrite E; destruct (v_c v1); reflexivity|]. split; [exact Logic.I|]. cbn [v_on v_e v_w v_t]. rewrite Et. repeat split; assumption. }
  split; [reflexivity|]. split; [exact L|]. intros ? _. exact L.
Qed.
Lemma wident_auth : forall (m : W Z), wrel (alike R0) widentified m m -> wrel (alike R0) (fun _ => alike R0)
  (i <# m ;; if negb (i =? 250) then wret i else authenticate_if_neededW) (i <# m ;; if negb (i =? 250) then wret i else authenticate_if_neededW).
Proof.
  intros m H. eapply wrel_bind; [exact H|]. intros z. unfold widentified. destruct (z =? 250); cbn [negb]; [|apply wob_ret].
  apply (wrel_pre (alike Rauth)); [|exact wrel_auth]. intros s t (A & [_ X] & B0). split; [exact A|split; [exact X|exact B0]].
Qed.
Lemma wrel_secure : wrel (alike R0) widentified getServerSecureIdentificationW getServerSecureIdentificationW.
Proof. unfold getServerSecureIdentificationW. eapply wrel_bind; [apply wob_base, ob_addLog|]. intros ?; cbv beta. apply wrel_ehlo; discriminate. Qed.
Lemma wrel_establish : wrel anolog (fun _ => alike R0) establishW establishW.
Proof.
  intros v1 v2 L.
  assert (X : forall k, wrel anolog (fun _ => alike R0) (match k with KPlain => establishPlainW | KOpp => establishOppW | KForced => establishForcedW end)
    (match k with KPlain => establishPlainW | KOpp => establishOppW | KForced => establishForcedW end)).
  { intros [].
    - unfold establishPlainW. eapply wrel_bind; [exact wrel_initialize|]. intros r. destruct (negb _); [apply wob_ret|].
      eapply wrel_bind; [apply wob_base, ob_greetings|]. intros g. destruct (negb _); [apply wob_ret|]. apply wident_auth. apply wrel_ehlo; discriminate.
    - unfold establishOppW. eapply wrel_bind; [exact wrel_initialize|]. intros r. destruct (negb _); [apply wob_ret|].
      eapply wrel_bind; [apply wob_base, ob_greetings|]. intros g. destruct (negb _); [apply wob_ret|]. eapply wrel_bind; [apply wrel_ehlo; discriminate|].
      intros i. unfold widentified, STATUS_CODE_REQUESTED_MAIL_ACTION_OK_OR_COMPLETED. destruct (i =? 250); cbn [negb]; [|apply wob_ret].
      apply wrel_getc. intros c q n ao [X _]. rewrite <- X. apply (wrel_pre (alike R0)); [intros ? ?; apply alike_0|]. eapply wrel_bind; [apply wob_base, ob_lift|]. intros [].
      + eapply wrel_bind; [apply wob_base, ob_addLog|]. intros ?; cbv beta. eapply wrel_bind; [unfold upgradeToSecureConnectionW; eapply (wrel_bind _ (fun _ => alike R0)); [apply wob_base, ob_addLog|intros ?; apply wob_raw3]|].
        intros u. destruct (negb _); [apply wob_ret|]. eapply wrel_bind; [exact wob_starttls|]. intros t. destruct (negb _); [apply wob_ret|]. apply wident_auth, wrel_secure.
      + change (wob (base (logc (B "Info: STARTTLS is not an available option by the server, the communication will then remain unencrypted.")) ;;# base (updc (set_keep true)) ;;# wret 0)). wsb.
    - unfold establishForcedW. eapply wrel_bind; [exact wrel_initialize|]. intros r. destruct (negb _); [apply wob_ret|].
      eapply wrel_bind; [exact wob_starttls|]. intros t. destruct (negb _); [apply wob_ret|].
      eapply wrel_bind; [apply wob_base, ob_greetings_tls|]. intros g. destruct (negb _); [apply wob_ret|]. apply wident_auth, wrel_secure. }
  pose proof L as ((r & n & a & l & z & E) & L0). assert (K : c_kind (v_c v2) = c_kind (v_c v1)) by (rewrite E; destruct (v_c v1); reflexivity).
  assert (V : forall v, establishW v = (match c_kind (v_c v) with KPlain => establishPlainW | KOpp => establishOppW | KForced => establishForcedW end) v).
  { intros v. unfold establishW, wbind at 1, base at 1, getc. cbn [s_c s_e s_t map]. rewrite app_nil_r. destruct v. reflexivity. }
  rewrite !V, K. exact (X _ v1 v2 L).
Qed.
Lemma wob_rest : forall m r, wob (if negb (r =? 0) then wret r else base (updc (set_conn true)) ;;# mail_transactionW m).
Proof. intros m r. wsb. apply wob_transaction. Qed.
Definition wready (v1 v2 : vst) : Prop := if c_conn (v_c v1) then alike R0 v1 v2 else anolog v1 v2.
Lemma wrel_send : forall m, wrel wready (fun _ => alike R0) (sendMailW m) (sendMailW m).
Proof.
  intros m v1 v2 L. unfold wready in L.
  assert (K : c_conn (v_c v2) = c_conn (v_c v1)).
  { destruct (c_conn (v_c v1)) eqn:C; [destruct L as ((r & n & a & E) & _)|destruct L as ((r & n & a & l & z & E) & _)]; rewrite E; destruct (v_c v1); exact C. }
  set (k := fun b : bool => r <# (if b then wret 0 else establishW) ;; if negb (r =? 0) then wret r else base (updc (set_conn true)) ;;# mail_transactionW m).
  assert (X : forall v, sendMailW m v = k (c_conn (v_c v)) v).
  { intros v. unfold sendMailW, wbind at 1, base at 1, getc. cbn [s_c s_e s_t map]. rewrite app_nil_r. destruct v. reflexivity. }
  rewrite !X, K. unfold k. destruct (c_conn (v_c v1)).
  - exact (wrel_bind _ (fun _ => alike R0) _ _ _ _ _ (wob_ret 0) (wob_rest m) v1 v2 L).
  - exact (wrel_bind _ (fun _ => alike R0) _ _ _ _ _ wrel_establish (wob_rest m) v1 v2 L).
Qed.
