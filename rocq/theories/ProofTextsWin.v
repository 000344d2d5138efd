(** Error texts on Windows. *)

From Coq Require Import Ascii String List NArith ZArith Bool Lia.
From Verif Require Import Base Lib ModelUtil ModelBase64 ModelAddress ModelAttachment ModelMessage ModelReply ModelErrors ModelState ModelClient ModelWorld ModelWin
  SpecTexts SpecTextsWin SpecThrow ProofTexts ProofTexts2.
Import ListNotations.
Open Scope Z_scope.

(** Logging has failed. *)
Definition wbad {A} (o : outcome A) : Prop := o = Throw \/ o = Undef (UB_BufferOverflow BufLog) \/ o = Undef (UB_NullDeref PLog).
Lemma bad_wbad : forall {A} (o : outcome A), bad o -> wbad o. Proof. intros A o [H|H]; [left|right; left]; exact H. Qed.

Section Texts.
Variables f g : Z -> str.
Variable h : Z -> option str.

Definition wlike (v1 v2 : vst) : Prop :=
  same_c (v_c v1) (v_c v2) /\ v_on v1 = v_on v2 /\ v_e v2 = texts f g (v_e v1) /\ v_w v2 = wtexts h (v_w v1) /\ v_t v1 = v_t v2.
Definition wtwo {A} (m1 m2 : W A) : Prop := forall v1 v2, wlike v1 v2 ->
  wbad (fst (m1 v1)) \/ wbad (fst (m2 v2)) \/ fst (m1 v1) = fst (m2 v2) /\ wlike (snd (m1 v1)) (snd (m2 v2)).
Definition wob {A} (m : W A) : Prop := wtwo m m.

Lemma wob_bind : forall {A C} (m1 m2 : W A) (k1 k2 : A -> W C), wtwo m1 m2 -> (forall a, wtwo (k1 a) (k2 a)) -> wtwo (wbind m1 k1) (wbind m2 k2).
Proof.
  intros A C m1 m2 k1 k2 H K s1 s2 L. specialize (H s1 s2 L). unfold wbind. destruct (m1 s1) as [o1 q1], (m2 s2) as [o2 q2]. cbn [fst snd] in *.
  destruct H as [H|[H|[-> L']]].
  - left. destruct H as [->|[->| ->]]; [left|right; left|right; right]; reflexivity.
  - right. left. destruct H as [->|[->| ->]]; [left|right; left|right; right]; reflexivity.
  - destruct o2 as [a| | | | |]; cbn [fst snd]; try (right; right; split; [reflexivity|exact L']). exact (K a q1 q2 L').
Qed.
Lemma wob_base : forall {A} (m1 m2 : M A), two f g m1 m2 -> wtwo (base m1) (base m2).
Proof.
  intros A m1 m2 H v1 v2 (X & On & Ee & Ew & Et).
  assert (L : like f g (mkSt (v_c v1) (v_e v1) []) (mkSt (v_c v2) (v_e v2) [])) by (split; [exact X|split; [exact Ee|reflexivity]]).
  specialize (H _ _ L). unfold base. destruct (m1 _) as [o1 q1], (m2 _) as [o2 q2]. cbn [fst snd] in *.
  destruct H as [H|[H|[-> (X1 & E1 & T1)]]]; [left; apply bad_wbad, H|right; left; apply bad_wbad, H|].
  right. right. split; [reflexivity|]. split; [exact X1|]. cbn [v_on v_e v_w v_t]. rewrite T1, Et. repeat split; assumption.
Qed.
Lemma wob_getc : forall {A} (k : client -> W A), (forall c l z, empty_alike l (c_log c) -> wtwo (k c) (k (set_log l z c))) -> wtwo (wbind (base getc) k) (wbind (base getc) k).
Proof.
  intros A k H v1 v2 L. pose proof L as ((l & z & E & X) & L0). specialize (H _ l z X).
  assert (L' : wlike (mkV (v_c v1) (v_on v1) (v_e v1) (v_w v1) (v_t v1 ++ [])) (mkV (v_c v2) (v_on v2) (v_e v2) (v_w v2) (v_t v2 ++ []))).
  { rewrite !app_nil_r. destruct v1, v2. exact L. }
  specialize (H _ _ L'). rewrite <- E in H. exact H.
Qed.
Lemma wob_gete : forall {A} (k : env -> W A), (forall e, wtwo (k e) (k (texts f g e))) -> wtwo (wbind (base gete) k) (wbind (base gete) k).
Proof.
  intros A k H v1 v2 L. pose proof L as (_ & _ & E & _). specialize (H (v_e v1)).
  assert (L' : wlike (mkV (v_c v1) (v_on v1) (v_e v1) (v_w v1) (v_t v1 ++ [])) (mkV (v_c v2) (v_on v2) (v_e v2) (v_w v2) (v_t v2 ++ []))).
  { rewrite !app_nil_r. destruct v1, v2. exact L. }
  specialize (H _ _ L'). rewrite <- E in H. exact H.
Qed.
Lemma wob_ret : forall {A} (a : A), wtwo (wret a) (wret a). Proof. intros A a v1 v2 L. right. right. split; [reflexivity|exact L]. Qed.
Lemma wob_put : forall ev, wtwo (wput ev) (wput ev).
Proof. intros ev v1 v2 (X & On & Ee & Ew & Et). right. right. split; [reflexivity|]. split; [exact X|]. cbn. rewrite Et. repeat split; assumption. Qed.
Lemma wob_set_on : forall b, wtwo (set_on b) (set_on b).
Proof. intros b v1 v2 (X & On & Ee & Ew & Et). right. right. split; [reflexivity|]. split; [exact X|]. cbn. repeat split; assumption. Qed.
Lemma wob_get_on : wtwo get_on get_on.
Proof. intros v1 v2 L. pose proof L as (_ & On & _). right. right. unfold get_on. cbn [fst snd]. rewrite On. split; [reflexivity|exact L]. Qed.
Lemma wob_next : forall {A} get (set : list A -> wenv -> wenv) (d : A), (forall x, get (wtexts h x) = get x) -> (forall l x, set l (wtexts h x) = wtexts h (set l x)) -> wtwo (next get set d) (next get set d).
Proof.
  intros A get set d H1 H2 v1 v2 L. pose proof L as (X & On & Ee & Ew & Et). right. right. unfold next. rewrite Ew, H1. destruct (get (v_w v1)).
  - split; [reflexivity|]. exact L.
  - cbn [fst snd]. split; [reflexivity|]. split; [exact X|]. cbn. rewrite H2. repeat split; assumption.
Qed.
(** One of the systems has no text. *)
Lemma wob_half : forall i p, wtwo (base (addLog i p)) (wret tt) /\ wtwo (wret tt) (base (addLog i p)).
Proof.
  assert (Q : forall i p c e, bad (fst (addLog i p (mkSt c e []))) \/ fst (addLog i p (mkSt c e [])) = Undef (UB_NullDeref PLog) \/
    exists l z, addLog i p (mkSt c e []) = (Done tt, mkSt (set_log (Some l) z c) e []) /\ c_log c <> None).
  { intros i p c e. unfold addLog, bind, getc. cbn [s_c]. destruct (c_log c) as [l|] eqn:El; [|right; left; reflexivity].
    match goal with |- bad (fst ((if ?b then _ else _) _)) \/ _ => destruct b end; [left; left; reflexivity|].
    match goal with |- bad (fst ((if ?b then _ else _) _)) \/ _ => destruct b end; [|left; right; reflexivity].
    right. right. eexists. eexists. split; [reflexivity|discriminate]. }
  intros i p. split; intros v1 v2 L; pose proof L as ((l & z & E & X) & On & Ee & Ew & Et); unfold base.
  - destruct (Q i p (v_c v1) (v_e v1)) as [H|[H|(l1 & z1 & H & N)]]; [left|left|right; right].
    + destruct (addLog _ _ _). apply bad_wbad, H.
    + destruct (addLog _ _ _). cbn [fst] in *. subst. right; right; reflexivity.
    + rewrite H. cbn [fst snd wret s_t map]. split; [reflexivity|]. split; [|cbn [v_on v_e v_w v_t s_e]; rewrite app_nil_r; repeat split; assumption].
      cbn [v_c s_c]. rewrite E. destruct (v_c v1). exists l, z. split; [fldv; reflexivity|]. fldin X. fldin N. fldin N. split; [|discriminate]. intros ->. exfalso. apply N, X. reflexivity.
  - destruct (Q i p (v_c v2) (v_e v2)) as [H|[H|(l1 & z1 & H & N)]]; [right; left|right; left|right; right].
    + destruct (addLog _ _ _). apply bad_wbad, H.
    + destruct (addLog _ _ _). cbn [fst] in *. subst. right; right; reflexivity.
    + rewrite H. cbn [fst snd wret s_t map]. split; [reflexivity|]. split; [|cbn [v_on v_e v_w v_t s_e]; rewrite app_nil_r; repeat split; assumption].
      cbn [v_c s_c]. rewrite E in *. destruct (v_c v1). exists (Some l1), z1. split; [fldv; reflexivity|]. fldin X. fldin N. split; [discriminate|]. intros K. exfalso. apply N, X, K.
Qed.
Lemma wob_wsa : forall er, wob (addWSAMessage er).
Proof.
  intros er v1 v2 L. unfold addWSAMessage. pose proof L as (_ & _ & _ & Ew & _). rewrite Ew. cbn [wtexts x_format]. destruct (x_format (v_w v1) er), (h er).
  - exact (wob_base _ _ (two_addLog f g _ _ _ _) v1 v2 L).
  - exact (proj1 (wob_half _ _) v1 v2 L).
  - exact (proj2 (wob_half _ _) v1 v2 L).
  - exact (wob_ret tt v1 v2 L).
Qed.
Ltac setter := apply ob_updc; let X := fresh "X" in intros [] ? ? X; eexists; eexists; split; [cbv [set_conn set_server set_port set_batch set_log set_resp set_timeout set_errno set_auth set_cred set_sock set_keep set_bio set_ctx set_selfsigned c_kind c_conn c_server c_port c_batch c_log c_logsize c_resp c_timeout c_errno c_auth c_cred c_sock c_keep c_rawptr c_bio c_ctx c_selfsigned]; reflexivity|first [exact X|split; discriminate]].
Ltac wsb := repeat (lazymatch goal with
  | |- wob _ => unfold wob
  | |- wtwo (let _ := _ in _) _ => cbv zeta
  | |- wtwo (wbind (base getc) _) (wbind (base getc) _) => apply wob_getc; intros ? ? ? ?; flds
  | |- wtwo (wbind (base gete) _) (wbind (base gete) _) => apply wob_gete; intros ?; flds
  | |- wtwo (wbind _ _) (wbind _ _) => apply wob_bind; [|intros ?]
  | |- wtwo (wret _) (wret _) => apply wob_ret
  | |- wtwo (wput _) (wput _) => apply wob_put
  | |- wtwo (set_on _) (set_on _) => apply wob_set_on
  | |- wtwo get_on get_on => apply wob_get_on
  | |- wtwo (addWSAMessage _) _ => apply wob_wsa
  | |- wtwo (next _ _ _) (next _ _ _) => apply wob_next; intros; reflexivity
  | |- wtwo (if ?b then _ else _) (if ?b then _ else _) => destruct b
  | |- wtwo (match ?x with _ => _ end) (match ?x with _ => _ end) => destruct x
  | |- wtwo (base _) (base _) => apply wob_base
  | |- two _ _ (let _ := _ in _) _ => cbv zeta
  | |- two _ _ (bind getc _) (bind getc _) => apply ob_getc; intros ? ? ? ?; flds
  | |- two _ _ (bind gete _) (bind gete _) => apply ob_gete; intros ?; flds
  | |- two _ _ (bind _ _) (bind _ _) => apply ob_bind; [|intros ?]
  | |- two _ _ (ret _) (ret _) => apply ob_ret
  | |- two _ _ (lift _) (lift _) => apply ob_lift
  | |- two _ _ (fail_ub _) (fail_ub _) => apply ob_ub
  | |- two _ _ blocked blocked => apply ob_blocked
  | |- two _ _ diverge diverge => apply ob_diverge
  | |- two _ _ killed killed => apply ob_killed
  | |- two _ _ (upde _) (upde _) => apply ob_upde; intros []; reflexivity
  | |- two _ _ (emit _) (emit _) => apply ob_emit
  | |- two _ _ (emits _) (emits _) => apply ob_emits
  | |- two _ _ (updc _) (updc _) => setter
  | |- two _ _ (addLog _ _) (addLog _ _) => apply two_addLog
  | |- two _ _ (logc _) (logc _) => apply two_addLog
  | |- two _ _ (logs _) (logs _) => apply two_addLog
  | |- two _ _ (log_errno _) (log_errno _) => apply ob_log_errno
  | |- two _ _ (setLastSocketErrNo _) (setLastSocketErrNo _) => apply ob_errno
  | |- two _ _ (setLastServerResponse _) (setLastServerResponse _) => apply ob_resp
  | |- two _ _ checkServerGreetings _ => apply ob_greetings
  | |- two _ _ checkServerGreetingsTLS _ => apply ob_greetings_tls
  | |- two _ _ wait_bio _ => apply ob_wait_bio
  | |- two _ _ (if ?b then _ else _) (if ?b then _ else _) => destruct b
  | |- two _ _ (match ?x with _ => _ end) (match ?x with _ => _ end) => destruct x
  | |- two _ _ sys_connect _ => unfold sys_connect
  | |- two _ _ (sys_send _) _ => unfold sys_send
  | |- two _ _ (sys_puts _ _) _ => unfold sys_puts
  | |- two _ _ close_socket _ => unfold close_socket
  | |- two _ _ free_tls _ => unfold free_tls
  | |- two _ _ fresh_id _ => unfold fresh_id
  | |- two _ _ getServerReplyTLS _ => unfold getServerReplyTLS
  end).
Lemma wob_doclean : wob doWSACleanup. Proof. unfold doWSACleanup. wsb. Qed.
Lemma wob_release : wob release_winsock. Proof. unfold release_winsock. wsb. apply wob_doclean. Qed.
Lemma wob_init : wob initializeSessionW. Proof. unfold initializeSessionW, initializeSessionWinSock. wsb; apply wob_doclean. Qed.
Lemma wob_mode : forall b, wob (setSocketMode b). Proof. intros b. unfold setSocketMode. wsb. Qed.
Lemma wob_raw_reply : wob getRawCommandReplyW. Proof. unfold getRawCommandReplyW. wsb; apply wob_mode. Qed.
Lemma wob_reply : wob getServerReplyW. Proof. unfold getServerReplyW. wsb; apply wob_raw_reply. Qed.
Lemma wob_cmd_with : forall cl d err, wob cl -> wob (sendCommandPtrW cl d err).
Proof. intros cl d err H. unfold sendCommandPtrW, sendRaw2W, sendCommandTLSW. wsb; exact H. Qed.
Lemma wob_cleanup_f : forall n, wob (cleanup_fW n).
Proof. induction n as [|n IH]; cbn [cleanup_fW]; [wsb|]. unfold sendQuitW, close_socketW. wsb; first [apply wob_release|apply wob_cmd_with, IH]. Qed.
Lemma wob_cleanup : wob cleanupW.
Proof. intros s1 s2 L. unfold cleanupW. pose proof L as (_ & _ & E & _). rewrite E. exact (wob_cleanup_f _ s1 s2 L). Qed.
Lemma wob_cmd : forall d err, wob (sendCommandPtrW cleanupW d err). Proof. intros. apply wob_cmd_with, wob_cleanup. Qed.
Lemma wob_raw3 : forall d err tmo, wob (sendRaw3W d err tmo). Proof. intros. unfold sendRaw3W, sendRaw2W. wsb; first [apply wob_cleanup|apply wob_raw_reply]. Qed.
Lemma wob_fb1 : forall d err tmo, wob (sendFeedbackW d err tmo). Proof. intros. unfold sendFeedbackW, sendFeedbackTLSW. wsb; first [apply wob_cleanup|apply wob_raw3|apply wob_reply]. Qed.
Lemma wob_fb : forall d err tmo, wob (sendFeedbackPtrW d err tmo). Proof. intros. unfold sendFeedbackPtrW. wsb; first [apply wob_raw3|apply wob_fb1]. Qed.
Lemma wob_ehlo_loop : forall n t o, wob (ehlo_loopW n t o). Proof. induction n as [|n IH]; intros t o; cbn [ehlo_loopW]; wsb; first [apply wob_reply|apply IH]. Qed.
Lemma wob_ehlo : forall err tmo, wob (ehlo_withW err tmo). Proof. intros. unfold ehlo_withW. wsb; first [apply wob_fb1|apply wob_ehlo_loop]. Qed.
Lemma wob_auth : wob authenticate_if_neededW. Proof. unfold authenticate_if_neededW, authenticateClientW, authPlainW, authLoginW, authXOauth2W. wsb; apply wob_fb. Qed.
Lemma wob_starttls : wob startTLSNegotiationW. Proof. unfold startTLSNegotiationW. wsb; apply wob_cleanup. Qed.
Lemma wob_from : forall l r, wob (mail_from_loopW l r).
Proof. induction l as [|x l IH]; intros r; cbn [mail_from_loopW]; wsb; first [apply wob_fb|apply IH]. Qed.
Lemma wob_add : forall l r, wob (addMailRecipientsW l r).
Proof. induction l as [|x l IH]; intros r; cbn [addMailRecipientsW]; wsb; first [apply wob_fb|apply IH]. Qed.
Lemma wob_rcpts : forall l, wob (recipients_loopW l).
Proof. induction l as [|[k|x] l IH]; cbn [recipients_loopW]; [apply wob_ret|exact IH|]. wsb; first [apply wob_add|apply IH]. Qed.
Lemma wob_chunks : forall l err, wob (send_chunksW l err).
Proof. induction l as [|x l IH]; intros err; cbn [send_chunksW]; wsb; first [apply wob_cmd|apply IH]. Qed.
Lemma wob_transaction : forall m, wob (mail_transactionW m).
Proof.
  intros m. unfold mail_transactionW, setMailRecipientsW, setMailHeadersW, address_headerW, addMailHeaderW, setMailBodyW, sendQuitW. wsb; lazymatch goal with
  | |- wtwo (sendFeedbackPtrW _ _ _) _ => apply wob_fb
  | |- wtwo (sendCommandPtrW _ _ _) _ => apply wob_cmd
  | |- wtwo (send_chunksW _ _) _ => apply wob_chunks
  | |- wtwo (mail_from_loopW _ _) _ => apply wob_from
  | |- wtwo (recipients_loopW _) _ => apply wob_rcpts
  | |- wtwo cleanupW _ => apply wob_cleanup
  end.
Qed.
Lemma wob_establish : wob establishW.
Proof.
  unfold establishW, establishPlainW, establishOppW, establishForcedW, getServerSecureIdentificationW, upgradeToSecureConnectionW. wsb; lazymatch goal with
  | |- wtwo initializeSessionW _ => apply wob_init
  | |- wtwo (ehlo_withW _ _) _ => apply wob_ehlo
  | |- wtwo authenticate_if_neededW _ => apply wob_auth
  | |- wtwo startTLSNegotiationW _ => apply wob_starttls
  | |- wtwo (sendRaw3W _ _ _) _ => apply wob_raw3
  | |- wtwo ?x _ => apply wob_ehlo
  end.
Qed.
Lemma wob_send : forall m, wob (sendMailW m). Proof. intros m. unfold sendMailW. wsb; first [apply wob_establish|apply wob_transaction]. Qed.
Lemma wob_destroy : wob (cleanupW ;;# wret 0). Proof. wsb. apply wob_cleanup. Qed.

(** Programs. *)
Definition same_ww (w1 w2 : wworld) : Prop :=
  same_w f g (ww w1) (ww w2) /\ ww_on w1 = ww_on w2 /\ ww_env w2 = wtexts h (ww_env w1) /\ ww_trace w1 = ww_trace w2.
Definition walike (r1 r2 : outcome Z * wworld) : Prop := fst r1 = fst r2 /\ same_ww (snd r1) (snd r2).
Lemma wmember_same : forall {k : client -> option client} i (m : W Z) w1 w2, (forall a b, same_c a b -> same_o (k a) (k b)) -> same_ww w1 w2 -> wob m ->
  wbad (fst (run_onW i m k w1)) \/ wbad (fst (run_onW i m k w2)) \/ walike (run_onW i m k w1) (run_onW i m k w2).
Proof.
  intros k i m w1 w2 Hk S O. pose proof S as (W & On & Ew & Et). pose proof (get_same f g _ _ i W) as G. unfold run_onW.
  destruct (get_client (ww w1) i) as [a|], (get_client (ww w2) i) as [b|]; try contradiction; [|right; right; split; [reflexivity|exact S]].
  pose proof W as (F & Ee & _).
  assert (L : wlike (mkV a (nth i (ww_on w1) false) (w_env (ww w1)) (ww_env w1) (ww_trace w1)) (mkV b (nth i (ww_on w2) false) (w_env (ww w2)) (ww_env w2) (ww_trace w2))).
  { split; [exact G|]. cbn [v_on v_e v_w v_t]. rewrite On. repeat split; assumption. }
  specialize (O _ _ L). destruct (m (mkV a _ _ _ _)) as [o1 q1], (m (mkV b _ _ _ _)) as [o2 q2]. cbn [fst snd] in *.
  destruct O as [B1|[B2|[E (Lc & Lo & Le & Lw & Lt)]]]; [left; exact B1|right; left; exact B2|right; right].
  split; [exact E|]. split; [|cbn [snd ww_on ww_env ww_trace]; rewrite On, Lo; repeat split; assumption].
  split; [apply set_same; [exact F|apply Hk, Lc]|split; [exact Le|reflexivity]].
Qed.
Lemma wstep_same : forall o w1 w2, same_ww w1 w2 -> wbad (fst (wstep o w1)) \/ wbad (fst (wstep o w2)) \/ walike (wstep o w1) (wstep o w2).
Proof.
  intros o w1 w2 S. pose proof S as (W & On & Ew & Et).
  assert (Plain : let r w := let '(x, w') := step o (ww w) in (x, mkWW w' (ww_on w ++ repeat false (length (w_clients w') - length (w_clients (ww w)))) (ww_env w) (ww_trace w)) in
    wbad (fst (r w1)) \/ wbad (fst (r w2)) \/ walike (r w1) (r w2)).
  { intros r. unfold r. assert (Len : forall a b, same_w f g a b -> length (w_clients a) = length (w_clients b)).
    { intros a b (F & _). induction F; cbn; auto. }
    pose proof (step_same f g o _ _ W) as [[E W']|(_ & _ & _ & _ & [Q|Q])]; destruct (step o (ww w1)) as [x1 u1], (step o (ww w2)) as [x2 u2]; cbn [fst snd] in *.
    - right. right. split; [exact E|]. split; [exact W'|]. cbn [snd ww_on ww_env ww_trace]. rewrite (Len _ _ W), (Len _ _ W'), On. repeat split; assumption.
    - left. apply bad_wbad, Q.
    - right. left. apply bad_wbad, Q. }
  destruct o; try exact Plain.
  - exact (wmember_same (k := Some) i (sendMailW m) w1 w2 (fun _ _ H => H) S (wob_send m)).
  - exact (wmember_same (k := fun _ => None) i (cleanupW ;;# wret 0) w1 w2 (fun _ _ _ => Logic.I) S wob_destroy).
Qed.
Lemma wrun_same : forall ops w1 w2, same_ww w1 w2 -> (forall o, wbad o -> ~ In o (fst (wrun ops w1))) -> (forall o, wbad o -> ~ In o (fst (wrun ops w2))) ->
  fst (wrun ops w1) = fst (wrun ops w2) /\ same_ww (snd (wrun ops w1)) (snd (wrun ops w2)).
Proof.
  induction ops as [|o ops IH]; intros w1 w2 S N1 N2; [split; [reflexivity|exact S]|]. pose proof (wstep_same o w1 w2 S) as H. cbn [wrun] in *.
  destruct (wstep o w1) as [x1 v1], (wstep o w2) as [x2 v2]. cbn [fst snd] in *.
  assert (K1 : ~ wbad x1). { intros Q. apply (N1 x1 Q). destruct (continues x1); [destruct (wrun ops v1)|]; left; reflexivity. }
  assert (K2 : ~ wbad x2). { intros Q. apply (N2 x2 Q). destruct (continues x2); [destruct (wrun ops v2)|]; left; reflexivity. }
  destruct H as [H|[H|[E S']]]; try contradiction. cbn [fst snd] in E, S'. subst x2. specialize (IH v1 v2 S').
  destruct (continues x1); [|split; [reflexivity|exact S']]. destruct (wrun ops v1) as [xs1 u1], (wrun ops v2) as [xs2 u2]. cbn [fst snd] in *.
  destruct IH as [E' S'']; [intros q Q R; apply (N1 q Q); right; exact R|intros q Q R; apply (N2 q Q); right; exact R|]. split; [f_equal; exact E'|exact S''].
Qed.
End Texts.
