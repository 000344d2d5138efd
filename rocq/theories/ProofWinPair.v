(** Windows: two runs that differ in the credentials. *)

From Coq Require Import Ascii String List NArith ZArith Bool Lia ZifyBool ZifyNat ZifyN.
From Verif Require Import Base Lib ModelUtil ModelBase64 ModelAddress ModelAttachment ModelMessage ModelReply ModelErrors ModelState ModelClient ModelWorld
  ProofBase64 ProofAuth ProofAuth3 ProofPair ProofPair2.
From Verif Require Import SpecAuth SpecPair SpecWinPair ModelWin.
Import ListNotations.
Open Scope Z_scope.

Section secrets.
Variable L : list (credential * credential).
Hypothesis short : short_secrets L.
Notation S0 := (sim (Ks L) Ts (Rts L) same_l same_l).

Definition like_v (v1 v2 : vst) : Prop :=
  like_c (Ks L) Ts (v_c v1) (v_c v2) /\ v_on v1 = v_on v2 /\ v_e v1 = v_e v2 /\ v_w v1 = v_w v2 /\ Forall2 (same_wevent L) (v_t v1) (v_t v2).
Definition simv {A} (m1 m2 : W A) : Prop := forall v1 v2, like_v v1 v2 ->
  fst (m1 v1) = fst (m2 v2) /\ like_v (snd (m1 v1)) (snd (m2 v2)).
Lemma vbind {A C} (m1 m2 : W A) (k1 k2 : A -> W C) : simv m1 m2 -> (forall a, simv (k1 a) (k2 a)) -> simv (wbind m1 k1) (wbind m2 k2).
Proof.
  intros M0 K0 v1 v2 H. destruct (M0 v1 v2 H) as [E H']. unfold wbind.
  destruct (m1 v1) as [o1 q1], (m2 v2) as [o2 q2]. cbn [fst snd] in *. subst o2. destruct o1; try (split; [reflexivity|exact H']). exact (K0 a q1 q2 H').
Qed.
Lemma vret {A} (a : A) : simv (wret a) (wret a).
Proof. intros v1 v2 H. split; [reflexivity|exact H]. Qed.
Lemma map_like t1 t2 : Rts L t1 t2 -> Forall2 (same_wevent L) (map WSock t1) (map WSock t2).
Proof. induction 1 as [|a b t1 t2 H R IH]; constructor; [|exact IH]. right. exists a, b. auto. Qed.
Lemma vbase2 {A} (m1 m2 : M A) : S0 m1 m2 -> simv (base m1) (base m2).
Proof.
  intros S v1 v2 (C & O & E & X & T). destruct (S (mkSt (v_c v1) (v_e v1) []) (mkSt (v_c v2) (v_e v2) [])) as [F (C' & (r & Q & E') & T')].
  { split; [exact C|]. split; [|constructor]. cbn [s_e]. exists (e_recv (v_e v1)). split; [reflexivity|]. rewrite E. destruct (v_e v2); reflexivity. }
  unfold base. destruct (m1 _) as [o1 s1], (m2 _) as [o2 s2]. cbn [fst snd] in *. split; [exact F|].
  split; [exact C'|]. split; [exact O|]. split; [|split; [exact X|apply Forall2_app; [exact T|apply map_like, T']]].
  cbn [v_e]. red in Q. subst r. rewrite E'. destruct (s_e s1); reflexivity.
Qed.
Lemma vbase {A} (m : M A) : S0 m m -> simv (base m) (base m).
Proof. apply vbase2. Qed.
Lemma vgetc {C} (k1 k2 : client -> W C) : (forall c o, Ks L (c_cred c) o -> simv (k1 c) (k2 (set_cred o c))) -> simv (wbind (base getc) k1) (wbind (base getc) k2).
Proof.
  intros H v1 v2 Lv. pose proof Lv as ((Tm & o & Ko & Ec) & O & E & X & T). unfold wbind, base, getc. cbn [s_c s_e s_t map]. rewrite !app_nil_r.
  rewrite Ec. destruct v1 as [c1 o1 e1 w1 t1], v2 as [c2 o2 e2 w2 t2]. cbn [v_c v_on v_e v_w v_t] in *. subst c2. apply H; [exact Ko|exact Lv].
Qed.
Lemma vgete {C} (k1 k2 : env -> W C) : (forall e, simv (k1 e) (k2 e)) -> simv (wbind (base gete) k1) (wbind (base gete) k2).
Proof.
  intros H v1 v2 Lv. pose proof Lv as (_ & _ & E & _). unfold wbind, base, gete. cbn [s_c s_e s_t map]. rewrite !app_nil_r. rewrite <- E.
  destruct v1 as [c1 o1 e1 w1 t1], v2 as [c2 o2 e2 w2 t2]. cbn [v_c v_on v_e v_w v_t] in *. subst e2. apply H. exact Lv.
Qed.
Lemma vput2 a b : same_wevent L a b -> simv (wput a) (wput b).
Proof. intros S v1 v2 (C & O & E & X & T). split; [reflexivity|]. repeat (split; [assumption|]). apply Forall2_app; [exact T|]. constructor; [exact S|constructor]. Qed.
Lemma vput a : simv (wput a) (wput a).
Proof. apply vput2. left. reflexivity. Qed.
Lemma vset_on b : simv (set_on b) (set_on b).
Proof. intros v1 v2 (C & O & E & X & T). split; [reflexivity|]. repeat split; try assumption; apply C. Qed.
Lemma vget_on : simv get_on get_on.
Proof. intros v1 v2 H. pose proof H as (_ & O & _). split; [cbn; f_equal; exact O|exact H]. Qed.
Lemma vnext {R} get set (d : R) : simv (next get set d) (next get set d).
Proof.
  intros v1 v2 H. pose proof H as (C & O & E & X & T). unfold next. rewrite <- X. destruct (get (v_w v1)); [split; [reflexivity|exact H]|].
  split; [reflexivity|]. repeat (split; [first [assumption|reflexivity]|]). exact T.
Qed.

Ltac pc := cbn [set_cred c_kind c_conn c_server c_port c_batch c_log c_logsize c_resp c_timeout c_errno c_auth c_sock c_keep c_rawptr c_bio c_ctx c_selfsigned].
Ltac leaf := first
  [ apply sim_addLog | apply sim_log_errno | apply sim_resp | apply sim_errno
  | apply sim_lift | apply sim_ret ].
Ltac inner := repeat (cbv zeta; first
  [ apply sim_lift | apply sim_ret
  | apply sim_addLog | apply sim_log_errno | apply sim_resp | apply sim_errno
  | apply sim_getc; intros ? ? ? ?; pc
  | apply sim_gete; intros ? ? ?; cbn [set_recv e_send e_bread e_bputs e_sock e_host e_fcntl e_conn e_select e_sopt e_tls e_fs e_strerror e_x509str e_next]
  | apply sim_updc; intros ? ?; repeat split
  | apply sim_upde; intros ? ?; repeat split
  | apply sim_emit; intros ? ?; apply Rts_app
  | eapply sim_bind; [apply sub_refl| |intros ?]
  | match goal with
    | |- sim _ _ _ _ _ (if ?b then _ else _) (if ?b then _ else _) => destruct b
    | |- sim _ _ _ _ _ (match ?x with _ => _ end) (match ?x with _ => _ end) => destruct x
    end ]).
Ltac vs := repeat (cbv zeta; lazymatch goal with
  | |- simv (wbind (base getc) _) (wbind (base getc) _) => apply vgetc; intros ? ? ?; pc
  | |- simv (wbind (base gete) _) (wbind (base gete) _) => apply vgete; intros ?
  | |- simv (wbind _ _) (wbind _ _) => apply vbind; [|intros ?]
  | |- simv (wret _) (wret _) => apply vret
  | |- simv (wput _) (wput _) => apply vput
  | |- simv (set_on _) _ => apply vset_on
  | |- simv get_on _ => apply vget_on
  | |- simv (next _ _ _) _ => apply vnext
  | |- simv (base (logc _)) _ => apply vbase, sim_addLog
  | |- simv (base (logs _)) _ => apply vbase, sim_addLog
  | |- simv (base (log_errno _)) _ => apply vbase, sim_log_errno
  | |- simv (base (setLastSocketErrNo _)) _ => apply vbase, sim_errno
  | |- simv (base blocked) _ => apply vbase, sim_lift
  | |- simv (base diverge) _ => apply vbase, sim_lift
  | |- simv (base killed) _ => apply vbase, sim_lift
  | |- simv (base (fail_ub _)) _ => apply vbase, sim_lift
  | |- simv (base (lift _)) _ => apply vbase, sim_lift
  | |- simv (if ?b then _ else _) (if ?b then _ else _) => destruct b
  | |- simv (match ?x with _ => _ end) (match ?x with _ => _ end) => destruct x
  end).

Lemma vmessage er : simv (addWSAMessage er) (addWSAMessage er).
Proof.
  intros v1 v2 H. pose proof H as (_ & _ & _ & X & _). unfold addWSAMessage. rewrite <- X. destruct (x_format (v_w v1) er); [|split; [reflexivity|exact H]].
  revert v1 v2 H X. intros v1 v2 H _. revert v1 v2 H. match goal with |- forall v1 v2, _ -> fst (?m v1) = _ /\ _ => change (simv m m) end.
  apply vbase. apply sim_addLog.
Qed.
Lemma vwsa : simv doWSACleanup doWSACleanup.
Proof. unfold doWSACleanup. vs. Qed.
Lemma vrelease : simv release_winsock release_winsock.
Proof. unfold release_winsock. vs. apply vwsa. Qed.
Lemma vinit : simv initializeSessionW initializeSessionW.
Proof.
  unfold initializeSessionW, initializeSessionWinSock, sys_connect. vs; try apply vmessage; try apply vwsa; apply vbase; inner.
Qed.
Lemma vmode b : simv (setSocketMode b) (setSocketMode b).
Proof. unfold setSocketMode. vs. Qed.
Lemma vraw_reply : simv getRawCommandReplyW getRawCommandReplyW.
Proof.
  unfold getRawCommandReplyW. apply vbind; [apply vmode|intros _]. apply vgetc; intros c o K; pc. apply vbind.
  - apply vbase. apply sim_gete. intros e r Q. red in Q. subst r. cbn [e_recv set_recv]. destruct (raw_loop _ _ _ _ _ (e_recv e)) as [[x evs] rest].
    eapply sim_bind; [apply sub_refl|apply sim_set_recv; reflexivity|intros _].
    eapply sim_bind; [apply sub_refl|apply sim_emits; intros t1 t2 R; apply Rts_app, R|intros _]. apply sim_lift.
  - intros [[w g] full]. apply vbind; [apply vmode|intros _]. apply vbase. inner.
Qed.
Lemma vreply_tls : simv (base getServerReplyTLS) (base getServerReplyTLS).
Proof. apply vbase, sim_reply_tls. apply Rts_app. Qed.
Lemma vreply : simv getServerReplyW getServerReplyW.
Proof. unfold getServerReplyW. vs; first [apply vraw_reply|apply vreply_tls]. Qed.

(** Writing: texts of the same kind, both short or equal. *)
Definition okv (d1 d2 : str) : Prop := ok_pair (Rts L) d1 d2 /\ (INT_MAX <? slen (cstr d1))%N = (INT_MAX <? slen (cstr d2))%N /\
  ((INT_MAX <? slen (cstr d1))%N = true -> cstr d1 = cstr d2).
Lemma okv_refl d : okv d d.
Proof. split; [apply ok_refl'|]. split; auto. Qed.
Lemma vraw2 cl d1 d2 err : okv d1 d2 -> simv cl cl -> simv (sendRaw2W cl d1 err) (sendRaw2W cl d2 err).
Proof.
  intros (O & B & E) C. unfold sendRaw2W. rewrite <- B. destruct (INT_MAX <? slen (cstr d1))%N.
  - rewrite (E eq_refl). vs.
  - apply vbind; [apply vbase2, sim_send, O|]. intros r. vs. exact C.
Qed.
Lemma vputs b d1 d2 : okv d1 d2 -> simv (base (sys_puts b (cstr d1))) (base (sys_puts b (cstr d2))).
Proof. intros (O & _). apply vbase2, sim_puts, O. Qed.
Lemma vcmd cl d err : simv cl cl -> simv (sendCommandPtrW cl d err) (sendCommandPtrW cl d err).
Proof.
  intros C. unfold sendCommandPtrW, sendCommandTLSW. vs; first [apply vraw2; [apply okv_refl|exact C]|apply vputs, okv_refl|exact C].
Qed.
Lemma vcleanup_f f : simv (cleanup_fW f) (cleanup_fW f).
Proof.
  induction f as [|f IH]; cbn [cleanup_fW]; [vs|]. unfold sendQuitW, close_socketW, close_socket, free_tls. vs;
  try (apply vcmd, IH); try apply vrelease; apply vbase; inner.
Qed.
Lemma vcleanup : simv cleanupW cleanupW.
Proof.
  intros v1 v2 H. unfold cleanupW. pose proof H as (_ & _ & E & _). rewrite <- E. apply vcleanup_f, H.
Qed.
Lemma vraw3 d1 d2 err tmo : okv d1 d2 -> simv (sendRaw3W d1 err tmo) (sendRaw3W d2 err tmo).
Proof. intros O. unfold sendRaw3W. apply vbind; [apply vraw2; [exact O|apply vcleanup]|]. intros r. vs; first [apply vraw_reply|apply vcleanup]. Qed.
Lemma vfeedback d1 d2 err tmo : okv d1 d2 -> simv (sendFeedbackW d1 err tmo) (sendFeedbackW d2 err tmo).
Proof. intros O. unfold sendFeedbackW, sendFeedbackTLSW. vs; first [apply vraw3, O|apply vputs, O|apply vreply|apply vcleanup]. Qed.
Lemma vfb d1 d2 err tmo : okv d1 d2 -> simv (sendFeedbackPtrW d1 err tmo) (sendFeedbackPtrW d2 err tmo).
Proof. intros O. unfold sendFeedbackPtrW. vs; first [apply vraw3, O|apply vfeedback, O]. Qed.
Lemma vfb' d err tmo : simv (sendFeedbackPtrW d err tmo) (sendFeedbackPtrW d err tmo).
Proof. apply vfb, okv_refl. Qed.

(** EHLO and authentication. *)
Lemma vehlo_loop f : forall tmo o, simv (ehlo_loopW f tmo o) (ehlo_loopW f tmo o).
Proof.
  induction f as [|f IH]; intros tmo o; cbn [ehlo_loopW].
  - vs. apply vbase; inner.
  - vs; first [apply vreply|apply IH|apply vbase; inner].
Qed.
Lemma vehlo err tmo : simv (ehlo_withW err tmo) (ehlo_withW err tmo).
Proof. unfold ehlo_withW. vs; first [apply vfeedback, okv_refl|apply vehlo_loop]. Qed.
Lemma script_short k cr d : short_secret cr -> In d (script k cr) -> (INT_MAX <? slen (cstr d))%N = false.
Proof.
  unfold short_secret. intros S I. apply N.ltb_ge. rewrite (script_nonul k cr d I).
  assert (X : forall s, (slen s <= 1000000050)%N -> (slen (Encode s) <= 1400000000)%N) by
    (intros s H; rewrite encode_length; zify; Z.to_euclidean_division_equations; lia).
  assert (Y : forall a b, slen (a ++ b) = (slen a + slen b)%N) by (intros; unfold slen; rewrite app_length; lia).
  destruct k; cbn [script In] in I; unfold INT_MAX.
  - destruct I as [<-|[]]. unfold plain_command. rewrite !Y. pose proof (X ([NUL] ++ cr_user cr ++ [NUL] ++ cr_pass cr)) as P. rewrite !Y in P.
    change (slen [NUL]) with 1%N in P. change (slen CRLF) with 2%N. change (slen (B "AUTH PLAIN ")) with 11%N. lia.
  - destruct I as [<-|[<-|[<-|[]]]].
    + vm_compute. discriminate.
    + pose proof (X (cr_user cr)) as P. rewrite !Y. change (slen CRLF) with 2%N. lia.
    + pose proof (X (cr_pass cr)) as P. rewrite !Y. change (slen CRLF) with 2%N. lia.
  - destruct I as [<-|[]]. unfold xoauth2_command. rewrite !Y.
    match goal with |- context [Encode ?s] => pose proof (X s) as P end. rewrite !Y in P.
    change (slen (B "user=")) with 5%N in P. change (slen (B "auth=Bearer ")) with 12%N in P.
    repeat match type of P with context [slen [?a]] => change (slen [a]) with 1%N in P end.
    repeat match type of P with context [slen [?a; ?b]] => change (slen [a; b]) with 2%N in P end.
    change (slen CRLF) with 2%N. change (slen (B "AUTH XOAUTH2 ")) with 13%N. lia.
Qed.
Lemma vscript cr1 cr2 k : Ks L (Some cr1) (Some cr2) -> Forall2 okv (script k cr1) (script k cr2).
Proof.
  intros K0. pose proof (Ks_script L cr1 cr2 k K0) as F. destruct K0 as [_ [->|I]].
  - clear. induction (script k cr2); constructor; [apply okv_refl|assumption].
  - red in short. rewrite Forall_forall in short. destruct (short _ I) as [S1 S2]. cbn [fst snd] in S1, S2.
    assert (A1 : forall d, In d (script k cr1) -> (INT_MAX <? slen (cstr d))%N = false) by (intros d; apply script_short, S1).
    assert (A2 : forall d, In d (script k cr2) -> (INT_MAX <? slen (cstr d))%N = false) by (intros d; apply script_short, S2).
    revert A1 A2. induction F as [|d1 d2 l1 l2 H F IH]; intros A1 A2; constructor.
    + split; [exact H|]. rewrite (A1 d1 (or_introl eq_refl)), (A2 d2 (or_introl eq_refl)). split; [reflexivity|discriminate].
    + apply IH; intros d X; [apply A1|apply A2]; right; exact X.
Qed.
Lemma vauth : simv authenticate_if_neededW authenticate_if_neededW.
Proof.
  unfold authenticate_if_neededW. apply vgetc; intros c o Kc. cbn [set_cred c_cred].
  destruct (c_cred c) as [cr|] eqn:Ec. 2:{ rewrite (Ks_none L _ Kc). vs. }
  destruct (Ks_some L _ _ Kc) as (cr' & -> & _). apply vbind; [|intros r; vs].
  unfold authenticateClientW. apply vgetc; intros c2 o2 Kc2. cbn [set_cred c_cred c_auth]. destruct (c_cred c2) as [cr2|]. 2:{ rewrite (Ks_none L _ Kc2). vs. }
  destruct (Ks_some L _ _ Kc2) as (cr2' & -> & Em). destruct (c_auth c2) as [oo|]; [|vs]. rewrite Em.
  unfold authPlainW, authLoginW, authXOauth2W. destruct (_ && _).
  { pose proof (vscript _ _ Plain Kc2) as P. cbn [script] in P. inversion P; subst. vs. apply vfb; assumption. }
  destruct (_ && _).
  { pose proof (vscript _ _ Login Kc2) as P. cbn [script] in P. inversion P as [|? ? ? ? P1 P2]; subst. inversion P2 as [|? ? ? ? P3 P4]; subst.
    inversion P4 as [|? ? ? ? P5 P6]; subst. vs; apply vfb; assumption. }
  destruct (_ && _); [|vs].
  { pose proof (vscript _ _ Xoauth2 Kc2) as P. cbn [script] in P. inversion P; subst. vs. apply vfb; assumption. }
Qed.

(** Connecting. *)
Lemma vtls : simv startTLSNegotiationW startTLSNegotiationW.
Proof. unfold startTLSNegotiationW, fresh_id. vs; try apply vcleanup; apply vbase; inner. Qed.
Lemma vgreetings : simv (base checkServerGreetings) (base checkServerGreetings).
Proof. apply vbase. exact (sim_greetings (Ks L) Ts (Rts L) Rds (Rts_reads L) same_l same_l same_greets). Qed.
Lemma vgreetings_tls : simv (base checkServerGreetingsTLS) (base checkServerGreetingsTLS).
Proof. apply vbase, sim_greetings_tls. apply Rts_app. Qed.
Lemma vestablish : simv establishW establishW.
Proof.
  unfold establishW, establishPlainW, establishOppW, establishForcedW, sendServerIdentificationW, getServerSecureIdentificationW, upgradeToSecureConnectionW.
  vs; lazymatch goal with
  | |- simv initializeSessionW _ => apply vinit
  | |- simv (base checkServerGreetings) _ => apply vgreetings
  | |- simv (base checkServerGreetingsTLS) _ => apply vgreetings_tls
  | |- simv (ehlo_withW _ _) _ => apply vehlo
  | |- simv authenticate_if_neededW _ => apply vauth
  | |- simv startTLSNegotiationW _ => apply vtls
  | |- simv (sendRaw3W _ _ _) _ => apply vraw3, okv_refl
  | _ => apply vbase; inner
  end.
Qed.

(** The mail. *)
Lemma vmail_from fs : forall last, simv (mail_from_loopW fs last) (mail_from_loopW fs last).
Proof. induction fs as [|f r IH]; intros last; cbn [mail_from_loopW]; vs; first [apply vfb'|apply IH]. Qed.
Lemma vadd l : forall r, simv (addMailRecipientsW l r) (addMailRecipientsW l r).
Proof. induction l as [|a l IH]; intros r; cbn [addMailRecipientsW]; vs; first [apply vfb'|apply IH]. Qed.
Lemma vrcpts ls : simv (recipients_loopW ls) (recipients_loopW ls).
Proof. induction ls as [|a l IH]; cbn [recipients_loopW]; vs; first [apply vadd|exact IH]. Qed.
Lemma vheader f x err : simv (addMailHeaderW f x err) (addMailHeaderW f x err).
Proof. unfold addMailHeaderW. vs. apply vcmd, vcleanup. Qed.
Lemma vchunks l : forall err, simv (send_chunksW l err) (send_chunksW l err).
Proof. induction l as [|x r IH]; intros err; cbn [send_chunksW]; vs; first [apply vcmd, vcleanup|apply IH]. Qed.
Lemma vtransaction m : simv (mail_transactionW m) (mail_transactionW m).
Proof.
  unfold mail_transactionW, setMailRecipientsW, setMailHeadersW, address_headerW, setMailBodyW, sendQuitW. vs;
  first [apply vmail_from|apply vrcpts|apply vfb'|apply vheader|apply vcmd, vcleanup|apply vchunks|apply vcleanup].
Qed.
Lemma vsend m : simv (sendMailW m) (sendMailW m).
Proof. unfold sendMailW. vs; first [apply vestablish|apply vtransaction|apply vbase; inner]. Qed.
Lemma vdestroy : simv (cleanupW ;;# wret 0) (cleanupW ;;# wret 0).
Proof. vs. apply vcleanup. Qed.

(** Programs. *)
Definition like_ww (w1 w2 : wworld) : Prop :=
  like_w L (ww w1) (ww w2) /\ ww_on w1 = ww_on w2 /\ ww_env w1 = ww_env w2 /\ Forall2 (same_wevent L) (ww_trace w1) (ww_trace w2).
Lemma like_on {A} i (m : W A) f g w1 w2 : simv m m -> (forall c1 c2, like_c (Ks L) Ts c1 c2 -> like_o L (f c1) (g c2)) -> like_ww w1 w2 ->
  fst (run_onW i m f w1) = fst (run_onW i m g w2) /\ like_ww (snd (run_onW i m f w1)) (snd (run_onW i m g w2)).
Proof.
  intros S F H. pose proof H as (Hw & O & X & T). unfold run_onW. pose proof (like_get L _ _ i Hw) as G.
  destruct (get_client (ww w1) i) as [c1|], (get_client (ww w2) i) as [c2|]; cbn [like_o] in G; try contradiction; [|split; [reflexivity|exact H]].
  destruct Hw as (C & E & R). destruct (S (mkV c1 (nth i (ww_on w1) false) (w_env (ww w1)) (ww_env w1) (ww_trace w1)) (mkV c2 (nth i (ww_on w2) false) (w_env (ww w2)) (ww_env w2) (ww_trace w2))) as [Y (Lc & Lo & Le & Lw & Lt)].
  { repeat split; cbn [v_c v_on v_e v_w v_t]; try assumption; try apply G. rewrite O. reflexivity. }
  destruct (m (mkV c1 _ _ _ _)) as [x1 q1], (m (mkV c2 _ _ _ _)) as [x2 q2]. cbn [fst snd] in *. split; [exact Y|].
  split; [split; [cbn [ww w_clients]; apply like_set; [exact C|apply F, Lc]|split; [exact Le|constructor]]|].
  cbn [ww_on ww_env ww_trace]. rewrite O, Lo. split; [reflexivity|]. split; assumption.
Qed.
Lemma same_length {A C} (R : A -> C -> Prop) l1 l2 : Forall2 R l1 l2 -> length l1 = length l2.
Proof. induction 1; cbn [length]; congruence. Qed.
Lemma like_wstep a b w1 w2 : op_like L a b -> like_ww w1 w2 -> fst (wstep a w1) = fst (wstep b w2) /\ like_ww (snd (wstep a w1)) (snd (wstep b w2)).
Proof.
  intros P H. pose proof H as (Hw & O & X & T). pose proof (like_step L a b _ _ P Hw) as [E W'].
  assert (G : forall o1 o2, fst (step o1 (ww w1)) = fst (step o2 (ww w2)) -> like_w L (snd (step o1 (ww w1))) (snd (step o2 (ww w2))) ->
    let go o w := (let '(x, w') := step o (ww w) in (x, mkWW w' (ww_on w ++ repeat false (length (w_clients w') - length (w_clients (ww w)))) (ww_env w) (ww_trace w))) in
    fst (go o1 w1) = fst (go o2 w2) /\ like_ww (snd (go o1 w1)) (snd (go o2 w2))).
  { intros o1 o2 E0 W0. cbv beta zeta. destruct (step o1 (ww w1)) as [x1 q1], (step o2 (ww w2)) as [x2 q2]. cbn [fst snd] in *. split; [exact E0|].
    split; [exact W0|]. cbn [ww_on ww_env ww_trace]. rewrite O. destruct W0 as (C0 & _). destruct Hw as (C1 & _). rewrite (same_length _ _ _ C0), (same_length _ _ _ C1).
    split; [reflexivity|]. split; assumption. }
  specialize (G a b E W'). destruct P as [P _]. destruct P as [o|i c1 c2 Em]; [|exact G].
  destruct o; try exact G.
  - apply like_on; [apply vsend|intros c1 c2 Y; exact Y|exact H].
  - apply like_on; [apply vdestroy|intros c1 c2 Y; exact Logic.I|exact H].
Qed.
Lemma like_wrun p1 p2 w1 w2 : Forall2 (op_like L) p1 p2 -> like_ww w1 w2 -> fst (wrun p1 w1) = fst (wrun p2 w2) /\ like_ww (snd (wrun p1 w1)) (snd (wrun p2 w2)).
Proof.
  intros P. revert w1 w2. induction P as [|a b p1 p2 H P IH]; intros w1 w2 W; [split; [reflexivity|exact W]|]. cbn [wrun].
  destruct (like_wstep a b w1 w2 H W) as [E W']. destruct (wstep a w1) as [x1 v1], (wstep b w2) as [x2 v2]. cbn [fst snd] in *. subst x2.
  destruct (continues x1); [|split; [reflexivity|exact W']]. destruct (IH v1 v2 W') as [E2 W2].
  destruct (wrun p1 v1), (wrun p2 v2). cbn [fst snd] in *. subst. split; [reflexivity|exact W2].
Qed.
End secrets.

Lemma secrets_wrun : forall p1 p2 e x, Forall2 same_but_secret p1 p2 -> short_secrets (secrets_of p1 p2) ->
  let w1 := snd (wrun p1 (initial_wworld e x)) in let w2 := snd (wrun p2 (initial_wworld e x)) in
  fst (wrun p1 (initial_wworld e x)) = fst (wrun p2 (initial_wworld e x)) /\
  Forall2 (same_wevent (secrets_of p1 p2)) (ww_trace w1) (ww_trace w2) /\
  forall i, option_map (set_cred None) (get_client (ww w1) i) = option_map (set_cred None) (get_client (ww w2) i).
Proof.
  intros p1 p2 e x P Sh.
  assert (P' : Forall2 (op_like (secrets_of p1 p2)) p1 p2).
  { assert (G : forall l, (forall x, In x (secrets_of p1 p2) -> In x l) -> Forall2 (op_like l) p1 p2).
    { clear e Sh x. induction P as [|a b p1 p2 H P IH]; intros l S; constructor.
      - split; [exact H|]. intros c1 c2 X. apply S. unfold secrets_of. cbn [combine flat_map]. apply in_or_app. left. exact X.
      - apply IH. intros x X. apply S. unfold secrets_of. cbn [combine flat_map]. apply in_or_app. right. exact X. }
    apply G. auto. }
  destruct (like_wrun (secrets_of p1 p2) Sh p1 p2 (initial_wworld e x) (initial_wworld e x) P') as [E W].
  { split; [split; [constructor|split; [reflexivity|constructor]]|]. split; [reflexivity|]. split; [reflexivity|constructor]. }
  cbv zeta. split; [exact E|]. pose proof W as (Ww & _ & _ & R). split; [exact R|]. intros i. pose proof (like_get _ _ _ i Ww) as G.
  destruct (get_client (ww (snd (wrun p1 _))) i) as [c1|], (get_client (ww (snd (wrun p2 _))) i) as [c2|]; cbn [like_o] in G; try contradiction; [|reflexivity].
  destruct G as (_ & o & _ & ->). reflexivity.
Qed.
Lemma secrets_wlog : forall p1 p2 e x i c1 c2, Forall2 same_but_secret p1 p2 -> short_secrets (secrets_of p1 p2) ->
  get_client (ww (snd (wrun p1 (initial_wworld e x)))) i = Some c1 -> get_client (ww (snd (wrun p2 (initial_wworld e x)))) i = Some c2 ->
  getCommunicationLog c1 = getCommunicationLog c2.
Proof.
  intros p1 p2 e x i c1 c2 P S G1 G2. destruct (secrets_wrun p1 p2 e x P S) as (_ & _ & H). specialize (H i). cbv zeta in H. rewrite G1, G2 in H. cbn [option_map] in H.
  apply (f_equal (fun o => match o with Some c => getCommunicationLog c | None => [] end)) in H. exact H.
Qed.
