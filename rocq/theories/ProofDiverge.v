(** When cleanup can recurse for ever. *)

From Coq Require Import Ascii String List NArith ZArith Bool Lia ZifyBool ZifyNat ZifyN.
From Verif Require Import Base Lib ModelUtil ModelBase64 ModelAddress ModelAttachment
  ModelErrors ModelReply ModelMessage ModelState ModelClient ModelWorld
  ProofSteps ProofWalk ProofPhases ProofEstablish ProofLog ProofSend ProofWorld
  SpecAddress SpecText SpecReply SpecMime SpecDialogue SpecLife SpecDead
  ProofTls ProofTls2 ProofDialogue ProofMail ProofMail2 ProofLife ProofCode ProofDead.
Import ListNotations.
Open Scope Z_scope.

(** ** Outcomes other than divergence *)
Definition stops {A} (m : M A) (s : st) : Prop := fst (m s) <> Diverge.

Lemma stops_bind : forall {A C} (m : M A) (k : A -> M C) s, stops m s ->
  (forall a s1, m s = (Done a, s1) -> stops (k a) s1) -> stops (bind m k) s.
Proof.
  intros A C m k s H K. unfold stops, bind in *. destruct (m s) as [o s1]. cbn [fst] in *.
  destruct o as [a| | | | |]; try discriminate; [exact (K a s1 eq_refl)|congruence].
Qed.
Lemma addLog_stops : forall i p s, stops (addLog i p) s.
Proof.
  intros i p s. unfold stops, addLog, bind, getc. destruct (c_log (s_c s)); [|discriminate]. cbv zeta.
  destruct (_ && (MAX_OBJECT <? _)%N); [discriminate|]. destruct (_ && _); discriminate.
Qed.

Definition budget (e : env) : nat := length (e_send e) + length (e_bputs e).
(** Nothing can be written: every attempt fails at once. *)
Definition stuck (c : client) : Prop := c_batch c = true /\ c_conn c = true /\ muted c.

Lemma close_stops : forall s, stops close_socket s.
Proof. intros s. unfold stops, close_socket, bind, getc. destruct (_ =? 0); discriminate. Qed.
Lemma free_stops : forall s, stops free_tls s.
Proof. intros s. unfold stops, free_tls, bind, getc. destruct (c_ctx (s_c s)), (c_bio (s_c s)); discriminate. Qed.

Lemma cleanup_f_stops : forall n s, (S (budget (s_e s)) <= n)%nat -> ~ stuck (s_c s) -> stops (cleanup_f n) s.
Proof.
  induction n as [|n IH]; intros s L N; [lia|]. rewrite cleanup_f_eq. apply stops_bind; [discriminate|]. intros c s0 H0.
  inversion H0; subst c s0. clear H0.
  assert (T : forall s, stops (updc (set_conn false);; (match c_kind (s_c s) with KPlain => ret tt | _ => free_tls end);; close_socket) s).
  { intros x. apply stops_bind; [discriminate|]. intros ? ? _. apply stops_bind; [|intros; apply close_stops].
    destruct (c_kind (s_c x)); [discriminate|apply free_stops|apply free_stops]. }
  apply stops_bind.
  2:{ intros u s1 H1. apply stops_bind; [discriminate|]. intros ? ? _. apply stops_bind; [|intros; apply close_stops].
      destruct (c_kind (s_c s)); [discriminate|apply free_stops|apply free_stops]. }
  destruct (c_batch (s_c s) && c_conn (s_c s)) eqn:Q; [|discriminate].
  apply andb_prop in Q as [Qb Qc]. apply stops_bind; [|discriminate].
  unfold sendQuit_with. apply stops_bind; [apply addLog_stops|]. intros [] s1 H1.
  unfold logc in H1. apply addLog_core in H1 as (C1 & E1 & _). core_facts C1.
  assert (Rec : forall er s2, (budget (s_e s2) < budget (s_e s))%nat -> s_c s2 = s_c s1 ->
    stops (setLastSocketErrNo er;; cleanup_f n;; ret CLIENT_SENDMAIL_QUIT_ERROR) s2).
  { intros er s2 B2 C2. apply stops_bind; [discriminate|]. intros v s3 H3. inversion H3; subst v s3.
    apply stops_bind; [|discriminate]. apply IH; [cbn [s_e]; lia|]. cbn [s_c]. rewrite C2.
    intros (X1 & X2 & X3 & X4 & X5). apply N. cbn in *. split; [congruence|]. split; [congruence|].
    split; [congruence|]. split; congruence. }
  assert (Sd : stops (sendRaw2_with (cleanup_f n) (B "QUIT" ++ CRLF) CLIENT_SENDMAIL_QUIT_ERROR) s1).
  { unfold sendRaw2_with. unfold sys_send. unfold stops, bind at 1 2 3, getc, gete. destruct (e_send (s_e s1)) as [|r l] eqn:Es.
    - discriminate.
    - unfold bind, upde, emit, ret. destruct r; try discriminate. apply Rec; [|reflexivity].
      unfold budget. cbn. rewrite <- E1, Es. cbn. lia. }
  unfold sendCommandPtr_with. apply stops_bind; [discriminate|]. intros c s2 H2. inversion H2; subst c s2. clear H2.
  assert (Td : c_rawptr (s_c s1) = false -> c_kind (s_c s1) <> KPlain ->
    stops (sendCommandTLS_with (cleanup_f n) (B "QUIT" ++ CRLF) CLIENT_SENDMAIL_QUIT_ERROR) s1).
  { intros Rp K. unfold sendCommandTLS_with. apply stops_bind; [discriminate|]. intros c s2 H2. inversion H2; subst c s2. clear H2.
    destruct (c_bio (s_c s1)) as [b|] eqn:Eb.
    - unfold sys_puts. unfold stops, bind at 1 2, gete. destruct (e_bputs (s_e s1)) as [|r l] eqn:Es.
      + discriminate.
      + unfold bind, upde, emit, ret. destruct r; try discriminate. apply Rec; [|reflexivity].
        unfold budget. cbn. rewrite <- E1, Es. cbn. lia.
    - exfalso. apply N. split; [exact Qb|]. split; [exact Qc|]. split; [congruence|]. split; congruence. }
  destruct (c_rawptr (s_c s1)); [exact Sd|]. destruct (c_kind (s_c s1)); [exact Sd| |]; apply Td; congruence.
Qed.
Lemma cleanup_stops : forall s, ~ stuck (s_c s) -> stops cleanup s.
Proof. intros s N. apply cleanup_f_stops; [unfold cleanup_fuel, budget; lia|exact N]. Qed.

(** In a stuck client cleanup never returns, however long it runs. *)
Lemma stuck_never : forall n s u s', stuck (s_c s) -> cleanup_f n s <> (Done u, s').
Proof.
  induction n as [|n IH]; intros s u s' (Qb & Qc & K & Rp & Bn) H; [discriminate H|].
  rewrite cleanup_f_eq in H. unfold bind at 1, getc in H. rewrite Qb, Qc in H. cbn [andb] in H.
  apply bind_done in H as (v & s1 & H & _). apply bind_done in H as (v' & s2 & H & _).
  unfold sendQuit_with in H. apply bind_done in H as ([] & s3 & H1 & H). unfold logc in H1. apply addLog_core in H1 as (C1 & _). core_facts C1.
  rewrite muted_cmd in H by (split; [congruence|split; congruence]).
  apply bind_done in H as (v4 & s4 & H4 & H). inversion H4; subst. apply bind_done in H as (v5 & s5 & H5 & _).
  refine (IH _ _ _ _ H5). unfold stuck, muted. cbn. split; [congruence|]. split; [congruence|]. split; [congruence|]. split; congruence.
Qed.

(** ** Computations that terminate and keep an invariant of the client *)
Definition same6 (c c' : client) : Prop :=
  c_batch c' = c_batch c /\ c_conn c' = c_conn c /\ c_kind c' = c_kind c /\ c_rawptr c' = c_rawptr c /\
  c_keep c' = c_keep c /\ c_bio c' = c_bio c.
Lemma wait_loop_shorter : forall mk tmo rs w a evs rest, wait_loop mk tmo w rs = (Done a, evs, rest) -> (length rest < length rs)%nat.
Proof.
  induction rs as [|r rs IH]; intros w a evs rest H; cbn in H; [discriminate H|].
  destruct (rbytes r); [|inversion H; subst; cbn; lia]. destruct (w <? tmo)%N; [|inversion H; subst; cbn; lia].
  destruct (wait_loop mk tmo (w + 1) rs) as [[o1 e1] r1] eqn:E. inversion H; subst. apply IH in E. cbn. lia.
Qed.
Lemma raw_loop_shorter : forall fd tmo rs w g acc a evs rest, raw_loop fd tmo w g acc rs = (Done a, evs, rest) -> (length rest < length rs)%nat.
Proof.
  induction rs as [|r rs IH]; intros w g acc o evs rest H; cbn [raw_loop] in H; [discriminate H|].
  destruct (rbytes r).
  - destruct (is_err r && g); [inversion H; subst; cbn; lia|]. destruct (w + 1 <? tmo)%N; [|inversion H; subst; cbn; lia].
    destruct (raw_loop fd tmo (w + 1) g acc rs) as [[o1 e1] r1] eqn:E. inversion H; subst. apply IH in E. cbn. lia.
  - destruct (_ <=? _)%nat; [discriminate H|]. destruct (w <? tmo)%N; [|inversion H; subst; cbn; lia].
    match type of H with context [raw_loop fd tmo w true ?a rs] => destruct (raw_loop fd tmo w true a rs) as [[o1 e1] r1] eqn:E end.
    inversion H; subst. apply IH in E. cbn. lia.
Qed.
(** Functions that read nothing. *)
Definition lk {A} (m : M A) : Prop := forall s, e_recv (s_e (snd (m s))) = e_recv (s_e s) /\ e_bread (s_e (snd (m s))) = e_bread (s_e s).
Lemma lk_bind : forall {A C} (m : M A) (k : A -> M C), lk m -> (forall a, lk (k a)) -> lk (bind m k).
Proof.
  intros A C m k Hm Hk s. unfold bind. destruct (Hm s) as [H1 H2]. destruct (m s) as [o s1]. cbn [snd] in *.
  destruct o as [a| | | | |]; try (split; assumption). destruct (Hk a s1) as [-> ->]. split; assumption.
Qed.
Lemma lk_ret : forall {A} (a : A), lk (ret a). Proof. intros A a s. split; reflexivity. Qed.
Lemma lk_log_errno : forall e, lk (log_errno e).
Proof.
  intros e s. unfold log_errno, setLastSocketErrNo, updc, gete. unfold bind. unfold logc.
  match goal with |- context [addLog ?i ?p ?x] => destruct (addLog i p x) as [o s1] eqn:E; unfold addLog, bind, getc in E end.
  cbv zeta in E. destruct (c_log _); [|inversion E; split; reflexivity].
  repeat match type of E with (if ?b then _ else _) _ = _ => destruct b end; inversion E; split; reflexivity.
Qed.
Lemma lk_fcntl : forall m, lk (sys_fcntl m).
Proof. intros m s. unfold sys_fcntl, bind, getc, gete, upde, emit, ret. destruct (e_fcntl (s_e s)); split; reflexivity. Qed.
Lemma lk_nonblocking : lk setSocketToNonBlocking.
Proof.
  unfold setSocketToNonBlocking. apply lk_bind; [apply lk_fcntl|]. intros g. apply lk_bind; [destruct g; [apply lk_log_errno|apply lk_ret]|].
  intros _. apply lk_bind; [apply lk_fcntl|]. intros [e|]; [apply lk_bind; [apply lk_log_errno|intros _]|]; apply lk_ret.
Qed.
Lemma lk_blocking : lk setSocketToBlocking.
Proof.
  unfold setSocketToBlocking. apply lk_bind; [apply lk_fcntl|]. intros [e|]; [apply lk_bind; [apply lk_log_errno|intros _]; apply lk_ret|].
  apply lk_bind; [apply lk_fcntl|]. intros [e|]; [apply lk_bind; [apply lk_log_errno|intros _]|]; apply lk_ret.
Qed.
Lemma reply_shorter : forall s code s', getServerReply s = (Done code, s') ->
  code = -1 \/ (length (e_recv (s_e s')) + length (e_bread (s_e s')) < length (e_recv (s_e s)) + length (e_bread (s_e s)))%nat.
Proof.
  intros s code s' H. unfold getServerReply, bind, getc in H.
  assert (T : getServerReplyTLS s = (Done code, s') -> code = -1 \/
    (length (e_recv (s_e s')) + length (e_bread (s_e s')) < length (e_recv (s_e s)) + length (e_bread (s_e s)))%nat).
  { clear H. intros H. unfold getServerReplyTLS in H. apply bind_done in H as (r & s1 & H1 & H).
    destruct r as [d|]; [right|left; apply ret_done in H as [-> _]; reflexivity].
    assert (E : s_e s' = s_e s1).
    { apply bind_done in H as (u & s2 & H2 & H). inversion H2; subst. apply bind_done in H as ([] & s3 & H3 & H).
      unfold logs in H3. apply addLog_core in H3 as (_ & E3 & _). apply ret_done in H as [_ ->]. exact E3. }
    rewrite E. unfold wait_bio in H1. unfold bind at 1, getc in H1.
    destruct (c_bio (s_c s)) as [b|].
    - unfold bind at 1, gete in H1. destruct (wait_loop _ _ _ _) as [[o evs] rest] eqn:W.
      apply bind_done in H1 as (u1 & s2 & H2 & H1). inversion H2; subst.
      apply bind_done in H1 as (u3 & s3 & H3 & H1). inversion H3; subst. unfold lift in H1. inversion H1; subst. cbn.
      apply wait_loop_shorter in W. lia.
    - unfold wait_null_bio in H1. apply bind_done in H1 as (c & s2 & H2 & H1). inversion H2; subst.
      apply bind_done in H1 as (u & s3 & H3 & H1). apply ret_done in H1 as [H1 _]. discriminate H1. }
  destruct (c_kind (s_c s)); [|exact (T H)|exact (T H)]. right. clear T.
  unfold getRawCommandReply in H. apply bind_done in H as (nb & s1 & H1 & H).
  assert (L1 := lk_nonblocking s). rewrite H1 in L1. cbn [snd] in L1.
  unfold bind at 1 2, getc, gete in H. destruct (raw_loop _ _ _ _ _ _) as [[o evs] rest] eqn:W.
  apply bind_done in H as (u2 & s2 & H2 & H). inversion H2; subst. apply bind_done in H as (u3 & s3 & H3 & H). inversion H3; subst.
  apply bind_done in H as (x & s4 & H4 & H). unfold lift in H4. inversion H4; subst. destruct x as [[w g] full].
  apply bind_done in H as (z & s5 & H5 & H).
  match type of H5 with setSocketToBlocking ?x = _ => assert (L5 := lk_blocking x) end. rewrite H5 in L5. cbn [snd s_e e_recv e_bread set_recv] in L5.
  assert (E : s_e s' = s_e s5).
  { destruct (_ || g); [|apply ret_done in H as [_ ->]; reflexivity].
    apply bind_done in H as (u & s6 & H6 & H). inversion H6; subst. apply bind_done in H as ([] & s7 & H7 & H).
    unfold logs in H7. apply addLog_core in H7 as (_ & E7 & _). apply ret_done in H as [_ ->]. exact E7. }
  apply raw_loop_shorter in W. rewrite E. destruct L1 as [L1 L1'], L5 as [L5 L5']. rewrite L5, L5', <- L1, <- L1'. lia.
Qed.

Section Terminating.
Variable I : client -> Prop.
Hypothesis stable : forall c c', same6 c c' -> I c -> I c'.
Definition nd {A} (m : M A) : Prop := forall s, I (s_c s) -> stops m s /\ I (s_c (snd (m s))).
Hypothesis nd_cleanup : nd cleanup.

Lemma nd_bind : forall {A C} (m : M A) (k : A -> M C), nd m -> (forall a, nd (k a)) -> nd (bind m k).
Proof.
  intros A C m k Hm Hk s Is. destruct (Hm s Is) as [H1 H2]. unfold stops, bind in *. destruct (m s) as [o s1]. cbn [fst snd] in *.
  destruct o as [a| | | | |]; try (split; [discriminate|exact H2]); [apply (Hk a s1 H2)|congruence].
Qed.
Lemma nd_same : forall {A} (m : M A), (forall s, fst (m s) <> Diverge /\ s_c (snd (m s)) = s_c s) -> nd m.
Proof. intros A m H s Is. destruct (H s) as [H1 H2]. split; [exact H1|rewrite H2; exact Is]. Qed.
Lemma nd_updc : forall f, (forall c, same6 c (f c)) -> nd (updc f).
Proof. intros f H s Is. split; [discriminate|]. cbn. eapply stable; [apply H|exact Is]. Qed.
Lemma nd_lift : forall {A} (o : outcome A), o <> Diverge -> nd (lift o).
Proof. intros A o H. apply nd_same. intros s. split; [exact H|reflexivity]. Qed.
Lemma nd_log : forall i p, nd (addLog i p).
Proof.
  intros i p s Is. split; [apply addLog_stops|]. unfold addLog, bind, getc. destruct (c_log (s_c s)); [|exact Is]. cbv zeta.
  destruct (_ && (MAX_OBJECT <? _)%N); [exact Is|]. destruct (_ && _); [|exact Is]. cbn.
  eapply stable; [|exact Is]. repeat split.
Qed.
Ltac nd0 := apply nd_same; intros; split; [discriminate|reflexivity].
Lemma nd_set_log : forall l n, nd (updc (set_log l n)). Proof. intros. apply nd_updc. repeat split. Qed.
Lemma wait_loop_nd : forall mk tmo rs w o evs rest, wait_loop mk tmo w rs = (o, evs, rest) -> o <> Diverge.
Proof.
  induction rs as [|r rs IH]; intros w o evs rest H; cbn in H; [inversion H; discriminate|].
  destruct (rbytes r); [|inversion H; discriminate]. destruct (w <? tmo)%N; [|inversion H; discriminate].
  destruct (wait_loop mk tmo (w + 1) rs) as [[o1 e1] r1] eqn:E. inversion H; subst. eapply IH, E.
Qed.
Lemma raw_loop_nd : forall fd tmo rs w g acc o evs rest, raw_loop fd tmo w g acc rs = (o, evs, rest) -> o <> Diverge.
Proof.
  induction rs as [|r rs IH]; intros w g acc o evs rest H; cbn [raw_loop] in H; [inversion H; discriminate|].
  destruct (rbytes r).
  - destruct (is_err r && g); [inversion H; discriminate|]. destruct (w + 1 <? tmo)%N; [|inversion H; discriminate].
    destruct (raw_loop fd tmo (w + 1) g acc rs) as [[o1 e1] r1] eqn:E. inversion H; subst. eapply IH, E.
  - destruct (_ <=? _)%nat; [inversion H; discriminate|]. destruct (w <? tmo)%N; [|inversion H; discriminate].
    match type of H with context [raw_loop fd tmo w true ?a rs] => destruct (raw_loop fd tmo w true a rs) as [[o1 e1] r1] eqn:E end.
    inversion H; subst. eapply IH, E.
Qed.
Lemma trimLeft_nd : forall s, trimLeft s <> Diverge.
Proof. induction s as [|c s IH]; cbn; [discriminate|]. destruct (isspace_char c) as [[]|]; congruence. Qed.
Lemma trim_nd : forall s, trim s <> Diverge.
Proof.
  intros s. unfold trim, trimRight. pose proof (trimLeft_nd s). destruct (trimLeft s) as [x| | | | |]; cbn; try congruence.
  pose proof (trimLeft_nd (rev x)). destruct (trimLeft (rev x)); cbn; congruence.
Qed.
Lemma nd_starttls_test : forall p, nd (lift (isStartTLSSupported p)).
Proof.
  intros p. apply nd_lift. unfold isStartTLSSupported. destruct p as [s|]; [|discriminate]. cbv zeta.
  destruct (cstr s) eqn:E; [discriminate|]. rewrite <- E. pose proof (trim_nd (cstr s)). destruct (trim (cstr s)) as [[|]| | | | |]; cbn; congruence.
Qed.
Lemma nd_body : forall fs m, nd (lift (body_real fs m)).
Proof. intros fs m. apply nd_lift. unfold body_real. destruct (m_atts m) as [[|]|[|]]; discriminate. Qed.

Ltac nd1 :=
  lazymatch goal with
  | |- nd getc => nd0
  | |- nd gete => nd0
  | |- nd (ret _) => nd0
  | |- nd (fail_ub _) => nd0
  | |- nd blocked => nd0
  | |- nd killed => nd0
  | |- nd (upde _) => nd0
  | |- nd (emit _) => nd0
  | |- nd (emits _) => nd0
  | |- nd (updc (set_log _ _)) => apply nd_updc; repeat split
  | |- nd (updc (set_sock _)) => apply nd_updc; repeat split
  | |- nd (updc (set_auth _)) => apply nd_updc; repeat split
  | |- nd (updc (set_ctx _)) => apply nd_updc; repeat split
  | |- nd (setLastSocketErrNo _) => apply nd_updc; repeat split
  | |- nd (setLastServerResponse _) => apply nd_updc; repeat split
  | |- nd (lift (isStartTLSSupported _)) => apply nd_starttls_test
  | |- nd (lift (body_real _ _)) => apply nd_body
  | |- nd cleanup => exact nd_cleanup
  | |- nd (logc _) => apply nd_log
  | |- nd (logs _) => apply nd_log
  | |- nd (addLog _ _) => apply nd_log
  | |- nd (bind _ _) => apply nd_bind; [|intros ?]
  | |- nd (if ?b then _ else _) => destruct b
  | |- nd (match ?x with _ => _ end) => destruct x
  end.
Ltac nds := repeat (nd1; cbv zeta).

Lemma nd_send : forall d, nd (sys_send d).
Proof. intros. unfold sys_send. nds. Qed.
Lemma nd_puts : forall b d, nd (sys_puts b d).
Proof. intros. unfold sys_puts. nds. Qed.
Lemma nd_fcntl : forall m, nd (sys_fcntl m).
Proof. intros. unfold sys_fcntl. nds. Qed.
Lemma nd_nonblocking : nd setSocketToNonBlocking.
Proof. unfold setSocketToNonBlocking, log_errno. nds; apply nd_fcntl. Qed.
Lemma nd_blocking : nd setSocketToBlocking.
Proof. unfold setSocketToBlocking, log_errno. nds; apply nd_fcntl. Qed.
Lemma nd_wait_connect : nd wait_connect.
Proof. unfold wait_connect, log_errno. nds. Qed.
Lemma nd_connect : nd sys_connect.
Proof. unfold sys_connect. nds. Qed.
Lemma nd_resolve : forall n, nd (sys_gethostbyname n).
Proof. intros. unfold sys_gethostbyname. nds. Qed.
Lemma nd_initialize : nd initializeSession.
Proof.
  unfold initializeSession, initializeSessionPOSIX, log_errno.
  nds; first [apply nd_nonblocking|apply nd_blocking|apply nd_wait_connect|apply nd_connect|apply nd_resolve].
Qed.
Lemma nd_greeting_result : forall r, nd (greeting_result r).
Proof. intros. unfold greeting_result. nds. Qed.
Lemma nd_greetings : nd checkServerGreetings.
Proof.
  unfold checkServerGreetings. apply nd_bind; [nd0|intros c]. apply nd_bind; [nd0|intros e].
  destruct (wait_loop _ _ _ _) as [[o evs] rest] eqn:W. apply wait_loop_nd in W. nds; [apply nd_lift, W|apply nd_greeting_result].
Qed.
Lemma nd_wait_bio : nd wait_bio.
Proof.
  unfold wait_bio, wait_null_bio. apply nd_bind; [nd0|intros c]. destruct (c_bio c); [|nds]. apply nd_bind; [nd0|intros e].
  destruct (wait_loop _ _ _ _) as [[o evs] rest] eqn:W. apply wait_loop_nd in W. nds. apply nd_lift, W.
Qed.
Lemma nd_greetings_tls : nd checkServerGreetingsTLS.
Proof. unfold checkServerGreetingsTLS. apply nd_bind; [apply nd_wait_bio|intros; apply nd_greeting_result]. Qed.
Lemma nd_raw_reply : nd getRawCommandReply.
Proof.
  unfold getRawCommandReply. apply nd_bind; [apply nd_nonblocking|intros _]. apply nd_bind; [nd0|intros c]. apply nd_bind; [nd0|intros e].
  destruct (raw_loop _ _ _ _ _ _) as [[o evs] rest] eqn:W. apply raw_loop_nd in W. nds; [apply nd_lift, W|apply nd_blocking].
Qed.
Lemma nd_reply_tls : nd getServerReplyTLS.
Proof. unfold getServerReplyTLS. nds. apply nd_wait_bio. Qed.
Lemma nd_reply : nd getServerReply.
Proof. unfold getServerReply. nds; first [apply nd_raw_reply|apply nd_reply_tls]. Qed.
Lemma nd_raw2 : forall d err, nd (sendRaw2 d err).
Proof. intros. unfold sendRaw2, sendRaw2_with. nds. apply nd_send. Qed.
Lemma nd_cmd : forall d err, nd (sendCommandPtr d err).
Proof.
  intros. unfold sendCommandPtr, sendCommandPtr_with, sendRaw2_with, sendCommandTLS_with.
  nds; first [apply nd_send|apply nd_puts].
Qed.
Lemma nd_raw3 : forall d err tmo, nd (sendRaw3 d err tmo).
Proof. intros. unfold sendRaw3. nds; first [apply nd_raw2|apply nd_raw_reply]. Qed.
Lemma nd_feedback : forall d err tmo, nd (sendFeedback d err tmo).
Proof. intros. unfold sendFeedback, sendFeedbackTLS. nds; first [apply nd_raw3|apply nd_puts|apply nd_reply]. Qed.
Lemma nd_fb : forall d err tmo, nd (sendFeedbackPtr d err tmo).
Proof. intros. unfold sendFeedbackPtr. nds; first [apply nd_raw3|apply nd_feedback]. Qed.
Lemma nd_ehlo_loop : forall fuel tmo o s, I (s_c s) -> (length (e_recv (s_e s)) + length (e_bread (s_e s)) < fuel)%nat ->
  stops (ehlo_loop fuel tmo o) s /\ I (s_c (snd (ehlo_loop fuel tmo o s))).
Proof.
  induction fuel as [|f IH]; intros tmo o s Is L; [lia|]. cbn [ehlo_loop].
  destruct (containsAllOptions o). { assert (X : nd (updc (set_auth (extractAuthenticationOptions (Some o)));; ret 250)) by nds. exact (X s Is). }
  destruct (nd_reply s Is) as [D I1]. unfold stops in *. unfold bind. pose proof (reply_shorter s) as RS.
  destruct (getServerReply s) as [x s1]. cbn [fst snd] in *. destruct x as [code| | | | |]; try (split; [discriminate|exact I1]); [|congruence].
  specialize (RS _ _ eq_refl). destruct (code =? -1) eqn:Ec; [split; [discriminate|exact I1]|].
  destruct (negb (code =? 250)); [split; [discriminate|exact I1]|]. unfold getc.
  destruct (c_resp (s_c s1)); [|split; [discriminate|exact I1]]. apply IH; [exact I1|]. destruct RS as [->|RS]; [discriminate Ec|lia].
Qed.
Lemma nd_ehlo : forall err tmo, nd (ehlo_with err tmo).
Proof.
  intros. unfold ehlo_with. apply nd_bind; [nds|intros _]. apply nd_bind; [apply nd_feedback|intros code]. destruct (negb _); [nds|].
  apply nd_bind; [nds|intros c]. destruct (c_resp c); [|nds]. intros s1 I1. unfold stops, bind, gete.
  apply nd_ehlo_loop; [exact I1|lia].
Qed.
Lemma nd_auth : nd authenticate_if_needed.
Proof. unfold authenticate_if_needed, authenticateClient, authPlain, authLogin, authXOauth2. nds; apply nd_fb. Qed.
Lemma nd_upgrade : nd upgradeToSecureConnection.
Proof. unfold upgradeToSecureConnection. nds. apply nd_raw3. Qed.

Lemma nd_mail_from : forall fmts last, nd (mail_from_loop fmts last).
Proof. induction fmts as [|f r IH]; intros last; cbn [mail_from_loop]; nds; first [apply nd_fb|apply IH]. Qed.
Lemma nd_add : forall l r, nd (addMailRecipients l r).
Proof. induction l as [|a l IH]; intros r; cbn [addMailRecipients]; nds; first [apply nd_fb|apply IH]. Qed.
Lemma nd_recipients_loop : forall ls, nd (recipients_loop ls).
Proof. induction ls as [|[n|l] ls IH]; cbn [recipients_loop]; nds; first [apply nd_add|apply IH]. Qed.
Lemma nd_chunks : forall l err, nd (send_chunks l err).
Proof. induction l as [|x l IH]; intros err; cbn [send_chunks]; nds; first [apply nd_cmd|apply IH]. Qed.
Lemma nd_address_header : forall f a, nd (address_header f a).
Proof. intros f [[|n]|[|x l]]; cbn [address_header]; unfold addMailHeader; nds; apply nd_cmd. Qed.
Lemma nd_quit : nd sendQuitCommand.
Proof. unfold sendQuitCommand, sendQuit_with. nds. apply (nd_cmd (B "QUIT" ++ CRLF)). Qed.
Lemma nd_transaction : forall m, nd (mail_transaction m).
Proof.
  intros m. unfold mail_transaction, setMailRecipients, setMailHeaders, setMailBody, addMailHeader.
  nds; first [apply nd_mail_from|apply nd_recipients_loop|apply nd_fb|apply nd_cmd|apply nd_address_header|apply nd_chunks|apply nd_quit].
Qed.

(** While the connection is being established nothing depends on the channel. *)
Hypothesis any_bio : forall b c, I c -> I (set_bio b c).
Hypothesis any_keep : forall b c, I c -> I (set_keep b c).
Lemma nd_set_bio : forall b, nd (updc (set_bio b)).
Proof. intros b s Is. split; [discriminate|]. apply any_bio, Is. Qed.
Lemma nd_set_keep : forall b, nd (updc (set_keep b)).
Proof. intros b s Is. split; [discriminate|]. apply any_keep, Is. Qed.
Lemma nd_starttls : nd startTLSNegotiation.
Proof. unfold startTLSNegotiation, fresh_id. nds; apply nd_set_bio. Qed.
Lemma nd_establish : nd establish.
Proof.
  unfold establish, establishPlain, establishOpp, establishForced, sendServerIdentification, getServerSecureIdentification.
  nds; first [apply nd_initialize|apply nd_greetings|apply nd_greetings_tls|apply nd_ehlo|apply nd_auth|apply nd_upgrade|apply nd_starttls|apply nd_set_keep].
Qed.
End Terminating.
