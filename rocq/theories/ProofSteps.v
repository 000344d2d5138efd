(** Every run of a client function is a path of elementary steps.  Properties
    that hold for every network behaviour are proved by induction on paths. *)

From Coq Require Import Ascii String List NArith ZArith Bool Lia ZifyBool ZifyNat ZifyN.
From Verif Require Import Base Lib ModelUtil ModelBase64 ModelAddress ModelAttachment
  ModelErrors ModelReply ModelMessage ModelState ModelClient.
Import ListNotations.
Open Scope Z_scope.

(** ** Elementary steps *)

Inductive label :=
| LEnv | LLog | LNewLog | LErrno | LResp | LAuth | LConn | LSocket | LNet | LFcntl | LClose
| LSend (d : str) | LPuts (d : str) | LUpgrade | LRead | LTls | LKeep
| LNull.   (* no step: allows a null array of the message to be dereferenced *)

(** A change of the environment other than consuming a socket() result or a
    fresh identity. *)
Definition env_step (e e' : env) : Prop :=
  e_sock e' = e_sock e /\ e_fs e' = e_fs e /\ e_strerror e' = e_strerror e /\
  e_x509str e' = e_x509str e /\ e_next e' = e_next e /\
  (length (e_send e') + length (e_bputs e') <= length (e_send e) + length (e_bputs e))%nat.

Definition log_state (s : st) (lg : logbuf) (n : N) : st :=
  mkSt (set_log (Some lg) n (s_c s)) (s_e s) (s_t s).
Definition ev_state (s : st) (ev : event) : st := mkSt (s_c s) (s_e s) (s_t s ++ [ev]).
Definition c_state (s : st) (f : client -> client) : st := mkSt (f (s_c s)) (s_e s) (s_t s).

Inductive net_event (c : client) : event -> Prop :=
| ne_resolve : forall host ok, c_server c = Some host -> net_event c (EvResolve host ok)
| ne_connect : forall ok, net_event c (EvConnect (c_sock c) (c_port c mod 65536)%N ok)
| ne_select : net_event c (EvSelect (c_sock c) (c_timeout c)).

Inductive read_event (c : client) : event -> Prop :=
| re_recv : forall r, read_event c (EvRecv (c_sock c) r)
| re_read : forall b r, c_bio c = Some b -> read_event c (EvRead (bio_id b) r)
| re_sleep : forall n, (n <= N.max 1 (c_timeout c))%N -> read_event c (EvSleep n).

Inductive tls_event (c : client) : event -> Prop :=
| te_handshake : forall b ok, c_bio c = Some b -> tls_event c (EvHandshake (bio_id b) ok)
| te_cert : forall b ok, c_bio c = Some b -> tls_event c (EvCert (bio_id b) ok)
| te_verify : forall b r h, c_bio c = Some b -> tls_event c (EvVerify (bio_id b) r h).

(** What cleanup does after QUIT. *)
Definition teardown (s : st) : st :=
  let c := s_c s in
  let closing := if c_sock c =? 0 then [] else [EvClose (c_sock c)] in
  match c_kind c with
  | KPlain => mkSt (set_sock 0 (set_conn false c)) (s_e s) (s_t s ++ closing)
  | _ => mkSt (set_sock 0 (set_bio None (set_ctx None (set_conn false c)))) (s_e s)
           (s_t s ++ (match c_ctx c with Some i => [EvCtxFree i] | None => [] end)
                  ++ (match c_bio c with Some b => [EvBioFree (bio_id b)] | None => [] end) ++ closing)
  end.

(** Why a command goes to the unencrypted socket. *)
Definition STARTTLS : str := B "STARTTLS" ++ CRLF.
Definition clear_reason (c : client) : Prop :=
  c_rawptr c = true \/ c_kind c = KPlain \/ c_bio c = None.

(** The bytes received so far, on any channel. *)
Definition read_bytes (ev : event) : str :=
  match ev with EvRecv _ r | EvRead _ r => rbytes r | _ => [] end.
Definition received (t : list event) : str := flat_map read_bytes t.

Inductive estep : label -> st -> st -> Prop :=
| es_env : forall s e', env_step (s_e s) e' -> estep LEnv s (mkSt (s_c s) e' (s_t s))
| es_log : forall s item prefix s', addLog item prefix s = (Done tt, s') -> estep LLog s s'
| es_newlog : forall s, estep LNewLog s
    (log_state s (mkLog [] INITIAL_COMM_LOG_LENGTH) INITIAL_COMM_LOG_LENGTH)
| es_errno : forall s z, estep LErrno s (c_state s (set_errno z))
| es_resp : forall s r, (forall x, In x r -> In x (received (s_t s))) ->
    estep LResp s (c_state s (set_resp (Some r)))
| es_auth : forall s o, estep LAuth s (c_state s (set_auth o))
| es_conn : forall s, estep LConn s (c_state s (set_conn true))
| es_socket : forall s r l, e_sock (s_e s) = r :: l ->
    estep LSocket s (mkSt (set_sock (match r with SkFd n => Z.of_N n | SkErr _ => -1 end) (s_c s))
                          (set_esock l (s_e s)) (s_t s ++ [EvSocket r]))
| es_net : forall s ev, net_event (s_c s) ev -> estep LNet s (ev_state s ev)
| es_fcntl : forall s m ok, estep LFcntl s (ev_state s (EvFcntl (c_sock (s_c s)) m ok))
| es_close : forall s, estep LClose s (teardown s)
| es_send : forall s d r, clear_reason (s_c s) -> estep (LSend d) s (ev_state s (EvSend (c_sock (s_c s)) d r))
| es_upgrade : forall s r, c_kind (s_c s) = KOpp -> estep LUpgrade s (ev_state s (EvSend (c_sock (s_c s)) STARTTLS r))
| es_puts : forall s b d r, c_bio (s_c s) = Some b -> c_kind (s_c s) <> KPlain ->
    estep (LPuts d) s (ev_state s (EvPuts (bio_id b) d r))
| es_read : forall s ev, read_event (s_c s) ev -> estep LRead s (ev_state s ev)
| es_tls : forall s ev, tls_event (s_c s) ev -> estep LTls s (ev_state s ev)
| es_ctx_none : forall s, estep LTls s (c_state s (set_ctx None))
| es_bio_none : forall s, estep LTls s (c_state s (set_bio None))
| es_ctx_new : forall s, estep LTls s
    (mkSt (set_ctx (Some (e_next (s_e s))) (s_c s)) (set_next (S (e_next (s_e s))) (s_e s))
          (s_t s ++ [EvCtxNew (e_next (s_e s))]))
| es_bio_new : forall s, estep LTls s
    (mkSt (set_bio (Some (mkBio (e_next (s_e s)) (c_sock (s_c s)))) (s_c s))
          (set_next (S (e_next (s_e s))) (s_e s))
          (s_t s ++ [EvBioNew (e_next (s_e s)) (c_sock (s_c s))]))
| es_keep : forall s, estep LKeep s (c_state s (set_keep true)).

Inductive steps (P : label -> Prop) : st -> st -> Prop :=
| st_refl : forall s, steps P s s
| st_step : forall l s1 s2 s3, estep l s1 s2 -> P l -> steps P s2 s3 -> steps P s1 s3.

Lemma steps_trans : forall P a b c, steps P a b -> steps P b c -> steps P a c.
Proof. intros P a b c H. induction H; auto. intros. eapply st_step; eauto. Qed.
Lemma steps_one : forall (P : label -> Prop) l a b, estep l a b -> P l -> steps P a b.
Proof. intros. eapply st_step; eauto. apply st_refl. Qed.
Lemma steps_mono : forall (P Q : label -> Prop) a b, steps P a b -> (forall l, P l -> Q l) -> steps Q a b.
Proof. intros P Q a b H HPQ. induction H; [apply st_refl|]. eapply st_step; eauto. Qed.
Lemma steps_inv : forall (P : label -> Prop) (I : st -> Prop) a b,
  (forall l s s', P l -> estep l s s' -> I s -> I s') -> steps P a b -> I a -> I b.
Proof. intros P I a b H S. induction S; auto. intros. apply IHS. eapply H; eauto. Qed.

(** ** Where undefined behaviour can happen *)

Definition stuck (P : label -> Prop) (u : ub) (s : st) : Prop :=
  match u with
  | UB_NullDeref PLog => c_log (s_c s) = None
  | UB_NullDeref PServer => c_server (s_c s) = None
  | UB_NullDeref PAuth => c_auth (s_c s) = None /\ c_cred (s_c s) <> None
  | UB_NullDeref PResp => False
  | UB_NullDeref PArray => P LNull
  | UB_NullDeref PArg => False
  | UB_BufferOverflow BufLog => exists item prefix, fst (addLog item prefix s) = Undef (UB_BufferOverflow BufLog)
  | UB_BufferOverflow BufRecv => exists t fd d, s_t s = t ++ [EvRecv fd (RData d)] /\ (1024 <= length d)%nat
  | UB_BufferOverflow BufHost => exists t host, s_t s = t ++ [EvResolve host true]
  | UB_BufferOverflow BufEndpoint => exists name, c_server (s_c s) = Some name /\
      (1024 < slen name + 1 + slen (dec_of_N (c_port (s_c s))) + 1)%N
  | UB_BufferOverflow BufCaller => False
  | UB_FdSet => 1024 <= c_sock (s_c s)
  | UB_IsspaceNegative => exists r, c_resp (s_c s) = Some r /\ isStartTLSSupported (Some r) = Undef UB_IsspaceNegative
  | _ => False
  end.

Definition walk {A} (P : label -> Prop) (m : M A) (s : st) : Prop :=
  steps P s (snd (m s)) /\ forall u, fst (m s) = Undef u -> stuck P u (snd (m s)).

Lemma walk_bind : forall {A C} P (m : M A) (k : A -> M C) s,
  walk P m s -> (forall a s1, m s = (Done a, s1) -> steps P s s1 -> walk P (k a) s1) -> walk P (bind m k) s.
Proof.
  intros A C P m k s [H1 H2] H. unfold walk, bind in *. destruct (m s) as [o s1].
  destruct o; simpl in *; try (split; [assumption|intros ? X; discriminate X]).
  - destruct (H a s1 eq_refl H1) as [H3 H4]. split; [|assumption]. eapply steps_trans; eauto.
  - split; [assumption|]. intros u0 X. inversion X; subst. apply H2. reflexivity.
Qed.

Lemma walk_mono : forall {A} (P Q : label -> Prop) (m : M A) s,
  walk P m s -> (forall l, P l -> Q l) -> walk Q m s.
Proof.
  intros A P Q m s [H1 H2] H. split; [eapply steps_mono; eauto|]. intros u E. specialize (H2 u E).
  destruct u; try exact H2. destruct p; try exact H2. apply H. exact H2.
Qed.

Lemma walk_ret : forall {A} P (a : A) s, walk P (ret a) s.
Proof. intros. split; [apply st_refl|discriminate]. Qed.
Lemma walk_getc : forall {C} P (k : client -> M C) s, walk P (k (s_c s)) s -> walk P (bind getc k) s.
Proof. intros C P k s H. exact H. Qed.
Lemma walk_gete : forall {C} P (k : env -> M C) s, walk P (k (s_e s)) s -> walk P (bind gete k) s.
Proof. intros C P k s H. exact H. Qed.
Lemma walk_blocked : forall {A} P s, walk P (@blocked A) s.
Proof. intros. split; [apply st_refl|discriminate]. Qed.
Lemma walk_killed : forall {A} P s, walk P (@killed A) s.
Proof. intros. split; [apply st_refl|discriminate]. Qed.
Lemma walk_diverge : forall {A} P s, walk P (@diverge A) s.
Proof. intros. split; [apply st_refl|discriminate]. Qed.
Lemma walk_ub : forall {A} P u s, stuck P u s -> walk P (@fail_ub A u) s.
Proof. intros A P u s H. split; [apply st_refl|]. intros v E. inversion E; subst. exact H. Qed.
Lemma walk_updc : forall (P : label -> Prop) l f s, estep l s (c_state s f) -> P l -> walk P (updc f) s.
Proof. intros. split; [eapply steps_one; eauto|discriminate]. Qed.
Lemma walk_upde : forall (P : label -> Prop) f s, env_step (s_e s) (f (s_e s)) -> P LEnv -> walk P (upde f) s.
Proof. intros. split; [|discriminate]. eapply steps_one; [|eassumption]. apply es_env. assumption. Qed.
Lemma walk_emit : forall (P : label -> Prop) l ev s, estep l s (ev_state s ev) -> P l -> walk P (emit ev) s.
Proof. intros. split; [eapply steps_one; eauto|discriminate]. Qed.
Lemma walk_emits : forall (P : label -> Prop) l evs s,
  (forall ev, In ev evs -> read_event (s_c s) ev) -> P l -> l = LRead -> walk P (emits evs) s.
Proof.
  intros P l evs s H HP ->. split; [|discriminate]. simpl. destruct s as [c e t]. simpl in *. revert t.
  induction evs as [|ev evs IH]; intros t.
  - rewrite app_nil_r. apply st_refl.
  - eapply st_step; [|eassumption|].
    + apply (es_read (mkSt c e t) ev). apply H. left. reflexivity.
    + unfold ev_state. simpl. replace (t ++ ev :: evs) with ((t ++ [ev]) ++ evs) by (rewrite <- app_assoc; reflexivity).
      apply IH. intros. apply H. right. assumption.
Qed.

(** ** Log *)

Lemma walk_addLog : forall (P : label -> Prop) item prefix s, P LLog -> walk P (addLog item prefix) s.
Proof.
  intros P item prefix s HP. destruct (addLog item prefix s) as [o s'] eqn:E.
  assert (X : (o = Done tt) \/ (s' = s /\ (o = Throw \/ (o = Undef (UB_NullDeref PLog) /\ c_log (s_c s) = None) \/
    o = Undef (UB_BufferOverflow BufLog)))).
  { unfold addLog, bind, getc in E. destruct (c_log (s_c s)) as [lg|] eqn:L.
    - cbv zeta in E. repeat match type of E with (if ?b then _ else _) _ = _ => destruct b end;
        unfold lift, updc, fail_ub in E; inversion E; subst; auto 6.
    - inversion E; subst; auto 8. }
  unfold walk. rewrite E. simpl. destruct X as [->|[-> [->|[[-> L]| ->]]]].
  - destruct (addLog item prefix s) eqn:F in E. split; [|discriminate].
    eapply steps_one; [|exact HP]. eapply es_log. rewrite F. exact E.
  - split; [apply st_refl|discriminate].
  - split; [apply st_refl|]. intros u H. inversion H; subst. exact L.
  - split; [apply st_refl|]. intros u H. inversion H; subst. exists item, prefix. rewrite E. reflexivity.
Qed.

Lemma walk_logc : forall (P : label -> Prop) item s, P LLog -> walk P (logc item) s.
Proof. intros. unfold logc. apply walk_addLog. assumption. Qed.
Lemma walk_logs : forall (P : label -> Prop) item s, P LLog -> walk P (logs item) s.
Proof. intros. unfold logs. apply walk_addLog. assumption. Qed.

(** ** Tactic *)

Ltac env_tac := repeat split; simpl; try reflexivity; try lia.

Definition log_label (l : label) : Prop := match l with LLog | LErrno => True | _ => False end.

Ltac step_label := first [exact I | assumption | auto].

Ltac walk1 :=
  match goal with
  | |- walk _ (bind getc _) _ => apply walk_getc
  | |- walk _ (bind gete _) _ => apply walk_gete
  | |- walk _ (bind _ _) _ => apply walk_bind; [|intros]
  | |- walk _ (ret _) _ => apply walk_ret
  | |- walk _ blocked _ => apply walk_blocked
  | |- walk _ killed _ => apply walk_killed
  | |- walk _ diverge _ => apply walk_diverge
  | |- walk _ (logc _) _ => apply walk_logc; step_label
  | |- walk _ (logs _) _ => apply walk_logs; step_label
  | |- walk _ (addLog _ _) _ => apply walk_addLog; step_label
  | |- walk _ (setLastSocketErrNo _) _ => eapply walk_updc; [apply es_errno|step_label]
  | |- walk _ (updc (set_errno _)) _ => eapply walk_updc; [apply es_errno|step_label]
  | |- walk _ (updc (set_auth _)) _ => eapply walk_updc; [apply es_auth|step_label]
  | |- walk _ (updc (set_conn true)) _ => eapply walk_updc; [apply es_conn|step_label]
  | |- walk _ (updc (set_keep true)) _ => eapply walk_updc; [apply es_keep|step_label]
  | |- walk _ (updc (set_ctx None)) _ => eapply walk_updc; [apply es_ctx_none|step_label]
  | |- walk _ (updc (set_bio None)) _ => eapply walk_updc; [apply es_bio_none|step_label]
  | |- walk _ (if ?b then _ else _) _ => destruct b eqn:?
  | |- walk _ (match ?x with _ => _ end) _ => destruct x eqn:?
  end.
Ltac walks := repeat walk1.

Section Walks.
Variable P : label -> Prop.

Section Logs.
Hypothesis PL : P LLog.
Hypothesis PE : P LErrno.

Lemma walk_log_errno : forall er s, walk P (log_errno er) s.
Proof. intros. unfold log_errno. walks. Qed.

Hypothesis PV : P LEnv.
Hypothesis PF : P LFcntl.

Lemma walk_fcntl : forall m s, walk P (sys_fcntl m) s.
Proof.
  intros. unfold sys_fcntl. apply walk_getc, walk_gete. destruct (e_fcntl (s_e s)) eqn:E.
  - walks. eapply walk_emit; [apply es_fcntl|assumption].
  - apply walk_bind; [apply walk_upde; [env_tac|assumption]|]. intros ? s1 H _. inversion H; subst.
    walks. eapply walk_emit; [|eassumption]. simpl.
    change (c_sock (s_c s)) with (c_sock (s_c (mkSt (s_c s) (set_fcntl l (s_e s)) (s_t s)))). apply es_fcntl.
Qed.

Lemma walk_nonblocking : forall s, walk P setSocketToNonBlocking s.
Proof. intros. unfold setSocketToNonBlocking. walks; try apply walk_fcntl; apply walk_log_errno. Qed.
Lemma walk_blocking : forall s, walk P setSocketToBlocking s.
Proof. intros. unfold setSocketToBlocking. walks; try apply walk_fcntl; apply walk_log_errno. Qed.

Hypothesis PN : P LNet.

Lemma walk_gethostbyname : forall name s, c_server (s_c s) = Some name -> walk P (sys_gethostbyname name) s.
Proof.
  intros name s H. unfold sys_gethostbyname. apply walk_gete. destruct (e_host (s_e s)) eqn:E.
  - walks. eapply walk_emit; [apply es_net; constructor; assumption|assumption].
  - apply walk_bind; [apply walk_upde; [env_tac|assumption]|]. intros ? s1 H1 _. inversion H1; subst.
    walks. eapply walk_emit; [|eassumption]. apply es_net. constructor. assumption.
Qed.

Lemma walk_connect : forall s, walk P sys_connect s.
Proof.
  intros. unfold sys_connect. apply walk_getc, walk_gete. destruct (e_conn (s_e s)) eqn:E.
  - walks. eapply walk_emit; [apply es_net; constructor|assumption].
  - apply walk_bind; [apply walk_upde; [env_tac|assumption]|]. intros ? s1 H1 _. inversion H1; subst.
    walks. eapply walk_emit; [|eassumption]. apply es_net.
    change (c_sock (s_c s)) with (c_sock (s_c (mkSt (s_c s) (set_econn l (s_e s)) (s_t s)))).
    change (c_port (s_c s)) with (c_port (s_c (mkSt (s_c s) (set_econn l (s_e s)) (s_t s)))). constructor.
Qed.

Lemma walk_wait_connect : forall s, walk P wait_connect s.
Proof.
  intros. unfold wait_connect. apply walk_getc. destruct (FD_SETSIZE <=? c_sock (s_c s)) eqn:E.
  - apply walk_ub. simpl. unfold FD_SETSIZE in E. lia.
  - walks; try apply walk_log_errno; try (apply walk_upde; [env_tac|assumption]).
    eapply walk_emit; [apply es_net; constructor|assumption].
Qed.

Hypothesis PS : P LSocket.

Lemma gethostbyname_event : forall name s r s1, sys_gethostbyname name s = (Done r, s1) ->
  s_c s1 = s_c s /\
  s_t s1 = s_t s ++ [EvResolve name (match r with Some n => 0 <=? n | None => false end)].
Proof.
  intros name s r s1 H. unfold sys_gethostbyname, bind, gete, ret, emit, upde in H.
  destruct (e_host (s_e s)); inversion H; subst; auto.
Qed.

Lemma walk_session : forall s, walk P initializeSessionPOSIX s.
Proof.
  intros s. unfold initializeSessionPOSIX. apply walk_gete. destruct (e_sock (s_e s)) as [|r l] eqn:E; [walks|].
  assert (S1 := es_socket s r l E). destruct r as [n|er].
  - match goal with |- walk _ (bind ?a (fun _ => bind ?b (fun _ => bind ?c ?k))) s =>
      change (walk P (bind (bind a (fun _ => bind b (fun _ => c))) k) s) end.
    apply walk_bind; [split; [eapply steps_one; [exact S1|assumption]|discriminate]|].
    intros a s1 H _. inversion H; subst. clear H. apply walk_getc. cbn [s_c].
    change (c_server (set_sock (Z.of_N n) (s_c s))) with (c_server (s_c s)).
    destruct (c_server (s_c s)) as [name|] eqn:N; [|apply walk_ub; exact N].
    apply walk_bind; [apply walk_gethostbyname; exact N|]. intros h s2 H2 _.
    destruct (gethostbyname_event _ _ _ _ H2) as [C2 T2].
    destruct h as [len|]; [|walks].
    destruct (len <? 0) eqn:L0; [walks|]. destruct (4 <? len) eqn:L4.
    + apply walk_ub. simpl. rewrite T2. do 2 eexists. f_equal.
      replace (0 <=? len) with true by lia. reflexivity.
    + walks; try apply walk_nonblocking; try apply walk_connect; try apply walk_blocking;
        try apply walk_wait_connect; try apply walk_log_errno.
  - match goal with |- walk _ (bind ?a (fun _ => bind ?b (fun _ => bind ?c ?k))) s =>
      change (walk P (bind (bind a (fun _ => bind b (fun _ => c))) k) s) end.
    apply walk_bind; [split; [eapply steps_one; [exact S1|assumption]|discriminate]|].
    intros. walks. apply walk_log_errno.
Qed.

Hypothesis PNL : P LNewLog.
Lemma walk_initialize : forall s, walk P initializeSession s.
Proof.
  intros. unfold initializeSession. apply walk_bind; [|intros; apply walk_session].
  split; [|discriminate]. eapply steps_one; [apply es_newlog|assumption].
Qed.

(** ** Receiving *)

Hypothesis PR : P LRead.
Hypothesis PRe : P LResp.

Lemma wait_loop_events : forall (c : client) mk, (forall r, read_event c (mk r)) ->
  forall rs timeout wait o evs rest,
  wait_loop mk timeout wait rs = (o, evs, rest) ->
  (forall u, o <> Undef u) /\ forall ev, In ev evs -> read_event c ev.
Proof.
  intros c mk Hmk. induction rs as [|r rs IH]; intros timeout wait o evs rest H; simpl in H.
  - inversion H; subst. split; [discriminate|intros ? []].
  - destruct (rbytes r).
    + destruct (wait <? timeout)%N.
      * destruct (wait_loop mk timeout (wait + 1)%N rs) as [[o' evs'] rest'] eqn:E.
        inversion H; subst. destruct (IH _ _ _ _ _ E) as [I1 I2]. split; [assumption|].
        intros ev [<-|[<-|Hin]]; [apply Hmk|constructor; lia|auto].
      * inversion H; subst. split; [discriminate|]. intros ev [<-|[]]. apply Hmk.
    + inversion H; subst. split; [discriminate|]. intros ev [<-|[]]. apply Hmk.
Qed.

Lemma wait_loop_bytes : forall mk, (forall r, read_bytes (mk r) = rbytes r) ->
  forall rs timeout wait d evs rest, wait_loop mk timeout wait rs = (Done (Some d), evs, rest) ->
  forall x, In x d -> In x (flat_map read_bytes evs).
Proof.
  intros mk Hmk. induction rs as [|r rs IH]; intros timeout wait d evs rest H x Hx; simpl in H; [discriminate H|].
  destruct (rbytes r) eqn:E.
  - destruct (wait <? timeout)%N; [|discriminate H].
    destruct (wait_loop mk timeout (wait + 1)%N rs) as [[o' evs'] rest'] eqn:F. inversion H; subst.
    simpl. apply in_or_app. right. eapply IH; eauto.
  - destruct (wait <? timeout)%N; inversion H; subst. simpl. rewrite Hmk, E, app_nil_r. assumption.
Qed.

Lemma cstr_in : forall s x, In x (cstr s) -> In x s.
Proof.
  induction s as [|c s IH]; intros x H; [destruct H|]. simpl in *. destruct (Ascii.eqb c NUL); [destruct H|].
  destruct H as [->|H]; auto.
Qed.
Lemma firstn_in : forall {A} n (l : list A) x, In x (firstn n l) -> In x l.
Proof.
  intros A n. induction n as [|n IH]; intros [|y l] x H; simpl in *; try tauto. destruct H as [->|H]; auto.
Qed.
Lemma drop_last_in : forall d x, In x (drop_last_byte d) -> In x d.
Proof. intros d x H. unfold drop_last_byte in H. apply cstr_in, firstn_in in H. exact H. Qed.

Lemma walk_response : forall r s, (forall x, In x r -> In x (received (s_t s))) -> walk P (setLastServerResponse r) s.
Proof.
  intros r s H. unfold setLastServerResponse. eapply walk_updc; [apply es_resp|exact PRe].
  intros x Hx. apply H. apply cstr_in. assumption.
Qed.

Lemma walk_greeting_result : forall r s, walk P (greeting_result r) s.
Proof. intros. unfold greeting_result. walks. Qed.

Lemma walk_lift : forall {A} (o : outcome A) s, (forall u, o = Undef u -> stuck P u s) -> walk P (lift o) s.
Proof. intros. split; [apply st_refl|]. simpl. assumption. Qed.

Lemma walk_greetings : forall s, walk P checkServerGreetings s.
Proof.
  intros s. unfold checkServerGreetings. apply walk_getc, walk_gete.
  destruct (wait_loop (EvRecv (c_sock (s_c s))) (c_timeout (s_c s)) 0 (e_recv (s_e s))) as [[o evs] rest] eqn:E.
  destruct (wait_loop_events (s_c s) _ (re_recv (s_c s)) _ _ _ _ _ _ E) as [H1 H2].
  apply walk_bind; [apply walk_upde; [env_tac|assumption]|]. intros ? s1 X _. inversion X; subst; clear X.
  apply walk_bind; [eapply walk_emits; [exact H2|exact PR|reflexivity]|]. intros ? s2 X _. inversion X; subst; clear X.
  apply walk_bind; [apply walk_lift; intros u Hu; destruct (H1 u Hu)|]. intros. apply walk_greeting_result.
Qed.

Lemma walk_wait_bio : forall s, walk P wait_bio s.
Proof.
  intros s. unfold wait_bio. apply walk_getc. destruct (c_bio (s_c s)) as [b|] eqn:Eb.
  - apply walk_gete.
    destruct (wait_loop (EvRead (bio_id b)) (c_timeout (s_c s)) 0 (e_bread (s_e s))) as [[o evs] rest] eqn:E.
    destruct (wait_loop_events (s_c s) _ (fun r => re_read (s_c s) b r Eb) _ _ _ _ _ _ E) as [H1 H2].
    apply walk_bind; [apply walk_upde; [env_tac|assumption]|]. intros ? s1 X _. inversion X; subst; clear X.
    apply walk_bind; [eapply walk_emits; [exact H2|exact PR|reflexivity]|]. intros ? s2 X _. inversion X; subst; clear X.
    apply walk_lift; intros u Hu; destruct (H1 u Hu).
  - unfold wait_null_bio. apply walk_getc. walks.
    eapply walk_emit; [apply es_read; constructor; lia|assumption].
Qed.

Lemma received_app : forall a b, received (a ++ b) = received a ++ received b.
Proof. intros. unfold received. apply flat_map_app. Qed.

Lemma wait_bio_bytes : forall s d s1, wait_bio s = (Done (Some d), s1) ->
  forall x, In x d -> In x (received (s_t s1)).
Proof.
  intros s d s1 H x Hx. unfold wait_bio, bind at 1, getc in H. destruct (c_bio (s_c s)) as [b|].
  - unfold bind at 1, gete in H.
    destruct (wait_loop (EvRead (bio_id b)) (c_timeout (s_c s)) 0 (e_bread (s_e s))) as [[o evs] rest] eqn:E.
    unfold bind, upde, emits, lift in H. destruct o; inversion H; subst. simpl. rewrite received_app.
    apply in_or_app. right. eapply (wait_loop_bytes (EvRead (bio_id b))); [reflexivity|exact E|exact Hx].
  - unfold wait_null_bio, bind, getc in H. destruct (0 <? c_timeout (s_c s))%N; inversion H.
Qed.

Lemma walk_greetings_tls : forall s, walk P checkServerGreetingsTLS s.
Proof. intros. unfold checkServerGreetingsTLS. walks; [apply walk_wait_bio|apply walk_greeting_result]. Qed.

Lemma raw_loop_events : forall (c : client) rs timeout wait got acc o evs rest,
  raw_loop (c_sock c) timeout wait got acc rs = (o, evs, rest) ->
  (forall u, o = Undef u -> u = UB_BufferOverflow BufRecv /\
     exists t fd d, evs = t ++ [EvRecv fd (RData d)] /\ (1024 <= length d)%nat) /\
  forall ev, In ev evs -> read_event c ev.
Proof.
  intros c. induction rs as [|r rs IH]; intros timeout wait got acc o evs rest H; cbn [raw_loop] in H.
  - inversion H; subst. split; [discriminate|intros ? []].
  - destruct (rbytes r) as [|x d] eqn:Er.
    + destruct (is_err r && got).
      * inversion H; subst. split; [discriminate|]. intros ev [<-|[]]. constructor.
      * destruct (wait + 1 <? timeout)%N.
        -- destruct (raw_loop (c_sock c) timeout (wait + 1)%N got acc rs) as [[o' evs'] rest'] eqn:E.
           inversion H; subst. destruct (IH _ _ _ _ _ _ _ E) as [I1 I2]. split.
           ++ intros u Hu. destruct (I1 u Hu) as (-> & t & fd & d & -> & L). split; [reflexivity|].
              exists (EvRecv (c_sock c) r :: EvSleep 1 :: t), fd, d. auto.
           ++ intros ev [<-|[<-|Hin]]; [constructor|constructor; lia|auto].
        -- inversion H; subst. split; [discriminate|]. intros ev [<-|[<-|[]]]; constructor. lia.
    + destruct (SERVERRESPONSE_BUFFER_LENGTH <=? length (x :: d))%nat eqn:L.
      * inversion H; subst. split.
        -- intros u Hu. inversion Hu; subst. split; [reflexivity|].
           destruct r as [dd|]; [|discriminate Er]. exists [], (c_sock c), dd. split; [reflexivity|].
           unfold rbytes in Er. apply Nat.leb_le in L. rewrite <- Er in L. rewrite firstn_length in L.
           unfold SERVERRESPONSE_BUFFER_LENGTH in L. lia.
        -- intros ev [<-|[]]. constructor.
      * destruct (wait <? timeout)%N.
        -- destruct (raw_loop (c_sock c) timeout wait true (acc ++ cstr (x :: d)) rs) as [[o' evs'] rest'] eqn:E.
           inversion H; subst. destruct (IH _ _ _ _ _ _ _ E) as [I1 I2]. split.
           ++ intros u Hu. destruct (I1 u Hu) as (-> & t & fd & d' & -> & L'). split; [reflexivity|].
              exists (EvRecv (c_sock c) r :: t), fd, d'. auto.
           ++ intros ev [<-|Hin]; [constructor|auto].
        -- inversion H; subst. split; [discriminate|]. intros ev [<-|[]]. constructor.
Qed.

Lemma raw_loop_bytes : forall fd rs timeout wait got acc w g full evs rest,
  raw_loop fd timeout wait got acc rs = (Done (w, g, full), evs, rest) ->
  forall x, In x full -> In x acc \/ In x (flat_map read_bytes evs).
Proof.
  intros fd. induction rs as [|r rs IH]; intros timeout wait got acc w g full evs rest H x Hx; cbn [raw_loop] in H;
    [discriminate H|].
  destruct (rbytes r) as [|y d] eqn:Er.
  - destruct (is_err r && got); [inversion H; subst; auto|].
    destruct (wait + 1 <? timeout)%N.
    + destruct (raw_loop fd timeout (wait + 1)%N got acc rs) as [[o' evs'] rest'] eqn:E. inversion H; subst.
      destruct (IH _ _ _ _ _ _ _ _ _ E x Hx) as [A|A]; [auto|]. right. simpl. apply in_or_app. auto.
    + inversion H; subst. auto.
  - assert (Q : forall z, In z (cstr (y :: d)) -> In z (rbytes r)).
    { intros z Hz. rewrite Er. apply cstr_in. exact Hz. }
    set (dd := cstr (y :: d)) in *.
    destruct (_ <=? _)%nat; [discriminate H|]. destruct (wait <? timeout)%N.
    + destruct (raw_loop fd timeout wait true (acc ++ dd) rs) as [[o' evs'] rest'] eqn:E. inversion H; subst.
      destruct (IH _ _ _ _ _ _ _ _ _ E x Hx) as [A|A].
      * apply in_app_or in A as [A|A]; [auto|]. right. simpl. apply in_or_app. left. auto.
      * right. simpl. apply in_or_app. auto.
    + inversion H; subst. apply in_app_or in Hx as [A|A]; [auto|]. right. simpl. apply in_or_app. left. auto.
Qed.

Lemma quiet_received : forall (a b : st), (exists t, s_t b = s_t a ++ t) ->
  forall x, In x (received (s_t a)) -> In x (received (s_t b)).
Proof. intros a b [t ->] x H. rewrite received_app. apply in_or_app. auto. Qed.

Lemma estep_trace : forall l a b, estep l a b -> exists t, s_t b = s_t a ++ t.
Proof.
  intros l a b H. destruct H; try (exists []; symmetry; apply app_nil_r); try (eexists; reflexivity).
  - exists []. rewrite app_nil_r. unfold addLog, bind, getc in H. destruct (c_log (s_c s)); [|discriminate H]. cbv zeta in H.
    repeat match type of H with (if ?b then _ else _) _ = _ => destruct b end; inversion H; reflexivity.
  - unfold teardown. destruct (c_kind (s_c s)); eexists; reflexivity.
Qed.
Lemma steps_trace : forall Q a b, steps Q a b -> exists t, s_t b = s_t a ++ t.
Proof.
  intros Q a b H. induction H; [exists []; symmetry; apply app_nil_r|].
  destruct (estep_trace _ _ _ H) as [t1 E1]. destruct IHsteps as [t2 E2]. exists (t1 ++ t2).
  rewrite E2, E1, app_assoc. reflexivity.
Qed.

Lemma walk_raw_reply : forall s, walk P getRawCommandReply s.
Proof.
  intros s. unfold getRawCommandReply. apply walk_bind; [apply walk_nonblocking|]. intros z s0 _ _.
  apply walk_getc, walk_gete.
  destruct (raw_loop (c_sock (s_c s0)) (c_timeout (s_c s0)) 0 false [] (e_recv (s_e s0))) as [[o evs] rest] eqn:E.
  destruct (raw_loop_events (s_c s0) _ _ _ _ _ _ _ _ E) as [H1 H2].
  apply walk_bind; [apply walk_upde; [env_tac|assumption]|]. intros ? s1 X _. inversion X; subst; clear X.
  apply walk_bind; [eapply walk_emits; [exact H2|exact PR|reflexivity]|]. intros ? s2 X _. inversion X; subst; clear X.
  apply walk_bind.
  - apply walk_lift. intros u Hu. destruct (H1 u Hu) as (-> & t & fd & d & -> & L).
    simpl. exists (s_t s0 ++ t), fd, d. rewrite app_assoc. auto.
  - intros [[wait got] full] s3 H3 _. unfold lift in H3. inversion H3; subst. clear H3.
    apply walk_bind; [apply walk_blocking|]. intros z' s4 _ S4.
    walks. apply walk_response. intros x Hx. apply steps_trace in S4. eapply quiet_received; [exact S4|].
    simpl. rewrite received_app. apply in_or_app. right.
    destruct (raw_loop_bytes _ _ _ _ _ _ _ _ _ _ _ E x Hx) as [[]|A]. exact A.
Qed.

Lemma walk_reply_tls : forall s, walk P getServerReplyTLS s.
Proof.
  intros. unfold getServerReplyTLS. apply walk_bind; [apply walk_wait_bio|]. intros r s1 E _.
  destruct r as [d|]; walks. apply walk_response. intros x Hx. apply drop_last_in in Hx.
  eapply wait_bio_bytes; eauto.
Qed.
Lemma walk_reply : forall s, walk P getServerReply s.
Proof. intros. unfold getServerReply. apply walk_getc. walks; [apply walk_raw_reply|apply walk_reply_tls|apply walk_reply_tls]. Qed.

(** ** Sending and cleanup *)

Lemma walk_send_as : forall d s l, P l ->
  (forall s' r, s_c s' = s_c s -> estep l s' (ev_state s' (EvSend (c_sock (s_c s')) d r))) -> walk P (sys_send d) s.
Proof.
  intros d s l H R. unfold sys_send. apply walk_getc, walk_gete. destruct (e_send (s_e s)) eqn:E.
  - walks. eapply walk_emit; [apply R; reflexivity|assumption].
  - apply walk_bind; [apply walk_upde; [env_tac; rewrite E; simpl; lia|assumption]|]. intros ? s1 X _. inversion X; subst.
    walks. eapply walk_emit; [|eassumption].
    change (c_sock (s_c s)) with (c_sock (s_c (mkSt (s_c s) (set_send l0 (s_e s)) (s_t s)))). apply R. reflexivity.
Qed.
Lemma walk_send : forall d s, P (LSend d) -> clear_reason (s_c s) -> walk P (sys_send d) s.
Proof. intros d s H R. eapply walk_send_as; [exact H|]. intros s' r E. apply es_send. rewrite E. assumption. Qed.
Lemma walk_send_up : forall s, P LUpgrade -> c_kind (s_c s) = KOpp -> walk P (sys_send STARTTLS) s.
Proof. intros s H R. eapply walk_send_as; [exact H|]. intros s' r E. apply es_upgrade. rewrite E. assumption. Qed.

Lemma walk_puts : forall b d s, c_bio (s_c s) = Some b -> c_kind (s_c s) <> KPlain -> P (LPuts d) ->
  walk P (sys_puts b d) s.
Proof.
  intros b d s Hb Hk H. unfold sys_puts. apply walk_gete. destruct (e_bputs (s_e s)) eqn:E.
  - walks. eapply walk_emit; [apply es_puts; assumption|assumption].
  - apply walk_bind; [apply walk_upde; [env_tac; rewrite E; simpl; lia|assumption]|]. intros ? s1 X _. inversion X; subst.
    walks. eapply walk_emit; [|eassumption]. apply es_puts; assumption.
Qed.

Hypothesis PCl : P LClose.

Definition cleanup_tail (k : clientkind) : M unit :=
  updc (set_conn false);; (match k with KPlain => ret tt | _ => free_tls end);; close_socket.

Lemma cleanup_tail_eq : forall s, cleanup_tail (c_kind (s_c s)) s = (Done tt, teardown s).
Proof.
  intros s. unfold cleanup_tail, teardown, close_socket, free_tls. unfold bind, updc, getc, emit, ret.
  destruct s as [c e t]. cbn [s_c s_e s_t].
  destruct (c_kind c) eqn:K.
  - cbn [s_c s_e s_t]. change (c_sock (set_conn false c)) with (c_sock c).
    destruct (c_sock c =? 0); cbn [s_c s_e s_t]; rewrite ?app_nil_r; reflexivity.
  - cbn [s_c s_e s_t]. change (c_ctx (set_conn false c)) with (c_ctx c).
    change (c_bio (set_conn false c)) with (c_bio c). destruct (c_ctx c); cbn [s_c s_e s_t];
    destruct (c_bio c); cbn [s_c s_e s_t];
    change (c_sock (set_bio None (set_ctx None (set_conn false c)))) with (c_sock c);
    destruct (c_sock c =? 0); cbn [s_c s_e s_t]; rewrite <- ?app_assoc, ?app_nil_r; reflexivity.
  - cbn [s_c s_e s_t]. change (c_ctx (set_conn false c)) with (c_ctx c).
    change (c_bio (set_conn false c)) with (c_bio c). destruct (c_ctx c); cbn [s_c s_e s_t];
    destruct (c_bio c); cbn [s_c s_e s_t];
    change (c_sock (set_bio None (set_ctx None (set_conn false c)))) with (c_sock c);
    destruct (c_sock c =? 0); cbn [s_c s_e s_t]; rewrite <- ?app_assoc, ?app_nil_r; reflexivity.
Qed.

Lemma walk_cleanup_tail : forall s k, k = c_kind (s_c s) -> walk P (cleanup_tail k) s.
Proof.
  intros s k ->. unfold walk. rewrite cleanup_tail_eq. split; [|discriminate].
  eapply steps_one; [apply es_close|exact PCl].
Qed.

Lemma cleanup_f_eq : forall n, cleanup_f (S n) = (c <- getc;;
  (if c_batch c && c_conn c then _ <- sendQuit_with (cleanup_f n);; ret tt else ret tt);;
  cleanup_tail (c_kind c)).
Proof. reflexivity. Qed.

(** The class of a client never changes. *)
Lemma steps_kind : forall a b, steps P a b -> c_kind (s_c b) = c_kind (s_c a).
Proof.
  intros a b H. induction H; [reflexivity|]. rewrite IHsteps. destruct H; try reflexivity.
  - unfold addLog, bind, getc in H. destruct (c_log (s_c s)); [|discriminate H]. cbv zeta in H.
    repeat match type of H with (if ?b then _ else _) _ = _ => destruct b end; inversion H; reflexivity.
  - unfold teardown. destruct (c_kind (s_c s)) eqn:K; assumption.
Qed.

(** The allowed writes. *)
Definition may_write (d : str) : Prop := P (LSend d) /\ P (LPuts d).

Lemma walk_raw2_with : forall cl cmd err s, (forall s, walk P cl s) -> P (LSend (cstr cmd)) ->
  clear_reason (s_c s) -> walk P (sendRaw2_with cl cmd err) s.
Proof. intros cl cmd err s Hc H R. unfold sendRaw2_with. walks; auto. apply walk_send; assumption. Qed.

Lemma walk_cmd_tls_with : forall cl cmd err s, (forall s, walk P cl s) -> P (LPuts (cstr cmd)) ->
  c_kind (s_c s) <> KPlain -> walk P (sendCommandTLS_with cl cmd err) s.
Proof.
  intros cl cmd err s Hc H K. unfold sendCommandTLS_with. apply walk_getc.
  destruct (c_bio (s_c s)) eqn:E; walks; auto. apply walk_puts; assumption.
Qed.

Lemma walk_cmd_ptr_with : forall cl cmd err s, (forall s, walk P cl s) -> may_write (cstr cmd) ->
  walk P (sendCommandPtr_with cl cmd err) s.
Proof.
  intros cl cmd err s Hc [H1 H2]. unfold sendCommandPtr_with. apply walk_getc.
  destruct (c_rawptr (s_c s)) eqn:R.
  - apply walk_raw2_with; auto. left. assumption.
  - destruct (c_kind (s_c s)) eqn:K.
    + apply walk_raw2_with; auto. right. left. assumption.
    + apply walk_cmd_tls_with; auto. congruence.
    + apply walk_cmd_tls_with; auto. congruence.
Qed.

Definition QUIT : str := B "QUIT" ++ CRLF.

Lemma walk_cleanup_f_quit : may_write QUIT -> forall n s, walk P (cleanup_f n) s.
Proof.
  intros H. induction n as [|n IH]; intros s; [apply walk_diverge|]. rewrite cleanup_f_eq. apply walk_getc.
  apply walk_bind.
  - walks. unfold sendQuit_with. walks. apply walk_cmd_ptr_with; [exact IH|exact H].
  - intros u s1 _ S. apply walk_cleanup_tail. symmetry. apply steps_kind. assumption.
Qed.

Lemma walk_cleanup_f_noquit : forall n s, c_batch (s_c s) && c_conn (s_c s) = false -> walk P (cleanup_f n) s.
Proof.
  intros [|n] s H; [apply walk_diverge|]. rewrite cleanup_f_eq. apply walk_getc. rewrite H.
  apply walk_bind; [walks|]. intros u s1 _ S. apply walk_cleanup_tail. symmetry. apply steps_kind. assumption.
Qed.

Definition quit_ok (s : st) : Prop := c_batch (s_c s) && c_conn (s_c s) = true -> may_write QUIT.

Lemma walk_cleanup : forall s, quit_ok s -> walk P cleanup s.
Proof.
  intros s H. unfold cleanup.
  assert (W : walk P (cleanup_f (cleanup_fuel (s_e s))) s).
  { destruct (c_batch (s_c s) && c_conn (s_c s)) eqn:E.
    - apply walk_cleanup_f_quit. auto.
    - apply walk_cleanup_f_noquit. assumption. }
  exact W.
Qed.
End Logs.
End Walks.
