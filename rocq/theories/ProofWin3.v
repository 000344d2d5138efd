(** The simulation for connecting, for the mail transaction and for programs. *)

From Coq Require Import Ascii String List NArith ZArith Bool Lia.
From Verif Require Import Base ModelUtil ModelBase64 ModelAddress ModelAttachment
  ModelErrors ModelReply ModelMessage ModelState ModelClient ModelWorld ModelWin SpecWin ProofWin ProofWin2.
Import ListNotations.
Open Scope Z_scope.

Local Arguments posix_env : simpl never.

(** ** Connecting *)

(** What only the POSIX build does. *)
Lemma sim_posix {A C} (m : M A) a (mw : W C) kp :
  (forall c e f', exists f tp, talk tp = [] /\ forall t,
     m (mkSt c (posix_env f e) t) = (Done a, mkSt c (posix_env f' e) (t ++ tp))) ->
  simw mw (kp a) -> simw mw (bind m kp).
Proof.
  intros H K v. destruct (K v) as (o & c & on & e & x & tw & E & X). exists o, c, on, e, x, tw. split; [exact E|].
  intros S f'. destruct (X S f') as (f1 & tp1 & T1 & Y). destruct (H (v_c v) (v_e v) f1) as (f & tp & T & Z).
  exists f, (tp ++ tp1). split; [now rewrite talk_app, T|]. intros t. unfold bind. rewrite Z, Y. now rewrite app_assoc.
Qed.
Lemma posix_lookup name c e f' : exists f tp, talk tp = [] /\ forall t,
  sys_gethostbyname name (mkSt c (posix_env f e) t) = (Done (Some 4), mkSt c (posix_env f' e) (t ++ tp)).
Proof. exists f', [EvResolve name true]. split; reflexivity. Qed.
Lemma posix_switch b c e f' : exists f tp, talk tp = [] /\ forall t,
  posix_mode b (mkSt c (posix_env f e) t) = (Done 0, mkSt c (posix_env f' e) (t ++ tp)).
Proof.
  destruct (posix_modes b c e None f') as (tp & T & Y). exists (None :: None :: f'), tp. split; [exact T|]. exact Y.
Qed.

(** A connection attempt: only success is smooth. *)
Lemma sim_connect {C} (kw : option Z -> W C) kp : simw (kw None) (kp None) -> (forall r, extw (kw r)) ->
  simw (r <# base sys_connect ;; kw r) (r <- sys_connect;; kp r).
Proof.
  intros K L v. destruct v as [c on e x t0].
  set (r := match e_conn e with [] => None | r :: _ => r end).
  set (e1 := match e_conn e with [] => e | _ :: l => set_econn l e end).
  set (ev := EvConnect (c_sock c) (c_port c mod 65536)%N (match r with None => true | _ => false end)).
  set (v1 := mkV c on e1 x (t0 ++ [WSock ev])).
  assert (E : (r <# base sys_connect ;; kw r) (mkV c on e x t0) = kw r v1).
  { subst v1 ev r e1. unfold wbind, base, sys_connect, bind, getc, gete, upde, emit, ret. cbn.
    destruct (e_conn e); reflexivity. }
  assert (P : forall f t, sys_connect (mkSt c (posix_env f e) t) = (Done r, mkSt c (posix_env f e1) (t ++ [ev]))).
  { intros f t. subst v1 ev r e1. unfold sys_connect, bind, getc, gete, upde, emit, ret. cbn [s_c s_e s_t].
    change (e_conn (posix_env f e)) with (e_conn e). destruct (e_conn e); reflexivity. }
  destruct (L r v1) as (o & c2 & on2 & e2 & x2 & tw & E2). cbn [v_t v1] in E2. rewrite <- app_assoc in E2.
  exists o, c2, on2, e2, x2, ([WSock ev] ++ tw). split; [rewrite E; exact E2|].
  intros S f'. apply Forall_app in S as [S1 S2]. inversion S1 as [|? ? S3 _]; subst.
  assert (R : r = None) by (subst ev; cbn in S3; destruct r; [discriminate|reflexivity]).
  rewrite R in E2. destruct (K v1) as (o3 & c3 & on3 & e3 & x3 & tw3 & E3 & X3). rewrite E3 in E2. cbn [v_t v1] in E2.
  injection E2 as -> -> -> -> -> E2. rewrite <- app_assoc in E2. apply app_inv_head in E2. injection E2 as ->.
  destruct (X3 S2 f') as (f & tp & T & Y). exists f, ([ev] ++ tp). split; [rewrite talk_app, wtalk_app, T; reflexivity|].
  intros t. unfold bind. cbn [v_c v_e]. rewrite P, R. cbn [v_c v_e v1] in Y. rewrite Y. now rewrite app_assoc.
Qed.

Lemma sim_back : simw (wret 0) (posix_mode false).
Proof.
  intros [c on e x t0]. exists (Done 0), c, on, e, x, []. split; [cbn; now rewrite app_nil_r|]. intros _ f'.
  destruct (posix_switch false c e f') as (f & tp & T & Y). exists f, tp. split; [exact T|]. exact Y.
Qed.
(** Something that is not smooth. *)
Lemma sim_bad {A C} ev (m : W A) (kw : A -> W C) kp :
  (forall v, exists a c on e x, m v = (Done a, mkV c on e x (v_t v ++ [ev]))) -> ~ smooth ev -> (forall a, extw (kw a)) ->
  simw (wbind m kw) kp.
Proof.
  intros H N K v. destruct (H v) as (a & c & on & e & x & E).
  destruct (K a (mkV c on e x (v_t v ++ [ev]))) as (o & c2 & on2 & e2 & x2 & tw & E2).
  exists o, c2, on2, e2, x2, ([ev] ++ tw). split; [unfold wbind; rewrite E, E2; cbn; now rewrite <- app_assoc|].
  intros S. apply Forall_app in S as [S _]. inversion S. contradiction.
Qed.
Lemma ext_use {A} (m : W A) : extw m -> forall v, exists o c on e x tw, m v = (o, mkV c on e x (v_t v ++ tw)).
Proof. exact (fun H => H). Qed.

(** The part after getaddrinfo, reading the client again. *)
Definition open_socket : W Z :=
  e <# base gete ;;
  match e_sock e with
  | [] => base blocked
  | SkErr er :: l =>
      base (upde (set_esock l);; emit (EvSocket (SkErr er));; updc (set_sock (-1))) ;;#
      addWSAMessage er ;;#
      base (setLastSocketErrNo er) ;;#
      doWSACleanup ;;#
      wret SOCKET_INIT_SESSION_CREATION_ERROR
  | SkFd n :: l =>
      base (upde (set_esock l)) ;;# base (emit (EvSocket (SkFd n))) ;;# base (updc (set_sock (Z.of_N n))) ;;#
      c <# base getc ;;
      match c_server c with
      | None => base (fail_ub (UB_NullDeref PServer))
      | Some name =>
          base (logc (B "Trying to connect to " ++ name ++ B " on port " ++ dec_of_N (c_port c))) ;;#
          r <# base sys_connect ;;
          match r with
          | None => wret 0
          | Some er =>
              addWSAMessage er ;;#
              base (setLastSocketErrNo er) ;;#
              doWSACleanup ;;#
              wret SOCKET_INIT_SESSION_CONNECT_ERROR
          end
      end
  end.

Lemma ext_open : extw open_socket.
Proof. unfold open_socket. extw; apply ext_clean. Qed.

Lemma sim_open : simw open_socket initializeSessionPOSIX.
Proof.
  unfold open_socket, initializeSessionPOSIX. apply sim_gete; [intros e|reflexivity].
  destruct (e_sock e) as [|[n|er] l].
  - apply sim_base, neu_blocked.
  - sim1. sim1. sim1. sim1. destruct (c_server a2) as [name|]; [|sim1].
    eapply sim_posix; [apply posix_lookup|]. cbn [Z.ltb Z.compare Pos.compare Pos.compare_cont].
    apply (sim_posix (posix_mode true) 0); [apply posix_switch|]. cbn [negb Z.eqb]. sim1.
    apply sim_connect; [|intros [er|]; extw; apply ext_clean].
    apply sim_back.
  - apply (sim_bad (WSock (EvSocket (SkErr er)))); [| |intros _; extw; apply ext_clean].
    + intros v. unfold base, bind, upde, emit, updc. cbn. repeat eexists.
    + auto.
Qed.

Lemma wbind_ext {A C} (m : W A) (k k' : A -> W C) v :
  (forall a v', m v = (Done a, v') -> k a v' = k' a v') -> wbind m k v = wbind m k' v.
Proof. intros H. unfold wbind. destruct (m v) as [[] ?]; try reflexivity. now apply H. Qed.

(** The text of [initializeSessionWinSock] after getaddrinfo. *)
Definition open_once (c : client) : W Z :=
  e <# base gete ;;
  match e_sock e with
  | [] => base blocked
  | SkErr er :: l =>
      base (upde (set_esock l);; emit (EvSocket (SkErr er));; updc (set_sock (-1))) ;;#
      addWSAMessage er ;;#
      base (setLastSocketErrNo er) ;;#
      doWSACleanup ;;#
      wret SOCKET_INIT_SESSION_CREATION_ERROR
  | SkFd n :: l =>
      base (upde (set_esock l);; emit (EvSocket (SkFd n));; updc (set_sock (Z.of_N n))) ;;#
      match c_server c with
      | None => base (fail_ub (UB_NullDeref PServer))
      | Some name =>
          base (logc (B "Trying to connect to " ++ name ++ B " on port " ++ dec_of_N (c_port c))) ;;#
          r <# base sys_connect ;;
          match r with
          | None => wret 0
          | Some er =>
              addWSAMessage er ;;#
              base (setLastSocketErrNo er) ;;#
              doWSACleanup ;;#
              wret SOCKET_INIT_SESSION_CONNECT_ERROR
          end
      end
  end.
Lemma open_again c v : v_c v = c -> open_once c v = open_socket v.
Proof.
  intros <-. unfold open_once, open_socket. apply wbind_ext. intros e v1 E.
  assert (X : v_c v1 = v_c v) by (unfold base, gete in E; injection E as <- <-; reflexivity). rewrite <- X. clear X E.
  destruct (e_sock e) as [|[n|er] l]; [reflexivity| |reflexivity].
  destruct v1 as [c on e1 x t]. cbn [v_c].
  set (s1 := mkV (set_sock (Z.of_N n) c) on (set_esock l e1) x (t ++ [WSock (EvSocket (SkFd n))])).
  assert (E1 : base (upde (set_esock l);; emit (EvSocket (SkFd n));; updc (set_sock (Z.of_N n))) (mkV c on e1 x t) = (Done tt, s1)) by reflexivity.
  unfold wbind at 1. rewrite E1.
  assert (E2 : forall k : client -> W Z, (base (upde (set_esock l)) ;;# base (emit (EvSocket (SkFd n))) ;;# base (updc (set_sock (Z.of_N n))) ;;#
    (c <# base getc ;; k c)) (mkV c on e1 x t) = k (set_sock (Z.of_N n) c) s1).
  { intros k. unfold wbind, base, upde, emit, updc, getc, s1. cbn [s_c s_e s_t v_c v_on v_e v_w v_t map]. now rewrite !app_nil_r. }
  rewrite E2. reflexivity.
Qed.

Lemma sim_init_win : simw initializeSessionWinSock initializeSessionPOSIX.
Proof.
  eapply (sim_ext (st <# next x_start set_xstart 0 ;; wput (WStartup st) ;;#
    if negb (st =? 0) then
      base (setLastSocketErrNo st) ;;#
      base (logc (B "WSAStartup failed with error: " ++ dec_of_N (Z.to_N st))) ;;#
      wret SOCKET_INIT_SESSION_WINSOCKET_STARTUP_ERROR
    else set_on true ;;# c <# base getc ;; ga <# next x_addr set_xaddr 0 ;;
    wput (WAddr (c_server c) (c_port c) ga) ;;#
    if negb (ga =? 0) then
      addWSAMessage ga ;;#
      base (setLastSocketErrNo ga) ;;#
      doWSACleanup ;;#
      wret SOCKET_INIT_SESSION_WINSOCKET_GETADDRINFO_ERROR
    else open_socket)); [|reflexivity|].
  - intros v. unfold initializeSessionWinSock. apply wbind_ext. intros st v1 _. apply wbind_ext. intros _ v2 _.
    destruct (negb (st =? 0)); [reflexivity|]. apply wbind_ext. intros _ v3 _. apply wbind_ext. intros c v4 E4.
    assert (X4 : v_c v4 = c) by (destruct v3; unfold base, getc in E4; cbn in E4; injection E4 as <- <-; reflexivity).
    apply wbind_ext. intros ga v5 E5.
    assert (X5 : v_c v5 = c).
    { rewrite <- X4. unfold next in E5. destruct (x_addr (v_w v4)); injection E5 as <- <-; reflexivity. }
    apply wbind_ext. intros [] v6 E6.
    assert (X6 : v_c v6 = c) by (unfold wput in E6; injection E6 as <-; exact X5).
    destruct (negb (ga =? 0)); [reflexivity|]. symmetry. exact (open_again c v6 X6).
  - apply sim_next; [discriminate| |].
    + intros st S. cbn in S. subst st. cbn [negb Z.eqb]. apply sim_silent; [apply sil_on|]. apply sim_getc. intros c.
      apply sim_next; [discriminate| |].
      * intros ga S. cbn in S. subst ga. apply sim_open.
      * intros ga. apply ext_use. extw; first [apply ext_open|apply ext_clean].
    + intros st. apply ext_use. extw; first [apply ext_open|apply ext_clean].
Qed.
Lemma sim_init : simw initializeSessionW initializeSession.
Proof. unfold initializeSessionW, initializeSession. sim1. apply sim_init_win. Qed.

(** ** TLS *)

Ltac simc' := repeat first [sim1 | match goal with
  | |- simw (wbind cleanupW _) (bind cleanup _) => apply sim_bind; [apply sim_cleanup|intros ?]
  | |- simw (wbind (wput _) _) _ => apply sim_silent; [now apply sil_put|] end].

Lemma sim_regroup {A C D E} (a : M A) (b : A -> M C) (d : C -> M D) mw (k : D -> M E) :
  simw mw (bind (bind a (fun x => bind (b x) d)) k) -> simw mw (bind a (fun x => bind (b x) (fun y => bind (d y) k))).
Proof.
  apply sim_ext; [reflexivity|]. intros s. unfold bind. destruct (a s) as [[] s1]; try reflexivity.
  destruct (b a0 s1) as [[] s2]; reflexivity.
Qed.
Lemma sim_regroup2 {A C E} (a : M A) (b : A -> M C) mw (k : C -> M E) :
  simw mw (bind (bind a b) k) -> simw mw (bind a (fun x => bind (b x) k)).
Proof.
  apply sim_ext; [reflexivity|]. intros s. unfold bind. destruct (a s) as [[] s1]; reflexivity.
Qed.

Lemma sim_tls_script {C} (kw : tls_res -> list tls_res -> W C) kp :
  (forall t l, simw (kw t l) (kp (trusting t) (map trusting l))) ->
  simw (e <# base gete ;; match e_tls e with [] => base blocked | t :: l => kw t l end)
       (e <- gete;; match e_tls e with [] => blocked | t :: l => kp t l end).
Proof.
  intros K v. destruct v as [c on e x t0]. destruct (e_tls e) as [|t l] eqn:L.
  - exists Blocked, c, on, e, x, []. split.
    + unfold wbind, base, gete. cbn [v_c v_on v_e v_w v_t s_c s_e s_t map]. rewrite L. unfold blocked. cbn. now rewrite !app_nil_r.
    + intros _ f'. exists f', []. split; [reflexivity|]. intros t. unfold bind, gete. cbn [v_c v_on v_e v_w v_t s_c s_e s_t map].
      change (e_tls (posix_env f' e)) with (map trusting (e_tls e)). rewrite L. cbn. unfold blocked. now rewrite app_nil_r.
  - destruct (K t l (mkV c on e x t0)) as (o & c2 & on2 & e2 & x2 & tw & E2 & X). exists o, c2, on2, e2, x2, tw. split.
    + unfold wbind, base, gete. cbn [v_c v_on v_e v_w v_t s_c s_e s_t map]. rewrite L, app_nil_r. exact E2.
    + intros S f'. destruct (X S f') as (f & tp & T & Y). exists f, tp. split; [exact T|]. intros t1. rewrite <- Y.
      unfold bind, gete. cbn [v_c v_on v_e v_w v_t s_c s_e s_t].
      change (e_tls (posix_env f e)) with (map trusting (e_tls e)). rewrite L. reflexivity.
Qed.
Lemma sim_set_tls l : simw (base (upde (set_tls l))) (upde (set_tls (map trusting l))).
Proof.
  intros [c on e x t0]. exists (Done tt), c, on, (set_tls l e), x, []. split; [reflexivity|]. intros _ f'. exists f', [].
  split; [reflexivity|]. intros t. unfold upde. cbn [s_c s_e s_t v_c v_e]. now rewrite app_nil_r.
Qed.

Lemma ext_handshake_walk : extw cleanupW.
Proof. intros v. destruct (sim_cleanup v) as (o & c & on & e & x & tw & E & _). rewrite E. repeat eexists. Qed.

Lemma sim_starttls : simw startTLSNegotiationW startTLSNegotiation.
Proof.
  unfold startTLSNegotiationW, startTLSNegotiation. sim1. apply sim_tls_script. intros t l.
  apply sim_bind; [apply sim_set_tls|]. intros _.
  unfold trusting. cbn [t_ctx t_bio t_paths t_connect t_handshake t_cert t_verify t_host t_err].
  sim1; [apply sim_regroup2; sim1; sim1|].
  apply sim_bind; [apply sim_base, neu_fresh|]. intros i. apply sim_regroup2. sim1. sim1; [simc|].
  apply sim_bind; [apply sim_base, neu_fresh|]. intros b. sim1. apply sim_regroup2. sim1.
  sim1; [|sim1]. sim1; [sim1|]. cbn [negb]. apply sim_next; [discriminate| |].
  - intros r S. cbn in S. subst r. sim1; [simc'|]. simc'.
  - intros r. apply ext_use. extw; apply ext_handshake_walk.
Qed.

(** ** Establishing the connection and the mail transaction *)

Ltac call H := apply sim_bind; [apply H|intros ?].

Lemma sim_establish_plain : simw establishPlainW establishPlain.
Proof.
  unfold establishPlainW, establishPlain. call sim_init. sim1; [sim1|].
  apply sim_bind; [apply sim_base, neu_greetings|intros ?]. sim1; [sim1|]. call sim_ident. sim1; [sim1|]. apply sim_auth_if.
Qed.
Lemma sim_upgrade : simw upgradeToSecureConnectionW upgradeToSecureConnection.
Proof. unfold upgradeToSecureConnectionW, upgradeToSecureConnection. sim1. apply sim_raw3. Qed.
Lemma sim_establish_opp : simw establishOppW establishOpp.
Proof.
  unfold establishOppW, establishOpp. call sim_init. sim1; [sim1|].
  apply sim_bind; [apply sim_base, neu_greetings|intros ?]. sim1; [sim1|]. call sim_ident. sim1; [sim1|].
  sim1. sim1. sim1.
  - sim1. call sim_upgrade. sim1; [sim1|]. call sim_starttls. sim1; [sim1|]. call sim_secure. sim1; [sim1|]. apply sim_auth_if.
  - simc.
Qed.
Lemma sim_establish_forced : simw establishForcedW establishForced.
Proof.
  unfold establishForcedW, establishForced. call sim_init. sim1; [sim1|]. call sim_starttls. sim1; [sim1|].
  apply sim_bind; [apply sim_base, neu_greetingsTLS|intros ?]. sim1; [sim1|]. call sim_secure. sim1; [sim1|]. apply sim_auth_if.
Qed.
Lemma sim_establish : simw establishW establish.
Proof.
  unfold establishW, establish. sim1. destruct (c_kind a);
    [apply sim_establish_plain|apply sim_establish_opp|apply sim_establish_forced].
Qed.

Lemma sim_mail_from l : forall z, simw (mail_from_loopW l z) (mail_from_loop l z).
Proof. induction l as [|f l IH]; intros z; cbn [mail_from_loopW mail_from_loop]; [sim1|]. sim1. call sim_feedptr. simc. apply IH. Qed.
Lemma sim_add_rcpt l : forall z, simw (addMailRecipientsW l z) (addMailRecipients l z).
Proof. induction l as [|f l IH]; intros z; cbn [addMailRecipientsW addMailRecipients]; [sim1|]. sim1. call sim_feedptr. apply IH. Qed.
Lemma sim_rcpts l : simw (recipients_loopW l) (recipients_loop l).
Proof.
  induction l as [|a l IH]; cbn [recipients_loopW recipients_loop]; [sim1|]. destruct a; [apply IH|].
  call sim_add_rcpt. sim1; [sim1|]. apply IH.
Qed.
Lemma sim_set_rcpts m : simw (setMailRecipientsW m) (setMailRecipients m).
Proof. unfold setMailRecipientsW, setMailRecipients. call sim_mail_from. sim1; [sim1|]. apply sim_rcpts. Qed.
Lemma sim_ptr' cmd err : simw (sendCommandPtrW cleanupW cmd err) (sendCommandPtr cmd err).
Proof. apply sim_ptr, sim_cleanup. Qed.
Lemma sim_header f x err : simw (addMailHeaderW f x err) (addMailHeader f x err).
Proof. unfold addMailHeaderW, addMailHeader. sim1. apply sim_ptr'. Qed.
Lemma sim_addr_header f a : simw (address_headerW f a) (address_header f a).
Proof.
  unfold address_headerW, address_header. destruct a as [[|n]|[|a l]]; try sim1. call sim_header. sim1.
Qed.
Lemma sim_headers m : simw (setMailHeadersW m) (setMailHeaders m).
Proof.
  unfold setMailHeadersW, setMailHeaders. sim1. call sim_feedptr. sim1; [sim1|]. call sim_header. sim1; [sim1|].
  call sim_addr_header. call sim_addr_header. sim1. call sim_ptr'. sim1; [sim1|]. sim1. call sim_ptr'. simc.
Qed.
Lemma sim_chunks l err : simw (send_chunksW l err) (send_chunks l err).
Proof. induction l as [|x l IH]; cbn [send_chunksW send_chunks]; [sim1|]. call sim_ptr'. sim1; [sim1|]. apply IH. Qed.
Lemma sim_body m : simw (setMailBodyW m) (setMailBody m).
Proof.
  unfold setMailBodyW, setMailBody. sim1. sim1. sim1. call sim_chunks. sim1; [sim1|]. sim1. call sim_feedptr. sim1; [sim1|].
  sim1. sim1; [sim1|]. apply sim_bind; [apply sim_quit, sim_cleanup|intros ?]. simc.
Qed.
Lemma sim_transaction m : simw (mail_transactionW m) (mail_transaction m).
Proof.
  unfold mail_transactionW, mail_transaction. call sim_set_rcpts. sim1; [sim1|]. call sim_headers. sim1; [sim1|].
  call sim_body. sim1; [sim1|]. sim1. apply sim_bind; [destruct (c_batch a2); [sim1|apply sim_cleanup]|]. intros ?. sim1.
Qed.
Lemma sim_send m : simw (sendMailW m) (sendMail m).
Proof.
  unfold sendMailW, sendMail. sim1. apply sim_bind; [destruct (c_conn a); [sim1|apply sim_establish]|]. intros r.
  sim1; [sim1|]. sim1. apply sim_transaction.
Qed.

(** ** Programs *)

Definition posix_world (f : list (option Z)) (t : list event) (w : wworld) : world :=
  mkWorld (w_clients (ww w)) (posix_env f (w_env (ww w))) t.

Lemma sim_run_on {A} i (mw : W A) mp g w : simw mw mp -> exists tw : list wevent, ww_trace (snd (run_onW i mw g w)) = ww_trace w ++ tw /\
  (Forall smooth tw -> forall f' : list (option Z), exists (f : list (option Z)) tp, talk tp = wtalk tw /\
   forall t, run_on i mp g (posix_world f t w) =
     (fst (run_onW i mw g w), posix_world f' (t ++ tp) (snd (run_onW i mw g w)))).
Proof.
  intros H. unfold run_onW, run_on.
  destruct (get_client (ww w) i) as [c|] eqn:G.
  - destruct (H (mkV c (nth i (ww_on w) false) (w_env (ww w)) (ww_env w) (ww_trace w))) as (o & c' & on & e & x & tw & E & X).
    rewrite E. exists tw. split; [reflexivity|]. intros S f'. destruct (X S f') as (f & tp & T & Y). exists f, tp.
    split; [exact T|]. intros t. cbn [posix_world w_env w_trace w_clients] in *. unfold get_client, posix_world in *.
    cbn [w_clients w_env w_trace] in *. rewrite G.
    cbn [v_c v_e] in Y. rewrite Y. reflexivity.
  - exists []. split; [now rewrite app_nil_r|]. intros _ f'. exists f', []. split; [reflexivity|]. intros t.
    unfold get_client, posix_world in *. cbn [w_clients]. rewrite G. now rewrite app_nil_r.
Qed.

Definition talks (o : op) : bool := match o with OSend _ _ | ODestroy _ => true | _ => false end.
Lemma step_quiet o cl e t : talks o = false -> forall e' t', exists x cl',
  step o (mkWorld cl e t) = (x, mkWorld cl' e t) /\ step o (mkWorld cl e' t') = (x, mkWorld cl' e' t').
Proof.
  intros Q e' t'. destruct o; try discriminate Q; cbn [step]; unfold alter, get_client, create, push_client, put_client; cbn [w_clients w_env w_trace];
    repeat (match goal with |- context [match ?x with _ => _ end] => destruct x end; cbn [w_clients w_env w_trace]);
    eexists _, _; split; reflexivity.
Qed.
Lemma sim_step o w : w_trace (ww w) = [] -> w_trace (ww (snd (wstep o w))) = [] /\
  exists tw : list wevent, ww_trace (snd (wstep o w)) = ww_trace w ++ tw /\
  (Forall smooth tw -> forall f' : list (option Z), exists (f : list (option Z)) tp, talk tp = wtalk tw /\
   forall t, step o (posix_world f t w) = (fst (wstep o w), posix_world f' (t ++ tp) (snd (wstep o w)))).
Proof.
  intros Q. destruct (talks o) eqn:K.
  - assert (R : forall A i (mw : W A) g, w_trace (ww (snd (run_onW i mw g w))) = []).
    { intros. unfold run_onW. destruct (get_client (ww w) i); [|exact Q]. destruct (mw _); reflexivity. }
    destruct o; try discriminate K; cbn [wstep step]; (split; [apply R|]); apply sim_run_on.
    + apply sim_send.
    + apply sim_bind; [apply sim_cleanup|]. intros _. apply sim_ret.
  - destruct w as [[cl e t] on x tr]. cbn in Q. subst t.
    assert (E : wstep o (mkWW (mkWorld cl e []) on x tr) = let '(z, w') := step o (mkWorld cl e []) in
      (z, mkWW w' (on ++ repeat false (length (w_clients w') - length cl)) x tr)) by (destruct o; try discriminate K; reflexivity).
    rewrite E. clear E. destruct (step_quiet o cl e [] K e []) as (z & cl' & E & _). rewrite E. split; [reflexivity|].
    exists []. split; [symmetry; apply app_nil_r|]. intros _ f'. exists f', []. split; [reflexivity|]. intros t.
    destruct (step_quiet o cl e [] K (posix_env f' e) t) as (z2 & cl2 & E1 & E2). rewrite E in E1. injection E1 as <- <-.
    unfold posix_world. cbn [ww w_clients w_env]. rewrite E2. cbn. now rewrite app_nil_r.
Qed.
Lemma sim_run ops : forall w, w_trace (ww w) = [] -> exists tw : list wevent, ww_trace (snd (wrun ops w)) = ww_trace w ++ tw /\
  (Forall smooth tw -> forall f' : list (option Z), exists (f : list (option Z)) tp, talk tp = wtalk tw /\
   forall t, run ops (posix_world f t w) = (fst (wrun ops w), posix_world f' (t ++ tp) (snd (wrun ops w)))).
Proof.
  induction ops as [|o ops IH]; intros w Q; cbn [wrun run].
  - exists []. split; [symmetry; apply app_nil_r|]. intros _ f'. exists f', []. split; [reflexivity|]. intros t. cbn. now rewrite app_nil_r.
  - destruct (sim_step o w Q) as (Q1 & tw & E & X). destruct (wstep o w) as [z w1]. cbn [fst snd] in *.
    destruct (continues z) eqn:C.
    + destruct (IH w1 Q1) as (tw2 & E2 & X2). destruct (wrun ops w1) as [zs w2]. cbn [fst snd] in *.
      exists (tw ++ tw2). split; [now rewrite E2, E, app_assoc|]. intros S f'. apply Forall_app in S as [S1 S2].
      destruct (X2 S2 f') as (f1 & tp2 & T2 & Y2). destruct (X S1 f1) as (f & tp & T & Y). exists f, (tp ++ tp2).
      split; [now rewrite talk_app, wtalk_app, T, T2|]. intros t. rewrite Y, C, Y2. now rewrite app_assoc.
    + exists tw. split; [exact E|]. intros S f'. destruct (X S f') as (f & tp & T & Y). exists f, tp. split; [exact T|].
      intros t. rewrite Y, C. reflexivity.
Qed.

Lemma same_dialogue ops e x outs w : wrun ops (initial_wworld e x) = (outs, w) -> Forall smooth (ww_trace w) ->
  exists f, let '(outs', w') := run ops (initial_world (posix_env f e)) in
  outs' = outs /\ w_clients w' = w_clients (ww w) /\ talk (w_trace w') = wtalk (ww_trace w).
Proof.
  intros E S. destruct (sim_run ops (initial_wworld e x) eq_refl) as (tw & T & X). rewrite E in *. cbn in T. subst tw.
  destruct (X S []) as (f & tp & T & Y). exists f. specialize (Y []). unfold posix_world in Y. cbn in Y. unfold initial_world.
  rewrite Y. cbn. auto.
Qed.

Lemma wrun_no_posix ops : forall w, w_trace (ww w) = [] -> w_trace (ww (snd (wrun ops w))) = [].
Proof.
  induction ops as [|o ops IH]; intros w Q; cbn [wrun]; [exact Q|]. destruct (sim_step o w Q) as (Q1 & _). destruct (wstep o w) as [z w1]. cbn [fst snd] in *.
  destruct (continues z); [|exact Q1]. specialize (IH w1 Q1). destruct (wrun ops w1). exact IH.
Qed.
Lemma each_operation ops e x o z w' t : let w := snd (wrun ops (initial_wworld e x)) in
  wstep o w = (z, w') -> ww_trace w' = ww_trace w ++ t -> Forall smooth t ->
  exists f w'', step o (mkWorld (w_clients (ww w)) (posix_env f (w_env (ww w))) []) = (z, w'') /\
  w_clients w'' = w_clients (ww w') /\ talk (w_trace w'') = wtalk t.
Proof.
  intros w E T S. destruct (sim_step o w) as (_ & tw & E1 & X); [apply wrun_no_posix; reflexivity|]. rewrite E in *. cbn [fst snd] in *.
  rewrite T in E1. apply app_inv_head in E1. subst tw. destruct (X S []) as (f & tp & TT & Y). exists f. eexists. split; [exact (Y [])|]. split; [reflexivity|exact TT].
Qed.
