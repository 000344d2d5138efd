(** In which mode the Windows build uses its sockets. *)

From Coq Require Import Ascii String List NArith ZArith Bool Lia.
From Verif Require Import Base ModelUtil ModelBase64 ModelAddress ModelAttachment
  ModelErrors ModelReply ModelMessage ModelState ModelClient ModelWorld ModelWin SpecWin SpecMode
  ProofWin2 ProofWin3 ProofWinRef ProofWinRef2 ProofWinRef3 ProofWinRef4 ProofWinEv.
Import ListNotations.
Open Scope Z_scope.

(** ** A machine that accepts the events of one operation *)

(** [Lost]: a switch failed.  [Calm w]: all sockets block; [Poll w fd]: only
    [fd] does not.  [w]: something was written. *)
Inductive mst := Lost | Calm (w : bool) | Poll (w : bool) (fd : Z).
Definition mstep (s : mst) (ev : wevent) : option mst :=
  match s with
  | Lost => Some Lost
  | Calm w =>
      match ev with
      | WIoctl _ _ (Some _) => Some Lost
      | WIoctl fd b None => Some (if b then Poll w fd else Calm w)
      | WSock (EvRecv _ _) => if w then None else Some (Calm w)
      | WSock e => Some (Calm (w || writes e))
      | _ => Some (Calm w)
      end
  | Poll w fd =>
      match ev with
      | WIoctl _ _ (Some _) => Some Lost
      | WIoctl f false None => if f =? fd then Some (Calm w) else None
      | WSock (EvRecv f _) => if (f =? fd) && w then Some (Poll w fd) else None
      | WSock (EvSleep _) => Some (Poll w fd)
      | _ => None
      end
  end.
Fixpoint mrun (s : mst) (t : list wevent) : option mst :=
  match t with
  | [] => Some s
  | ev :: r => match mstep s ev with Some s' => mrun s' r | None => None end
  end.
Lemma mrun_app t1 : forall s t2, mrun s (t1 ++ t2) = match mrun s t1 with Some s' => mrun s' t2 | None => None end.
Proof. induction t1 as [|ev t1 IH]; intros s t2; cbn [app mrun]; [reflexivity|]. destruct (mstep s ev); [apply IH|reflexivity]. Qed.
Lemma mrun_lost t : mrun Lost t = Some Lost.
Proof. induction t; cbn; auto. Qed.

(** [P]: what is known of "something was written" before, [Q] after. *)
Definition good (Q : bool -> Prop) (s : mst) : Prop := match s with Lost => True | Calm w => Q w | Poll _ _ => False end.
Definition fit_at {A} (P : bool -> Prop) (v : vst) (x : outcome A * vst) (Q : A -> bool -> Prop) : Prop := exists tw, v_t (snd x) = v_t v ++ tw /\
  forall w, P w -> exists s, mrun (Calm w) tw = Some s /\
    (forall a, fst x = Done a -> good (Q a) s) /\ (fst x = Throw -> good (fun _ => True) s).
Definition fits {A} (P : bool -> Prop) (m : W A) (Q : A -> bool -> Prop) : Prop := forall v, fit_at P v (m v) Q.
Definition always (_ : bool) : Prop := True.
Definition yes (w : bool) : Prop := w = true.
Definition up (P : bool -> Prop) : Prop := forall w, P w -> P true.
Lemma up_always : up always. Proof. intros w _. exact Logic.I. Qed.
Lemma up_yes : up yes. Proof. intros w _. reflexivity. Qed.

Lemma good_weak (P Q : bool -> Prop) s : (forall w, P w -> Q w) -> good P s -> good Q s.
Proof. intros H. destruct s; cbn; auto. Qed.
Lemma fits_weak {A} (P P' : bool -> Prop) (m : W A) (Q Q' : A -> bool -> Prop) : fits P m Q -> (forall w, P' w -> P w) -> (forall a w, Q a w -> Q' a w) -> fits P' m Q'.
Proof.
  intros H J K v. destruct (H v) as (tw & E & X). exists tw. split; [exact E|]. intros w Pw. destruct (X w (J w Pw)) as (s & R & D & T).
  exists s. split; [exact R|]. split; [|exact T]. intros a Ea. exact (good_weak _ _ _ (K a) (D a Ea)).
Qed.
Lemma fits_bind {A C} P (m : W A) Q (k : A -> W C) R : fits P m Q -> (forall a, fits (Q a) (k a) R) -> fits P (wbind m k) R.
Proof.
  intros H J v. destruct (H v) as (tw & E & X). unfold wbind.
  unfold fit_at in *. destruct (m v) as [[a| | | | |] v1]; cbn [fst snd] in *;
    try (exists tw; split; [exact E|]; intros w Pw; destruct (X w Pw) as (s & M & D & T); exists s; (split; [exact M|]); cbn; (split; [discriminate|]); first [discriminate|intros _; exact (T eq_refl)]).
  destruct (J a v1) as (tw2 & E2 & X2). exists (tw ++ tw2). split; [now rewrite E2, E, app_assoc|]. intros w Pw.
  destruct (X w Pw) as (s & M & D & T). rewrite mrun_app, M. specialize (D a eq_refl). destruct s as [|w1|]; [| |contradiction].
  - exists Lost. rewrite mrun_lost. split; [reflexivity|]. split; intros; exact Logic.I.
  - exact (X2 w1 D).
Qed.

(** Events that do not matter, or matter only because something is written. *)
Definition still (ev : wevent) : Prop := match ev with WIoctl _ _ _ => False | WSock (EvRecv _ _) => False | WSock e => writes e = false | _ => True end.
Definition mute (ev : wevent) : Prop := match ev with WIoctl _ _ _ => False | WSock (EvRecv _ _) => False | _ => True end.
Lemma still_mute ev : still ev -> mute ev.
Proof. destruct ev as [[]| | | | | | | | |]; cbn; auto. Qed.
Lemma mrun_still t : Forall still t -> forall w, mrun (Calm w) t = Some (Calm w).
Proof.
  induction 1 as [|ev t S _ IH]; intros w; [reflexivity|]. cbn [mrun].
  assert (E : mstep (Calm w) ev = Some (Calm w)) by (destruct ev as [[]| | | | | | | | |]; cbn in S |- *; try contradiction; try discriminate; rewrite ?orb_false_r; reflexivity).
  rewrite E. apply IH.
Qed.
Lemma mrun_mute t : Forall mute t -> forall w, exists w', mrun (Calm w) t = Some (Calm w') /\ (w' = w \/ w' = true).
Proof.
  induction 1 as [|ev t S _ IH]; intros w; [exists w; auto|]. cbn [mrun].
  assert (E : exists w', mstep (Calm w) ev = Some (Calm w') /\ (w' = w \/ w' = true)).
  { destruct ev as [[]| | | | | | | | |]; cbn in S |- *; try contradiction; eexists; (split; [reflexivity|]); rewrite ?orb_false_r, ?orb_true_r; auto. }
  destruct E as (w1 & -> & [->| ->]); [apply IH|]. destruct (IH true) as (w2 & -> & [->| ->]); eauto.
Qed.
Lemma fits_still {A} P (m : W A) : only still m -> fits P m (fun _ => P).
Proof.
  intros H v. destruct (H v) as (tw & E & F). exists tw. split; [exact E|]. intros w Pw. exists (Calm w). split; [now apply mrun_still|]. cbn. auto.
Qed.
Lemma fits_mute {A} P (m : W A) : up P -> only mute m -> fits P m (fun _ => P).
Proof.
  intros U H v. destruct (H v) as (tw & E & F). exists tw. split; [exact E|]. intros w Pw. destruct (mrun_mute tw F w) as (w' & R & C).
  exists (Calm w'). split; [exact R|]. cbn. split; [|auto]. intros _ _. destruct C as [-> | ->]; [exact Pw|exact (U w Pw)].
Qed.

(** ** Functions of the POSIX model *)

Definition causes (P : event -> Prop) {A} (m : M A) : Prop := forall s, exists t, s_t (snd (m s)) = s_t s ++ t /\ Forall P t.
Lemma ca_base (P : wevent -> Prop) (Q : event -> Prop) {A} (m : M A) : causes Q m -> (forall ev, Q ev -> P (WSock ev)) -> only P (base m).
Proof.
  intros H J v. unfold base. destruct (H (mkSt (v_c v) (v_e v) [])) as (t & E & F). destruct (m _) as [o s]. cbn in *. subst.
  eexists; split; [reflexivity|]. apply Forall_map. eapply Forall_impl; eauto.
Qed.
Lemma ca_same P {A} (m : M A) : (forall s, s_t (snd (m s)) = s_t s) -> causes P m.
Proof. intros H s. exists []. rewrite app_nil_r. auto. Qed.
Lemma ca_bind P {A C} (m : M A) (k : A -> M C) : causes P m -> (forall a, causes P (k a)) -> causes P (bind m k).
Proof.
  intros H J s. destruct (H s) as (l & E & F). unfold bind. destruct (m s) as [[a| | | | |] s1]; cbn [snd] in *; try (exists l; auto; fail).
  destruct (J a s1) as (l2 & E2 & F2). exists (l ++ l2). split; [now rewrite E2, E, app_assoc|]. now apply Forall_app.
Qed.
Lemma ca_emit (P : event -> Prop) ev : P ev -> causes P (emit ev).
Proof. intros H s. exists [ev]. auto. Qed.
Lemma ca_emits (P : event -> Prop) l : Forall P l -> causes P (emits l).
Proof. intros H s. exists l. auto. Qed.
Ltac ca := repeat match goal with
  | |- causes _ (bind _ _) => apply ca_bind; [|intros ?]
  | |- causes _ (emit _) => apply ca_emit; (reflexivity || exact Logic.I)
  | |- causes _ (match ?x with _ => _ end) => destruct x
  | |- causes _ (let _ := _ in _) => cbv zeta
  | H : causes _ ?m |- causes _ ?m => exact H
  | |- causes _ _ => apply ca_same; reflexivity
  end.
Definition stillM (ev : event) : Prop := still (WSock ev).
Definition muteM (ev : event) : Prop := mute (WSock ev).
Lemma ca_addLog P i p : causes P (addLog i p).
Proof. unfold addLog. apply ca_bind; [ca|]. intros c. destruct (c_log c); [|ca]. cbv zeta. repeat match goal with |- causes _ (if ?b then _ else _) => destruct b end; ca. Qed.
Lemma ca_logc P x : causes P (logc x). Proof. apply ca_addLog. Qed.
Lemma ca_logs P x : causes P (logs x). Proof. apply ca_addLog. Qed.
Lemma ca_errno P er : causes P (log_errno er).
Proof. unfold log_errno, setLastSocketErrNo. ca. apply ca_logc. Qed.
Lemma ca_wait_loop mk to rs : (forall r, muteM (mk r)) -> forall wt o evs rest, wait_loop mk to wt rs = (o, evs, rest) -> Forall muteM evs.
Proof.
  intros H. induction rs as [|r rs IH]; intros wt o evs rest E; cbn [wait_loop] in E; [injection E as <- <- <-; constructor|].
  destruct (rbytes r); [|injection E as <- <- <-; auto].
  destruct (wt <? to)%N; [|injection E as <- <- <-; auto]. destruct (wait_loop mk to (wt + 1)%N rs) as [[o1 e1] r1] eqn:L.
  injection E as <- <- <-. constructor; [apply H|]. constructor; [exact Logic.I|]. exact (IH _ _ _ _ L).
Qed.
Lemma ca_wait_bio : causes muteM wait_bio.
Proof.
  unfold wait_bio. apply ca_bind; [ca|]. intros c. destruct (c_bio c) as [b|]; [|unfold wait_null_bio; ca]. apply ca_bind; [ca|]. intros e.
  destruct (wait_loop _ _ _ _) as [[o evs] rest] eqn:L. ca. apply ca_emits. eapply ca_wait_loop; [|exact L]. intros; exact Logic.I.
Qed.
Lemma ca_greeting P r : causes P (greeting_result r).
Proof. unfold greeting_result. destruct r; [|ca]. cbv zeta. apply ca_bind; [apply ca_logs|]. intros _. apply ca_bind; [destruct (_ =? _); [apply ca_logc|ca]|]. intros _. ca. Qed.
Lemma ca_reply_tls : causes muteM getServerReplyTLS.
Proof. unfold getServerReplyTLS. apply ca_bind; [apply ca_wait_bio|]. intros [d|]; [|ca]. cbv zeta. unfold setLastServerResponse. ca. apply ca_logs. Qed.
Lemma ca_greetings_tls : causes muteM checkServerGreetingsTLS.
Proof. unfold checkServerGreetingsTLS. apply ca_bind; [apply ca_wait_bio|]. intros r. apply ca_greeting. Qed.
Lemma ca_send d : causes muteM (sys_send d).
Proof. unfold sys_send. ca. Qed.
Lemma ca_puts b d : causes muteM (sys_puts b d).
Proof. unfold sys_puts. ca. Qed.
Lemma ca_close : causes muteM close_socket.
Proof. unfold close_socket. ca. Qed.
Lemma ca_free : causes muteM free_tls.
Proof. unfold free_tls. ca. Qed.
Lemma ca_connect : causes stillM sys_connect.
Proof. unfold sys_connect. apply ca_bind; [ca|]. intros c. apply ca_bind; [ca|]. intros e. cbv zeta. destruct (e_conn e) as [|r l]; ca; destruct r; reflexivity. Qed.

(** ** Windows functions that never read *)

Ltac cb := repeat match goal with
  | |- causes _ (logc _) => apply ca_logc
  | |- causes _ (logs _) => apply ca_logs
  | |- causes _ (addLog _ _) => apply ca_addLog
  | |- causes _ (log_errno _) => apply ca_errno
  | |- causes _ (sys_send _) => apply ca_send
  | |- causes _ (sys_puts _ _) => apply ca_puts
  | |- causes _ close_socket => apply ca_close
  | |- causes _ free_tls => apply ca_free
  | |- causes _ getServerReplyTLS => apply ca_reply_tls
  | |- causes _ checkServerGreetingsTLS => apply ca_greetings_tls
  | |- causes _ sys_connect => apply ca_connect
  | |- causes _ (bind _ _) => apply ca_bind; [|intros ?]
  | |- causes _ (emit _) => apply ca_emit; (reflexivity || exact Logic.I)
  | |- causes _ (match ?x with _ => _ end) => destruct x
  | |- causes _ _ => apply ca_same; reflexivity
  end.
Lemma ob {A} (m : M A) : causes muteM m -> only mute (base m).
Proof. intros H. apply (ca_base _ muteM); auto. Qed.
Lemma obs {A} (m : M A) : causes stillM m -> only still (base m).
Proof. intros H. apply (ca_base _ stillM); auto. Qed.
Lemma os_msg er : only still (addWSAMessage er).
Proof. intros v. unfold addWSAMessage. destruct (x_format (v_w v) er); [apply obs, ca_logc|]. exists []. rewrite app_nil_r. auto. Qed.
Ltac os := repeat match goal with
  | |- only _ (wbind _ _) => apply only_bind; [|intros ?]
  | |- only still (base _) => apply obs; cb
  | |- only mute (base _) => apply ob; cb
  | |- only _ (wret _) => apply only_same; reflexivity
  | |- only _ (set_on _) => apply only_same; reflexivity
  | |- only _ get_on => apply only_same; reflexivity
  | |- only _ (next _ _ _) => apply only_next
  | |- only _ (wput _) => apply only_put; exact Logic.I
  | |- only still (addWSAMessage _) => apply os_msg
  | H : only _ ?m |- only _ ?m => exact H
  | |- only _ (match ?x with _ => _ end) => destruct x
  end.
Lemma os_doclean : only still doWSACleanup. Proof. unfold doWSACleanup. os. Qed.
Lemma os_init : only still initializeSessionW.
Proof. unfold initializeSessionW, initializeSessionWinSock. pose proof os_doclean. os. Qed.
Lemma om_doclean : only mute doWSACleanup.
Proof. eapply only_weak; [apply still_mute|apply os_doclean]. Qed.
Lemma om_ptr cw cmd err : only mute cw -> only mute (sendCommandPtrW cw cmd err).
Proof. intros H. unfold sendCommandPtrW, sendRaw2W, sendCommandTLSW. os. Qed.
Lemma om_quit cw : only mute cw -> only mute (sendQuitW cw).
Proof. intros H. unfold sendQuitW. pose proof (fun a b => om_ptr cw a b H) as X. apply only_bind; [os|]. intros _. apply X. Qed.
Lemma om_cleanup_f n : only mute (cleanup_fW n).
Proof.
  induction n as [|n IH]; cbn [cleanup_fW]; [os|]. pose proof (om_quit _ IH). pose proof om_doclean.
  unfold close_socketW, release_winsock. os.
Qed.
Lemma om_cleanup : only mute cleanupW.
Proof. intros v. apply om_cleanup_f. Qed.
Lemma om_cptr cmd err : only mute (sendCommandPtrW cleanupW cmd err).
Proof. apply om_ptr, om_cleanup. Qed.
Lemma om_startTLS : only mute startTLSNegotiationW.
Proof. unfold startTLSNegotiationW. pose proof om_cleanup. os. Qed.
Lemma om_chunks l err : only mute (send_chunksW l err).
Proof. induction l as [|x l IH]; cbn [send_chunksW]; [os|]. apply only_bind; [apply om_cptr|]. intros. os. Qed.

(** ** Functions that wait for a reply *)

Definition sent (err : Z) (r : Z) (w : bool) : Prop := w = true \/ r = err.
Lemma f_mute {A} (m : W A) : only mute m -> fits always m (fun _ => always).
Proof. apply fits_mute, up_always. Qed.
Lemma f_yes {A} (m : W A) : only mute m -> fits yes m (fun _ => yes).
Proof. apply fits_mute, up_yes. Qed.
Lemma f_send d : fits always (base (sys_send d)) (fun _ => yes).
Proof.
  intros v. unfold base, sys_send, bind, getc, gete, upde, emit, ret. cbn [s_c s_e s_t fst snd].
  destruct (e_send (v_e v)) as [|r l]; cbn; (eexists; split; [reflexivity|]; intros w _; exists (Calm true); cbn; rewrite orb_true_r; split; [reflexivity|]; split; [reflexivity|discriminate]).
Qed.
Lemma f_puts b d : fits always (base (sys_puts b d)) (fun _ => yes).
Proof.
  intros v. unfold base, sys_puts, bind, getc, gete, upde, emit, ret. cbn [s_c s_e s_t fst snd].
  destruct (e_bputs (v_e v)) as [|r l]; cbn; (eexists; split; [reflexivity|]; intros w _; exists (Calm true); cbn; rewrite orb_true_r; split; [reflexivity|]; split; [reflexivity|discriminate]).
Qed.
Lemma f_raw2 cmd err : fits always (sendRaw2W cleanupW cmd err) (sent err).
Proof.
  unfold sendRaw2W. destruct (_ <? _)%N.
  - intros v. exists [WTooLong (cstr cmd)]. split; [reflexivity|]. intros w _. exists (Calm w). split; [reflexivity|]. split; [|discriminate]. cbn. intros a E. injection E as <-. now right.
  - apply (fits_bind _ _ (fun _ => yes)); [apply f_send|]. intros r. eapply fits_weak; [apply f_yes|auto|intros; now left]. pose proof om_cleanup. os.
Qed.

Lemma raw_events fd to rs : forall wt got acc o evs rest, raw_loop fd to wt got acc rs = (o, evs, rest) ->
  Forall (fun ev => match ev with EvRecv f _ => f = fd | EvSleep _ => True | _ => False end) evs /\ o <> Throw.
Proof.
  induction rs as [|r rs IH]; intros wt got acc o evs rest E; cbn [raw_loop] in E; [injection E as <- <- <-; split; [constructor|discriminate]|].
  destruct (rbytes r) as [|x d].
  - destruct (is_err r && got); [injection E as <- <- <-; split; [repeat constructor|discriminate]|].
    destruct (wt + 1 <? to)%N; [|injection E as <- <- <-; split; [repeat constructor|discriminate]].
    destruct (raw_loop fd to (wt + 1)%N got acc rs) as [[o1 e1] r1] eqn:L. injection E as <- <- <-. apply IH in L as [L N]. split; [|exact N]. repeat constructor. exact L.
  - destruct (_ <=? _)%nat; [injection E as <- <- <-; split; [repeat constructor|discriminate]|].
    destruct (wt <? to)%N; [|injection E as <- <- <-; split; [repeat constructor|discriminate]].
    destruct (raw_loop fd to wt true (acc ++ cstr (x :: d)) rs) as [[o1 e1] r1] eqn:L. injection E as <- <- <-. apply IH in L as [L N]. split; [|exact N]. constructor; [reflexivity|exact L].
Qed.
Lemma mrun_raw fd evs : Forall (fun ev => match ev with EvRecv f _ => f = fd | EvSleep _ => True | _ => False end) evs ->
  mrun (Poll true fd) (map WSock evs) = Some (Poll true fd).
Proof.
  induction 1 as [|ev t S _ IH]; [reflexivity|]. cbn [map mrun]. destruct ev; try contradiction; cbn [mstep]; [|exact IH].
  subst. rewrite Z.eqb_refl. exact IH.
Qed.
Lemma mode_eff b v : exists r, v_t (snd (setSocketMode b v)) = v_t v ++ [WIoctl (c_sock (v_c v)) b r] /\
  (r = None -> fst (setSocketMode b v) = Done 0 /\ c_sock (v_c (snd (setSocketMode b v))) = c_sock (v_c v)).
Proof.
  destruct v as [c on e [a1 a2 a3 io a5 a6] t]. destruct io as [|[er|] l].
  - exists None. cbn. rewrite app_nil_r. auto.
  - exists (Some er). split; [|discriminate].
    assert (O : only (fun _ => False) (base (log_errno er) ;;# wret (if b then SOCKET_INIT_SESSION_FCNTL_SET_ERROR else SOCKET_INIT_SESSION_FCNTL_GET_ERROR)))
      by (apply only_bind; [apply (ca_base _ (fun _ => False)); [apply ca_errno|auto]|intros; apply only_same; reflexivity]).
    destruct (O (mkV c on e (mkWenv a1 a2 a3 l a5 a6) ((t ++ []) ++ [WIoctl (c_sock c) b (Some er)]))) as (t1 & E & F).
    change (snd (setSocketMode b (mkV c on e (mkWenv a1 a2 a3 (Some er :: l) a5 a6) t))) with
      (snd ((base (log_errno er) ;;# wret (if b then SOCKET_INIT_SESSION_FCNTL_SET_ERROR else SOCKET_INIT_SESSION_FCNTL_GET_ERROR))
        (mkV c on e (mkWenv a1 a2 a3 l a5 a6) ((t ++ []) ++ [WIoctl (c_sock c) b (Some er)])))).
    rewrite E. destruct F; [|contradiction]. cbn. now rewrite !app_nil_r.
  - exists None. cbn. rewrite app_nil_r. auto.
Qed.
Lemma f_lost {A} P fd b er (m : W A) Q : only (fun _ => True) m -> forall v v1, v_t v1 = v_t v ++ [WIoctl fd b (Some er)] -> fit_at P v (m v1) Q.
Proof.
  intros H v v1 E. destruct (H v1) as (tw & E1 & _). exists (WIoctl fd b (Some er) :: tw). split; [rewrite E1, E, <- app_assoc; reflexivity|].
  intros w _. exists Lost. cbn [mrun mstep]. split; [apply mrun_lost|]. split; intros; exact Logic.I.
Qed.
Lemma o_any {A} (m : W A) : only plainly m -> only (fun _ => True) m.
Proof. apply only_weak. auto. Qed.
Definition raw_body (c : client) : W (N * bool * str) :=
  base (e <- gete;;
        let '(o, evs, rest) := raw_loop (c_sock c) (c_timeout c) 0 false [] (e_recv e) in
        upde (set_recv rest);;
        emits evs;;
        lift o).
Definition raw_end (c : client) (x : N * bool * str) : W Z :=
  let '(wait, got, full) := x in
  setSocketMode false ;;#
  base (if (wait <? c_timeout c)%N || got then
          setLastServerResponse full;;
          logs full;;
          ret (extractReturnCode (Some full))
        else ret (-1)).
Lemma f_raw_reply : fits yes getRawCommandReplyW (fun _ => yes).
Proof.
  intros v. destruct (mode_eff true v) as (r & E & D).
  assert (X : getRawCommandReplyW v = (setSocketMode true ;;# c <# base getc ;; x <# raw_body c ;; raw_end c x) v) by reflexivity.
  rewrite X. clear X. unfold wbind at 1.
  assert (AN : only (fun _ => True) (c <# base getc ;; x <# raw_body c ;; raw_end c x))
    by (apply o_any; unfold raw_body, raw_end, setSocketMode; on).
  destruct r as [er|].
  - destruct (setSocketMode true v) as [[a| | | | |] v1]; cbn [fst snd] in *; [exact (f_lost yes _ _ _ _ (fun _ => yes) AN v v1 E)|..];
      (eexists; split; [exact E|]; intros w _; exists Lost; split; [reflexivity|]; split; intros; exact Logic.I).
  - destruct (D eq_refl) as [D1 D2]. destruct (setSocketMode true v) as [a v1]. cbn [fst snd] in *. subst a.
    clear AN D. unfold wbind at 1, base at 1, getc. cbn [s_c s_e s_t map fst snd]. rewrite app_nil_r.
    set (v2 := mkV _ _ _ _ _). assert (S2 : c_sock (v_c v2) = c_sock (v_c v)) by exact D2. assert (T2 : v_t v2 = v_t v ++ [WIoctl (c_sock (v_c v)) true None]) by exact E.
    change (v_c v1) with (v_c v2). clearbody v2. clear v1 E D2. unfold wbind, raw_body at 1, base, bind, gete. cbn [s_c s_e s_t fst snd].
    destruct (raw_loop (c_sock (v_c v2)) (c_timeout (v_c v2)) 0 false [] (e_recv (v_e v2))) as [[o evs] rest] eqn:L. apply raw_events in L as [L N].
    rewrite S2 in L. apply mrun_raw in L. unfold upde, emits, lift. cbn [s_c s_e s_t fst snd app v_c v_e v_on v_w].
    destruct o as [x| | | | |]; [|contradiction|..];
      try (eexists; split; [cbn [v_t snd]; rewrite T2, <- app_assoc; reflexivity|]; intros w ->; exists (Poll true (c_sock (v_c v))); split; [cbn [mrun mstep]; exact L|split; discriminate]).
    destruct x as [[wt got] full]. set (v3 := mkV _ _ _ _ _). set (cc := v_c v2).
    assert (S3 : c_sock (v_c v3) = c_sock (v_c v)) by exact S2.
    assert (T3 : v_t v3 = v_t v ++ WIoctl (c_sock (v_c v)) true None :: map WSock evs) by (cbn; rewrite T2, <- app_assoc; reflexivity).
    clearbody v3 cc. unfold raw_end. destruct (mode_eff false v3) as (r & E & D). rewrite S3, T3 in E. unfold wbind.
    destruct r as [er|].
    + assert (Y : forall tw, exists s, mrun (Calm true) ((WIoctl (c_sock (v_c v)) true None :: map WSock evs) ++ WIoctl (c_sock (v_c v)) false (Some er) :: tw) = Some s /\ s = Lost).
      { intros tw. exists Lost. split; [|reflexivity]. rewrite mrun_app. cbn [mrun mstep]. rewrite L. cbn [mrun mstep]. apply mrun_lost. }
      destruct (setSocketMode false v3) as [[a| | | | |] v4]; cbn [fst snd] in *;
        try (eexists; split; [cbn [snd]; rewrite E, <- app_assoc; reflexivity|]; intros w ->; destruct (Y []) as (s & M & ->); exists Lost; split; [exact M|split; intros; exact Logic.I]).
      match goal with |- context [base ?m v4] => assert (O : only plainly (base m)) by apply only_base; destruct (O v4) as (tw & E4 & _) end.
      unfold fit_at. rewrite E4, E, <- !app_assoc. eexists; split; [reflexivity|]. intros w ->. destruct (Y tw) as (s & M & ->). exists Lost. split; [exact M|split; intros; exact Logic.I].
    + destruct (D eq_refl) as [D1 D2]. destruct (setSocketMode false v3) as [a v4]. cbn [fst snd] in *. subst a.
      match goal with |- context [base ?m v4] => assert (O : only still (base m)) by (apply obs; cb); destruct (O v4) as (tw & E4 & F4) end.
      unfold fit_at. rewrite E4, E, <- !app_assoc. eexists; split; [reflexivity|]. intros w ->. exists (Calm true). split.
      * rewrite mrun_app. cbn [mrun mstep]. rewrite L. cbn [app mrun mstep]. rewrite Z.eqb_refl. now apply mrun_still.
      * split; [reflexivity|intros; exact Logic.I].
Qed.
Lemma f_reply : fits yes getServerReplyW (fun _ => yes).
Proof.
  unfold getServerReplyW. apply (fits_bind _ _ (fun _ => yes)); [apply fits_still; os|]. intros c. destruct (c_kind c); [apply f_raw_reply|..]; apply f_yes; os.
Qed.
Lemma f_ret {A} (P : bool -> Prop) (a : A) (Q : A -> bool -> Prop) : (forall w, P w -> Q a w) -> fits P (wret a) Q.
Proof.
  intros H v. exists []. cbn. rewrite app_nil_r. split; [reflexivity|]. intros w Pw. exists (Calm w). split; [reflexivity|]. split; [|discriminate].
  intros b E. injection E as <-. exact (H w Pw).
Qed.
Lemma f_after err tm : fits yes (code <# getServerReplyW ;; if negb (code =? -1) then wret code else cleanupW ;;# wret tm) (sent err).
Proof.
  apply (fits_weak yes _ _ (fun _ => yes)); [|auto|intros; now left]. apply (fits_bind _ _ (fun _ => yes)); [apply f_reply|].
  intros code. apply f_yes. pose proof om_cleanup. os.
Qed.
Lemma f_raw3 cmd err tm : err <> 0 -> fits always (sendRaw3W cmd err tm) (sent err).
Proof.
  intros N. unfold sendRaw3W. apply (fits_bind _ _ (sent err)); [apply f_raw2|]. intros r. destruct (r =? 0) eqn:Z0; cbn [negb]; [|apply f_ret; intros; now right].
  apply (fits_weak yes _ _ (sent err)); [|intros w [W|W]; [exact W|apply Z.eqb_eq in Z0; congruence]|auto].
  apply (fits_bind _ _ (fun _ => yes)); [apply f_raw_reply|]. intros code. eapply fits_weak; [apply f_yes|auto|intros; now left]. pose proof om_cleanup. os.
Qed.
Lemma f_feed cmd err tm : err <> 0 -> fits always (sendFeedbackW cmd err tm) (sent err).
Proof.
  intros N. unfold sendFeedbackW. apply (fits_bind _ _ (fun _ => always)); [apply fits_still; os|]. intros c.
  assert (T : fits always (sendFeedbackTLSW cmd err tm) (sent err)); [|destruct (c_kind c); [now apply f_raw3|exact T|exact T]].
  unfold sendFeedbackTLSW. apply (fits_bind _ _ (fun _ => always)); [apply fits_still; os|]. intros d. destruct (c_bio d); [|now apply f_raw3].
  apply (fits_bind _ _ (fun _ => yes)); [apply f_puts|]. intros r.
  destruct r; try apply f_after; (eapply fits_weak; [apply f_yes|auto|intros; now left]); pose proof om_cleanup; os.
Qed.
Lemma f_feedptr cmd err tm : err <> 0 -> fits always (sendFeedbackPtrW cmd err tm) (fun _ => always).
Proof.
  intros N. unfold sendFeedbackPtrW. apply (fits_weak always _ _ (sent err)); [|auto|intros; exact Logic.I].
  apply (fits_bind _ _ (fun _ => always)); [apply fits_still; os|]. intros c. destruct (c_rawptr c); [now apply f_raw3|now apply f_feed].
Qed.
Lemma f_ehlo_loop n tc : forall op, fits yes (ehlo_loopW n tc op) (fun _ => yes).
Proof.
  induction n as [|n IH]; intros op; cbn [ehlo_loopW]; destruct (containsAllOptions op); try solve [apply f_yes; os].
  apply (fits_bind _ _ (fun _ => yes)); [apply f_reply|]. intros code. repeat match goal with |- fits _ (if ?b then _ else _) _ => destruct b end; try solve [apply f_yes; os].
  apply (fits_bind _ _ (fun _ => yes)); [apply fits_still; os|]. intros c. destruct (c_resp c); [apply IH|apply f_yes; os].
Qed.
Lemma f_ehlo err tm : err <> 0 -> err <> 250 -> fits always (ehlo_withW err tm) (fun _ => always).
Proof.
  intros N0 N. unfold ehlo_withW. apply (fits_bind _ _ (fun _ => always)); [apply fits_still; os|]. intros _. apply (fits_bind _ _ (sent err)); [now apply f_feed|].
  intros code. destruct (code =? 250) eqn:Q; cbn [negb]; [|apply f_ret; intros; exact Logic.I].
  apply (fits_weak yes _ _ (fun _ => yes)); [|intros w [W|W]; [exact W|apply Z.eqb_eq in Q; congruence]|intros; exact Logic.I].
  apply (fits_bind _ _ (fun _ => yes)); [apply fits_still; os|]. intros c. destruct (c_resp c); [|apply f_yes; os].
  apply (fits_bind _ _ (fun _ => yes)); [apply fits_still; os|]. intros e. apply f_ehlo_loop.
Qed.
Ltac fw := repeat match goal with
  | |- fits _ (sendFeedbackPtrW _ _ _) _ => apply f_feedptr; discriminate
  | |- fits _ (sendCommandPtrW cleanupW _ _) _ => apply f_mute, om_cptr
  | |- fits _ (sendQuitW cleanupW) _ => apply f_mute, om_quit, om_cleanup
  | |- fits _ cleanupW _ => apply f_mute, om_cleanup
  | |- fits _ startTLSNegotiationW _ => apply f_mute, om_startTLS
  | |- fits _ (ehlo_withW _ _) _ => apply f_ehlo; discriminate
  | |- fits _ (send_chunksW _ _) _ => apply f_mute, om_chunks
  | |- fits _ (wret _) _ => apply f_ret; intros; exact Logic.I
  | |- fits _ (base _) _ => apply f_mute, ob; cb
  | |- fits _ (wbind _ _) _ => apply (fits_bind _ _ (fun _ => always)); [|intros ?]
  | |- fits _ (match ?x with _ => _ end) _ => destruct x
  end.
Lemma f_secure : fits always getServerSecureIdentificationW (fun _ => always).
Proof. unfold getServerSecureIdentificationW. fw. Qed.
Lemma f_auth_if : fits always authenticate_if_neededW (fun _ => always).
Proof. unfold authenticate_if_neededW, authenticateClientW, authPlainW, authLoginW, authXOauth2W. fw. Qed.
Lemma f_mail_from l : forall z, fits always (mail_from_loopW l z) (fun _ => always).
Proof. induction l as [|f l IH]; intros z; cbn [mail_from_loopW]; fw. apply IH. Qed.
Lemma f_add_rcpt l : forall z, fits always (addMailRecipientsW l z) (fun _ => always).
Proof. induction l as [|f l IH]; intros z; cbn [addMailRecipientsW]; fw; apply IH. Qed.
Lemma f_rcpts l : fits always (recipients_loopW l) (fun _ => always).
Proof.
  induction l as [|a l IH]; cbn [recipients_loopW]; [fw|]. destruct a; [apply IH|].
  apply (fits_bind _ _ (fun _ => always)); [apply f_add_rcpt|]. intros. destruct (negb _); [fw|apply IH].
Qed.
Lemma f_connected m : fits always (connected_part m) (fun _ => always).
Proof.
  unfold connected_part, mail_transactionW. apply (fits_bind _ _ (fun _ => always)); [fw|]. intros _.
  apply (fits_bind _ _ (fun _ => always)).
  { unfold setMailRecipientsW. apply (fits_bind _ _ (fun _ => always)); [apply f_mail_from|]. intros. destruct (negb _); [fw|apply f_rcpts]. }
  intros r. destruct (negb _); [fw|]. apply (fits_bind _ _ (fun _ => always)); [unfold setMailHeadersW, addMailHeaderW, address_headerW, addMailHeaderW; fw|].
  intros h. destruct (negb _); [fw|]. apply (fits_bind _ _ (fun _ => always)); [unfold setMailBodyW; fw|]. intros b. fw.
Qed.
(** The greeting is read before anything is written. *)
Definition no (w : bool) : Prop := w = false.
Lemma wait_recv fd to rs : forall wt o evs rest, wait_loop (EvRecv fd) to wt rs = (o, evs, rest) -> mrun (Calm false) (map WSock evs) = Some (Calm false).
Proof.
  induction rs as [|r rs IH]; intros wt o evs rest E; cbn [wait_loop] in E; [injection E as <- <- <-; reflexivity|].
  destruct (rbytes r); [|injection E as <- <- <-; reflexivity].
  destruct (wt <? to)%N; [|injection E as <- <- <-; reflexivity]. destruct (wait_loop (EvRecv fd) to (wt + 1)%N rs) as [[o1 e1] r1] eqn:L.
  injection E as <- <- <-. cbn [map mrun mstep orb writes]. exact (IH _ _ _ _ L).
Qed.
Lemma f_greetings : fits no (base checkServerGreetings) (fun _ => always).
Proof.
  intros v. unfold base, checkServerGreetings, bind at 1, getc. unfold bind at 1, gete. cbn [s_c s_e s_t].
  destruct (wait_loop _ _ _ _) as [[o evs] rest] eqn:L. unfold bind at 1, upde. unfold bind at 1, emits. unfold bind, lift. cbn [s_c s_e s_t app].
  apply wait_recv in L.
  destruct o as [r| | | | |]; try (exists (map WSock evs); split; [reflexivity|]; intros w ->; exists (Calm false); split; [exact L|split; intros; exact Logic.I]).
  destruct (ca_greeting stillM r (mkSt (v_c v) (set_recv rest (v_e v)) evs)) as (t & E & F). destruct (greeting_result r _) as [a s]. cbn in E.
  exists (map WSock (evs ++ t)). cbn [snd v_t]. rewrite E. split; [reflexivity|]. intros w ->. exists (Calm false). rewrite map_app, mrun_app, L. split; [|split; intros; exact Logic.I].
  apply mrun_still, Forall_map. exact F.
Qed.
Lemma f_rest k : fits no (rest k) (fun _ => always).
Proof.
  assert (G : forall c, fits always c (fun _ : Z => always) -> fits no (g <# base checkServerGreetings ;; if negb (g =? STATUS_CODE_SERVICE_READY) then wret g else c) (fun _ => always)).
  { intros c H. apply (fits_bind _ _ (fun _ => always)); [apply f_greetings|]. intros g. destruct (negb _); [fw|exact H]. }
  assert (SA : fits always (s <# getServerSecureIdentificationW ;; if negb (s =? STATUS_CODE_REQUESTED_MAIL_ACTION_OK_OR_COMPLETED) then wret s else authenticate_if_neededW) (fun _ => always))
    by (apply (fits_bind _ _ (fun _ => always)); [apply f_secure|]; intros s; destruct (negb _); [fw|apply f_auth_if]).
  destruct k; cbn [rest].
  - apply G. unfold sendServerIdentificationW. fw. apply f_auth_if.
  - apply G. unfold sendServerIdentificationW. apply (fits_bind _ _ (fun _ => always)); [fw|]. intros i. destruct (negb _); [fw|].
    apply (fits_bind _ _ (fun _ => always)); [fw|]. intros d. apply (fits_bind _ _ (fun _ => always)); [fw|]. intros [|]; [|fw].
    apply (fits_bind _ _ (fun _ => always)); [fw|]. intros _. apply (fits_bind _ _ (fun _ => always)).
    { unfold upgradeToSecureConnectionW. apply (fits_bind _ _ (fun _ => always)); [fw|]. intros _. eapply fits_weak; [apply f_raw3; discriminate|auto|intros; exact Logic.I]. }
    intros u. destruct (negb _); [fw|]. apply (fits_bind _ _ (fun _ => always)); [fw|]. intros q. destruct (negb _); [fw|exact SA].
  - apply (fits_weak always _ _ (fun _ => always)); [|intros; exact Logic.I|auto]. unfold rest_forced. apply (fits_bind _ _ (fun _ => always)); [fw|]. intros q. destruct (negb _); [fw|].
    apply (fits_bind _ _ (fun _ => always)); [fw|]. intros g. destruct (negb _); [fw|exact SA].
Qed.
Lemma f_send_mail m : fits no (sendMailW m) (fun _ => always).
Proof.
  unfold sendMailW. fold (connected_part m). apply (fits_bind _ _ (fun _ => no)); [apply fits_still; os|]. intros c.
  apply (fits_bind _ _ (fun _ => always)).
  - destruct (c_conn c); [apply f_ret; intros; exact Logic.I|]. intros v. rewrite establish_eq.
    apply (fits_bind _ _ (fun _ => no)); [apply fits_still, os_init|]. intros r. destruct (negb _); [apply f_ret; intros; exact Logic.I|apply f_rest].
  - intros r. destruct (negb _); [fw|apply f_connected].
Qed.
Lemma step_fits o w : exists tw s, ww_trace (snd (wstep o w)) = ww_trace w ++ tw /\ mrun (Calm false) tw = Some s /\
  (continues (fst (wstep o w)) = true -> good always s).
Proof.
  destruct (talks o) eqn:T.
  - assert (X : forall i (m : W Z) g, fits no m (fun _ => always) -> exists tw s, ww_trace (snd (run_onW i m g w)) = ww_trace w ++ tw /\ mrun (Calm false) tw = Some s /\
      (continues (fst (run_onW i m g w)) = true -> good always s)).
    { intros i m g H. unfold run_onW. destruct (get_client (ww w) i) as [c|]; [|exists [], (Calm false); rewrite app_nil_r; cbn; unfold always; auto].
      match goal with |- context [m ?v] => destruct (H v) as (tw & E & F); destruct (m v) as [q v'] end. cbn [fst snd] in *. destruct (F false eq_refl) as (s & R & D & Th).
      exists tw, s. split; [exact E|]. split; [exact R|]. intros C. destruct q; try discriminate C; [exact (D _ eq_refl)|exact (Th eq_refl)]. }
    destruct o; try discriminate T; cbn [wstep]; apply X; [apply f_send_mail|]. eapply fits_weak; [apply f_mute|intros; exact Logic.I|auto]. pose proof om_cleanup. os.
  - exists [], (Calm false). rewrite app_nil_r. split; [|split; [reflexivity|intros; exact Logic.I]]. destruct o; try discriminate T; cbn [wstep]; destruct (step _ _); reflexivity.
Qed.

(** ** What the machine means *)

Definition means (t0 t : list wevent) (s : mst) : Prop :=
  match s with
  | Lost => Exists (fun ev => ~ wswitched ev) t
  | Calm w => w = existsb wwrites t /\ forall fd, wpolling fd (t0 ++ t) = false
  | Poll w f => w = existsb wwrites t /\ forall fd, wpolling fd (t0 ++ t) = (f =? fd)
  end.
Lemma wpolling_snoc fd t ev : wpolling fd (t ++ [ev]) = wmode_after fd (wpolling fd t) ev.
Proof. unfold wpolling. now rewrite fold_left_app. Qed.
Lemma means_step t0 t s ev s' : means t0 t s -> mstep s ev = Some s' -> means t0 (t ++ [ev]) s'.
Proof.
  intros M E. destruct s as [|w|w f]; cbn [mstep] in E.
  - injection E as <-. cbn. apply Exists_app. now left.
  - destruct M as [M1 M2].
    assert (G : forall w', w' = existsb wwrites (t ++ [ev]) -> (forall fd, wmode_after fd false ev = false) -> means t0 (t ++ [ev]) (Calm w')).
    { intros w' Hw Hp. split; [exact Hw|]. intros fd. rewrite app_assoc, wpolling_snoc, M2. apply Hp. }
    assert (GW : existsb wwrites (t ++ [ev]) = w || wwrites ev) by (rewrite existsb_app, <- M1; cbn; now rewrite orb_false_r).
    destruct ev as [e| | | | |fd b r| | | |]; try (injection E as <-; apply G; [rewrite GW; cbn; now rewrite orb_false_r|reflexivity]).
    + destruct e as [k| | | | | | | | | | | | | | | | |]; try (destruct w; [discriminate|]);
        try (injection E as <-; apply G; [exact (eq_sym GW)|]; intros fd0; try reflexivity).
      destruct k; cbn; [now destruct (_ =? _)|reflexivity].
    + destruct r as [er|]; injection E as <-.
      * cbn. apply Exists_app. right. constructor. cbn. discriminate.
      * destruct b.
        { split; [rewrite GW; cbn; now rewrite orb_false_r|]. intros f. rewrite app_assoc, wpolling_snoc, M2. cbn. now destruct (fd =? f). }
        { apply G; [rewrite GW; cbn; now rewrite orb_false_r|]. intros f. cbn. now destruct (fd =? f). }
  - destruct M as [M1 M2].
    assert (GW : existsb wwrites (t ++ [ev]) = w || wwrites ev) by (rewrite existsb_app, <- M1; cbn; now rewrite orb_false_r).
    destruct ev as [e| | | | |fd b r| | | |]; try discriminate E.
    + destruct e; try discriminate E.
      * destruct ((fd =? f) && w) eqn:Q; [|discriminate]. injection E as <-. split; [rewrite GW; cbn; now rewrite orb_false_r|]. intros x. rewrite app_assoc, wpolling_snoc, M2. reflexivity.
      * injection E as <-. split; [rewrite GW; cbn; now rewrite orb_false_r|]. intros x. rewrite app_assoc, wpolling_snoc, M2. reflexivity.
    + destruct r as [er|].
      * assert (s' = Lost) by (destruct b; congruence). subst. cbn. apply Exists_app. right. constructor. cbn. discriminate.
      * destruct b; [discriminate|]. destruct (fd =? f) eqn:Q; [|discriminate]. injection E as <-. apply Z.eqb_eq in Q. subst fd.
        split; [rewrite GW; cbn; now rewrite orb_false_r|]. intros x. rewrite app_assoc, wpolling_snoc, M2. cbn. now destruct (f =? x).
Qed.
Lemma means_run t0 t : forall t1 s s', means t0 t1 s -> mrun s t = Some s' -> means t0 (t1 ++ t) s'.
Proof.
  induction t as [|ev t IH]; intros t1 s s' M E; cbn [mrun] in E; [injection E as <-; now rewrite app_nil_r|].
  destruct (mstep s ev) as [s1|] eqn:S; [|discriminate]. replace (t1 ++ ev :: t) with ((t1 ++ [ev]) ++ t) by now rewrite <- app_assoc.
  eapply IH; [|exact E]. eapply means_step; eauto.
Qed.
Lemma means_lost t0 t : Forall wswitched t -> means t0 t Lost -> False.
Proof. intros F E. cbn in E. apply Exists_exists in E as (ev & I & N). rewrite Forall_forall in F. exact (N (F ev I)). Qed.
(** The state when an event of [t] happens. *)
Lemma at_event t0 t s p ev q : (forall fd, wpolling fd t0 = false) -> mrun (Calm false) t = Some s -> t = p ++ ev :: q -> Forall wswitched p ->
  exists a b, means t0 p a /\ a <> Lost /\ mstep a ev = Some b.
Proof.
  intros T0 R E F. subst t. rewrite mrun_app in R. destruct (mrun (Calm false) p) as [a|] eqn:A; [|discriminate]. cbn [mrun] in R.
  destruct (mstep a ev) as [b|] eqn:S; [|discriminate]. exists a, b. assert (M : means t0 p a).
  { eapply (means_run t0 p []); [|exact A]. split; [reflexivity|]. intros fd. rewrite app_nil_r. apply T0. }
  split; [exact M|]. split; [|exact S]. intros ->. exact (means_lost _ _ F M).
Qed.
Definition busy (ev : event) : Prop := writes ev = true \/ uses_tls ev = true \/ connects ev = true.
Lemma busy_calm t0 p a ev b : means t0 p a -> a <> Lost -> mstep a (WSock ev) = Some b -> busy ev -> forall fd, wpolling fd (t0 ++ p) = false.
Proof.
  intros M N S H fd. destruct a as [|w|w f]; [contradiction|exact (proj2 M fd)|]. destruct ev; try discriminate S; destruct H as [H|[H|H]]; discriminate H.
Qed.
Lemma wop_recv o w p fd r q t x w' : wstep o w = (x, w') -> ww_trace w' = ww_trace w ++ t -> Forall wswitched p ->
  t = p ++ WSock (EvRecv fd r) :: q -> wpolling fd p = existsb wwrites p.
Proof.
  intros S T F E. destruct (step_fits o w) as (tw & s & E1 & R & _). rewrite S in E1. cbn in E1. rewrite T in E1. apply app_inv_head in E1. subst tw.
  destruct (at_event [] t s p _ q (fun _ => eq_refl) R E F) as (a & b & M & N & B). destruct a as [|w0|w0 f]; [contradiction|..]; destruct M as [M1 M2]; cbn [mstep] in B; cbn [app] in M2; rewrite M2, <- M1.
  - destruct w0; [discriminate|reflexivity].
  - destruct (fd =? f) eqn:Q; [|discriminate]. destruct w0; [|discriminate]. now rewrite Z.eqb_sym.
Qed.
Lemma wrun_modes ops : forall w t, (forall fd, wpolling fd (ww_trace w) = false) -> ww_trace (snd (wrun ops w)) = ww_trace w ++ t ->
  (forall p ev q, t = p ++ WSock ev :: q -> Forall wswitched p -> busy ev -> forall fd, wpolling fd (ww_trace w ++ p) = false) /\
  (Forall wswitched t -> forallb continues (fst (wrun ops w)) = true -> forall fd, wpolling fd (ww_trace w ++ t) = false).
Proof.
  induction ops as [|o ops IH]; intros w t Z0 E; cbn [wrun] in E |- *.
  - cbn [snd] in E. assert (t = []) by (apply (app_inv_head (ww_trace w)); rewrite <- E, app_nil_r; reflexivity). subst t. split.
    + intros p ev q X. destruct p; discriminate.
    + intros _ _ fd. rewrite app_nil_r. apply Z0.
  - destruct (step_fits o w) as (t1 & s & E1 & R & G). destruct (wstep o w) as [x w1]. cbn [fst snd] in *.
    assert (B1 : forall p ev q, t1 = p ++ WSock ev :: q -> Forall wswitched p -> busy ev -> forall fd, wpolling fd (ww_trace w ++ p) = false).
    { intros p ev q X F H. destruct (at_event _ _ _ _ _ _ Z0 R X F) as (a & b & M & N & B). exact (busy_calm _ _ _ _ _ M N B H). }
    assert (M1 : means (ww_trace w) t1 s) by (apply (means_run _ _ [] (Calm false)); [split; [reflexivity|intros; rewrite app_nil_r; apply Z0]|exact R]).
    destruct (continues x) eqn:C.
    + specialize (G eq_refl). destruct (wrun ops w1) as [xs w2] eqn:RR. cbn [fst snd] in *.
      assert (EX : exists t2, ww_trace w2 = ww_trace w1 ++ t2).
      { destruct (nf_wrun ops w1) as (t2 & E2 & _). rewrite RR in E2. exists t2. exact E2. }
      destruct EX as (t2 & E2). assert (ET : t = t1 ++ t2) by (rewrite E2, E1, <- app_assoc in E; now apply app_inv_head in E). subst t.
      assert (ZZ : Forall wswitched t1 -> forall fd, wpolling fd (ww_trace w1) = false).
      { intros F. destruct s as [|w0|]; [exfalso; exact (means_lost _ _ F M1)| |contradiction]. rewrite E1. exact (proj2 M1). }
      assert (IH2 : (forall fd, wpolling fd (ww_trace w1) = false) -> _) by (intros Z1; specialize (IH w1 t2 Z1); rewrite RR in IH; exact (IH E2)).
      split.
      * intros p ev q X F H fd. destruct (app_eq_app _ _ _ _ X) as (l & [[X1 X2]|[X1 X2]]).
        { destruct l as [|e0 l]; [|injection X2 as <- ->; eapply B1; [exact X1|exact F|exact H]].
          rewrite app_nil_r in X1. subst p. cbn in X2. destruct (IH2 (ZZ F)) as [I1 _]. specialize (I1 [] ev q (eq_sym X2) (Forall_nil _) H fd). rewrite app_nil_r in I1. now rewrite <- E1. }
        { subst p. apply Forall_app in F as [F1 F2]. destruct (IH2 (ZZ F1)) as [I1 _]. specialize (I1 l ev q X2 F2 H fd). now rewrite app_assoc, <- E1. }
      * intros F K fd. apply Forall_app in F as [F1 F2]. destruct (IH2 (ZZ F1)) as [_ I2]. cbn in K. rewrite C in K. rewrite app_assoc, <- E1. apply I2; auto.
    + cbn [fst snd] in *. assert (t = t1) by (rewrite E1 in E; now apply app_inv_head in E). subst t. split; [exact B1|]. cbn. rewrite C. discriminate.
Qed.
Lemma wprogram_modes ops e x p ev q : let t := ww_trace (snd (wrun ops (initial_wworld e x))) in
  t = p ++ WSock ev :: q -> Forall wswitched p -> writes ev = true \/ uses_tls ev = true \/ connects ev = true -> forall fd, wpolling fd p = false.
Proof. intros t E F H. exact (proj1 (wrun_modes ops (initial_wworld e x) t (fun _ => eq_refl) eq_refl) p ev q E F H). Qed.
Lemma wprogram_left ops e x : let t := ww_trace (snd (wrun ops (initial_wworld e x))) in
  Forall wswitched t -> forallb continues (fst (wrun ops (initial_wworld e x))) = true -> forall fd, wpolling fd t = false.
Proof. intros t. exact (proj2 (wrun_modes ops (initial_wworld e x) t (fun _ => eq_refl) eq_refl)). Qed.
