(** Every run of a function of the Windows build is a path of the elementary
    steps of ProofSteps.v, whatever WinSock and the certificate store answer. *)

From Coq Require Import Ascii String List NArith ZArith Bool Lia ZifyBool ZifyNat ZifyN.
From Verif Require Import Base Lib ModelUtil ModelBase64 ModelAddress ModelAttachment
  ModelErrors ModelReply ModelMessage ModelState ModelClient ProofText ProofSteps ProofWalk ProofPhases ProofEstablish
  ModelWorld ModelWin.
Import ListNotations.
Open Scope Z_scope.

(** ** The calls shared with the POSIX build *)

Definition socks (t : list wevent) : list event :=
  flat_map (fun ev => match ev with WSock e => [e] | _ => [] end) t.
Definition proj (v : vst) : st := mkSt (v_c v) (v_e v) (socks (v_t v)).
Definition bare (v : vst) : st := mkSt (v_c v) (v_e v) [].

Lemma socks_app : forall a b, socks (a ++ b) = socks a ++ socks b.
Proof. intros. unfold socks. apply flat_map_app. Qed.
Lemma socks_map : forall l, socks (map WSock l) = l.
Proof. induction l as [|x l IH]; [reflexivity|]. cbn [map]. unfold socks in *. cbn [flat_map]. rewrite IH. reflexivity. Qed.

(** ** Steps do not depend on the past *)

Definition pre (t : list event) (s : st) : st := mkSt (s_c s) (s_e s) (t ++ s_t s).

Lemma addLog_pre : forall item prefix t s,
  addLog item prefix (pre t s) = (fst (addLog item prefix s), pre t (snd (addLog item prefix s))).
Proof.
  intros item prefix t s. unfold addLog, bind, getc. cbn [pre s_c].
  destruct (c_log (s_c s)); [|reflexivity]. cbv zeta.
  repeat match goal with |- (if ?b then _ else _) _ = _ => destruct b end; reflexivity.
Qed.

Lemma teardown_pre : forall t s, teardown (pre t s) = pre t (teardown s).
Proof. intros t s. unfold teardown, pre. cbn [s_c s_e s_t]. destruct (c_kind (s_c s)); cbn [s_c s_e s_t]; rewrite <- app_assoc; reflexivity. Qed.

Lemma estep_pre : forall t l s s', estep l s s' -> estep l (pre t s) (pre t s').
Proof.
  intros t l s s' H. destruct H; unfold pre, ev_state, c_state, log_state; cbn [s_c s_e s_t]; rewrite ?app_assoc.
  - apply (es_env (pre t s)). assumption.
  - apply (es_log (pre t s) item prefix). rewrite addLog_pre, H. reflexivity.
  - apply (es_newlog (pre t s)).
  - apply (es_errno (pre t s)).
  - apply (es_resp (pre t s)). intros x Hx. cbn [pre s_t]. rewrite received_app. apply in_or_app. auto.
  - apply (es_auth (pre t s)).
  - apply (es_conn (pre t s)).
  - apply (es_socket (pre t s) r l). assumption.
  - apply (es_net (pre t s)). assumption.
  - apply (es_fcntl (pre t s)).
  - change (estep LClose (pre t s) (pre t (teardown s))). rewrite <- teardown_pre. apply es_close.
  - apply (es_send (pre t s)). assumption.
  - apply (es_upgrade (pre t s)). assumption.
  - apply (es_puts (pre t s)); assumption.
  - apply (es_read (pre t s)). assumption.
  - apply (es_tls (pre t s)). assumption.
  - apply (es_ctx_none (pre t s)).
  - apply (es_bio_none (pre t s)).
  - apply (es_ctx_new (pre t s)).
  - apply (es_bio_new (pre t s)).
  - apply (es_keep (pre t s)).
Qed.
Lemma steps_pre : forall P t s s', steps P s s' -> steps P (pre t s) (pre t s').
Proof. intros P t s s' H. induction H; [apply st_refl|]. eapply st_step; [apply estep_pre; eassumption|assumption|assumption]. Qed.
Lemma stuck_pre : forall P u t s, stuck P u s -> stuck P u (pre t s).
Proof.
  intros P u t s H. destruct u; try exact H. destruct b; try exact H.
  - destruct H as (item & prefix & H). exists item, prefix. rewrite addLog_pre. exact H.
  - destruct H as (t' & fd & d & H & L). exists (t ++ t'), fd, d. cbn [pre s_t]. rewrite H, app_assoc. auto.
  - destruct H as (t' & host & H). exists (t ++ t'), host. cbn [pre s_t]. rewrite H, app_assoc. auto.
Qed.

(** ** Runs *)

Definition wwalk {A} (P : label -> Prop) (m : W A) (v : vst) : Prop :=
  steps P (proj v) (proj (snd (m v))) /\ forall u, fst (m v) = Undef u -> stuck P u (proj (snd (m v))).

(** The state after a function without platform-dependent parts. *)
Definition after (v : vst) (s : st) : vst := mkV (s_c s) (v_on v) (s_e s) (v_w v) (v_t v ++ map WSock (s_t s)).

Lemma base_eq : forall {A} (m : M A) v, base m v = (fst (m (bare v)), after v (snd (m (bare v)))).
Proof. intros A m v. unfold base, bare, after. destruct (m _) as [o s]. reflexivity. Qed.
Lemma base_done : forall {A} (m : M A) v a v', base m v = (Done a, v') ->
  exists s', m (bare v) = (Done a, s') /\ v' = after v s'.
Proof.
  intros A m v a v' H. rewrite base_eq in H. destruct (m (bare v)) as [o s'] eqn:E. cbn [fst snd] in H.
  injection H as -> <-. eauto.
Qed.
Lemma proj_after : forall v s, proj (after v s) = pre (socks (v_t v)) s.
Proof. intros v s. unfold proj, after, pre. cbn [v_c v_e v_t]. rewrite socks_app, socks_map. reflexivity. Qed.
Lemma proj_pre : forall v, proj v = pre (socks (v_t v)) (bare v).
Proof. intros v. unfold proj, pre, bare. cbn [s_c s_e s_t]. rewrite app_nil_r. reflexivity. Qed.

Lemma ww_base : forall {A} P (m : M A) v, walk P m (bare v) -> wwalk P (base m) v.
Proof.
  intros A P m v [H1 H2]. unfold wwalk. rewrite base_eq. cbn [fst snd]. rewrite proj_after, proj_pre. split.
  - apply steps_pre. exact H1.
  - intros u E. apply stuck_pre. apply H2. exact E.
Qed.

Lemma ww_bind : forall {A C} P (m : W A) (k : A -> W C) v,
  wwalk P m v -> (forall a v1, m v = (Done a, v1) -> steps P (proj v) (proj v1) -> wwalk P (k a) v1) ->
  wwalk P (wbind m k) v.
Proof.
  intros A C P m k v [H1 H2] H. unfold wwalk, wbind in *. destruct (m v) as [o v1].
  destruct o; simpl in *; try (split; [assumption|intros ? X; discriminate X]).
  - destruct (H a v1 eq_refl H1) as [H3 H4]. split; [|assumption]. eapply steps_trans; eauto.
  - split; [assumption|]. intros u0 X. inversion X; subst. apply H2. reflexivity.
Qed.
Lemma ww_mono : forall {A} (P Q : label -> Prop) (m : W A) v,
  wwalk P m v -> (forall l, P l -> Q l) -> wwalk Q m v.
Proof.
  intros A P Q m v [H1 H2] H. split; [eapply steps_mono; eauto|]. intros u E. specialize (H2 u E).
  destruct u; try exact H2. destruct p; try exact H2. apply H. exact H2.
Qed.
Lemma ww_ret : forall {A} P (a : A) v, wwalk P (wret a) v.
Proof. intros. split; [apply st_refl|discriminate]. Qed.
Lemma ww_getc : forall {C} P (k : client -> W C) v, wwalk P (k (v_c v)) v -> wwalk P (wbind (base getc) k) v.
Proof.
  intros C P k v H. unfold wwalk, wbind. rewrite base_eq. cbn [getc bare fst snd s_c].
  assert (E : after v (bare v) = v) by (destruct v as [qc qo qe qw qt]; unfold after, bare; cbn [v_c v_on v_e v_w v_t s_c s_e s_t map]; rewrite app_nil_r; reflexivity).
  rewrite E. exact H.
Qed.
Lemma ww_gete : forall {C} P (k : env -> W C) v, wwalk P (k (v_e v)) v -> wwalk P (wbind (base gete) k) v.
Proof.
  intros C P k v H. unfold wwalk, wbind. rewrite base_eq. cbn [gete bare fst snd s_e].
  assert (E : after v (bare v) = v) by (destruct v as [qc qo qe qw qt]; unfold after, bare; cbn [v_c v_on v_e v_w v_t s_c s_e s_t map]; rewrite app_nil_r; reflexivity).
  rewrite E. exact H.
Qed.

(** Operations that change neither the client nor the shared calls. *)
Definition same (v v' : vst) : Prop := v_c v' = v_c v /\ v_e v' = v_e v /\ socks (v_t v') = socks (v_t v).
Definition silent {A} (m : W A) : Prop := forall v, same v (snd (m v)) /\ (forall u, fst (m v) <> Undef u).
Lemma same_proj : forall v v', same v v' -> proj v' = proj v.
Proof. intros v v' (H1 & H2 & H3). unfold proj. rewrite H1, H2, H3. reflexivity. Qed.
Lemma ww_silent : forall {A} P (m : W A) v, silent m -> wwalk P m v.
Proof. intros A P m v H. destruct (H v) as [H1 H2]. split; [rewrite (same_proj _ _ H1); apply st_refl|]. intros u E. destruct (H2 u E). Qed.
Lemma silent_next : forall {A} (g : wenv -> list A) st d, silent (next g st d).
Proof. intros A g st d v. unfold next. destruct (g (v_w v)); (split; [repeat split|discriminate]). Qed.
Lemma silent_put : forall ev, match ev with WSock _ => False | _ => True end -> silent (wput ev).
Proof.
  intros ev H v. unfold wput. split; [|discriminate]. split; [reflexivity|]. split; [reflexivity|]. cbn [snd v_t].
  rewrite socks_app. destruct ev; try destruct H; apply app_nil_r.
Qed.
Lemma silent_on : forall b, silent (set_on b).
Proof. intros b v. split; [repeat split|discriminate]. Qed.
Lemma silent_get : silent get_on.
Proof. intros v. split; [repeat split|discriminate]. Qed.
Lemma silent_done : forall {A} (m : W A) v a v', silent m -> m v = (Done a, v') -> same v v'.
Proof. intros A m v a v' H E. destruct (H v) as [X _]. rewrite E in X. exact X. Qed.

(** ** Inversion *)

Lemma wbind_done : forall {A C} (m : W A) (k : A -> W C) v b v',
  wbind m k v = (Done b, v') -> exists a v1, m v = (Done a, v1) /\ k a v1 = (Done b, v').
Proof.
  intros A C m k v b v' H. unfold wbind in H. destruct (m v) as [o v1].
  destruct o; try discriminate H. eauto.
Qed.
Lemma wret_done : forall {A} (a : A) v b v', wret a v = (Done b, v') -> b = a /\ v' = v.
Proof. intros A a v b v' H. inversion H. auto. Qed.
Lemma getc_done : forall v c v', base getc v = (Done c, v') -> c = v_c v /\ v' = v.
Proof.
  intros v c v' H. apply base_done in H as (s & H & ->). inversion H; subst. split; [reflexivity|].
  destruct v as [qc qo qe qw qt]. unfold after, bare. cbn [v_c v_on v_e v_w v_t s_c s_e s_t map]. rewrite app_nil_r. reflexivity.
Qed.
Lemma gete_done : forall v c v', base gete v = (Done c, v') -> c = v_e v /\ v' = v.
Proof.
  intros v c v' H. apply base_done in H as (s & H & ->). inversion H; subst. split; [reflexivity|].
  destruct v as [qc qo qe qw qt]. unfold after, bare. cbn [v_c v_on v_e v_w v_t s_c s_e s_t map]. rewrite app_nil_r. reflexivity.
Qed.

Lemma wlogc_core : forall item v u v', base (logc item) v = (Done u, v') ->
  core (v_c v') = core (v_c v) /\ v_e v' = v_e v /\ v_t v' = v_t v /\ c_resp (v_c v') = c_resp (v_c v).
Proof.
  intros item v u v' H. apply base_done in H as (s & H & ->). destruct u. apply logc_core in H as (H1 & H2 & H3 & H4).
  unfold after. cbn [v_c v_e v_t]. rewrite H3. cbn [bare s_t map] in *. rewrite app_nil_r. auto.
Qed.
Lemma waddLog_core : forall item p v u v', base (addLog item p) v = (Done u, v') ->
  core (v_c v') = core (v_c v) /\ v_e v' = v_e v /\ v_t v' = v_t v /\ c_resp (v_c v') = c_resp (v_c v).
Proof.
  intros item p v u v' H. apply base_done in H as (s & H & ->). destruct u. apply addLog_core in H as (H1 & H2 & H3 & H4).
  unfold after. cbn [v_c v_e v_t]. rewrite H3. cbn [bare s_t map] in *. rewrite app_nil_r. auto.
Qed.
Lemma wemit_done : forall ev v u v', base (emit ev) v = (Done u, v') ->
  v' = mkV (v_c v) (v_on v) (v_e v) (v_w v) (v_t v ++ [WSock ev]).
Proof. intros ev v u v' H. apply base_done in H as (s & H & ->). inversion H; subst. reflexivity. Qed.

Lemma ww_core : forall {A} (m : W A) v a v', wwalk quiet m v -> m v = (Done a, v') -> core (v_c v') = core (v_c v).
Proof. intros A m v a v' [H _] E. rewrite E in H. apply steps_core in H. exact H. Qed.

Section Walks.
Variable P : label -> Prop.
Hypothesis PB : forall l, ProofWalk.base l -> P l.

Lemma xlogc : forall i v, wwalk P (base (logc i)) v.
Proof. intros. apply ww_base. apply wlogc. assumption. Qed.
Lemma xlogs : forall i v, wwalk P (base (logs i)) v.
Proof. intros. apply ww_base. apply wlogs. assumption. Qed.
Lemma xaddLog : forall i p v, wwalk P (base (addLog i p)) v.
Proof. intros. apply ww_base. apply waddLog. assumption. Qed.
Lemma xerrno : forall e v, wwalk P (base (setLastSocketErrNo e)) v.
Proof. intros. apply ww_base. apply werrno. assumption. Qed.
Lemma xlogerrno : forall e v, wwalk P (base (log_errno e)) v.
Proof. intros. apply ww_base. apply walk_log_errno; by_base. Qed.
Lemma xblocked : forall {A} v, wwalk P (base (@blocked A)) v.
Proof. intros. apply ww_base. apply walk_blocked. Qed.
Lemma xkilled : forall {A} v, wwalk P (base (@killed A)) v.
Proof. intros. apply ww_base. apply walk_killed. Qed.
Lemma xdiverge : forall {A} v, wwalk P (base (@diverge A)) v.
Proof. intros. apply ww_base. apply walk_diverge. Qed.
Lemma xub : forall {A} u v, stuck P u (bare v) -> wwalk P (base (@fail_ub A u)) v.
Proof. intros. apply ww_base. apply walk_ub. assumption. Qed.
Lemma xreply_tls : forall v, wwalk P (base getServerReplyTLS) v.
Proof. intros. apply ww_base. apply walk_reply_tls; by_base. Qed.
End Walks.

Ltac xs_silent :=
  match goal with
  | |- wwalk _ (next _ _ _) _ => apply ww_silent, silent_next
  | |- wwalk _ (wput _) _ => apply ww_silent, silent_put; exact I
  | |- wwalk _ (set_on _) _ => apply ww_silent, silent_on
  | |- wwalk _ get_on _ => apply ww_silent, silent_get
  end.
Ltac x0 :=
  match goal with
  | |- wwalk _ (wbind (base getc) _) _ => apply ww_getc
  | |- wwalk _ (wbind (base gete) _) _ => apply ww_gete
  | |- wwalk _ (wbind _ _) _ => apply ww_bind; [|intros]
  | |- wwalk _ (wret _) _ => apply ww_ret
  | |- wwalk _ (base blocked) _ => apply xblocked
  | |- wwalk _ (base killed) _ => apply xkilled
  | |- wwalk _ (base diverge) _ => apply xdiverge
  | |- wwalk _ (base (logc _)) _ => apply xlogc; assumption
  | |- wwalk _ (base (logs _)) _ => apply xlogs; assumption
  | |- wwalk _ (base (addLog _ _)) _ => apply xaddLog; assumption
  | |- wwalk _ (base (setLastSocketErrNo _)) _ => apply xerrno; assumption
  | |- wwalk _ (base (log_errno _)) _ => apply xlogerrno; assumption
  | |- wwalk _ (base getServerReplyTLS) _ => apply xreply_tls; assumption
  | |- wwalk _ (if ?b then _ else _) _ => destruct b eqn:?
  | |- wwalk _ (match ?x with _ => _ end) _ => destruct x eqn:?
  | _ => xs_silent
  end.
Ltac xs := repeat x0.

(** ** WinSock and receiving *)

Lemma quiet_quiet : forall l, ProofWalk.quiet l -> ProofWalk.base l.
Proof. exact quiet_base. Qed.

Section Win.
Variable P : label -> Prop.
Hypothesis PQ : forall l, quiet l -> P l.

Lemma qlogc : forall i v, wwalk P (base (logc i)) v.
Proof. intros. apply ww_base. apply walk_logc. by_base. Qed.
Lemma qlogs : forall i v, wwalk P (base (logs i)) v.
Proof. intros. apply ww_base. apply walk_logs. by_base. Qed.
Lemma qerrno : forall e v, wwalk P (base (setLastSocketErrNo e)) v.
Proof. intros. apply ww_base. eapply walk_updc; [apply es_errno|by_base]. Qed.
Lemma qlogerrno : forall e v, wwalk P (base (log_errno e)) v.
Proof. intros. apply ww_base. apply walk_log_errno; by_base. Qed.

Ltac q0 :=
  match goal with
  | |- wwalk _ (wbind (base getc) _) _ => apply ww_getc
  | |- wwalk _ (wbind (base gete) _) _ => apply ww_gete
  | |- wwalk _ (wbind _ _) _ => apply ww_bind; [|intros]
  | |- wwalk _ (wret _) _ => apply ww_ret
  | |- wwalk _ (base (logc _)) _ => apply qlogc
  | |- wwalk _ (base (logs _)) _ => apply qlogs
  | |- wwalk _ (base (setLastSocketErrNo _)) _ => apply qerrno
  | |- wwalk _ (base (log_errno _)) _ => apply qlogerrno
  | |- wwalk _ (if ?b then _ else _) _ => destruct b eqn:?
  | |- wwalk _ (match ?x with _ => _ end) _ => destruct x eqn:?
  | _ => xs_silent
  end.
Ltac qs := repeat q0.

Lemma xmessage : forall er v, wwalk P (addWSAMessage er) v.
Proof.
  intros er v. unfold addWSAMessage, wwalk. destruct (x_format (v_w v) er) as [t|].
  - apply (qlogc t v).
  - apply (ww_ret P tt v).
Qed.
Lemma xwsacleanup : forall v, wwalk P doWSACleanup v.
Proof. intros v. unfold doWSACleanup. qs. Qed.
Lemma xrelease : forall v, wwalk P release_winsock v.
Proof. intros v. unfold release_winsock. qs. apply xwsacleanup. Qed.
Lemma xmode : forall b v, wwalk P (setSocketMode b) v.
Proof. intros b v. unfold setSocketMode. qs. Qed.

Lemma xraw_reply : forall v, wwalk P getRawCommandReplyW v.
Proof.
  intros v. unfold getRawCommandReplyW. apply ww_bind; [apply xmode|]. intros z v0 _ _. apply ww_getc.
  destruct (raw_loop (c_sock (v_c v0)) (c_timeout (v_c v0)) 0 false [] (e_recv (v_e v0))) as [[o evs] rest] eqn:E.
  destruct (raw_loop_events (v_c v0) _ _ _ _ _ _ _ _ E) as [H1 H2].
  apply ww_bind.
  - apply ww_base. apply walk_gete. cbn [bare s_e]. rewrite E.
    apply walk_bind; [apply walk_upde; [env_tac|by_base]|]. intros ? s1 X _. inversion X; subst; clear X.
    apply walk_bind; [eapply walk_emits; [exact H2|apply (PQ LRead); exact Logic.I|reflexivity]|]. intros ? s2 X _. inversion X; subst; clear X.
    apply walk_lift. intros u Hu. destruct (H1 u Hu) as (-> & t & fd & d & -> & L). simpl. exists t, fd, d. auto.
  - intros [[wait got] full] v1 H3 _. apply base_done in H3 as (s1 & H3 & ->).
    unfold bind, gete, upde, emits, lift in H3. cbn [bare s_c s_e s_t] in H3. rewrite E in H3. injection H3 as -> <-.
    apply ww_bind; [apply xmode|]. intros z' v4 _ S4.
    destruct (_ || _); [|apply (ww_base P (ret (-1)) v4), walk_ret].
    set (v5 := mkV (set_resp (Some (cstr full)) (v_c v4)) (v_on v4) (v_e v4) (v_w v4) (v_t v4)).
    assert (S5 : steps P (proj v4) (proj v5)).
    { eapply steps_one; [|apply (PQ LResp); exact Logic.I]. apply (es_resp (proj v4)).
      intros x Hx. apply cstr_in in Hx. apply steps_trace in S4. eapply quiet_received; [exact S4|].
      rewrite proj_after. cbn [pre s_t]. rewrite received_app. apply in_or_app. right.
      destruct (raw_loop_bytes _ _ _ _ _ _ _ _ _ _ _ E x Hx) as [[]|A]. exact A. }
    assert (W : wwalk P (base (logs full;; ret (extractReturnCode (Some full)))) v5).
    { apply ww_base. apply walk_bind; [apply walk_logs; by_base|]. intros. apply walk_ret. }
    destruct W as [W1 W2].
    change (base (setLastServerResponse full;; logs full;; ret (extractReturnCode (Some full))) v4)
      with (base (logs full;; ret (extractReturnCode (Some full))) v5).
    split; [eapply steps_trans; [exact S5|exact W1]|exact W2].
Qed.
Lemma xreply : forall v, wwalk P getServerReplyW v.
Proof.
  intros v. unfold getServerReplyW. apply ww_getc. destruct (c_kind (v_c v)); [apply xraw_reply| |];
    (apply ww_base; apply walk_reply_tls; by_base).
Qed.
End Win.
