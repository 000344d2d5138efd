(** Causes of undefined behaviour on Windows. *)

From Coq Require Import Ascii String List NArith ZArith Bool Lia ZifyBool ZifyNat ZifyN.
From Verif Require Import Base Lib ModelUtil ModelBase64 ModelAddress ModelAttachment
  ModelErrors ModelReply ModelMessage ModelState ModelClient ModelWorld SpecText SpecMime SpecSafety
  ProofText ProofSteps ProofWalk ProofPhases ProofEstablish ProofLog ProofSend ProofWorld ProofSafety
  ModelWin ProofWinWalk ProofWinWalk2 ProofWinEst ProofWinTame SpecWinSafe ProofWinSafe.
Import ListNotations.
Open Scope Z_scope.

Lemma common_socks : forall t, common t = socks t.
Proof. reflexivity. Qed.

(** ** Destruction of a client without a session *)

(** Only the release of WinSock can fail. *)
Definition idle (m : W unit) : Prop := forall v, exists v', m v = (Done tt, v') /\ c_log (v_c v') = c_log (v_c v) /\
  c_logsize (v_c v') = c_logsize (v_c v) /\ v_on v' = v_on v /\ c_conn (v_c v') = c_conn (v_c v).
Lemma idle_bind : forall {C} m (k : W C) v x v', idle m -> wbind m (fun _ => k) v = (x, v') ->
  exists v1, k v1 = (x, v') /\ c_log (v_c v1) = c_log (v_c v) /\ c_logsize (v_c v1) = c_logsize (v_c v) /\ v_on v1 = v_on v.
Proof.
  intros C m k v x v' H E. destruct (H v) as (v1 & M & L & S & O & _). unfold wbind in E. rewrite M in E. eauto 8.
Qed.
Lemma idle_free : idle (base free_tls).
Proof.
  intros [qc qo qe qw qt]. unfold base, free_tls, bind, getc, ret. cbn. destruct (c_bio qc); cbn; destruct (c_ctx qc); cbn; eexists; repeat split; reflexivity.
Qed.
Lemma idle_ret : idle (base (ret tt)).
Proof. intros [qc qo qe qw qt]. eexists; repeat split; reflexivity. Qed.
Lemma idle_close : idle close_socketW.
Proof.
  intros [qc qo qe qw qt]. unfold close_socketW, wbind, base, getc, close_socket, bind, ret, wput, wret. cbn.
  destruct (c_sock qc =? 0) eqn:E; cbn; rewrite ?E; cbn; eexists; repeat split; reflexivity.
Qed.

Lemma good_eq : forall c c', c_log c = c_log c' -> c_logsize c = c_logsize c' -> good_log c -> good_log c'.
Proof. intros c c' L S G. unfold good_log in *. rewrite <- L, <- S. exact G. Qed.

Definition log_ub (u : ub) : Prop := u = UB_NullDeref PLog \/ u = UB_BufferOverflow BufLog.
Lemma addLog_undef : forall a b s u, fst (addLog a b s) = Undef u -> log_ub u.
Proof.
  intros a b s u H. unfold addLog, bind at 1, getc in H. destruct (c_log (s_c s)) as [lg|]; [|injection H as <-; left; reflexivity].
  cbv zeta in H. destruct (_ && (MAX_OBJECT <? _)%N); [discriminate H|]. destruct ((_ <=? _)%N && _); [discriminate H|].
  injection H as <-. right; reflexivity.
Qed.
Lemma release_undef : forall v u v', release_winsock v = (Undef u, v') ->
  v_on v = true /\ log_ub u /\ ~ good_log (v_c v) /\ exists r, In (WCleanup r) (v_t v') /\ r <> 0.
Proof.
  intros [qc qo qe qw qt] u v' H. unfold release_winsock, get_on, wbind in H. cbn [v_on] in *.
  destruct qo; [|cbn in H; discriminate H]. split; [reflexivity|].
  unfold doWSACleanup, wbind, next in H. cbn [v_w v_c v_on v_e v_t] in H.
  assert (X : forall r qw', (match (if r =? 0 then wret tt else base (setLastSocketErrNo r) ;;#
        base (logc (B "WSACleanup failed with error: " ++ dec_of_N (Z.to_N r)))) (mkV qc true qe qw' (qt ++ [WCleanup r])) with
      | (Done a, v) => set_on false v | (Throw, v) => (Throw, v) | (Undef u, v) => (Undef u, v) | (Blocked, v) => (Blocked, v)
      | (Killed, v) => (Killed, v) | (Diverge, v) => (Diverge, v) end) = (Undef u, v') ->
      log_ub u /\ ~ good_log qc /\ exists r, In (WCleanup r) (v_t v') /\ r <> 0).
  { intros r qw' E. destruct (r =? 0) eqn:R; [cbn in E; discriminate E|]. apply Z.eqb_neq in R.
    unfold wbind, base, setLastSocketErrNo, updc in E. cbn [v_c v_e v_on v_w v_t s_c s_e s_t map] in E. rewrite app_nil_r in E.
    unfold logc in E. set (item := B "WSACleanup failed with error: " ++ dec_of_N (Z.to_N r)) in *.
    set (s0 := mkSt (set_errno r qc) qe []) in *.
    assert (GG : good_log qc -> fst (addLog item (B "c") s0) <> Undef u).
    { intros G. destruct (addLog_good item (B "c") s0) as [Y|(lg & lg' & n & _ & _ & Y & _)]; [exact G| |]; rewrite Y; discriminate. }
    assert (LU := addLog_undef item (B "c") s0 u).
    destruct (addLog item (B "c") s0) as [y s1]. cbn [fst] in GG, LU.
    destruct y; try discriminate E. inversion E; subst.
    split; [auto|]. split; [intros G; apply (GG G); reflexivity|]. exists r. split; [|assumption]. cbn [v_t]. apply in_or_app. left. apply in_or_app. right. left. reflexivity. }
  destruct (x_clean qw) as [|r l]; [cbn in H; discriminate H|].
  apply (X r (set_xclean l qw)). unfold wput in H. cbn [v_c v_on v_e v_w v_t] in H.
  unfold wbind.
  match goal with |- (match ?m with _ => _ end) = _ => destruct m as [y s1] end.
  destruct y; try discriminate H; exact H.
Qed.

Lemma destroyW_undef : forall v u, fst (destroyW v) = Undef u -> c_conn (v_c v) = false ->
  v_on v = true /\ log_ub u /\ ~ good_log (v_c v) /\ exists r, In (WCleanup r) (v_t (snd (destroyW v))) /\ r <> 0.
Proof.
  intros v u H Cn. unfold destroyW in *. destruct ((cleanupW ;;# wret 0) v) as [x v'] eqn:D. cbn [fst snd] in *. subst x.
  unfold cleanupW in D. unfold wbind at 1 in D. 
  destruct (cleanup_fW (cleanup_fuel (v_e v)) v) as [y v1] eqn:E. destruct y; cbn in D; try discriminate D. inversion D; subst. clear D.
  destruct (cleanup_fuel (v_e v)) as [|n] eqn:F; [unfold cleanup_fuel in F; discriminate F|]. cbn [cleanup_fW] in E.
  assert (D : forall (k : client -> W unit) w, wbind (base getc) k w = k (v_c w) w).
  { intros k [uc uo ue uw ut]. unfold wbind, base, getc. cbn. rewrite app_nil_r. reflexivity. }
  rewrite D in E. rewrite Cn, andb_false_r in E.
  apply idle_bind in E as (v2 & E & L2 & S2 & O2); [|intros [qc qo qe qw qt]; eexists; repeat split; reflexivity].
  unfold wbind at 1 in E. 
  assert (U : exists v3, base (updc (set_conn false)) v2 = (Done tt, v3) /\ c_log (v_c v3) = c_log (v_c v2) /\ c_logsize (v_c v3) = c_logsize (v_c v2) /\ v_on v3 = v_on v2).
  { destruct v2 as [qc qo qe qw qt]. eexists; repeat split; reflexivity. }
  destruct U as (v3 & U & L3 & S3 & O3). rewrite U in E.
  apply idle_bind in E as (v4 & E & L4 & S4 & O4); [|destruct (c_kind (v_c v)); [apply idle_ret|apply idle_free|apply idle_free]].
  apply idle_bind in E as (v5 & E & L5 & S5 & O5); [|apply idle_close].
  apply release_undef in E as (O & LU & G & R). split; [congruence|]. split; [exact LU|]. split; [|exact R].
  intros X. apply G. eapply good_eq; [| |exact X]; congruence.
Qed.

(** ** Programs *)

Section Program.
Variable ops : list op.

Lemma step_tame : forall o w u w', acts o = false -> step o w = (Undef u, w') -> tame u.
Proof.
  intros o w u w' Ac S.
  assert (N : forall p x, check_server_name p = Undef x -> tame x) by (intros p x E; apply new_cause in E as (-> & _); exact Logic.I).
  destruct o; try discriminate Ac; simpl in S; try (apply alter_undef in S as (c0 & G & S); discriminate S).
  - apply create_undef in S. unfold client_new in S. destruct (check_server_name server) eqn:E; try discriminate S.
    simpl in S. injection S as <-. eapply N; eauto.
  - destruct (get_client w src) as [c|] eqn:G; [|discriminate S].
    apply create_undef in S. apply client_copy_undef in S as [-> _]. exact Logic.I.
  - destruct (get_client w src); discriminate S.
  - destruct (get_client w dst); [|discriminate S]. destruct (get_client w src) as [c0|] eqn:G; [|discriminate S].
    destruct (Nat.eqb _ _); [discriminate S|]. destruct (kind_eqb _ _); [|discriminate S].
    apply alter_undef in S as (c1 & _ & S). apply client_assign_undef in S as [-> _]. exact Logic.I.
  - destruct (get_client w dst); [|discriminate S]. destruct (get_client w src) as [c0|]; [|discriminate S].
    destruct (Nat.eqb _ _); [discriminate S|]. destruct (kind_eqb _ _); discriminate S.
  - apply alter_undef in S as (c & G & S). unfold client_setServerName in S. destruct (check_server_name server) eqn:E; try discriminate S.
    simpl in S. injection S as <-. eapply N; eauto.
  - apply alter_undef in S as (c0 & G & S). destruct (c_kind c0); discriminate S.
Qed.
Lemma tame_posix : forall u, tame u -> posix_only u = false.
Proof. intros u H. destruct u as [p|b| | | | | |]; try reflexivity; [|destruct H]. destruct b; try reflexivity. destruct H. Qed.

Lemma t_destroy : tameW destroyW.
Proof. unfold destroyW. apply tw_bind; [apply t_cleanup|]. intros _. apply tw_quiet. discriminate. Qed.

Definition lawful (w : wworld) : Prop := all_clients (fit ops) (pw w) /\ startable ops w.

Lemma wstep_undef : forall o w u w', In o ops -> wstep o w = (Undef u, w') -> lawful w -> wcause ops (ww_trace w') u.
Proof.
  intros o w u w' Ho S [A [_ St]]. destruct (acts o) eqn:Ac.
  2:{ apply wstep_other in S as (S & S0 & _); [|assumption]. apply wcause_same; [apply tame_posix; eapply step_tame; eauto|].
      exact (step_undef ops o (pw w) u (pw w') Ho S A). }
  destruct o as [| | | | |i m| | | | | | | |i] eqn:Eo; try discriminate Ac.
  - change (run_onW i (sendMailW m) Some w = (Undef u, w')) in S.
    destruct (get_client (ww w) i) as [c|] eqn:G; [|apply run_onW_none in S as [S _]; [discriminate S|assumption]].
    apply (run_onW_some i (sendMailW m) Some w c) in S as (X & _ & _ & T & _); [|assumption]. rewrite T. symmetry in X.
    assert (F := A i c G). set (v := wview w i c) in *.
    assert (F' := fit_sendW ops m v F). destruct (sendMailW_walk m v) as [_ K]. specialize (K u X).
    destruct (good_not_log _ u (proj (snd (sendMailW m v))) (sendMailW_good m v (f_log _ _ _ F)) K) as [N1 N2].
    apply wcause_same; [apply tame_posix; eapply t_sendMail; eauto|].
    eapply (stuck_cause ops _ u (proj (snd (sendMailW m v)))); eauto.
    intros Y. simpl in Y. exists i, m. split; [assumption|]. apply bad_arrays_ok. exact Y.
  - change (run_onW i destroyW (fun _ => None) w = (Undef u, w')) in S.
    destruct (get_client (ww w) i) as [c|] eqn:G; [|apply run_onW_none in S as [S _]; [discriminate S|assumption]].
    apply (run_onW_some i destroyW (fun _ => None) w c) in S as (X & _ & _ & T & _); [|assumption]. rewrite T. symmetry in X.
    assert (F := A i c G). set (v := wview w i c) in *.
    destruct (c_conn c) eqn:Cn.
    + assert (GL : good_log (v_c v)) by (apply (f_log _ _ _ F); assumption).
      destruct (destroyW_walk v) as [D K]. specialize (K u X).
      assert (GL' := steps_good _ _ _ D GL).
      destruct (good_not_log _ _ _ GL' K) as [N1 N2].
      apply wcause_same; [apply tame_posix; eapply t_destroy; eauto|].
      eapply (stuck_cause ops _ u (proj (snd (destroyW v)))); eauto.
      * eapply fit_steps; [exact D|exact F|]. intros _. exact GL'.
      * intros Y. simpl in Y. destruct Y as (k & [Y|[Y|Y]]); discriminate Y.
    + destruct (destroyW_undef v u X Cn) as (O & LU & N & R).
      apply wcause_log; [exact LU| |exact R]. destruct St as [St|St]; [exact St|]. destruct (N (St i c G O)).
Qed.

Lemma lawful_wstep : forall o w x w', In o ops -> wstep o w = (x, w') -> lawful w -> lawful w'.
Proof. intros o w x w' Ho S [A St]. split; [eapply fit_wstep; eauto|eapply startable_wstep; eauto]. Qed.
Lemma lawful_initial : forall e xe, lawful (initial_wworld e xe).
Proof.
  intros e xe. split; [|split; [reflexivity|right]]; intros i c G; [|intros H]; destruct i; discriminate G.
Qed.
End Program.

Lemma wrun_cause : forall ops e xe u, In (Undef u) (fst (wrun ops (initial_wworld e xe))) ->
  wcause ops (ww_trace (snd (wrun ops (initial_wworld e xe)))) u.
Proof.
  intros ops e xe u H.
  apply (wrun_outcome (fun o => In o ops) (lawful ops)
    (fun x w => forall u, x = Undef u -> wcause ops (ww_trace w) u)) with (ops := ops) (w := initial_wworld e xe) (x := Undef u).
  - intros o w x w' Ho S. apply (lawful_wstep ops o w x w' Ho S).
  - intros o w x w' Ho S L _ u' ->. eapply wstep_undef; eauto.
  - auto.
  - apply lawful_initial.
  - assumption.
  - reflexivity.
  - reflexivity.
Qed.


(** ** Consequences *)

Lemma cause_not_log : forall ops t u, u = UB_NullDeref PLog \/ u = UB_BufferOverflow BufLog -> ~ cause ops t u.
Proof. intros ops t u [-> | ->] H; inversion H. Qed.
Lemma no_posix_ub : forall ops e x,
  ~ In (Undef UB_FdSet) (fst (wrun ops (initial_wworld e x))) /\
  ~ In (Undef (UB_BufferOverflow BufHost)) (fst (wrun ops (initial_wworld e x))).
Proof.
  intros ops e x. split; intros H; apply wrun_cause in H; inversion H as [u P C|u [L|L] _ _]; subst; discriminate.
Qed.
Lemma log_without_reassignment : forall ops e x u,
  Forall (fun o => reassigns o = false) ops -> u = UB_NullDeref PLog \/ u = UB_BufferOverflow BufLog ->
  ~ In (Undef u) (fst (wrun ops (initial_wworld e x))).
Proof.
  intros ops e x u F L H. apply wrun_cause in H. inversion H as [u' P C|u' _ (o & Ho & R) _]; subst.
  - exact (cause_not_log _ _ _ L C).
  - rewrite Forall_forall in F. rewrite (F o Ho) in R. discriminate R.
Qed.
Lemma log_while_cleanup : forall ops e x u,
  (forall r, In (WCleanup r) (ww_trace (snd (wrun ops (initial_wworld e x)))) -> r = 0) ->
  u = UB_NullDeref PLog \/ u = UB_BufferOverflow BufLog ->
  ~ In (Undef u) (fst (wrun ops (initial_wworld e x))).
Proof.
  intros ops e x u Z L H. apply wrun_cause in H. inversion H as [u' P C|u' _ _ (r & Hr & N)]; subst.
  - exact (cause_not_log _ _ _ L C).
  - apply N. exact (Z r Hr).
Qed.
