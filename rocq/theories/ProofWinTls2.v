(** Secure clients of the Windows build: what is written in clear. *)

From Coq Require Import Ascii String List NArith ZArith Bool Lia ZifyBool ZifyNat ZifyN.
From Verif Require Import Base Lib ModelUtil ModelBase64 ModelAddress ModelAttachment
  ModelErrors ModelReply ModelMessage ModelState ModelClient ModelWorld
  ProofSteps ProofWalk ProofPhases ProofEstablish ProofLog ProofSend ProofWorld SpecMime SpecTls ProofMime ProofTls ProofTls2
  ModelWin ProofWinWalk ProofWinWalk2 ProofWinEst SpecWinSafe ProofWinSafe ProofWinTls.
Import ListNotations.
Open Scope Z_scope.

Definition wlog (v : vst) : list event := socks (v_t v).

(** ** Forced clients *)

Lemma forced_sendW : forall (A : Prop) m v, c_kind (v_c v) = KForced -> forced_ok A (v_c v) (wlog v) ->
  (exists t, wlog (snd (sendMailW m v)) = wlog v ++ t /\ only_secure (verified A) (wlog v) t) /\
  forced_ok A (v_c (snd (sendMailW m v))) (wlog (snd (sendMailW m v))).
Proof.
  intros A m v K F. destruct (F K) as (F1 & F2 & F3 & F4).
  destruct (c_conn (v_c v)) eqn:C.
  - destruct (F4 eq_refl) as (b & B1 & B2). assert (S := secured_oldW m v C).
    apply (sealed_ok A (wlog v) (v_c v) (proj (snd (sendMailW m v)))); [|apply steps_config in S; exact S|exact F3].
    eapply steps_sealed; [apply verified_app|exact S|]. split; [simpl; congruence|]. split; [exact F2|]. split; [exact F1|].
    exists []. split; [symmetry; apply app_nil_r|]. split; [apply quiet_secure; intros x []|]. left. exists b. auto.
  - assert (Cf := steps_config _ _ _ (proj1 (sendMailW_walk m v))).
    destruct (forced_phasesW m v K C) as (s1 & S1 & H).
    destruct (steps_silent _ _ _ opening_silent S1) as (t1 & T1 & W1).
    destruct (steps_modes _ _ _ opening_keep S1) as [M1 M1'].
    assert (C1 := steps_conn_off _ _ _ opening_conn S1 C).
    change (v_c (snd (sendMailW m v))) with (s_c (proj (snd (sendMailW m v)))).
    change (wlog (snd (sendMailW m v))) with (s_t (proj (snd (sendMailW m v)))).
    change (wlog v) with (s_t (proj v)). change (v_c v) with (s_c (proj v)) in *.
    set (s := proj v) in *. set (s' := proj (snd (sendMailW m v))) in *.
    destruct H as [E|(s2 & S2 & H)].
    + rewrite E in *. split; [exists t1; split; [assumption|]; apply quiet_secure; assumption|].
      intros _. split; [congruence|]. split; [congruence|].
      split; [intros X; apply F3; unfold config in Cf; congruence|]. congruence.
    + destruct (steps_silent _ _ _ negotiating_silent S2) as (t2 & T2 & W2).
      destruct (steps_modes _ _ _ negotiating_keep S2) as [M2 M2'].
      assert (C2 := steps_conn_off _ _ _ negotiating_conn S2 C1).
      assert (W : writes_nothing (t1 ++ t2)).
      { intros x Hx. apply in_app_or in Hx as [Hx|Hx]; [apply W1|apply W2]; exact Hx. }
      assert (T : s_t s2 = s_t s ++ t1 ++ t2) by (rewrite T2, T1, app_assoc; reflexivity).
      destruct H as [E|[Ss S3]].
      * rewrite E in *. split; [exists (t1 ++ t2); split; [assumption|]; apply quiet_secure; assumption|].
        intros _. split; [congruence|]. split; [congruence|].
        split; [intros X; apply F3; unfold config in Cf; congruence|]. congruence.
      * destruct Ss as (_ & K2 & _ & _ & b & B2 & A2).
        eapply sealed_ok with (c0 := s_c s); [|exact Cf|exact F3].
        eapply secured_sealed; [apply verified_app|exact S3|]. split; [congruence|]. split; [congruence|]. split; [congruence|].
        exists (t1 ++ t2). split; [assumption|]. split; [apply quiet_secure; assumption|]. left. exists b. split; [assumption|].
        eapply accepted_verified; eauto.
Qed.

Lemma destroyW_secure : forall v, wwalk secure_nc destroyW v.
Proof.
  intros v. unfold destroyW. apply ww_bind; [|intros; apply ww_ret]. apply xcleanup; [apply secure_nc_base|].
  intros _. apply secure_nc_write.
Qed.
Lemma destroyW_quiet : forall v, c_conn (v_c v) = false -> wwalk ProofWalk.base destroyW v.
Proof.
  intros v C. unfold destroyW. apply ww_bind; [|intros; apply ww_ret]. apply xcleanup; [auto|].
  intros E. cbn [proj s_c] in E. rewrite C, andb_false_r in E. discriminate E.
Qed.
Lemma forced_destroyW : forall (A : Prop) v, c_kind (v_c v) = KForced -> forced_ok A (v_c v) (wlog v) ->
  exists t, wlog (snd (destroyW v)) = wlog v ++ t /\ only_secure (verified A) (wlog v) t.
Proof.
  intros A v K F. destruct (F K) as (F1 & F2 & F3 & F4).
  destruct (c_conn (v_c v)) eqn:C.
  - destruct (F4 eq_refl) as (b & B1 & B2). assert (S := proj1 (destroyW_secure v)).
    destruct (steps_sealed (verified A) (wlog v) _ _ (verified_app A) S) as (_ & _ & _ & t & T & O & _); [|eauto].
    split; [simpl; congruence|]. split; [exact F2|]. split; [exact F1|].
    exists []. split; [symmetry; apply app_nil_r|]. split; [apply quiet_secure; intros x []|]. left. exists b. auto.
  - assert (S := proj1 (destroyW_quiet v C)).
    destruct (steps_silent ProofWalk.base _ _ ltac:(intros []; simpl; tauto) S) as (t & T & W).
    exists t. split; [assumption|]. apply quiet_secure. assumption.
Qed.

Lemma forced_wstep : forall ops, keeps_virtual ops -> forall o w x w', In o ops -> wstep o w = (x, w') ->
  all_clients (forced_ok (opted_in ops)) (pw w) -> all_clients (forced_ok (opted_in ops)) (pw w').
Proof.
  intros ops NK o w x w' Ho S A. eapply wall_clients; [| | |exact S|exact A].
  - intros. apply forced_ok_app. assumption.
  - intros w1 y w1' _ S1. apply (forced_step ops NK o w1 y w1' Ho S1).
  - intros m v F K. destruct (kind_eqb (c_kind (v_c v)) KForced) eqn:E.
    + apply (forced_sendW (opted_in ops) m v); [|exact F|exact K]. destruct (c_kind (v_c v)); try discriminate E. reflexivity.
    + assert (X := steps_config _ _ _ (proj1 (sendMailW_walk m v))). unfold config in X. cbn [proj s_c] in X.
      replace (c_kind (v_c v)) with KForced in E by congruence. discriminate E.
Qed.
Lemma forced_wrun : forall ops, keeps_virtual ops -> forall e xe, all_clients (forced_ok (opted_in ops)) (pw (snd (wrun ops (initial_wworld e xe)))).
Proof.
  intros ops NK e xe. apply (wrun_inv (fun o => In o ops) (fun w => all_clients (forced_ok (opted_in ops)) (pw w))); [|auto|].
  - intros o w x w' Ho S. apply (forced_wstep ops NK o w x w' Ho S).
  - intros i c H. unfold get_client in H. destruct i; discriminate H.
Qed.

(** What one operation of a program does. *)
Lemma wstep_effect : forall o w x w', wstep o w = (x, w') ->
  ww_trace w' = ww_trace w \/
  (exists i m c, o = OSend i m /\ get_client (ww w) i = Some c /\ x = fst (sendMailW m (wview w i c)) /\
     ww_trace w' = v_t (snd (sendMailW m (wview w i c))) /\ w_env (ww w') = v_e (snd (sendMailW m (wview w i c)))) \/
  (exists i c, o = ODestroy i /\ get_client (ww w) i = Some c /\ x = fst (destroyW (wview w i c)) /\
     ww_trace w' = v_t (snd (destroyW (wview w i c)))).
Proof.
  intros o w x w' S. destruct (acts o) eqn:Ac.
  2:{ apply wstep_other in S as (_ & _ & S & _); [|assumption]. left. exact S. }
  destruct o; try discriminate Ac; (destruct (get_client (ww w) i) as [c|] eqn:G;
    [|left; apply run_onW_none in S as [_ ->]; [reflexivity|assumption]]).
  - right. left. apply (run_onW_some i (sendMailW m) Some w c) in S as (X & _ & E & T & _); [|assumption]. exists i, m, c. auto.
  - right. right. apply (run_onW_some i destroyW (fun _ => None) w c) in S as (X & _ & _ & T & _); [|assumption]. exists i, c. auto.
Qed.

Lemma forced_opW : forall ops e xe i c o x w' t,
  keeps_virtual ops ->
  get_client (ww (snd (wrun ops (initial_wworld e xe)))) i = Some c -> c_kind c = KForced -> uses i o ->
  wstep o (snd (wrun ops (initial_wworld e xe))) = (x, w') ->
  common (ww_trace w') = common (ww_trace (snd (wrun ops (initial_wworld e xe)))) ++ t ->
  only_secure (verified (opted_in ops)) (common (ww_trace (snd (wrun ops (initial_wworld e xe))))) t.
Proof.
  intros ops e xe i c o x w' t NK G K U S T. set (w := snd (wrun ops (initial_wworld e xe))) in *.
  assert (F : forced_ok (opted_in ops) c (common (ww_trace w))) by (apply (forced_wrun ops NK e xe i c); exact G).
  apply wstep_effect in S as [E|[(j & m & c' & -> & G' & _ & E & _)|(j & c' & -> & G' & _ & E)]].
  - rewrite E in T. rewrite <- (app_nil_r (common (ww_trace w))) in T at 1. apply app_inv_head in T. subst t.
    apply quiet_secure. intros y [].
  - destruct U as [[m' U]|U]; inversion U; subst. rewrite G in G'. inversion G'; subst.
    destruct (forced_sendW (opted_in ops) m' (wview w i c') K F) as [(t' & T' & O) _].
    unfold wlog in T'. rewrite <- E in T'. change (common (ww_trace w') = common (ww_trace w) ++ t') in T'.
    rewrite T in T'. apply app_inv_head in T'. subst t'. exact O.
  - destruct U as [[m' U]|U]; inversion U; subst. rewrite G in G'. inversion G'; subst.
    destruct (forced_destroyW (opted_in ops) (wview w i c') K F) as (t' & T' & O).
    unfold wlog in T'. rewrite <- E in T'. change (common (ww_trace w') = common (ww_trace w) ++ t') in T'.
    rewrite T in T'. apply app_inv_head in T'. subst t'. exact O.
Qed.

(** ** After a handshake *)

Lemma kept_sessionW : forall m v t, c_kind (v_c v) <> KPlain -> c_rawptr (v_c v) = false -> c_keep (v_c v) = false ->
  c_conn (v_c v) = true -> c_bio (v_c v) <> None -> wlog (snd (sendMailW m v)) = wlog v ++ t -> only_zero t.
Proof.
  intros m v t K R Kp C Bn T. assert (S := secured_oldW m v C).
  destruct (steps_sealed ProofTls2.always (wlog v) _ _ ltac:(intros; exact I) S) as (_ & _ & _ & t' & T' & O & _).
  - split; [exact K|]. split; [exact R|]. split; [exact Kp|]. exists []. split; [symmetry; apply app_nil_r|].
    split; [apply quiet_secure; intros x []|]. left. simpl. destruct (c_bio (v_c v)) as [b|]; [|congruence]. exists b. split; [reflexivity|exact I].
  - change (s_t (proj (snd (sendMailW m v)))) with (wlog (snd (sendMailW m v))) in T'.
    rewrite T in T'. apply app_inv_head in T'. subst t'. exact (proj1 O).
Qed.
Lemma upgradedW : forall m v t t1 b ok t2, c_kind (v_c v) = KOpp -> c_rawptr (v_c v) = false -> c_keep (v_c v) = false ->
  wlog (snd (sendMailW m v)) = wlog v ++ t -> t = t1 ++ EvHandshake b ok :: t2 -> only_zero t2.
Proof.
  intros m v t t1 b ok t2 K R Kp T E. destruct (c_conn (v_c v)) eqn:C.
  - exfalso. assert (S := secured_oldW m v C). destruct (steps_no_handshake _ _ _ secure_tls S) as (t' & T' & W).
    simpl in T'. change (wlog (snd (sendMailW m v)) = wlog v ++ t') in T'.
    rewrite T in T'. apply app_inv_head in T'. subst. apply (W (EvHandshake b ok)). apply in_or_app. right. left. reflexivity.
  - destruct (opp_phasesW m v K C) as (s1 & S1 & H).
    destruct (steps_no_handshake _ _ _ (clear_tls _ _) S1) as (ta & Ta & Na).
    assert (Nil : only_zero []) by (intros u1 * X; destruct u1; discriminate X).
    assert (Nil' : no_handshake []) by (intros x []).
    change (wlog (snd (sendMailW m v))) with (s_t (proj (snd (sendMailW m v)))) in T.
    change (wlog v) with (s_t (proj v)) in T. change (v_c v) with (s_c (proj v)) in *.
    set (s := proj v) in *. set (s' := proj (snd (sendMailW m v))) in *.
    destruct H as [H|(s2 & S2 & H)].
    + rewrite H, Ta in T. apply app_inv_head in T. subst t.
      eapply (after_handshake ta [] []); eauto; [intros x []|]. rewrite app_nil_r. exact E.
    + destruct (steps_silent _ _ _ negotiating_silent S2) as (tb & Tb & Wb). destruct H as [H|[Ss S3]].
      * rewrite H, Tb, Ta, <- app_assoc in T. apply app_inv_head in T. subst t.
        eapply (after_handshake ta tb []); eauto. rewrite app_nil_r. exact E.
      * destruct Ss as (C2 & K2 & R2 & Kp2 & b2 & B2 & _).
        assert (L : sealed ProofTls2.always (s_t s2) s2).
        { split; [congruence|]. split; [congruence|]. split; [congruence|]. exists []. split; [symmetry; apply app_nil_r|].
          split; [apply quiet_secure; intros x []|]. left. exists b2. split; [assumption|exact I]. }
        apply (secured_sealed ProofTls2.always _ _ _ (fun _ _ _ _ => I) S3) in L as (_ & _ & _ & tc & Tc & O & _).
        destruct (secured_no_handshake _ _ S3) as (tc' & Tc' & Nc).
        assert (tc' = tc) by (eapply app_inv_head; rewrite <- Tc; symmetry; exact Tc'). subst tc'.
        rewrite Tc, Tb, Ta, <- !app_assoc in T. apply app_inv_head in T. subst t.
        eapply (after_handshake ta tb tc); eauto. exact (proj1 O).
Qed.

Lemma wstep_sendW : forall i c m w x w', get_client (ww w) i = Some c -> wstep (OSend i m) w = (x, w') ->
  x = fst (sendMailW m (wview w i c)) /\ w_env (ww w') = v_e (snd (sendMailW m (wview w i c))) /\
  common (ww_trace w') = wlog (snd (sendMailW m (wview w i c))).
Proof.
  intros i c m w x w' G S. apply (run_onW_some i (sendMailW m) Some w c) in S as (X & _ & E & T & _); [|assumption].
  split; [exact X|]. split; [exact E|]. rewrite T. reflexivity.
Qed.
Lemma wworld_kept : forall i c m w x w' t, get_client (ww w) i = Some c -> c_kind c <> KPlain -> encrypts c ->
  c_conn c = true -> c_bio c <> None -> wstep (OSend i m) w = (x, w') -> common (ww_trace w') = common (ww_trace w) ++ t -> only_zero t.
Proof.
  intros i c m w x w' t G K [E1 E2] C Bn S T. destruct (wstep_sendW _ _ _ _ _ _ G S) as (_ & _ & T'). rewrite T' in T.
  exact (kept_sessionW m (wview w i c) t K E2 E1 C Bn T).
Qed.
Lemma wworld_upgraded : forall i c m w x w' t1 b ok t2, get_client (ww w) i = Some c -> c_kind c = KOpp -> encrypts c ->
  wstep (OSend i m) w = (x, w') -> common (ww_trace w') = common (ww_trace w) ++ t1 ++ EvHandshake b ok :: t2 -> only_zero t2.
Proof.
  intros i c m w x w' t1 b ok t2 G K [E1 E2] S T. destruct (wstep_sendW _ _ _ _ _ _ G S) as (_ & _ & T'). rewrite T' in T.
  exact (upgradedW m (wview w i c) _ t1 b ok t2 K E2 E1 T eq_refl).
Qed.

(** ** Credentials *)

Lemma bare_finishW : forall m r v, wwalk (ProofTls2.bare (e_fs (v_e v)) m) (finishW m r) v.
Proof.
  intros m r v. eapply ww_mono; [apply clear_finishW|]. intros l [->|H]; [exact I|].
  unfold clear_nc in H. destruct l; simpl; try exact I. simpl in H. intuition (try discriminate).
  destruct H0 as (x & [X|X] & H); inversion X; subst; assumption.
Qed.
Lemma bare_sendW : forall m v, c_kind (v_c v) <> KPlain -> c_rawptr (v_c v) = false ->
  wwalk (ProofTls2.bare (e_fs (v_e v)) m) (sendMailW m) v.
Proof.
  intros m v K R. destruct (c_conn (v_c v)) eqn:C.
  - eapply ww_eq; [apply sendMailW_old; assumption|]. exact (bare_finishW m 0 v).
  - eapply ww_eq; [apply sendMailW_new; assumption|]. apply ww_bind.
    + apply ww_mono with (P := bare_nc (e_fs (v_e v)) m); [|intros l [H _]; exact H].
      apply xestablish; try exact (bare_base _ _); try apply bare_conn; try assumption.
      all: try (split; [exact I|discriminate]).
      * split; [left; reflexivity|discriminate].
      * intros cr d _ _. split; [intros [X|X]; congruence|]. intros. split; [exact I|discriminate].
    + intros r v1 _ S1. apply steps_fs in S1 as X. cbn [proj s_e] in X. rewrite <- X. apply bare_finishW.
Qed.
Lemma bare_destroyW : forall m v, wwalk (ProofTls2.bare (e_fs (v_e v)) m) destroyW v.
Proof.
  intros m v. unfold destroyW. apply ww_bind; [|intros; apply ww_ret].
  apply ww_mono with (P := bare_nc (e_fs (v_e v)) m); [|intros l [H _]; exact H].
  apply xcleanup; [apply bare_base|]. intros _. split; (split; [|discriminate]).
  - right. exists QUIT. split; [apply tl_quit|]. reflexivity.
  - exact I.
Qed.
Lemma bare_opW : forall i c m o w x w' t fd d r, get_client (ww w) i = Some c -> c_kind c <> KPlain -> c_rawptr c = false ->
  o = OSend i m \/ o = ODestroy i -> wstep o w = (x, w') -> common (ww_trace w') = common (ww_trace w) ++ t -> In (EvSend fd d r) t ->
  exists line, clear_line (e_fs (w_env (ww w))) m line /\ d = cstr line.
Proof.
  intros i c m o w x w' t fd d r G K R U S T Hin.
  assert (E : exists t', common (ww_trace w') = common (ww_trace w) ++ t' /\ forall ev, In ev t' -> bare_event (e_fs (w_env (ww w))) m ev).
  { apply wstep_effect in S as [E|[(j & m' & c' & -> & G' & _ & E & _)|(j & c' & -> & G' & _ & E)]].
    - exists []. split; [rewrite app_nil_r, E; reflexivity|]. intros ev [].
    - destruct U as [U|U]; inversion U; subst. rewrite G in G'. inversion G'; subst. rewrite E.
      apply (bare_events _ _ (proj (wview w i c')) (proj (snd (sendMailW m (wview w i c'))))). apply (bare_sendW m (wview w i c') K R).
    - destruct U as [U|U]; inversion U; subst. rewrite G in G'. inversion G'; subst. rewrite E.
      apply (bare_events _ _ (proj (wview w i c')) (proj (snd (destroyW (wview w i c'))))). apply (bare_destroyW m (wview w i c')). }
  destruct E as (t' & T' & W). rewrite T in T'. apply app_inv_head in T'. subst t'. exact (W _ Hin).
Qed.
