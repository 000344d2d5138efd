(** The decision of the TLS negotiation in the Windows build. *)

From Coq Require Import Ascii String List NArith ZArith Bool Lia ZifyBool ZifyNat ZifyN.
From Verif Require Import Base Lib ModelUtil ModelBase64 ModelAddress ModelAttachment
  ModelErrors ModelReply ModelMessage ModelState ModelClient ModelWorld
  ProofSteps ProofWalk ProofPhases ProofEstablish ProofLog ProofSend ProofWorld SpecMime SpecTls ProofMime ProofTls ProofTls2
  ModelWin ProofWinWalk ProofWinWalk2 ProofWinEst SpecWinSafe ProofWinSafe ProofWinTls ProofWinTls2.
Import ListNotations.
Open Scope Z_scope.

(** The result of the next call of CertOpenSystemStore. *)
Definition next_store (x : wenv) : option Z := hd None (x_store x).

Lemma tls_decisionW : forall v code v', startTLSNegotiationW v = (Done code, v') ->
  exists r l, e_tls (v_e v) = r :: l /\
    (code = 0 <-> win_acceptable (c_selfsigned (v_c v)) (next_store (v_w v)) r) /\
    (code <> 0 -> code = win_tls_error (next_store (v_w v)) r).
Proof.
  intros v code v' H. unfold startTLSNegotiationW in H.
  apply wbind_done in H as (u & v1 & H1 & H).
  assert (W1 : v_w v1 = v_w v) by (apply base_done in H1 as (s1 & _ & ->); reflexivity).
  apply wlogc_core in H1 as (H1 & HE1 & HT1 & _).
  apply wbind_done in H as (e & v1' & X & H). apply gete_done in X as [-> ->]. rewrite HE1 in H.
  destruct (e_tls (v_e v)) as [|t l]; [apply base_done in H as (? & H & _); discriminate H|].
  exists t, l. split; [reflexivity|]. unfold win_acceptable, win_tls_error. rewrite <- W1. clear W1.
  assert (Fail : forall c x, code = x -> x <> 0 -> ~ (c : Prop) -> (code = 0 <-> c) /\ (code <> 0 -> code = x)).
  { intros c x -> Hx Hc. split; [tauto|auto]. }
  apply wbind_done in H as (u2 & v2 & H2 & H). apply base_done in H2 as (s2 & H2 & ->). inversion H2; subst. clear H2.
  destruct (t_ctx t); cbn [negb] in H |- *.
  2:{ apply wbind_done in H as (? & ? & _ & H). apply wret_done in H as [H _]. apply Fail; [exact H|discriminate|intuition discriminate]. }
  apply wbind_done in H as (i & v3 & H3 & H). apply base_done in H3 as (s3 & H3 & ->). inversion H3; subst. clear H3.
  apply wbind_done in H as (u4 & v4 & H4 & H). apply base_done in H4 as (s4 & H4 & ->). inversion H4; subst. clear H4.
  destruct (t_bio t); cbn [negb] in H |- *.
  2:{ apply wbind_done in H as (? & ? & _ & H). apply wret_done in H as [H _]. apply Fail; [exact H|discriminate|intuition discriminate]. }
  apply wbind_done in H as (i6 & v6 & H6 & H). apply base_done in H6 as (s6 & H6 & ->). inversion H6; subst. clear H6.
  apply wbind_done in H as (c & v6' & X & H). apply getc_done in X as [-> ->].
  apply wbind_done in H as (u7 & v7 & H7 & H). apply base_done in H7 as (s7 & H7 & ->). inversion H7; subst. clear H7.
  unfold after in H. cbn [bare v_c v_e v_on v_w v_t s_c s_e s_t map] in H. rewrite !app_nil_r in H.
  match type of H with match ?x with _ => _ end _ = _ => destruct x; [|apply base_done in H as (? & H & _); discriminate H] end.
  match type of H with (if ?x then _ else _) _ = _ => destruct x; [apply base_done in H as (? & H & _); discriminate H|] end.
  apply wbind_done in H as (sr & v8 & H8 & H). assert (S8 := silent_done _ _ _ _ (silent_next _ _ _) H8).
  assert (N8 : sr = next_store (v_w v1)).
  { unfold next in H8. cbn [v_w] in H8. unfold next_store. destruct (x_store _); inversion H8; subst; reflexivity. }
  rewrite <- N8. clear N8. destruct S8 as (C8 & E8 & _). cbn [v_c v_e] in C8, E8. clear H8.
  apply wbind_done in H as (u9 & v9 & H9 & H). inversion H9; subst v9. clear H9.
  destruct sr as [er|].
  { apply wbind_done in H as (? & ? & _ & H); apply wret_done in H as [H _]. apply Fail; [exact H|discriminate|intuition discriminate]. }
  destruct (t_connect t); cbn [negb] in H |- *.
  2:{ apply wbind_done in H as (? & ? & _ & H). apply wbind_done in H as (? & ? & _ & H).
      apply wbind_done in H as (? & ? & _ & H). apply wret_done in H as [H _]. apply Fail; [exact H|discriminate|intuition discriminate]. }
  apply wbind_done in H as (u10 & v10 & H10 & H). apply waddLog_core in H10 as (C10 & _). cbn [v_c] in C10.
  apply wbind_done in H as (u11 & v11 & H11 & H). apply wemit_done in H11.
  destruct (t_handshake t); cbn [negb] in H |- *.
  2:{ apply wbind_done in H as (? & ? & _ & H). apply wbind_done in H as (? & ? & _ & H).
      apply wret_done in H as [H _]. apply Fail; [exact H|discriminate|intuition discriminate]. }
  apply wbind_done in H as (u12 & v12 & H12 & H). apply waddLog_core in H12 as (C12 & _).
  apply wbind_done in H as (u13 & v13 & H13 & H). apply wemit_done in H13.
  destruct (t_cert t); cbn [negb] in H |- *.
  2:{ apply wbind_done in H as (? & ? & _ & H). apply wret_done in H as [H _]. apply Fail; [exact H|discriminate|intuition discriminate]. }
  apply wbind_done in H as (u14 & v14 & H14 & H). apply wemit_done in H14.
  apply wbind_done in H as (c & v14' & X & H). apply getc_done in X as [-> ->].
  subst v14 v13 v11. cbn [v_c v_e v_on v_w v_t] in *.
  assert (Sf : c_selfsigned (v_c v12) = c_selfsigned (v_c v)).
  { rewrite C8 in C10. core_facts C12. core_facts C10. core_facts H1. rewrite CFself, CFself0. exact CFself1. }
  rewrite Sf in H. unfold X509_V_ERR_DEPTH_ZERO_SELF_SIGNED_CERT, X509_V_OK in H.
  destruct ((t_verify t =? 18) && c_selfsigned (v_c v)) eqn:V.
  { apply wbind_done in H as (? & ? & _ & H). apply wbind_done in H as (? & ? & _ & H). apply wbind_done in H as (? & ? & _ & H).
    apply wret_done in H as [-> _].
    split; [|congruence]. split; [|auto]. intros _. apply andb_prop in V as [V1 V2]. repeat split; auto. right. split; [lia|assumption]. }
  destruct (t_verify t =? 0) eqn:V0; cbn [negb] in H.
  { apply wbind_done in H as (? & ? & _ & H). apply wbind_done in H as (? & ? & _ & H). apply wret_done in H as [-> _].
    split; [|congruence]. split; [|auto]. intros _. repeat split; auto. left. lia. }
  apply wbind_done in H as (? & ? & _ & H). apply wbind_done in H as (? & ? & _ & H). apply wbind_done in H as (? & ? & _ & H).
  apply wret_done in H as [H _]. apply Fail; [exact H|discriminate|].
  intros (_ & _ & _ & _ & _ & _ & [X|[X Y]]); [lia|]. rewrite Y, andb_true_r in V. lia.
Qed.

(** ** Connecting does not consume the outcomes of a negotiation *)

Definition keepsW {A} (m : W A) : Prop := forall v,
  e_tls (v_e (snd (m v))) = e_tls (v_e v) /\ x_store (v_w (snd (m v))) = x_store (v_w v).
Lemma kw_bind : forall {A C} (m : W A) (k : A -> W C), keepsW m -> (forall a, keepsW (k a)) -> keepsW (wbind m k).
Proof.
  intros A C m k H K v. unfold wbind. specialize (H v). destruct (m v) as [o v1]. destruct o; auto.
  destruct H as [H1 H2]. destruct (K a v1) as [K1 K2]. cbn [snd] in H1, H2. rewrite <- H1, <- H2. auto.
Qed.
Lemma kw_base : forall {A} (m : M A), keeps m -> keepsW (base m).
Proof. intros A m H [qc qo qe qw qt]. unfold base. specialize (H (mkSt qc qe [])). cbn. destruct (m _) as [o s]. cbn in *. auto. Qed.
Lemma kw_msg : forall er, keepsW (addWSAMessage er).
Proof. intros er v. unfold addWSAMessage. destruct (x_format (v_w v) er); [|auto]. apply (kw_base (logc _)). apply keeps_log. Qed.
Lemma kw_start : forall d, keepsW (next x_start set_xstart d).
Proof. intros d v. unfold next. destruct (x_start (v_w v)); auto. Qed.
Lemma kw_addr : forall d, keepsW (next x_addr set_xaddr d).
Proof. intros d v. unfold next. destruct (x_addr (v_w v)); auto. Qed.
Lemma kw_clean : forall d, keepsW (next x_clean set_xclean d).
Proof. intros d v. unfold next. destruct (x_clean (v_w v)); auto. Qed.
Ltac kw := repeat lazymatch goal with
  | |- keepsW (wbind _ _) => apply kw_bind; [|intros ?]
  | |- keepsW (addWSAMessage _) => apply kw_msg
  | |- keepsW (next x_start _ _) => apply kw_start
  | |- keepsW (next x_addr _ _) => apply kw_addr
  | |- keepsW (next x_clean _ _) => apply kw_clean
  | |- keepsW (base (logc _)) => apply kw_base, keeps_log
  | |- keepsW (base sys_connect) => apply kw_base, keeps_connect
  | |- keepsW (base _) => apply kw_base; repeat keep_step
  | |- keepsW (match ?x with _ => _ end) => destruct x
  | |- keepsW _ => intros ?; split; reflexivity
  end.
Lemma kw_cleanup : keepsW doWSACleanup.
Proof. unfold doWSACleanup. kw. Qed.
Lemma kw_initialize : keepsW initializeSessionW.
Proof.
  unfold initializeSessionW, initializeSessionWinSock.
  repeat first [progress kw | apply kw_cleanup].
Qed.

Lemma forced_verdictW : forall m v code v' r l,
  c_kind (v_c v) = KForced -> c_conn (v_c v) = false -> e_tls (v_e v) = r :: l ->
  ~ win_acceptable (c_selfsigned (v_c v)) (next_store (v_w v)) r -> sendMailW m v = (Done code, v') ->
  code <> 0 /\ (exists t, wlog v' = wlog v ++ t /\ writes_nothing t) /\
  (code = win_tls_error (next_store (v_w v)) r \/ e_tls (v_e v') = r :: l).
Proof.
  intros m v code v' r l K C E N H. rewrite sendMailW_new in H by assumption.
  unfold establishW in H. apply wbind_done in H as (x & vx & Hx & H). rewrite wbind_getc, K in Hx.
  unfold establishForcedW in Hx. apply wbind_done in Hx as (i & v1 & Hi & Hx).
  destruct (kw_initialize v) as [E1 W1]. rewrite Hi in E1, W1. cbn [snd] in E1, W1.
  assert (Wi := xinit opening opening_base (or_intror (or_introl eq_refl)) (or_intror (or_intror (or_introl eq_refl))) (or_intror (or_intror (or_intror eq_refl))) v).
  destruct Wi as [Wi _]. rewrite Hi in Wi. cbn [snd] in Wi.
  destruct (steps_silent _ _ _ opening_silent Wi) as (t1 & T1 & Q1).
  destruct (i =? 0) eqn:I; cbn [negb] in Hx.
  2:{ apply wret_done in Hx as [-> ->]. rewrite finishW_stop in H by lia. inversion H; subst.
      split; [lia|]. split; [eauto|]. right. congruence. }
  assert (Cf := xinitialize_core _ _ _ Hi). apply core_s_fields in Cf.
  apply wbind_done in Hx as (t & v2 & Ht & Hx).
  destruct (tls_decisionW _ _ _ Ht) as (r' & l' & E' & D1 & D2). rewrite E1, E in E'. inversion E'; subst r' l'.
  unfold next_store in *. rewrite W1 in D1, D2.
  replace (c_selfsigned (v_c v1)) with (c_selfsigned (v_c v)) in D1 by intuition congruence.
  assert (T0 : t <> 0) by tauto.
  replace (t =? 0) with false in Hx by lia. cbn [negb] in Hx. apply wret_done in Hx as [-> ->].
  rewrite finishW_stop in H by assumption. inversion H; subst.
  split; [exact T0|]. split; [|left; auto].
  assert (Wt : wwalk negotiating startTLSNegotiationW v1).
  { apply xtls; [apply negotiating_base|apply negotiating_conn|right; reflexivity|]. apply xdisconnected. intuition congruence. }
  destruct Wt as [Wt _]. rewrite Ht in Wt. cbn [snd] in Wt.
  destruct (steps_silent _ _ _ negotiating_silent Wt) as (t2 & T2 & Q2).
  exists (t1 ++ t2). change (s_t (proj v') = wlog v ++ t1 ++ t2 /\ writes_nothing (t1 ++ t2)). rewrite T2, T1, app_assoc.
  split; [reflexivity|]. intros y Hy. apply in_app_or in Hy as [Hy|Hy]; [apply Q1|apply Q2]; exact Hy.
Qed.

Lemma wworld_verdict : forall i c m w code w' r l t,
  get_client (ww w) i = Some c -> c_kind c = KForced -> c_conn c = false -> e_tls (w_env (ww w)) = r :: l ->
  ~ win_acceptable (c_selfsigned c) (hd None (x_store (ww_env w))) r ->
  wstep (OSend i m) w = (Done code, w') -> common (ww_trace w') = common (ww_trace w) ++ t ->
  code <> 0 /\ (forall fd d n, ~ In (EvSend fd d n) t) /\ (forall b d n, ~ In (EvPuts b d n) t) /\
  (code = win_tls_error (hd None (x_store (ww_env w))) r \/ e_tls (w_env (ww w')) = r :: l).
Proof.
  intros i c m w code w' r l t G K C E N S T. destruct (wstep_sendW _ _ _ _ _ _ G S) as (X & Ee & T').
  destruct (sendMailW m (wview w i c)) as [o v'] eqn:Q. simpl in X, Ee, T'. subst o.
  destruct (forced_verdictW m (wview w i c) code v' r l K C E N Q) as (H1 & (t' & T1 & W) & H2).
  rewrite <- T', T in T1. change (wlog (wview w i c)) with (common (ww_trace w)) in T1. apply app_inv_head in T1. subst t'. rewrite Ee.
  repeat split; auto; intros; intros Hin; exact (W _ Hin).
Qed.
