(** Threads and their sockets, in the Windows build (compare ProofThreads.v). *)

From Coq Require Import Ascii String List NArith ZArith Bool Lia ZifyBool ZifyNat ZifyN.
From Verif Require Import Base Lib ModelUtil ModelBase64 ModelAddress ModelAttachment
  ModelErrors ModelReply ModelMessage ModelState ModelClient ModelWorld
  ProofSteps ProofWalk ProofPhases ProofEstablish ProofLog ProofSend ProofWorld SpecOwn ProofOwn
  ModelWin ProofWinWalk ProofWinWalk2 ProofWinEst SpecWinSafe ProofWinSafe ProofWinOwn SpecThreads ProofThreads.
Import ListNotations.
Open Scope Z_scope.

Lemma sendMailW_fitting : forall m v, wwalk (fitting m (c_kind (v_c v))) (sendMailW m) v.
Proof.
  intros m v. destruct (c_kind (v_c v)) eqn:K;
    [|eapply ww_mono; [apply sendMailW_walk|intros l H; split; [exact H|discriminate]]..].
  unfold sendMailW. apply ww_getc. apply ww_bind.
  - destruct (c_conn (v_c v)) eqn:Cn; [apply ww_ret|]. eapply ww_mono; [|apply no_tls_fitting].
    unfold establishW. apply ww_getc. rewrite K.
    apply xplain; first [assumption|exact (no_tls_base m)|exact (no_tls_conn m)|intros; split; [exact Logic.I|discriminate]].
  - intros r v1 _ _. destruct (negb _); [apply ww_ret|].
    apply ww_bind; [apply ww_base; eapply walk_updc; [apply es_conn|split; [exact Logic.I|discriminate]]|].
    intros u v2 _ _. eapply ww_mono; [|apply no_tls_fitting].
    apply xtransaction with (fs := e_fs (v_e v2)); try reflexivity.
    + apply no_tls_base.
    + apply no_tls_conn.
    + intros d _. apply no_tls_write.
    + intros n H. split; [|discriminate]. exists n. exact H.
Qed.

Lemma destroyW_fitting : forall k v, wwalk (fitting blank k) destroyW v.
Proof.
  intros k v. unfold destroyW. apply ww_bind.
  - apply xcleanup; [apply fitting_base|]. intros _. split; (split; [exact Logic.I|discriminate]).
  - intros. apply ww_ret.
Qed.

Lemma LG_runW : forall i (m : W Z) f w x w' P, (forall v, wwalk (P (c_kind (v_c v))) m v) -> (forall k, tls_fits (P k) k) ->
  run_onW i m f w = (x, w') -> LG (pw w) -> orderly (socks (ww_trace w')) /\ unmixed (w_env (ww w')) (socks (ww_trace w')).
Proof.
  intros i m f w x w' P Wk Ft H g. destruct (get_client (ww w) i) as [c|] eqn:E.
  2:{ apply run_onW_none in H as [_ ->]; [|assumption]. split; apply g. }
  apply (run_onW_some i m f w c) in H as (_ & _ & En & T & _); [|assumption].
  destruct (LG_L (pw w) i c g E) as [O HL]. rewrite T, En.
  destruct (L_steps _ O (proj (wview w i c)) _ (proj1 (Wk (wview w i c))) (Ft _) HL) as (X & Y & _). split; assumption.
Qed.

Lemma tied_worldW : forall o w x w', wstep o w = (x, w') -> all_clients tied (pw w) -> all_clients tied (pw w').
Proof.
  intros o w x w' S A. eapply wall_clients; [| | |exact S|exact A].
  - intros. apply tied_app. assumption.
  - intros w1 y w1' _ S1. apply (tied_world o w1 y w1' S1).
  - intros m v T. apply (tied_steps _ (proj v) _ (proj1 (sendMailW_fitting m v)) (fitting_fits _ _) T).
Qed.

Lemma LG_wstep : forall o w x w', wstep o w = (x, w') -> LG (pw w) -> LG (pw w').
Proof.
  intros o w x w' H g.
  assert (X : orderly (socks (ww_trace w')) /\ unmixed (w_env (ww w')) (socks (ww_trace w'))).
  { destruct (acts o) eqn:Ac.
    2:{ destruct (step_effect o (pw w) x (pw w') (proj1 (wstep_other _ _ _ _ Ac H))) as [[T En]|[(i & m & c & -> & _)|(i & c & -> & _)]];
          try discriminate Ac.
        change (orderly (w_trace (pw w')) /\ unmixed (w_env (pw w')) (w_trace (pw w'))). rewrite T, En. split; apply g. }
    destruct o; try discriminate Ac.
    + eapply (LG_runW i (sendMailW m) Some _ _ _ (fitting m)); [intros; apply sendMailW_fitting|intros; apply fitting_fits|exact H|exact g].
    + eapply (LG_runW i destroyW (fun _ => None) _ _ _ (fitting blank)); [intros; apply destroyW_fitting|intros; apply fitting_fits|exact H|exact g]. }
  destruct X as [X Y]. split; [exact X|]. split; [exact Y|]. split; [eapply tied_worldW; [exact H|apply g]|].
  intros F. eapply (G_wstep links link_steps); [intros; apply NoDup_nodup|intros; eapply G_step_links; eauto|exact H|exact F|].
  apply g. cbn [pw w_trace] in *. assert (R := wrun_trace [o] w). cbn [wrun] in R. rewrite H in R.
  destruct R as [t T]. destruct (continues x); cbn [snd] in T; rewrite T in F; eapply fresh_prefix; exact F.
Qed.

Lemma LG_wrun : forall ops w, LG (pw w) -> LG (pw (snd (wrun ops w))).
Proof.
  induction ops as [|o ops IH]; intros w g; cbn [wrun]; [exact g|].
  destruct (wstep o w) as [x w1] eqn:E. assert (g1 := LG_wstep _ _ _ _ E g).
  destruct (continues x); [|exact g1]. specialize (IH w1 g1). destruct (wrun ops w1). exact IH.
Qed.

Lemma wrun_orderly : forall ops e x, orderly (socks (ww_trace (snd (wrun ops (initial_wworld e x))))).
Proof.
  intros ops e x. apply (LG_wrun ops (initial_wworld e x)). apply (LG_initial e).
Qed.

Lemma thread_on_both : forall i T, thread i (on_both T) = socks (thread i T).
Proof.
  intros i T. induction T as [|[j ev] T IH]; [reflexivity|].
  change (on_both ((j, ev) :: T)) with ((match ev with WSock e => [(j, e)] | _ => [] end) ++ on_both T).
  rewrite thread_app, IH. unfold thread at 1 3. cbn [filter fst]. destruct ev; cbn [filter fst]; destruct (Nat.eqb j i); reflexivity.
Qed.

Theorem threads_privateW : forall P E X T, scheduled_on_windows P E X T -> fresh sockets (process (on_both T)) ->
  private_from 1 (on_both T).
Proof.
  intros P E X T S F. apply threads_apart; [|exact F]. intros i. destruct (S i) as [q Q].
  rewrite thread_on_both. eapply orderly_prefix. rewrite <- socks_app, <- Q. apply wrun_orderly.
Qed.

Theorem threads_tlsW : forall P E X T, scheduled_on_windows P E X T -> tls_on_one_socket (on_both T).
Proof.
  intros P E X T S. apply orderly_sure. intros i. destruct (S i) as [q Q].
  rewrite thread_on_both. eapply orderly_prefix. rewrite <- socks_app, <- Q. apply wrun_orderly.
Qed.
