(** Which events the functions of the Windows build cause. *)

From Coq Require Import Ascii String List NArith ZArith Bool Lia.
From Verif Require Import Base ModelUtil ModelBase64 ModelAddress ModelAttachment
  ModelErrors ModelReply ModelMessage ModelState ModelClient ModelWorld ModelWin SpecWin
  ProofWin2 ProofWin3 ProofWinRef ProofWinRef2 ProofWinRef3 ProofWinRef4.
Import ListNotations.
Open Scope Z_scope.

Definition only (P : wevent -> Prop) {A} (m : W A) : Prop := forall v, exists tw, v_t (snd (m v)) = v_t v ++ tw /\ Forall P tw.
Lemma only_bind P {A C} (m : W A) (k : A -> W C) : only P m -> (forall a, only P (k a)) -> only P (wbind m k).
Proof.
  intros H J v. destruct (H v) as (l & E & F). unfold wbind. destruct (m v) as [[a| | | | |] s1]; cbn [snd] in *; try (exists l; auto; fail).
  destruct (J a s1) as (l2 & E2 & F2). exists (l ++ l2). split; [now rewrite E2, E, app_assoc|]. now apply Forall_app.
Qed.
Lemma only_same P {A} (m : W A) : (forall v, v_t (snd (m v)) = v_t v) -> only P m.
Proof. intros H v. exists []. rewrite (H v), app_nil_r. auto. Qed.
Lemma only_next P {T} get set (d : T) : only P (next get set d).
Proof. apply only_same. intros v. unfold next. now destruct (get (v_w v)). Qed.
Lemma only_put (P : wevent -> Prop) ev : P ev -> only P (wput ev).
Proof. intros H v. exists [ev]. auto. Qed.
Lemma only_weak (P Q : wevent -> Prop) {A} (m : W A) : (forall ev, P ev -> Q ev) -> only P m -> only Q m.
Proof. intros I H v. destruct (H v) as (tw & E & F). exists tw. split; [exact E|]. eapply Forall_impl; eauto. Qed.

(** No event of the certificate store and no freeaddrinfo, after connecting. *)
Definition plainly (ev : wevent) : Prop :=
  match ev with WOpenStore _ | WCloseStore | WAddrFree => False | _ => True end.
Lemma only_base {A} (m : M A) : only plainly (base m).
Proof.
  intros v. unfold base. destruct (m _) as [o s]. cbn. exists (map WSock (s_t s)). split; [reflexivity|]. apply Forall_map, Forall_forall. intros; exact Logic.I.
Qed.
Lemma only_msg er : only plainly (addWSAMessage er).
Proof. intros v. unfold addWSAMessage. destruct (x_format (v_w v) er); [apply only_base|]. exists []. rewrite app_nil_r. auto. Qed.
Ltac on := repeat match goal with
  | |- only _ (wbind _ _) => apply only_bind; [|intros ?]
  | |- only _ (base _) => apply only_base
  | |- only _ (wret _) => apply only_same; reflexivity
  | |- only _ (set_on _) => apply only_same; reflexivity
  | |- only _ get_on => apply only_same; reflexivity
  | |- only _ (next _ _ _) => apply only_next
  | |- only _ (wput _) => apply only_put; exact Logic.I
  | |- only _ (addWSAMessage _) => apply only_msg
  | H : only _ ?m |- only _ ?m => exact H
  | |- only _ (match ?x with _ => _ end) => destruct x
  end.
Lemma o_doclean : only plainly doWSACleanup. Proof. unfold doWSACleanup. on. Qed.
Lemma o_init : only plainly initializeSessionW.
Proof. unfold initializeSessionW, initializeSessionWinSock. pose proof o_doclean. on. Qed.
Lemma o_raw_reply : only plainly getRawCommandReplyW.
Proof. unfold getRawCommandReplyW, setSocketMode. on. Qed.
Lemma o_reply : only plainly getServerReplyW.
Proof. unfold getServerReplyW. pose proof o_raw_reply. on. Qed.
Lemma o_ptr cw cmd err : only plainly cw -> only plainly (sendCommandPtrW cw cmd err).
Proof. intros H. unfold sendCommandPtrW, sendRaw2W, sendCommandTLSW. on. Qed.
Lemma o_quit cw : only plainly cw -> only plainly (sendQuitW cw).
Proof. intros H. unfold sendQuitW. pose proof (fun a b => o_ptr cw a b H). on. apply H0. Qed.
Lemma o_cleanup_f n : only plainly (cleanup_fW n).
Proof.
  induction n as [|n IH]; cbn [cleanup_fW]; [on|]. pose proof (o_quit _ IH). pose proof o_doclean.
  unfold close_socketW, release_winsock. on.
Qed.
Lemma o_cleanup : only plainly cleanupW.
Proof. intros v. apply o_cleanup_f. Qed.
Lemma o_raw3 cmd err tm : only plainly (sendRaw3W cmd err tm).
Proof. unfold sendRaw3W, sendRaw2W. pose proof o_cleanup. pose proof o_raw_reply. on. Qed.
Lemma o_feed cmd err tm : only plainly (sendFeedbackW cmd err tm).
Proof. unfold sendFeedbackW, sendFeedbackTLSW. pose proof o_cleanup. pose proof o_reply. pose proof (o_raw3 cmd err tm). on. Qed.
Lemma o_feedptr cmd err tm : only plainly (sendFeedbackPtrW cmd err tm).
Proof. unfold sendFeedbackPtrW. pose proof (o_feed cmd err tm). pose proof (o_raw3 cmd err tm). on. Qed.
Lemma o_cptr cmd err : only plainly (sendCommandPtrW cleanupW cmd err).
Proof. apply o_ptr, o_cleanup. Qed.
Ltac ow := repeat match goal with
  | |- only _ (sendFeedbackPtrW _ _ _) => apply o_feedptr
  | |- only _ (sendFeedbackW _ _ _) => apply o_feed
  | |- only _ (sendRaw3W _ _ _) => apply o_raw3
  | |- only _ (sendCommandPtrW cleanupW _ _) => apply o_cptr
  | |- only _ (sendQuitW cleanupW) => apply o_quit, o_cleanup
  | |- only _ cleanupW => apply o_cleanup
  | |- only _ getServerReplyW => apply o_reply
  | |- only _ (wret _) => apply only_same; reflexivity
  | |- only _ (base _) => apply only_base
  | |- only _ (wbind _ _) => apply only_bind; [|intros ?]
  | |- only _ (match ?x with _ => _ end) => destruct x
  end.
Lemma o_ehlo_loop n tc : forall op, only plainly (ehlo_loopW n tc op).
Proof. induction n as [|n IH]; intros op; cbn [ehlo_loopW]; ow. apply IH. Qed.
Lemma o_ehlo err tm : only plainly (ehlo_withW err tm).
Proof. unfold ehlo_withW. ow. apply o_ehlo_loop. Qed.
Lemma o_secure : only plainly getServerSecureIdentificationW.
Proof. unfold getServerSecureIdentificationW. ow. apply o_ehlo. Qed.
Lemma o_auth_if : only plainly authenticate_if_neededW.
Proof. unfold authenticate_if_neededW, authenticateClientW, authPlainW, authLoginW, authXOauth2W. ow. Qed.
Lemma o_mail_from l : forall z, only plainly (mail_from_loopW l z).
Proof. induction l as [|f l IH]; intros z; cbn [mail_from_loopW]; ow. apply IH. Qed.
Lemma o_add_rcpt l : forall z, only plainly (addMailRecipientsW l z).
Proof. induction l as [|f l IH]; intros z; cbn [addMailRecipientsW]; ow; apply IH. Qed.
Lemma o_rcpts l : only plainly (recipients_loopW l).
Proof. induction l as [|a l IH]; cbn [recipients_loopW]; [ow|]. destruct a; [apply IH|]. apply only_bind; [apply o_add_rcpt|]. intros. destruct (negb _); [ow|apply IH]. Qed.
Lemma o_chunks l err : only plainly (send_chunksW l err).
Proof. induction l as [|x l IH]; cbn [send_chunksW]; ow. apply IH. Qed.
Lemma o_transaction m : only plainly (mail_transactionW m).
Proof.
  unfold mail_transactionW. apply only_bind; [unfold setMailRecipientsW; apply only_bind; [apply o_mail_from|]; intros; destruct (negb _); [ow|apply o_rcpts]|]. intros r.
  destruct (negb _); [ow|]. apply only_bind; [unfold setMailHeadersW, addMailHeaderW, address_headerW, addMailHeaderW; ow|].
  intros h. destruct (negb _); [ow|]. apply only_bind; [unfold setMailBodyW; ow; apply o_chunks|]. intros b. ow.
Qed.
Lemma o_connected m : only plainly (connected_part m).
Proof. unfold connected_part. apply only_bind; [apply only_base|]. intros. apply o_transaction. Qed.

(** ** Certificate stores *)

Lemma opened_app a b : opened (a ++ b) = (opened a + opened b)%nat.
Proof. unfold opened. now rewrite filter_app, app_length. Qed.
Lemma closed_app a b : closed (a ++ b) = (closed a + closed b)%nat.
Proof. unfold closed. now rewrite filter_app, app_length. Qed.
Lemma plainly_none t : Forall plainly t -> opened t = O /\ closed t = O.
Proof. unfold opened, closed. induction 1 as [|ev t P F IH]; [auto|]. destruct ev; try contradiction; exact IH. Qed.

(** Everything opened is closed if the result is 0. *)
Definition shuts (w : nat) (m : W Z) : Prop := forall v, exists tw, v_t (snd (m v)) = v_t v ++ tw /\ (fst (m v) = Done 0 -> (w + opened tw = closed tw)%nat).
Lemma shuts_bind {A} w (m : W A) (k : A -> W Z) : only plainly m -> (forall a, shuts w (k a)) -> shuts w (wbind m k).
Proof.
  intros H J v. destruct (H v) as (l & E & F). apply plainly_none in F as [F1 F2]. unfold wbind.
  destruct (m v) as [[a| | | | |] s1]; cbn [snd] in *; try (exists l; split; [exact E|discriminate]).
  destruct (J a s1) as (l2 & E2 & F3). exists (l ++ l2). split; [now rewrite E2, E, app_assoc|]. rewrite opened_app, closed_app, F1, F2. exact F3.
Qed.
Lemma shuts_plainly (m : W Z) : only plainly m -> shuts 0 m.
Proof. intros H v. destruct (H v) as (l & E & F). apply plainly_none in F as [F1 F2]. exists l. split; [exact E|]. rewrite F1, F2. auto. Qed.
Lemma shuts_ret w r : r <> 0 -> shuts w (wret r).
Proof. intros N v. exists []. cbn. rewrite app_nil_r. split; [reflexivity|]. intros E. injection E as ->. contradiction. Qed.
Lemma shuts_open o k : shuts (match o with None => 1 | _ => 0 end) k -> shuts 0 (wput (WOpenStore o) ;;# k).
Proof.
  intros H v. unfold wbind, wput. destruct (H (mkV (v_c v) (v_on v) (v_e v) (v_w v) (v_t v ++ [WOpenStore o]))) as (l & E & F).
  exists (WOpenStore o :: l). split; [rewrite E; cbn; now rewrite <- app_assoc|]. intros D. specialize (F D). destruct o; exact F.
Qed.
Lemma shuts_close : shuts 1 (wput WCloseStore ;;# wret 0).
Proof. intros v. exists [WCloseStore]. split; [reflexivity|]. auto. Qed.
Lemma shuts_undef w {A} (m : M A) (k : A -> W Z) : (forall s a, fst (m s) <> Done a) -> shuts w (wbind (base m) k).
Proof.
  intros H v. unfold wbind, base. specialize (H (mkSt (v_c v) (v_e v) [])). destruct (m _) as [o s]. cbn in H.
  destruct o; cbn; try (eexists; split; [reflexivity|discriminate]). now destruct (H a).
Qed.
Lemma shuts_stuck w (m : M Z) : (forall s a, fst (m s) <> Done a) -> shuts w (base m).
Proof.
  intros H v. unfold base. specialize (H (mkSt (v_c v) (v_e v) [])). destruct (m _) as [o s]. cbn in *.
  eexists; split; [reflexivity|]. intros E. now destruct (H 0).
Qed.
Lemma shuts_startTLS : shuts 0 startTLSNegotiationW.
Proof.
  unfold startTLSNegotiationW.
  repeat (match goal with
  | |- shuts _ (wput WCloseStore ;;# wret 0) => apply shuts_close
  | |- shuts 0 (wput (WOpenStore _) ;;# _) => apply shuts_open
  | |- shuts _ (wbind _ _) => apply shuts_bind; [first [apply only_base|apply o_cleanup|apply only_next]|intros ?]
  | |- shuts _ (wret _) => apply shuts_ret; discriminate
  | |- shuts _ (base (fail_ub _)) => apply shuts_stuck; discriminate
  | |- shuts _ (base blocked) => apply shuts_stuck; discriminate
  | |- shuts _ (match ?x with _ => _ end) => destruct x
  end).
Qed.
Lemma shuts_then (m : W Z) (k : W Z) : shuts 0 m -> only plainly k -> shuts 0 (t <# m ;; if negb (t =? 0) then wret t else k).
Proof.
  intros H J v. destruct (H v) as (l & E & F). unfold wbind. destruct (m v) as [[a| | | | |] s1]; cbn [fst snd] in *; try (exists l; split; [exact E|discriminate]).
  destruct (a =? 0) eqn:Q; cbn [negb].
  - apply Z.eqb_eq in Q. subst a. specialize (F eq_refl). destruct (J s1) as (l2 & E2 & F2). apply plainly_none in F2 as [F2 F3].
    exists (l ++ l2). split; [now rewrite E2, E, app_assoc|]. rewrite opened_app, closed_app. lia.
  - exists l. split; [exact E|]. cbn. intros D. injection D as ->. discriminate.
Qed.
Lemma shuts_rest k : shuts 0 (rest k).
Proof.
  destruct k; cbn [rest].
  - apply shuts_plainly. unfold rest_plain. ow; [apply o_ehlo|apply o_auth_if].
  - unfold rest_opp. apply shuts_bind; [apply only_base|]. intros g. destruct (negb _); [apply shuts_plainly; ow|].
    apply shuts_bind; [apply o_ehlo|]. intros i. destruct (negb _); [apply shuts_plainly; ow|].
    apply shuts_bind; [apply only_base|]. intros c. apply shuts_bind; [apply only_base|]. intros [|]; [|apply shuts_plainly; ow].
    apply shuts_bind; [apply only_base|]. intros _. apply shuts_bind; [unfold upgradeToSecureConnectionW; ow|]. intros u. destruct (negb _); [apply shuts_plainly; ow|].
    apply shuts_then; [apply shuts_startTLS|]. ow; [apply o_secure|apply o_auth_if].
  - unfold rest_forced. apply shuts_then; [apply shuts_startTLS|]. ow; [apply o_secure|apply o_auth_if].
Qed.
Lemma shuts_establish : shuts 0 establishW.
Proof.
  intros v. rewrite establish_eq. apply shuts_bind; [apply o_init|]. intros r. destruct (negb _); [apply shuts_plainly; ow|apply shuts_rest].
Qed.
Lemma shuts_send m : shuts 0 (sendMailW m).
Proof.
  unfold sendMailW. fold (connected_part m). apply shuts_bind; [apply only_base|]. intros c.
  apply shuts_then; [|apply o_connected]. destruct (c_conn c); [apply shuts_plainly; ow|apply shuts_establish].
Qed.
Lemma send_closes_store i m w w' t : wstep (OSend i m) w = (Done 0, w') -> ww_trace w' = ww_trace w ++ t -> opened t = closed t.
Proof.
  cbn [wstep]. unfold run_onW. destruct (get_client (ww w) i) as [c|]; [|discriminate].
  match goal with |- context [sendMailW m ?v] => destruct (shuts_send m v) as (tw & E & F); destruct (sendMailW m v) as [o v'] end. cbn [fst snd v_t] in *.
  intros X T. injection X as -> <-. cbn in T. rewrite E in T. apply app_inv_head in T. subst t. exact (F eq_refl).
Qed.

(** ** Lists of addresses are never freed *)

Definition nofree (ev : wevent) : Prop := ev <> WAddrFree.
Lemma plainly_nofree ev : plainly ev -> nofree ev.
Proof. destruct ev; cbn; unfold nofree; congruence. Qed.
Lemma nf {A} (m : W A) : only plainly m -> only nofree m.
Proof. apply only_weak, plainly_nofree. Qed.
Ltac nfw := repeat match goal with
  | |- only nofree (wbind _ _) => apply only_bind; [|intros ?]
  | |- only nofree (wput _) => apply only_put; discriminate
  | |- only nofree (next _ _ _) => apply only_next
  | |- only nofree (base _) => apply nf, only_base
  | |- only nofree (wret _) => apply nf; on
  | |- only nofree cleanupW => apply nf, o_cleanup
  | |- only nofree (match ?x with _ => _ end) => destruct x
  end.
Lemma nf_startTLS : only nofree startTLSNegotiationW.
Proof. unfold startTLSNegotiationW. nfw. Qed.
Lemma nf_send m : only nofree (sendMailW m).
Proof.
  unfold sendMailW. fold (connected_part m). apply only_bind; [apply nf, only_base|]. intros c. apply only_bind.
  - destruct (c_conn c); [apply nf; on|]. intros v. rewrite establish_eq. apply only_bind; [apply nf, o_init|]. intros r. destruct (negb _); [apply nf; on|].
    assert (SA : only plainly (s <# getServerSecureIdentificationW ;; if negb (s =? STATUS_CODE_REQUESTED_MAIL_ACTION_OK_OR_COMPLETED) then wret s else authenticate_if_neededW))
      by (ow; [apply o_secure|apply o_auth_if]).
    destruct (c_kind (v_c v)); cbn [rest].
    + apply nf. unfold rest_plain. ow; [apply o_ehlo|apply o_auth_if].
    + unfold rest_opp. apply only_bind; [apply nf, only_base|]. intros g. destruct (negb _); [nfw|].
      apply only_bind; [apply nf, o_ehlo|]. intros i. destruct (negb _); [nfw|].
      apply only_bind; [apply nf, only_base|]. intros d. apply only_bind; [apply nf, only_base|]. intros [|]; [|nfw].
      apply only_bind; [apply nf, only_base|]. intros _. apply only_bind; [apply nf; unfold upgradeToSecureConnectionW; ow|]. intros u. destruct (negb _); [nfw|].
      apply only_bind; [apply nf_startTLS|]. intros q. destruct (negb _); [nfw|apply nf, SA].
    + unfold rest_forced. apply only_bind; [apply nf_startTLS|]. intros q. destruct (negb _); [nfw|].
      apply only_bind; [apply nf, only_base|]. intros g. destruct (negb _); [nfw|apply nf, SA].
  - intros r. destruct (negb _); [apply nf; on|]. apply nf, o_connected.
Qed.
Lemma nf_wrun ops : forall w, exists tw, ww_trace (snd (wrun ops w)) = ww_trace w ++ tw /\ Forall nofree tw.
Proof.
  assert (S : forall o w, exists tw, ww_trace (snd (wstep o w)) = ww_trace w ++ tw /\ Forall nofree tw).
  { intros o w. destruct (talks o) eqn:T.
    - assert (X : forall A i (m : W A) g, only nofree m -> exists tw, ww_trace (snd (run_onW i m g w)) = ww_trace w ++ tw /\ Forall nofree tw).
      { intros A i m g H. unfold run_onW. destruct (get_client (ww w) i) as [c|]; [|exists []; rewrite app_nil_r; auto].
        match goal with |- context [m ?v] => destruct (H v) as (tw & E & F); destruct (m v) as [q v'] end. exists tw. auto. }
      destruct o; try discriminate T; cbn [wstep]; apply X; [apply nf_send|nfw].
    - exists []. rewrite app_nil_r. split; [|constructor]. destruct o; try discriminate T; cbn [wstep]; destruct (step _ _); reflexivity. }
  induction ops as [|o ops IH]; intros w; cbn [wrun]; [exists []; rewrite app_nil_r; auto|].
  destruct (S o w) as (tw & E & F). destruct (wstep o w) as [x w1]. cbn [snd] in *. destruct (continues x); [|exists tw; auto].
  destruct (IH w1) as (tw2 & E2 & F2). destruct (wrun ops w1) as [xs w2]. cbn [snd] in *. exists (tw ++ tw2). split; [now rewrite E2, E, app_assoc|]. now apply Forall_app.
Qed.
Lemma never_freed ops e x : ~ In WAddrFree (ww_trace (snd (wrun ops (initial_wworld e x)))).
Proof.
  destruct (nf_wrun ops (initial_wworld e x)) as (tw & E & F). rewrite E. cbn. intros I. rewrite Forall_forall in F. now apply (F _ I).
Qed.
