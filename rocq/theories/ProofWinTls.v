(** What goes to which channel in the Windows build (compare ProofTls.v and
    ProofTls2.v). *)

From Coq Require Import Ascii String List NArith ZArith Bool Lia ZifyBool ZifyNat ZifyN.
From Verif Require Import Base Lib ModelUtil ModelBase64 ModelAddress ModelAttachment
  ModelErrors ModelReply ModelMessage ModelState ModelClient ModelWorld
  ProofSteps ProofWalk ProofPhases ProofEstablish ProofLog ProofSend ProofWorld SpecMime SpecTls ProofMime ProofTls ProofTls2
  ModelWin ProofWinWalk ProofWinWalk2 ProofWinEst SpecWinSafe ProofWinSafe.
Import ListNotations.
Open Scope Z_scope.

(** ** Phases *)

Definition wphased {A} (P1 P2 : label -> Prop) (K : st -> Prop) (R : st -> st -> Prop) (m : W A) (v : vst) : Prop :=
  exists s1, steps P1 (proj v) s1 /\
    (proj (snd (m v)) = s1 \/
     exists s2, steps P2 s1 s2 /\ (proj (snd (m v)) = s2 \/ (K s2 /\ R s2 (proj (snd (m v)))))).

Section Phased.
Context (P1 P2 : label -> Prop) (K : st -> Prop) (R : st -> st -> Prop).

Lemma wphased_one : forall {A} (m : W A) v, wwalk P1 m v -> wphased P1 P2 K R m v.
Proof. intros A m v [H _]. eexists. split; [exact H|]. left. reflexivity. Qed.
Lemma wphased_bind : forall {A C} (m : W A) (k : A -> W C) v, wwalk P1 m v ->
  (forall a v1, m v = (Done a, v1) -> steps P1 (proj v) (proj v1) -> wphased P1 P2 K R (k a) v1) -> wphased P1 P2 K R (wbind m k) v.
Proof.
  intros A C m k v [H _] G. unfold wphased, wbind in *. destruct (m v) as [o v1]. cbn [snd] in H.
  destruct o; try (exists (proj v1); split; [exact H|left; reflexivity]).
  destruct (G a v1 eq_refl H) as (s2 & S2 & Q). exists s2. split; [eapply steps_trans; eauto|exact Q].
Qed.
Lemma wphased_eq : forall {A} (m m' : W A) v, m v = m' v -> wphased P1 P2 K R m' v -> wphased P1 P2 K R m v.
Proof. intros A m m' v E H. unfold wphased in *. rewrite E. exact H. Qed.
Lemma wbind_getc : forall {A} (k : client -> W A) v, wbind (base getc) k v = k (v_c v) v.
Proof. intros A k [qc qo qe qw qt]. unfold wbind, base, getc. cbn. rewrite app_nil_r. reflexivity. Qed.
Lemma wphased_two : forall {A C} (m : W A) (k : A -> W C) v, wwalk P2 m v ->
  (forall a v1, m v = (Done a, v1) -> steps P2 (proj v) (proj v1) ->
     snd (k a v1) = v1 \/ (K (proj v1) /\ R (proj v1) (proj (snd (k a v1))))) -> wphased P1 P2 K R (wbind m k) v.
Proof.
  intros A C m k v [H _] G. exists (proj v). split; [apply st_refl|]. right. unfold wbind in *.
  destruct (m v) as [o v1]. cbn [snd] in H. exists (proj v1). split; [exact H|].
  destruct o; try (left; reflexivity). destruct (G a v1 eq_refl H) as [E|E]; [left; rewrite E; reflexivity|right; exact E].
Qed.
End Phased.

(** ** The rest of sendMail *)

Definition finishW (m : message) (r : Z) : W Z :=
  if negb (r =? 0) then wret r else base (updc (set_conn true)) ;;# mail_transactionW m.
Lemma sendMailW_new : forall m v, c_conn (v_c v) = false -> sendMailW m v = (r <# establishW ;; finishW m r) v.
Proof. intros m v C. unfold sendMailW. rewrite wbind_getc, C. reflexivity. Qed.
Lemma sendMailW_old : forall m v, c_conn (v_c v) = true -> sendMailW m v = (base (updc (set_conn true)) ;;# mail_transactionW m) v.
Proof. intros m v C. unfold sendMailW. rewrite wbind_getc, C. reflexivity. Qed.

Lemma secure_transactionW : forall m v, wwalk secure_nc (mail_transactionW m) v.
Proof.
  intros m v. apply xtransaction with (fs := e_fs (v_e v)); try reflexivity.
  - apply secure_nc_base.
  - apply secure_nc_conn.
  - intros d _. apply secure_nc_write.
  - intros n _. right. right. left. reflexivity.
Qed.
Lemma set_conn_done : forall {A} (k : W A) v, exists v1, (base (updc (set_conn true)) ;;# k) v = k v1 /\
  proj v1 = c_state (proj v) (set_conn true) /\ v_e v1 = v_e v.
Proof.
  intros A k [qc qo qe qw qt]. eexists. split; [reflexivity|]. split; [|reflexivity].
  unfold proj, c_state. cbn. rewrite app_nil_r. reflexivity.
Qed.
Lemma secured_oldW : forall m v, c_conn (v_c v) = true -> steps secure_nc (c_state (proj v) (set_conn true)) (proj (snd (sendMailW m v))).
Proof.
  intros m v C. rewrite sendMailW_old by assumption. destruct (set_conn_done (mail_transactionW m) v) as (v1 & -> & P1 & _).
  rewrite <- P1. apply (secure_transactionW m).
Qed.

Lemma secure_tail_walkW : forall v, c_kind (v_c v) <> KPlain -> c_bio (v_c v) <> None -> c_conn (v_c v) = false ->
  wwalk secure_nc secure_tailW v.
Proof.
  intros v K Bn C. apply xsecure_tail; try assumption.
  - apply secure_nc_base.
  - apply secure_nc_conn.
  - right. left. reflexivity.
  - apply xdisconnected. assumption.
  - apply secure_nc_write.
  - intros. destruct (c_rawptr (v_c v)); apply secure_nc_write.
Qed.
Lemma secure_afterW : forall m e v, wwalk secure_nc e v -> c_bio (v_c v) <> None ->
  (forall v', e v = (Done 0, v') -> c_bio (v_c v') = c_bio (v_c v)) -> secured (proj v) (proj (snd ((r <# e ;; finishW m r) v))).
Proof.
  intros m e v [W _] Bn H. unfold wbind at 1. destruct (e v) as [o v1] eqn:E. cbn [snd] in W.
  destruct o; try (exists (proj v1); split; [exact W|left; reflexivity]).
  destruct (a =? 0) eqn:Z.
  - replace a with 0 in * by lia. specialize (H v1 eq_refl).
    exists (proj v1). split; [exact W|]. right. split; [cbn [proj s_c]; congruence|]. unfold finishW. cbn [Z.eqb negb].
    destruct (set_conn_done (mail_transactionW m) v1) as (v2 & -> & P2 & _). rewrite <- P2. apply (secure_transactionW m).
  - exists (proj v1). split; [exact W|]. left. unfold finishW. rewrite Z. reflexivity.
Qed.
Lemma secure_tailW_bio : forall v v', secure_tailW v = (Done 0, v') -> c_bio (v_c v') = c_bio (v_c v).
Proof.
  intros v v' H. unfold secure_tailW in H. apply wbind_done in H as (i & v1 & H1 & H).
  unfold STATUS_CODE_REQUESTED_MAIL_ACTION_OK_OR_COMPLETED in H.
  destruct (i =? 250) eqn:E; cbn [negb] in H.
  - apply xsecure_ident_core in H1; [|lia]. apply core_a_fields in H1. apply xauth_if_core in H; [|lia]. core_facts H.
    intuition congruence.
  - apply wret_done in H as [<- ->]. apply xsecure_ident_core in H1; [|lia]. apply core_a_fields in H1. intuition congruence.
Qed.
Lemma forced_tailW_bio : forall v v', forced_tailW v = (Done 0, v') -> c_bio (v_c v') = c_bio (v_c v).
Proof.
  intros v v' H. unfold forced_tailW in H. apply wbind_done in H as (i & v1 & H1 & H).
  apply xgreeting_tls_core in H1. core_facts H1.
  destruct (i =? _); cbn [negb] in H.
  - apply secure_tailW_bio in H. congruence.
  - apply wret_done in H as [_ ->]. assumption.
Qed.

Lemma finishW_stop : forall m r v, r <> 0 -> finishW m r v = (Done r, v).
Proof. intros m r v N. unfold finishW. replace (r =? 0) with false by lia. reflexivity. Qed.
Lemma wret_bind : forall {A C} (a : A) (k : A -> W C) v, wbind (wret a) k v = k a v.
Proof. reflexivity. Qed.

Lemma forced_phasesW : forall m v, c_kind (v_c v) = KForced -> c_conn (v_c v) = false ->
  wphased opening negotiating (session (v_c v)) secured (sendMailW m) v.
Proof.
  intros m v K C. eapply wphased_eq; [apply sendMailW_new; assumption|].
  eapply wphased_eq with (m' := r <# establishForcedW ;; finishW m r).
  { unfold establishW. rewrite wbind_assoc, wbind_getc, K. reflexivity. }
  unfold establishForcedW. eapply wphased_eq; [apply wbind_assoc|].
  apply wphased_bind.
  { apply xinit; [apply opening_base|right; left; reflexivity|right; right; left; reflexivity|right; right; right; reflexivity]. }
  intros r v1 H1 _. apply xinitialize_core in H1 as C1. apply core_s_fields in C1.
  destruct (r =? 0) eqn:R; cbn [negb].
  2:{ apply wphased_one. eapply ww_eq; [apply wret_bind|]. eapply ww_eq; [apply finishW_stop; lia|]. apply ww_ret. }
  eapply wphased_eq; [apply wbind_assoc|]. apply wphased_two.
  { apply xtls; [apply negotiating_base|apply negotiating_conn|right; reflexivity|].
    apply xdisconnected. intuition congruence. }
  intros t v2 H2 _. destruct (t =? 0) eqn:T; cbn [negb].
  2:{ left. rewrite wret_bind, finishW_stop by lia. reflexivity. }
  replace t with 0 in H2 by lia. apply xtls_done in H2 as (C2 & _ & B2 & A2 & _). apply core_t_fields in C2.
  right. split.
  - unfold session. cbn [proj s_c s_t]. repeat split; try (intuition congruence). eexists. split; [exact B2|].
    replace (c_selfsigned (v_c v)) with (c_selfsigned (v_c v1)) by intuition congruence. exact A2.
  - apply (secure_afterW m forced_tailW); [apply xforced_tail; try (intuition congruence)| |].
    + apply secure_nc_base.
    + apply secure_nc_conn.
    + right. left. reflexivity.
    + apply xdisconnected. intuition congruence.
    + apply secure_nc_write.
    + intros. destruct (c_rawptr (v_c v2)); apply secure_nc_write.
    + congruence.
    + apply forced_tailW_bio.
Qed.

(** ** The opportunistic client *)

Lemma clear_finishW : forall m r v, wwalk (clear_any (e_fs (v_e v)) m) (finishW m r) v.
Proof.
  intros m r v. unfold finishW. destruct (negb _); [apply ww_ret|]. apply ww_bind.
  - apply ww_base. eapply walk_updc; [apply es_conn|]. left. reflexivity.
  - intros u v1 H1 S1. eapply ww_mono with (P := clear_nc (e_fs (v_e v)) m); [|right; assumption].
    apply xtransaction with (fs := e_fs (v_e v)); try reflexivity.
    + apply clear_base.
    + apply clear_conn.
    + apply clear_write.
    + intros. unfold clear_nc; tauto.
    + apply (steps_fs _ _ _ S1).
Qed.

Ltac clear_lab := unfold clear_nc; tauto.
Lemma opp_phasesW : forall m v, c_kind (v_c v) = KOpp -> c_conn (v_c v) = false ->
  wphased (clear_any (e_fs (v_e v)) m) negotiating (session (v_c v)) secured (sendMailW m) v.
Proof.
  intros m v K C. eapply wphased_eq; [apply sendMailW_new; assumption|].
  eapply wphased_eq with (m' := r <# establishOppW ;; finishW m r).
  { unfold establishW. rewrite wbind_assoc, wbind_getc, K. reflexivity. }
  set (fs := e_fs (v_e v)). assert (F : e_fs (v_e v) = fs) by reflexivity. clearbody fs.
  assert (PB : forall l, ProofWalk.base l -> clear_nc fs m l) by (apply clear_base).
  assert (PC : ~ clear_nc fs m LConn) by (apply clear_conn).
  assert (PW : forall l, clear_nc fs m l -> clear_any fs m l) by (intros l Hl; right; exact Hl).
  assert (Stop : forall r v1, e_fs (v_e v1) = fs ->
    wphased (clear_any fs m) negotiating (session (v_c v)) secured (wbind (wret r) (finishW m)) v1).
  { intros r v1 F1. eapply wphased_eq; [apply wret_bind|]. apply wphased_one. rewrite <- F1. apply clear_finishW. }
  assert (FS : forall P a b, steps P (proj a) (proj b) -> e_fs (v_e a) = fs -> e_fs (v_e b) = fs).
  { intros P a b S E. apply steps_fs in S. cbn [proj s_e] in S. congruence. }
  unfold establishOppW. eapply wphased_eq; [apply wbind_assoc|]. apply wphased_bind.
  { eapply ww_mono; [|exact PW]. apply xinit; [apply PB|clear_lab|clear_lab|clear_lab]. }
  intros r v1 H1 S1. assert (F1 := FS _ _ _ S1 F). apply xinitialize_core in H1 as C1. apply core_s_fields in C1.
  destruct (r =? 0) eqn:R; cbn [negb]; [|apply Stop; assumption].
  eapply wphased_eq; [apply wbind_assoc|]. apply wphased_bind.
  { eapply ww_mono; [|exact PW]. apply xgreetings; apply PB. }
  intros g v2 H2 S2. assert (F2 := FS _ _ _ S2 F1). apply xgreeting_core in H2. core_facts H2.
  assert (Q2 : quit_ok (clear_nc fs m) (proj v2)) by (apply xdisconnected; intuition congruence).
  destruct (g =? _); cbn [negb]; [|apply Stop; assumption].
  eapply wphased_eq; [apply wbind_assoc|]. apply wphased_bind.
  { eapply ww_mono; [|exact PW]. apply xident; auto.
    - clear_lab.
    - intros _. apply clear_ehlo.
    - intros _. apply clear_ehlo. }
  intros i v3 H3 S3. assert (F3 := FS _ _ _ S3 F2).
  destruct (i =? _) eqn:I3; cbn [negb]; [|apply Stop; assumption].
  unfold STATUS_CODE_REQUESTED_MAIL_ACTION_OK_OR_COMPLETED in I3.
  apply xident_core in H3; [|lia]. apply core_a_fields in H3.
  eapply wphased_eq; [apply wbind_assoc|]. eapply wphased_eq; [apply wbind_getc|].
  eapply wphased_eq; [apply wbind_assoc|]. apply wphased_bind; [apply xstarttls|].
  intros tls v3' H3' S3'. assert (F3' := FS _ _ _ S3' F3).
  assert (X3 : v_c v3' = v_c v3).
  { apply base_done in H3' as (x & H3' & ->). unfold lift in H3'. destruct (isStartTLSSupported _); inversion H3'; subst; reflexivity. }
  clear H3'. assert (Cs3 : c_conn (v_c v3) = false) by intuition congruence.
  destruct tls.
  - eapply wphased_eq; [apply wbind_assoc|]. apply wphased_bind; [apply xlogc; intros; apply PW, PB; assumption|].
    intros u v4 H4 S4. assert (F4 := FS _ _ _ S4 F3'). apply wlogc_core in H4 as [H4 _]. rewrite X3 in H4. core_facts H4.
    eapply wphased_eq; [apply wbind_assoc|]. apply wphased_bind.
    { eapply ww_mono; [|exact PW]. apply xupgrade; auto.
      - intuition congruence.
      - clear_lab.
      - apply xdisconnected. congruence. }
    intros u5 v5 H5 S5. assert (F5 := FS _ _ _ S5 F4).
    destruct (u5 =? _) eqn:U; cbn [negb]; [|apply Stop; assumption]. unfold STATUS_CODE_SERVICE_READY in U.
    apply xupgrade_core in H5; [|lia]. core_facts H5.
    eapply wphased_eq; [apply wbind_assoc|]. apply wphased_two.
    { apply xtls; [apply negotiating_base|apply negotiating_conn|right; reflexivity|]. apply xdisconnected. congruence. }
    intros t v6 H6 _. destruct (t =? 0) eqn:T; cbn [negb].
    2:{ left. rewrite wret_bind, finishW_stop by lia. reflexivity. }
    replace t with 0 in H6 by lia. apply xtls_done in H6 as (C6 & _ & B6 & A6 & _). apply core_t_fields in C6.
    right. split.
    + unfold session. cbn [proj s_c s_t]. repeat split; try (intuition congruence). eexists. split; [exact B6|].
      replace (c_selfsigned (v_c v)) with (c_selfsigned (v_c v5)) by intuition congruence. exact A6.
    + apply (secure_afterW m secure_tailW); [apply secure_tail_walkW; intuition congruence|congruence|apply secure_tailW_bio].
  - eapply wphased_eq; [apply wbind_assoc|]. apply wphased_bind; [apply xlogc; intros; apply PW, PB; assumption|].
    intros u v4 H4 S4. assert (F4 := FS _ _ _ S4 F3').
    eapply wphased_eq; [apply wbind_assoc|]. apply wphased_bind.
    { apply ww_base. eapply walk_updc; [apply es_keep|]. right. clear_lab. }
    intros u5 v5 H5 S5. assert (F5 := FS _ _ _ S5 F4). apply Stop. assumption.
Qed.
