(** The time spent waiting in the Windows build: the commands of a session
    (compare ProofTime.v and ProofPatience2.v). *)

From Coq Require Import Ascii String List NArith ZArith Bool Lia ZifyBool ZifyNat ZifyN.
From Verif Require Import Base Lib ModelUtil ModelBase64 ModelAddress ModelAttachment ModelMessage ModelReply ModelErrors ModelState ModelClient ModelWorld
  SpecAddress SpecReply SpecErrors SpecDialogue SpecConn SpecPatience
  ProofReply ProofSteps ProofWalk ProofDialogue ProofMail ProofMail4 ProofConn ProofCode ProofTime ProofPatience
  ModelWin ProofWinWalk SpecWinSafe ProofWinSafe ProofWinTime.
Import ListNotations.
Open Scope N_scope.

Section Time.
Variable T : N.
Let L := N.max 1 T.
Notation timed := (timed T).
Notation timedW := (timedW T).
Notation fair := (fair T).

(** The bound of [timedW], and a fair result. *)
Definition lw (n : N) (m : W Z) : Prop := forall v, c_timeout (v_c v) = T ->
  c_timeout (v_c (snd (m v))) = T /\ exists t, v_t (snd (m v)) = v_t v ++ t /\ slept (socks t) <= L * (activity (socks t) + n) /\ fair (fst (m v)) t.

Lemma lw_timed n m : lw n m -> timedW n m.
Proof. intros H v E. destruct (H v E) as (E1 & t & T1 & S & _). split; [exact E1|]. exists t. auto. Qed.
Lemma lw_make n m : timedW n m -> (forall v z, fst (m v) = Done z -> ~ In z timeout_codes) -> lw n m.
Proof. intros H N v E. destruct (H v E) as (E1 & t & T1 & S). split; [exact E1|]. exists t. split; [exact T1|]. split; [exact S|]. intros z Z _ I. elim (N _ _ Z I). Qed.
Lemma fair_after r a b : fair r b -> fair r (a ++ b).
Proof.
  intros F z Z G I. rewrite socks_app in *. apply coded_reads_app in G as [_ G]. apply silence_after. exact (F z Z G I).
Qed.
Lemma fair_before r a b : fair r a -> fair r (a ++ b).
Proof.
  intros F z Z G I. rewrite socks_app in *. apply coded_reads_app in G as [G _]. apply silence_before. exact (F z Z G I).
Qed.
Lemma fair_stop {A} (o : outcome A) (r : outcome Z) t : (forall z, r <> Done z) -> fair r t.
Proof. intros H z Z. elim (H z Z). Qed.
Lemma lw_ret z : ~ In z timeout_codes -> lw 0 (wret z).
Proof. intros N. apply lw_make; [apply tw_ret|]. intros v x X. cbn in X. injection X as <-. exact N. Qed.
Lemma lw_base n m : timed n m -> late T m -> lw n (base m).
Proof.
  intros H A v E. destruct (H (mkSt (v_c v) (v_e v) []) E) as (E1 & t & T1 & S). unfold base.
  specialize (A (mkSt (v_c v) (v_e v) [])). destruct (m _) as [o s]. cbn [fst snd s_t app] in *.
  split; [exact E1|]. exists (map WSock t). cbn [v_t]. rewrite T1. split; [reflexivity|]. rewrite socks_map. split; [exact S|].
  intros z -> G I. rewrite socks_map in *. exact (A z s t E eq_refl T1 G I).
Qed.
Lemma lw_none n (m : M Z) : timed n m -> (forall s r s', m s <> (Done r, s')) -> lw n (base m).
Proof. intros H N. apply lw_base; [exact H|]. intros s r s' t E X. elim (N _ _ _ X). Qed.

(** A result of the first part that is also the result. *)
Lemma lw_step n p (m : W Z) k : lw n m -> (forall a, lw p (k a) \/ k a = wret a) -> lw (n + p) (wbind m k).
Proof.
  intros H1 H2 s E. unfold wbind. specialize (H1 s E) as (E1 & t & T1 & S1 & F1). destruct (m s) as [o s1]. cbn [fst snd] in *.
  assert (X : L * (activity (socks t) + n) <= L * (activity (socks t) + (n + p))) by (apply N.mul_le_mono_l; lia).
  destruct o; try (split; [exact E1|]; exists t; split; [exact T1|]; split; [exact (N.le_trans _ _ _ S1 X)|exact F1]).
  destruct (H2 a) as [H|H].
  - destruct (H s1 E1) as (E2 & t2 & T2 & S2 & F2). split; [exact E2|]. exists (t ++ t2). split; [rewrite T2, T1, app_assoc; reflexivity|].
    split; [|apply fair_after; exact F2].
    rewrite socks_app, slept_app, (activity_app T). replace (activity (socks t) + activity (socks t2) + (n + p)) with ((activity (socks t) + n) + (activity (socks t2) + p)) by lia.
    rewrite N.mul_add_distr_l. lia.
  - rewrite H. split; [exact E1|]. exists t. split; [exact T1|]. split; [exact (N.le_trans _ _ _ S1 X)|exact F1].
Qed.
Lemma lw_bind {A} n p (m : W A) k : timedW n m -> (forall a, lw p (k a)) -> lw (n + p) (wbind m k).
Proof.
  intros H1 H2 s E. unfold wbind. specialize (H1 s E) as (E1 & t & T1 & S1). destruct (m s) as [o s1]. cbn [fst snd] in *.
  assert (X : L * (activity (socks t) + n) <= L * (activity (socks t) + (n + p))) by (apply N.mul_le_mono_l; lia).
  destruct o; try (split; [exact E1|]; exists t; split; [exact T1|]; split; [exact (N.le_trans _ _ _ S1 X)|intros z Z; discriminate Z]).
  destruct (H2 a s1 E1) as (E2 & t2 & T2 & S2 & F2). split; [exact E2|]. exists (t ++ t2). split; [rewrite T2, T1, app_assoc; reflexivity|].
  split; [|apply fair_after; exact F2].
  rewrite socks_app, slept_app, (activity_app T). replace (activity (socks t) + activity (socks t2) + (n + p)) with ((activity (socks t) + n) + (activity (socks t2) + p)) by lia.
  rewrite N.mul_add_distr_l. lia.
Qed.
Lemma lw_bind0 {A} p (m : W A) k : timedW 0 m -> (forall a, lw p (k a)) -> lw p (wbind m k).
Proof. intros. change p with (0 + p). apply lw_bind; assumption. Qed.
Lemma lw_if n p m c k : lw n m -> lw p k -> lw (n + p) (wbind m (fun a => if negb (a =? c)%Z then wret a else k)).
Proof. intros H J. apply lw_step; [exact H|]. intros a. destruct (negb _); auto. Qed.
Lemma lw_if0 p m c k : lw 0 m -> lw p k -> lw p (wbind m (fun a => if negb (a =? c)%Z then wret a else k)).
Proof. intros H J. change p with (0 + p). apply lw_if; assumption. Qed.
Lemma lw_weak m : lw 0 m -> lw 1 m.
Proof.
  intros H s E. destruct (H s E) as (E1 & t & T1 & S & F). split; [exact E1|]. exists t. split; [exact T1|]. split; [|exact F].
  rewrite N.mul_add_distr_l in *. lia.
Qed.

(** A command and its reply. *)
Definition paidW (n : N) (m : W Z) : Prop := forall v, c_timeout (v_c v) = T ->
  c_timeout (v_c (snd (m v))) = T /\ exists t, v_t (snd (m v)) = v_t v ++ t /\ slept (socks t) <= L * (activity (socks t) + n) /\ fair (fst (m v)) t /\
    (fst (m v) = Done 250%Z -> slept (socks t) + L <= L * (activity (socks t) + n)).
Lemma paid_lw n m : paidW n m -> lw n m.
Proof. intros H v E. destruct (H v E) as (E1 & t & T1 & S & F & _). split; [exact E1|]. exists t. auto. Qed.
Lemma paid_make n m : lw n m -> (forall v, fst (m v) <> Done 250%Z) -> paidW n m.
Proof. intros H N v E. destruct (H v E) as (E1 & t & T1 & S & F). split; [exact E1|]. exists t. split; [exact T1|]. split; [exact S|]. split; [exact F|]. intros X. elim (N v X). Qed.
Lemma paid_get n k : (forall c, paidW n (k c)) -> paidW n (wbind (base getc) k).
Proof.
  intros H v E. unfold wbind, base, getc. cbn [s_c s_e s_t map v_c v_e v_on v_w v_t]. rewrite app_nil_r.
  assert (X : mkV (v_c v) (v_on v) (v_e v) (v_w v) (v_t v) = v) by (destruct v; reflexivity). rewrite X. exact (H (v_c v) v E).
Qed.
Lemma paid_extW n m m' : (forall v, m v = m' v) -> paidW n m' -> paidW n m.
Proof. intros H P v E. rewrite H. exact (P v E). Qed.
Lemma wassoc {A C D} (m : W A) (k : A -> W C) (h : C -> W D) v : wbind (wbind m k) h v = wbind m (fun a => wbind (k a) h) v.
Proof. unfold wbind. destruct (m v) as [[] v1]; reflexivity. Qed.
Lemma wcong {A C} (m : W A) (k k' : A -> W C) : (forall a v, k a v = k' a v) -> forall v, wbind m k v = wbind m k' v.
Proof. intros H v. unfold wbind. destruct (m v) as [[] v1]; try reflexivity. apply H. Qed.
Lemma not_doneW {A} (m : W A) (x y : Z) : x <> y -> forall v, fst ((m ;;# wret x) v) <> Done y.
Proof. intros N v. unfold wbind. destruct (m v) as [[] v1]; cbn; congruence. Qed.

Definition awaited (reply : W Z) (tmo : Z) : W Z :=
  code <# reply ;; if negb (code =? -1)%Z then wret code else cleanupW ;;# wret tmo.
Lemma paid_awaited reply tmo : tmo <> 250%Z -> repliesW T reply -> paidW 1 (awaited reply tmo).
Proof.
  intros Nt R v E. destruct (awaited reply tmo v) as [o v'] eqn:H. cbn [fst snd]. unfold awaited, wbind at 1 in H.
  destruct (R v E) as (E2 & t & T2 & S2 & D2 & A2). destruct (reply v) as [o2 v2]. cbn [fst snd] in *.
  assert (S3 : slept (socks t) <= L * (activity (socks t) + 1)) by (rewrite N.mul_add_distr_l; fold L in S2; lia).
  destruct o2 as [code| | | | |];
    try (apply pair_equal_spec in H as [<- <-]; split; [exact E2|]; exists t; split; [exact T2|]; split; [exact S3|]; split; [intros z Z; discriminate Z|discriminate]).
  destruct (Z.eqb_spec code (-1)) as [->|Nc]; cbn [negb] in H.
  - destruct (tw_cleanup T v2 E2) as (E4 & t4 & T4 & S4). unfold wbind in H. destruct (cleanupW v2) as [o4 v4]. cbn [snd] in *.
    assert (v' = v4) by (destruct o4; apply pair_equal_spec in H as [_ <-]; reflexivity). subst v'.
    split; [exact E4|]. exists (t ++ t4). split; [rewrite T4, T2, <- !app_assoc; reflexivity|].
    fold L in S4. rewrite N.add_0_r in S4. split.
    { rewrite socks_app, slept_app, (activity_app T). rewrite N.mul_add_distr_l in S3. rewrite !N.mul_add_distr_l. lia. }
    split.
    + intros z Z G I. rewrite socks_app in *. apply coded_reads_app in G as [G _]. destruct (A2 _ eq_refl G) as [X|[_ X]]; [lia|]. now apply silence_before.
    + intros ->. destruct o4; apply pair_equal_spec in H as [H _]; congruence.
  - apply pair_equal_spec in H as [<- <-]. split; [exact E2|]. exists t. split; [exact T2|]. split; [exact S3|]. split.
    + intros z Z G I. injection Z as <-. destruct (A2 _ eq_refl G) as [X|[X _]]; [|contradiction]. elim (positive_not_timeout _ X I).
    + intros _. specialize (D2 code eq_refl Nc). rewrite N.mul_add_distr_l. fold L in S2.
      assert (L * 1 <= L * activity (socks t)) by (apply N.mul_le_mono_l; exact D2). lia.
Qed.
Lemma paid_write (w : M send_res) k :
  (forall s, exists ev r, w s = (Done r, mkSt (s_c s) (s_e (snd (w s))) (s_t s ++ [ev])) /\ active ev = true /\ slept [ev] = 0) ->
  (forall r, paidW 1 (k r)) -> paidW 0 (wbind (base w) k).
Proof.
  intros Hw K v E. unfold wbind, base. destruct (Hw (mkSt (v_c v) (v_e v) [])) as (ev & r & X & A & Z). rewrite X. cbn [s_c s_e s_t app map].
  match goal with |- context [k r ?x] => set (v1 := x) end. destruct (K r v1 E) as (E2 & t & T2 & S2 & F2 & P2).
  destruct (k r v1) as [o v']. cbn [fst snd] in *. split; [exact E2|]. exists ([WSock ev] ++ t).
  split; [rewrite T2; cbn [v_t v1]; rewrite <- app_assoc; reflexivity|]. rewrite socks_app, slept_app, (activity_app T).
  change (socks [WSock ev]) with [ev]. assert (A1 : activity [ev] = 1) by (unfold activity; cbn [filter]; rewrite A; reflexivity).
  rewrite A1, Z. replace (1 + activity (socks t) + 0) with (activity (socks t) + 1) by lia. rewrite N.add_0_l.
  split; [exact S2|]. split; [apply fair_after; exact F2|exact P2].
Qed.
Lemma paid_weak m : paidW 0 m -> paidW 1 m.
Proof.
  intros H s E. destruct (H s E) as (E1 & t & T1 & S & F & P). split; [exact E1|]. exists t. split; [exact T1|].
  rewrite N.mul_add_distr_l in *. split; [lia|]. split; [exact F|]. intros X. specialize (P X). lia.
Qed.
Ltac still := apply timed_still; intros ?; split; reflexivity.
Lemma paid_failed er err : (err <> 250 -> ~ In err timeout_codes -> paidW 0 (base (setLastSocketErrNo er) ;;# cleanupW ;;# wret err))%Z.
Proof.
  intros Ne N. apply paid_make.
  - apply lw_bind0; [apply tw_base; still|intros _]. apply lw_bind0; [apply tw_cleanup|intros _]. apply lw_ret, N.
  - intros v. unfold wbind at 1, base at 1, setLastSocketErrNo, updc. apply not_doneW, Ne.
Qed.
Lemma paid_killed : paidW 0 (base killed).
Proof. apply paid_make; [apply lw_none; [still|discriminate]|intros v; discriminate]. Qed.
Lemma paid_raw3W d err tmo : (err <> 0 -> err <> 250 -> tmo <> 250 -> ~ In err timeout_codes -> paidW 0 (sendRaw3W d err tmo))%Z.
Proof.
  intros N0 Ne Nt N. unfold sendRaw3W, sendRaw2W. destruct (INT_MAX <? slen (cstr d)).
  - apply (paid_extW _ _ (wput (WTooLong (cstr d)) ;;# wret err)).
    { intros v. rewrite wassoc. apply wcong. intros u v1. unfold wbind, wret. destruct (Z.eqb_spec err 0); [congruence|reflexivity]. }
    apply paid_make; [apply lw_bind0; [apply tw_put; exact Logic.I|intros _; apply lw_ret, N]|intros v; apply not_doneW, Ne].
  - apply (paid_extW _ _ (wbind (base (sys_send (cstr d))) (fun r => match r with
      | WErr er => base (setLastSocketErrNo er) ;;# cleanupW ;;# wret err
      | WSigpipe => base killed
      | _ => awaited getRawCommandReplyW tmo end))).
    { intros v. rewrite wassoc. apply wcong. intros [| |e|] v1; try reflexivity. rewrite wassoc. apply wcong. intros u v2.
      rewrite wassoc. apply wcong. intros u2 v3. unfold wbind, wret. destruct (Z.eqb_spec err 0); [congruence|reflexivity]. }
    apply paid_write; [apply send_event|]. intros [| |e|].
    + apply paid_awaited; [exact Nt|apply rw_raw].
    + apply paid_awaited; [exact Nt|apply rw_raw].
    + apply paid_weak, paid_failed; assumption.
    + apply paid_weak, paid_killed.
Qed.
Lemma paid_feedbackW d err tmo : (err <> 0 -> err <> 250 -> tmo <> 250 -> ~ In err timeout_codes -> paidW 0 (sendFeedbackW d err tmo))%Z.
Proof.
  intros N0 Ne Nt N. assert (X : paidW 0 (sendFeedbackTLSW d err tmo)).
  { unfold sendFeedbackTLSW. apply paid_get. intros c. destruct (c_bio c) as [b|]; [|apply paid_raw3W; assumption].
    apply paid_write; [apply puts_event|]. intros [| |e|].
    + apply (paid_awaited getServerReplyW); [exact Nt|apply rw_reply].
    + apply (paid_awaited getServerReplyW); [exact Nt|apply rw_reply].
    + apply paid_weak, paid_failed; assumption.
    + apply paid_weak, paid_killed. }
  unfold sendFeedbackW. apply paid_get. intros c. destruct (c_kind c); [apply paid_raw3W; assumption|exact X|exact X].
Qed.
Lemma lw_fb d err tmo : (err <> 0 -> err <> 250 -> tmo <> 250 -> ~ In err timeout_codes -> lw 0 (sendFeedbackPtrW d err tmo))%Z.
Proof.
  intros. apply paid_lw. unfold sendFeedbackPtrW. apply paid_get. intros c. destruct (c_rawptr c); [apply paid_raw3W|apply paid_feedbackW]; assumption.
Qed.

Ltac notin := match goal with |- ~ In _ timeout_codes => cbv; intuition discriminate end.
Ltac fb := apply lw_fb; [discriminate|discriminate|discriminate|notin].
Ltac gt := match goal with
  | |- timedW 0 (base (logc _)) => apply tw_base, timed_addLog
  | |- timedW 0 (base (logs _)) => apply tw_base, timed_addLog
  | |- timedW 0 (base (addLog _ _)) => apply tw_base, timed_addLog
  | |- timedW 0 (base (log_errno _)) => apply tw_base, timed_errno
  | |- timedW 0 (base _) => apply tw_base; still
  | |- timedW 0 cleanupW => apply tw_cleanup
  | |- timedW 0 (sendCommandPtrW _ _ _) => apply tw_cmd, tw_cleanup
  | |- timedW 0 (wput _) => apply tw_put; exact Logic.I
  | |- timedW 0 (set_on _) => apply tw_on
  | |- timedW 0 get_on => apply tw_get
  | |- timedW 0 (next _ _ _) => apply tw_next
  | |- timedW 0 (wret _) => apply tw_ret
  | |- timedW 0 (addWSAMessage _) => apply tw_message
  | |- timedW 0 doWSACleanup => apply tw_clean
  end.
Ltac none := apply lw_none; [still|discriminate].
Ltac go := apply lw_bind0; [gt|intros ?].
Ltac rt := apply lw_ret; notin.

(** EHLO: the options may come in several replies. *)
Lemma lw_ehlo_loop fuel tmo : forall o, lw 1 (ehlo_loopW fuel tmo o).
Proof.
  induction fuel as [|f IH]; intros o; cbn [ehlo_loopW]; destruct (containsAllOptions o); try (apply lw_weak; go; rt).
  - apply lw_weak. none.
  - intros v E. destruct (wbind getServerReplyW _ v) as [x v'] eqn:H. cbn [fst snd]. unfold wbind at 1 in H.
    destruct (rw_reply T v E) as (E1 & t & T1 & S1 & A1 & R1). destruct (getServerReplyW v) as [r v1]. cbn [fst snd] in *. fold L in S1.
    assert (X : slept (socks t) <= L * (activity (socks t) + 1)) by (rewrite N.mul_add_distr_l; lia).
    destruct r as [code| | | | |];
      try (apply pair_equal_spec in H as [<- <-]; split; [exact E1|]; exists t; split; [exact T1|]; split; [exact X|]; intros z Z; discriminate Z).
    destruct (Z.eqb_spec code (-1)) as [->|Nc].
    { apply pair_equal_spec in H as [<- <-]. split; [exact E1|]. exists t. split; [exact T1|]. split; [exact X|]. intros z Z G I.
      destruct (R1 _ eq_refl G) as [Y|[_ Y]]; [lia|exact Y]. }
    assert (F : fair (Done code) t).
    { intros z Z G I. injection Z as <-. destruct (R1 _ eq_refl G) as [Y|[Y _]]; [|contradiction]. elim (positive_not_timeout _ Y I). }
    destruct (negb (code =? 250)%Z); [apply pair_equal_spec in H as [<- <-]; split; [exact E1|]; exists t; auto|].
    unfold wbind at 1, base at 1, getc in H. cbn [s_c s_e s_t map v_c v_e v_on v_w v_t] in H. rewrite app_nil_r in H.
    assert (Y : mkV (v_c v1) (v_on v1) (v_e v1) (v_w v1) (v_t v1) = v1) by (destruct v1; reflexivity). rewrite Y in H. clear Y.
    destruct (c_resp (v_c v1)) as [rs|].
    2: { unfold base, fail_ub in H. cbn in H. rewrite app_nil_r in H. apply pair_equal_spec in H as [<- <-]. split; [exact E1|]. exists t.
         split; [exact T1|]. split; [exact X|]. intros z Z; discriminate Z. }
    destruct (IH (o ++ [LF] ++ rs) v1 E1) as (E2 & t2 & T2 & S2 & F2). rewrite H in *. cbn [fst snd] in *.
    split; [exact E2|]. exists (t ++ t2). split; [rewrite T2, T1, app_assoc; reflexivity|]. split; [|apply fair_after; exact F2].
    specialize (A1 code eq_refl Nc). rewrite socks_app, slept_app, (activity_app T). rewrite N.mul_add_distr_l in *. rewrite N.mul_add_distr_l.
    assert (L * 1 <= L * activity (socks t)) by (apply N.mul_le_mono_l; exact A1). lia.
Qed.
Lemma lw_ehlo err tmo : (err <> 0 -> err <> 250 -> tmo <> 250 -> ~ In err timeout_codes -> lw 0 (ehlo_withW err tmo))%Z.
Proof.
  intros N0 Ne Nt N. unfold ehlo_withW. go.
  intros v E. destruct (wbind (sendFeedbackW _ _ _) _ v) as [x v'] eqn:H. cbn [fst snd]. unfold wbind at 1 in H.
  destruct (paid_feedbackW EHLO err tmo N0 Ne Nt N v E) as (E1 & t & T1 & S1 & F1 & P1). destruct (sendFeedbackW EHLO err tmo v) as [r v1]. cbn [fst snd] in *.
  destruct r as [code| | | | |];
    try (apply pair_equal_spec in H as [<- <-]; split; [exact E1|]; exists t; split; [exact T1|]; split; [exact S1|]; intros z Z; discriminate Z).
  destruct (Z.eqb_spec code 250) as [->|Nc]; cbn [negb] in H; [|apply pair_equal_spec in H as [<- <-]; split; [exact E1|]; exists t; auto].
  assert (J : lw 1 (c <# base getc ;; match c_resp c with
    | None => base (fail_ub (UB_NullDeref PResp))
    | Some r => e <# base gete ;; ehlo_loopW (S (length (e_recv e) + length (e_bread e))) tmo r end)).
  { go. destruct (c_resp _); [|apply lw_weak; none]. go. apply lw_ehlo_loop. }
  destruct (J v1 E1) as (E2 & t2 & T2 & S2 & F2). rewrite H in *. cbn [fst snd] in *.
  split; [exact E2|]. exists (t ++ t2). split; [rewrite T2, T1, app_assoc; reflexivity|]. split; [|apply fair_after; exact F2].
  specialize (P1 eq_refl). rewrite socks_app, slept_app, (activity_app T). rewrite !N.add_0_r in *. rewrite N.mul_add_distr_l in *. lia.
Qed.
Lemma lw_identify : lw 0 sendServerIdentificationW.
Proof. apply lw_ehlo; [discriminate|discriminate|discriminate|notin]. Qed.
Lemma lw_identify_tls : lw 0 getServerSecureIdentificationW.
Proof. unfold getServerSecureIdentificationW. go. apply lw_ehlo; [discriminate|discriminate|discriminate|notin]. Qed.

(** Authentication. *)
Lemma lw_auth_client : lw 0 authenticateClientW.
Proof.
  unfold authenticateClientW. go. destruct (c_cred _) as [cr|]; [|rt]. destruct (c_auth _); [|none].
  unfold authPlainW, authXOauth2W, authLoginW.
  destruct (_ && _)%bool; [go; fb|]. destruct (_ && _)%bool; [|destruct (_ && _)%bool; [go; fb|rt]].
  go. apply lw_bind0; [apply lw_timed; fb|intros r1]. destruct (negb _); [rt|].
  apply lw_bind0; [apply lw_timed; fb|intros r2]. destruct (negb _); [rt|fb].
Qed.
Lemma lw_auth : lw 0 authenticate_if_neededW.
Proof. unfold authenticate_if_neededW. go. destruct (c_cred _); [|rt]. apply lw_if0; [apply lw_auth_client|rt]. Qed.

(** Opening. *)
Lemma timed_connect : timed 0 sys_connect.
Proof. unfold sys_connect. repeat first [apply timed_bind0; [|intros ?]|apply timed_emit; reflexivity|still|match goal with |- timed 0 (match ?x with _ => _ end) => destruct x end]. Qed.
Lemma timed_three {A C D} (a : M A) (b : M C) (c : M D) : timed 0 a -> timed 0 b -> timed 0 c -> timed 0 (a;; b;; c).
Proof. intros. apply timed_bind0; [assumption|intros _]. apply timed_bind0; [assumption|intros _; assumption]. Qed.
Lemma lw_initialize : lw 0 initializeSessionW.
Proof.
  unfold initializeSessionW, initializeSessionWinSock. go. go. go. destruct (negb _); [go; go; rt|]. go. go. go. go.
  destruct (negb _); [go; go; go; rt|]. go. destruct (e_sock _) as [|[n|er] l]; [none|..].
  - apply lw_bind0; [apply tw_base, timed_three; [still|apply timed_emit; reflexivity|still]|intros _]. destruct (c_server _); [|none].
    go. apply lw_bind0; [apply tw_base, timed_connect|intros r]. destruct r; [go; go; go; rt|rt].
  - apply lw_bind0; [apply tw_base, timed_three; [still|apply timed_emit; reflexivity|still]|intros _]. go. go. go. rt.
Qed.
Lemma timed_two {A C} (a : M A) (b : M C) : timed 0 a -> timed 0 b -> timed 0 (a;; b).
Proof. intros. apply timed_bind0; [assumption|intros _; assumption]. Qed.
Ltac ev := apply lw_bind0; [apply tw_base; first [apply timed_emit; reflexivity|apply timed_two; [apply timed_emit; reflexivity|still]|apply timed_two; [still|still]]|intros ?].
Lemma lw_starttls : lw 0 startTLSNegotiationW.
Proof.
  unfold startTLSNegotiationW. go. go. destruct (e_tls _) as [|t l]; [none|]. go. destruct (negb _); [ev; rt|].
  go. ev. destruct (negb _); [go; rt|]. go. go. ev. destruct (c_server _); [|none]. destruct (_ <? _); [none|].
  go. go. match goal with |- lw 0 (match ?x with _ => _ end) => destruct x end; [go; rt|].
  destruct (negb _); [ev; go; go; rt|]. go. ev. destruct (negb _); [go; go; rt|]. go. ev. destruct (negb _); [go; rt|].
  ev. go. destruct (_ && _)%bool; [go; go; go; rt|]. destruct (negb _); [go; go; go; rt|go; go; rt].
Qed.
Lemma lw_upgrade : lw 0 upgradeToSecureConnectionW.
Proof. unfold upgradeToSecureConnectionW. go. apply paid_lw, paid_raw3W; [discriminate|discriminate|discriminate|notin]. Qed.
Lemma lw_establish : lw 1 establishW.
Proof.
  unfold establishW. go. destruct (c_kind _).
  - unfold establishPlainW. apply lw_if0; [apply lw_initialize|].
    apply (lw_if 1 0); [apply lw_base; [apply timed_greetings|apply late_greetings]|]. apply lw_if0; [apply lw_identify|apply lw_auth].
  - unfold establishOppW. apply lw_if0; [apply lw_initialize|].
    apply (lw_if 1 0); [apply lw_base; [apply timed_greetings|apply late_greetings]|]. apply lw_if0; [apply lw_identify|].
    go. apply lw_bind0; [apply tw_base; still|intros b]. destruct b; [|go; go; rt]. go.
    apply lw_if0; [apply lw_upgrade|]. apply lw_if0; [apply lw_starttls|]. apply lw_if0; [apply lw_identify_tls|apply lw_auth].
  - unfold establishForcedW. apply lw_if0; [apply lw_initialize|]. apply lw_if0; [apply lw_starttls|].
    apply (lw_if 1 0); [apply lw_base; [apply timed_greetings_tls|apply late_greetings_tls]|]. apply lw_if0; [apply lw_identify_tls|apply lw_auth].
Qed.

(** The mail. *)
Lemma lw_cmd d err : ~ In err timeout_codes -> lw 0 (sendCommandPtrW cleanupW d err).
Proof.
  intros N. assert (R : lw 0 (sendRaw2W cleanupW d err)).
  { unfold sendRaw2W. destruct (_ <? _); [go; apply lw_ret, N|]. apply lw_bind0; [apply tw_base, timed_send|intros r].
    destruct r; [rt|rt|go; go; apply lw_ret, N|none]. }
  unfold sendCommandPtrW. go. destruct (c_rawptr _); [exact R|].
  assert (S : lw 0 (sendCommandTLSW cleanupW d err)).
  { unfold sendCommandTLSW. go. destruct (c_bio _); [|go; go; apply lw_ret, N]. apply lw_bind0; [apply tw_base, timed_puts|intros r].
    destruct r; [rt|rt|go; go; apply lw_ret, N|none]. }
  destruct (c_kind _); [exact R|exact S|exact S].
Qed.
Lemma lw_mail_from fmts : forall last, ~ In last timeout_codes -> lw 0 (mail_from_loopW fmts last).
Proof.
  induction fmts as [|f l IH]; intros last N; cbn [mail_from_loopW]; [apply lw_ret, N|]. go.
  apply (lw_step 0 0); [fb|]. intros y. destruct (y =? 250)%Z; [auto|]. destruct (Z.eqb_spec y 501) as [->|Na]; cbn [negb]; [left; apply IH; notin|auto].
Qed.
Lemma tw_add l : forall r, timedW 0 (addMailRecipientsW l r).
Proof. induction l; intros; cbn [addMailRecipientsW]; [apply tw_ret|]. apply tw_bind0; [gt|intros _]. apply tw_bind0; [apply lw_timed; fb|intros ?; apply IHl]. Qed.
Lemma late_addW l : forall result v t0, c_timeout (v_c v) = T -> (In result timeout_codes -> coded_reads (socks t0) -> silence T (socks t0)) ->
  exists t, v_t (snd (addMailRecipientsW l result v)) = v_t v ++ t /\ fair (fst (addMailRecipientsW l result v)) (t0 ++ t).
Proof.
  induction l as [|a l IH]; intros result v t0 E P; cbn [addMailRecipientsW].
  - exists []. cbn [snd fst wret]. rewrite !app_nil_r. split; [reflexivity|]. intros z Z G I. injection Z as <-. exact (P I G).
  - destruct (wbind (base _) _ v) as [o v'] eqn:H. cbn [fst snd]. unfold wbind at 1 in H.
    destruct (tw_base T 0 (logc (rcpt_command a)) (timed_addLog T _ _) v E) as (E1 & t1 & T1 & _).
    destruct (base (logc (rcpt_command a)) v) as [o1 v1]. cbn [fst snd] in *.
    destruct o1; try (apply pair_equal_spec in H as [<- <-]; exists t1; split; [exact T1|intros z Z; discriminate Z]).
    assert (F : lw 0 (sendFeedbackPtrW (rcpt_command a) CLIENT_SENDMAIL_RCPTTO_ERROR CLIENT_SENDMAIL_RCPTTO_TIMEOUT)) by fb.
    unfold wbind in H. destruct (F v1 E1) as (E2 & t2 & T2 & _ & F2). destruct (sendFeedbackPtrW _ _ _ v1) as [o2 v2]. cbn [fst snd] in *.
    assert (T3 : v_t v2 = v_t v ++ t1 ++ t2) by (rewrite T2, T1, <- app_assoc; reflexivity).
    destruct o2 as [code| | | | |]; try (apply pair_equal_spec in H as [<- <-]; exists (t1 ++ t2); split; [exact T3|intros z Z; discriminate Z]).
    match type of H with addMailRecipientsW _ ?x _ = _ => destruct (IH x v2 (t0 ++ t1 ++ t2) E2) as (t & Tt & Ft) end.
    { intros I G. rewrite !socks_app in *. apply coded_reads_app in G as [G0 G]. apply coded_reads_app in G as [G1 G2].
      destruct (code =? 250)%Z; [apply silence_before; exact (P I G0)|]. apply silence_after, silence_after. exact (F2 code eq_refl G2 I). }
    rewrite H in *. cbn [fst snd] in *. exists (t1 ++ t2 ++ t). split; [rewrite Tt, T3, <- !app_assoc; reflexivity|]. rewrite <- !app_assoc in Ft. exact Ft.
Qed.
Lemma lw_add l : lw 0 (addMailRecipientsW l 250).
Proof.
  intros v E. destruct (tw_add l 250 v E) as (E1 & t & T1 & S). destruct (late_addW l 250 v [] E) as (t' & T2 & F).
  { intros I. exfalso. revert I. change (~ In 250%Z timeout_codes). notin. }
  rewrite T1 in T2. apply app_inv_head in T2. subst t'. split; [exact E1|]. exists t. auto.
Qed.
Lemma lw_recipients_loop ls : lw 0 (recipients_loopW ls).
Proof. induction ls as [|[n|l] ls IH]; cbn [recipients_loopW]; [rt|exact IH|]. apply lw_if0; [apply lw_add|exact IH]. Qed.
Lemma lw_recipients m : lw 0 (setMailRecipientsW m).
Proof. unfold setMailRecipientsW. apply lw_if0; [apply lw_mail_from; notin|apply lw_recipients_loop]. Qed.
Lemma tw_address f a : timedW 0 (address_headerW f a).
Proof.
  unfold address_headerW, addMailHeaderW. destruct a as [[|n]|[|x l]]; try gt.
  apply tw_bind0; [apply tw_bind0; [gt|intros _; gt]|intros _; gt].
Qed.
Ltac cm := apply lw_cmd; notin.
Lemma lw_headers m : lw 0 (setMailHeadersW m).
Proof.
  unfold setMailHeadersW, addMailHeaderW. go. apply lw_if0; [fb|]. apply lw_if0; [go; cm|].
  apply lw_bind0; [apply tw_address|intros _]. apply lw_bind0; [apply tw_address|intros _]. go. apply lw_if0; [cm|]. go. apply lw_if0; [cm|rt].
Qed.
Lemma lw_chunks l err : ~ In err timeout_codes -> lw 0 (send_chunksW l err).
Proof. intros N. induction l; cbn [send_chunksW]; [rt|]. apply lw_if0; [apply lw_cmd, N|exact IHl]. Qed.
Lemma lw_body m : lw 0 (setMailBodyW m).
Proof.
  unfold setMailBodyW. go. go. go. apply lw_if0; [destruct (_ <? _)%nat; apply lw_chunks; notin|]. go. apply lw_if0; [fb|]. go.
  destruct (c_batch _); [rt|]. apply lw_if0; [unfold sendQuitW; go; cm|rt].
Qed.
Lemma lw_transaction m : lw 0 (mail_transactionW m).
Proof.
  unfold mail_transactionW. apply lw_if0; [apply lw_recipients|]. apply lw_if0; [apply lw_headers|]. apply lw_if0; [apply lw_body|].
  go. apply lw_bind0; [destruct (c_batch _); gt|intros _]. rt.
Qed.
Lemma lw_sendMail m : lw 1 (sendMailW m).
Proof.
  unfold sendMailW. go. apply (lw_if 1 0); [destruct (c_conn _); [apply lw_weak; rt|apply lw_establish]|]. go. apply lw_transaction.
Qed.
End Time.

Lemma wworld_time : forall i c m w x w' t, get_client (ww w) i = Some c ->
  wstep (OSend i m) w = (x, w') -> ww_trace w' = ww_trace w ++ t ->
  slept (common t) <= N.max 1 (c_timeout c) * (activity (common t) + 1) /\
  (forall r, x = Done r -> coded_reads (common t) -> In r timeout_codes -> silence (c_timeout c) (common t)).
Proof.
  intros i c m w x w' t G H Tt.
  apply (run_onW_some i (sendMailW m) Some w c) in H as (Hx & _ & _ & Ht & _); [|assumption].
  destruct (lw_sendMail (c_timeout c) m (wview w i c) eq_refl) as (_ & t' & T1 & S & F).
  rewrite Ht in Tt. change (v_t (wview w i c)) with (ww_trace w) in T1. rewrite Tt in T1. apply app_inv_head in T1. subst t'.
  split; [exact S|]. intros r X G' I. rewrite Hx in X. exact (F r X G' I).
Qed.
