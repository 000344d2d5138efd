(** Proofs about a mail sent after another one failed. *)

From Coq Require Import Ascii String List NArith ZArith Bool Lia ZifyBool ZifyNat ZifyN.
From Verif Require Import Base ModelUtil ModelAddress ModelAttachment ModelMessage ModelReply ModelErrors ModelState ModelClient ModelWorld
  SpecDialogue SpecReply SpecLife SpecDead ProofSteps ProofWalk ProofPhases ProofEstablish ProofLog ProofSend ProofLife ProofDialogue ProofMail ProofMail2 ProofCode ProofTls ProofWorld ProofSafety.
Import ListNotations.
Open Scope Z_scope.

(** A reply read as a negative code other than the -1 of "no code". *)
Definition oddneg (t : list event) : Prop := exists d h c, In (d, h) (exchanges t) /\ code_of h c /\ c < -1.
Lemma closed_oddneg : closed oddneg.
Proof.
  split; intros a b (d & h & c & H & C & N).
  - destruct (exchanges_in_l a b d h H) as [m Hm]. exists d, (h ++ m), c. split; [exact Hm|]. split; [apply code_of_app, C|exact N].
  - exists d, h, c. split; [apply exchanges_in_r, H|]. split; assumption.
Qed.
Lemma standard_oddneg : forall t, standard t -> oddneg t -> False.
Proof. intros t S (d & h & c & H & (x & y & -> & C) & N). specialize (S _ _ H). apply standard_code in S. lia. Qed.

(** The connection is closed, or a reply was not one of the protocol. *)
Definition lost (s s' : st) : Prop := c_conn (s_c s') = false \/ bad oddneg s s'.
Lemma lost_r : forall s s1 s', ext s s1 -> lost s1 s' -> lost s s'.
Proof. intros s s1 s' X [L|L]; [left; exact L|right]. exact (bad_r _ _ _ _ closed_oddneg X L). Qed.
Lemma lost_l : forall s s1 s', lost s s1 -> steps stay s1 s' -> lost s s'.
Proof.
  intros s s1 s' [L|L] S; [left|right].
  - eapply (steps_conn_off stay); [intros []|exact S|exact L].
  - exact (bad_l _ _ _ _ closed_oddneg L (steps_trace _ _ _ S)).
Qed.
Lemma cleanup_lost : forall s u s', cleanup s = (Done u, s') -> c_conn (s_c s') = false.
Proof. intros s u s' H. destruct (cleanup_off _ _ _ H) as [s1 ->]. apply teardown_off. Qed.

Lemma raw2_lost : forall d err s code s', sendRaw2 d err s = (Done code, s') -> code < 0 -> c_conn (s_c s') = false.
Proof.
  intros d err s code s' H N. unfold sendRaw2, sendRaw2_with in H. apply bind_done in H as (r & s1 & _ & H).
  destruct r; try discriminate H; try (apply ret_done in H as [-> _]; lia).
  apply bind_done in H as (u & s2 & _ & H). apply bind_done in H as (u2 & s3 & H3 & H). apply ret_done in H as [_ ->].
  exact (cleanup_lost _ _ _ H3).
Qed.
Lemma tls_cmd_lost : forall d err s code s', sendCommandTLS_with cleanup d err s = (Done code, s') -> code < 0 -> c_conn (s_c s') = false.
Proof.
  intros d err s code s' H N. unfold sendCommandTLS_with, bind at 1, getc in H. destruct (c_bio (s_c s)).
  - apply bind_done in H as (r & s1 & _ & H). destruct r; try discriminate H; try (apply ret_done in H as [-> _]; lia).
    apply bind_done in H as (u & s2 & _ & H). apply bind_done in H as (u2 & s3 & H3 & H). apply ret_done in H as [_ ->].
    exact (cleanup_lost _ _ _ H3).
  - apply bind_done in H as (u & s2 & _ & H). apply bind_done in H as (u2 & s3 & H3 & H). apply ret_done in H as [_ ->].
    exact (cleanup_lost _ _ _ H3).
Qed.
Lemma cmd_lost : forall d err s code s', sendCommandPtr d err s = (Done code, s') -> code < 0 -> c_conn (s_c s') = false.
Proof.
  intros d err s code s' H N. unfold sendCommandPtr, sendCommandPtr_with, bind at 1, getc in H.
  destruct (c_rawptr (s_c s)); [exact (raw2_lost _ _ _ _ _ H N)|].
  destruct (c_kind (s_c s)); [exact (raw2_lost _ _ _ _ _ H N)|exact (tls_cmd_lost _ _ _ _ _ H N)|exact (tls_cmd_lost _ _ _ _ _ H N)].
Qed.

Lemma exchange_oddneg : forall d t h c s s', s_t s' = s_t s ++ t -> exchange d t h -> code_of h c -> c < -1 -> bad oddneg s s'.
Proof.
  intros d t h c s s' T X C N. exists t. split; [exact T|]. exists d, h, c. split; [|split; assumption].
  rewrite (talk_exchanges _ _ (exchange_talk _ _ _ X)). left. reflexivity.
Qed.
Lemma raw3_lost : forall d err tmo s code s', sendRaw3 d err tmo s = (Done code, s') -> err < -1 -> tmo < -1 -> code < 0 -> lost s s'.
Proof.
  intros d err tmo s code s' H E1 E2 N. assert (K := raw3_done _ _ _ _ _ _ H ltac:(lia)). unfold sendRaw3 in H.
  apply bind_done in H as (r & s1 & H1 & H).
  destruct (r =? 0) eqn:R; cbn [negb] in H.
  2: { apply ret_done in H as [-> ->]. left. apply (raw2_lost _ _ _ _ _ H1).
       unfold sendRaw2, sendRaw2_with in H1. apply bind_done in H1 as (q & s2 & _ & H1).
       destruct q; try discriminate H1; try (apply ret_done in H1 as [-> _]; discriminate R).
       apply bind_done in H1 as (u & s3 & _ & H1). apply bind_done in H1 as (u2 & s4 & _ & H1). apply ret_done in H1 as [-> _]. lia. }
  apply bind_done in H as (c & s2 & H2 & H). destruct (c =? -1) eqn:E; cbn [negb] in H.
  { apply bind_done in H as (u & s3 & H3 & H). apply ret_done in H as [_ ->]. left. exact (cleanup_lost _ _ _ H3). }
  apply ret_done in H as [-> ->].
  apply raw_reply_trace in H2 as (C2 & t & h & T2 & RO & D & Hc). apply Z.eqb_neq in E.
  apply Z.eqb_eq in R. subst r. apply sendRaw2_done in H1 as (C1 & ev & T1 & W1); [|lia].
  right. destruct Hc as [Hc|Hc]; [congruence|].
  refine (exchange_oddneg (cstr d) (ev :: t) h c _ _ _ _ _ _); [rewrite T2, T1, <- app_assoc; reflexivity| | |lia].
  - exists ev, t. auto.
  - exists h, []. rewrite app_nil_r. auto.
Qed.
Lemma feedback_lost : forall d err tmo s code s', sendFeedback d err tmo s = (Done code, s') -> err < -1 -> tmo < -1 -> code < 0 -> lost s s'.
Proof.
  intros d err tmo s code s' H E1 E2 N. unfold sendFeedback, bind at 1, getc in H.
  assert (T : sendFeedbackTLS d err tmo s = (Done code, s') -> lost s s').
  { clear H. intros H. unfold sendFeedbackTLS, bind at 1, getc in H. destruct (c_bio (s_c s)) as [b|].
    2: exact (raw3_lost _ _ _ _ _ _ H E1 E2 N).
    apply bind_done in H as (r & s1 & H1 & H). apply puts_core in H1 as [C1 T1].
    assert (K : (r = WFull \/ exists n, r = WPart n) ->
      (code <- getServerReply;; if negb (code =? -1) then ret code else cleanup;; ret tmo) s1 = (Done code, s') -> lost s s').
    { clear H. intros W H. apply bind_done in H as (c & s2 & H2 & H). apply reply_trace in H2 as (C2 & t & h & T2 & RO & D & Hc).
      destruct (c =? -1) eqn:E; cbn [negb] in H.
      { apply bind_done in H as (u & s3 & H3 & H). apply ret_done in H as [_ ->]. left. exact (cleanup_lost _ _ _ H3). }
      apply ret_done in H as [-> ->]. apply Z.eqb_neq in E. destruct Hc as [Hc|Hc]; [congruence|]. right.
      eapply (exchange_oddneg (cstr d)); [rewrite T2, T1, <- app_assoc; reflexivity| |exact Hc|lia].
      eexists _, t. split; [reflexivity|]. split; [right; eexists _, _; split; [reflexivity|exact W]|auto]. }
    destruct r; try discriminate H.
    - apply K; [left; reflexivity|exact H].
    - apply K; [right; eexists; reflexivity|exact H].
    - apply bind_done in H as (u & s2 & _ & H). apply bind_done in H as (u2 & s3 & H3 & H). apply ret_done in H as [_ ->].
      left. exact (cleanup_lost _ _ _ H3). }
  destruct (c_kind (s_c s)); [exact (raw3_lost _ _ _ _ _ _ H E1 E2 N)|exact (T H)|exact (T H)].
Qed.
Lemma fb_lost : forall d err tmo s code s', sendFeedbackPtr d err tmo s = (Done code, s') -> err < -1 -> tmo < -1 -> code < 0 -> lost s s'.
Proof.
  intros d err tmo s code s' H E1 E2 N. unfold sendFeedbackPtr, bind at 1, getc in H.
  destruct (c_rawptr (s_c s)); [exact (raw3_lost _ _ _ _ _ _ H E1 E2 N)|exact (feedback_lost _ _ _ _ _ _ H E1 E2 N)].
Qed.

(** A reply with a code other than 250 does not begin with 250. *)
Lemma code_not : forall h c, code_of h c -> 0 <= c -> forall d,
  (c <> 250 -> ~ answered "250" (d, h)) /\ (c <> 354 -> ~ answered "354" (d, h)).
Proof.
  intros h c (x & y & -> & E) P d. unfold extractReturnCode in E. unfold answered, starts_with. cbn [snd].
  destruct (3 <=? length (cstr x))%nat eqn:L; [|lia].
  assert (K : exists a b e r, x = a :: b :: e :: r /\ firstn 3 (cstr x) = [a; b; e]).
  { destruct x as [|a [|b [|e r]]]; cbn [cstr] in *.
    - discriminate L.
    - destruct (Ascii.eqb a NUL); discriminate L.
    - destruct (Ascii.eqb a NUL); [discriminate L|]. destruct (Ascii.eqb b NUL); discriminate L.
    - exists a, b, e, r. split; [reflexivity|]. destruct (Ascii.eqb a NUL); [discriminate L|]. destruct (Ascii.eqb b NUL); [discriminate L|].
      destruct (Ascii.eqb e NUL); [discriminate L|]. reflexivity. }
  destruct K as (a & b & e & r & -> & F). rewrite F in E.
  split; intros N (q & Q); cbn in Q; inversion Q; subst a b e; vm_compute in E; congruence.
Qed.

Definition said_no (l : list (str * str)) : Prop :=
  Forall (fun x => mail_command (fst x) /\ ~ answered "250" x) l.
(** The exchanges since [s] refuse a recipient or DATA. *)
Definition refusing (t : list event) : Prop :=
  exists d h c, In (d, h) (exchanges t) /\ code_of h c /\ 0 <= c /\
    ((starts_with (B "RCPT TO") d /\ c <> 250) \/ (d = DATA_line /\ c <> 354)).
Lemma closed_refusing : closed refusing.
Proof.
  split; intros a b (d & h & c & H & C & N).
  - destruct (exchanges_in_l a b d h H) as [m Hm]. exists d, (h ++ m), c. split; [exact Hm|]. split; [apply code_of_app, C|exact N].
  - exists d, h, c. split; [apply exchanges_in_r, H|]. split; assumption.
Qed.
Lemma refusing_refused : forall t, refusing t -> refused (exchanges t).
Proof.
  intros t (d & h & c & H & C & P & K). exists (d, h). split; [exact H|].
  destruct (code_not h c C P d) as [K1 K2]. destruct K as [[K N]|[K N]]; [left|right]; split; auto.
Qed.
Lemma reach_refusing : forall s s' d h c, reach s s' [(d, h)] -> code_of h c -> 0 <= c ->
  ((starts_with (B "RCPT TO") d /\ c <> 250) \/ (d = DATA_line /\ c <> 354)) -> bad refusing s s'.
Proof.
  intros s s' d h c (_ & t & T & K) C P N. exists t. split; [exact T|]. exists d, h, c. split; [|auto].
  rewrite (talk_exchanges _ _ K). left. reflexivity.
Qed.

Lemma cstr_prefix : forall p x, ~ In NUL p -> starts_with p (cstr (p ++ x)).
Proof.
  induction p as [|a p IH]; intros x N; [eexists; reflexivity|]. cbn [cstr app].
  destruct (Ascii.eqb a NUL) eqn:E; [apply Ascii.eqb_eq in E; subst; exfalso; apply N; left; reflexivity|].
  destruct (IH x) as [r R]; [intros I; apply N; right; exact I|]. exists r. rewrite R. reflexivity.
Qed.

Lemma mail_from_fails : forall fmts last s code s', mail_from_loop fmts last s = (Done code, s') -> code <> 250 ->
  0 <= last -> Forall (fun f => mail_command (cstr f)) fmts ->
  (code < 0 -> lost s s') /\ (0 <= code -> exists l, reach s s' l /\ said_no l).
Proof.
  induction fmts as [|f fmts IH]; intros last s code s' H G P Fm; cbn [mail_from_loop] in H.
  { apply ret_done in H as [-> ->]. split; [lia|]. intros _. exists []. split; [apply reach_nil|constructor]. }
  inversion Fm as [|? ? F1 F2]; subst.
  apply bind_done in H as (u & s1 & H1 & H). apply bind_done in H as (c & s2 & H2 & H).
  assert (X1 := log_ext _ _ _ _ H1).
  assert (Fb := fb_reach _ _ _ _ _ _ H2 ltac:(discriminate)). assert (Fl := fb_lost _ _ _ _ _ _ H2 ltac:(reflexivity) ltac:(reflexivity)).
  destruct (c =? 250) eqn:E1; [apply ret_done in H as [-> _]; lia|]. apply Z.eqb_neq in E1.
  assert (Rs : 0 <= c -> exists h, reach s s2 [(cstr f, h)] /\ said_no [(cstr f, h)]).
  { intros Pc. destruct Fb as (h & R & C); [intros ->; apply Pc; reflexivity|intros ->; apply Pc; reflexivity|].
    exists h. split; [exact (reach_log_then _ _ _ _ _ _ H1 R)|]. constructor; [|constructor]. split; [exact F1|].
    apply (code_not h c C Pc). exact E1. }
  destruct (c =? 501) eqn:E2; cbn [negb] in H.
  - apply Z.eqb_eq in E2. subst c. destruct (Rs ltac:(lia)) as (h & R & S). destruct (IH _ _ _ _ H G ltac:(lia) F2) as [I1 I2]. split.
    + intros N. exact (lost_r _ _ _ (reach_ext _ _ _ R) (I1 N)).
    + intros N. destruct (I2 N) as (l & R2 & S2). exists ([(cstr f, h)] ++ l). split; [exact (reach_trans _ _ _ _ _ R R2)|].
      apply Forall_app. split; assumption.
  - apply ret_done in H as [-> ->]. split.
    + intros N. exact (lost_r _ _ _ X1 (Fl N)).
    + intros N. destruct (Rs N) as (h & R & S). eauto.
Qed.

Lemma fb_stay : forall d err tmo s code s', sendFeedbackPtr d err tmo s = (Done code, s') -> steps stay s s'.
Proof.
  intros d err tmo s code s' H. eapply stay_done; [|exact H].
  apply wfb; [apply stay_base|apply stay_conn|apply stay_write|intros _; apply stay_write].
Qed.
Lemma log_stay : forall i s u s', logc i s = (Done u, s') -> steps stay s s'.
Proof.
  intros i s u s' H. eapply stay_done; [|exact H]. apply walk_logc; exact I.
Qed.

Lemma mail_from_ext : forall fmts last s code s', mail_from_loop fmts last s = (Done code, s') -> ext s s'.
Proof.
  intros fmts last s code s' H. eapply (walk_ext most); [|exact H].
  apply wmail_from; [apply most_base|apply most_conn|intros; apply most_write|apply most_quit].
Qed.
Lemma rcpt_fails : forall l result s code s' s0, addMailRecipients l result s = (Done code, s') -> code <> 250 ->
  ext s0 s -> (result < 0 -> lost s0 s) -> (0 <= result -> result <> 250 -> bad refusing s0 s) ->
  (code < 0 -> lost s0 s') /\ (0 <= code -> bad refusing s0 s').
Proof.
  induction l as [|a l IH]; intros result s code s' s0 H G X L R; cbn [addMailRecipients] in H.
  { apply ret_done in H as [-> ->]. auto. }
  apply bind_done in H as (u & s1 & H1 & H). apply bind_done in H as (c & s2 & H2 & H).
  assert (Fb := fb_reach _ _ _ _ _ _ H2 ltac:(discriminate)). assert (Fl := fb_lost _ _ _ _ _ _ H2 ltac:(reflexivity) ltac:(reflexivity)).
  assert (St : steps stay s s2) by (eapply steps_trans; [exact (log_stay _ _ _ _ H1)|exact (fb_stay _ _ _ _ _ _ H2)]).
  assert (X1 := ext_trans _ _ _ X (log_ext _ _ _ _ H1)).
  assert (Xs : ext s s2) by exact (steps_trace _ _ _ St).
  refine (IH _ _ _ _ _ H G (ext_trans _ _ _ X Xs) _ _).
  - destruct (c =? 250) eqn:E; [intros N; exact (lost_l _ _ _ (L N) St)|]. intros N. exact (lost_r _ _ _ X1 (Fl N)).
  - destruct (c =? 250) eqn:E; [intros N N2; exact (bad_l _ _ _ _ closed_refusing (R N N2) Xs)|]. intros N N2.
    destruct Fb as (h & Rh & C); [intros ->; apply N; reflexivity|intros ->; apply N; reflexivity|].
    refine (bad_r _ _ _ _ closed_refusing X1 (reach_refusing _ _ _ _ _ Rh C N (or_introl (conj _ N2)))).
    unfold rcpt_command. change (B "RCPT TO: <") with (B "RCPT TO" ++ B ": <"). rewrite <- !app_assoc.
    apply cstr_prefix. vm_compute. intuition discriminate.
Qed.

Lemma loop_fails : forall ls s code s', recipients_loop ls s = (Done code, s') -> code <> 0 ->
  (code < 0 -> lost s s') /\ (0 <= code -> bad refusing s s').
Proof.
  induction ls as [|[n|l] ls IH]; intros s code s' H G; cbn [recipients_loop] in H.
  - apply ret_done in H as [-> _]. congruence.
  - exact (IH _ _ _ H G).
  - apply bind_done in H as (c & s1 & H1 & H). destruct (c =? 250) eqn:E; cbn [negb] in H.
    + destruct (IH _ _ _ H G) as [I1 I2]. assert (X := rcpt_ext _ _ _ _ _ H1). split; intros N.
      * exact (lost_r _ _ _ X (I1 N)).
      * exact (bad_r _ _ _ _ closed_refusing X (I2 N)).
    + apply ret_done in H as [-> ->]. apply Z.eqb_neq in E.
      refine (rcpt_fails _ _ _ _ _ _ H1 E (ext_refl _) _ _); lia.
Qed.

Lemma formats_mail : forall a, Forall (fun f => mail_command (cstr f)) (mail_formats a).
Proof.
  intros a. unfold mail_formats. repeat constructor; unfold mail_command;
  match goal with |- starts_with ?p (cstr (B ?q ++ ?r)) =>
    change (B q) with (p ++ skipn 9 (B q)); rewrite <- !app_assoc; apply cstr_prefix; vm_compute; intuition discriminate end.
Qed.

Lemma set_recipients_fails : forall m s code s', setMailRecipients m s = (Done code, s') -> code <> 0 ->
  (code < 0 -> lost s s') /\ (0 <= code -> bad refusing s s' \/ exists l, reach s s' l /\ said_no l).
Proof.
  intros m s code s' H G. unfold setMailRecipients in H. apply bind_done in H as (c & s1 & H1 & H).
  destruct (c =? 250) eqn:E; cbn [negb] in H.
  - assert (X : ext s s1) by (eapply mail_from_ext; exact H1).
    destruct (loop_fails _ _ _ _ H G) as [I1 I2]. split; intros N.
    + exact (lost_r _ _ _ X (I1 N)).
    + left. exact (bad_r _ _ _ _ closed_refusing X (I2 N)).
  - apply ret_done in H as [-> ->]. apply Z.eqb_neq in E.
    destruct (mail_from_fails _ _ _ _ _ H1 E ltac:(lia) (formats_mail _)) as [I1 I2]. split; auto.
Qed.

Lemma log_cmd_lost : forall i d err s code s', (logc i;; sendCommandPtr d err) s = (Done code, s') -> code < 0 -> c_conn (s_c s') = false.
Proof. intros i d err s code s' H N. apply bind_done in H as (u & s1 & _ & H). exact (cmd_lost _ _ _ _ _ H N). Qed.
Lemma cmd_sign : forall d err s code s', sendCommandPtr d err s = (Done code, s') -> err < 0 -> code <> 0 -> code < 0.
Proof. intros d err s code s' H E N. destruct (cmd_done _ _ _ _ _ H ltac:(lia)) as [(-> & _)|(-> & _)]; congruence. Qed.

Lemma headers_fails : forall m s code s', setMailHeaders m s = (Done code, s') -> code <> 0 ->
  (code < 0 -> lost s s') /\ (0 <= code -> bad refusing s s').
Proof.
  intros m s code s' H G. unfold setMailHeaders in H.
  apply bind_done in H as (u & s1 & H1 & H). apply bind_done in H as (d & s2 & H2 & H).
  assert (X1 := log_ext _ _ _ _ H1).
  destruct (d =? STATUS_CODE_START_MAIL_INPUT) eqn:E; cbn [negb] in H.
  2: { apply ret_done in H as [-> ->]. apply Z.eqb_neq in E. split; intros N.
       - exact (lost_r _ _ _ X1 (fb_lost _ _ _ _ _ _ H2 ltac:(reflexivity) ltac:(reflexivity) N)).
       - destruct (fb_reach _ _ _ _ _ _ H2 ltac:(discriminate)) as (h & R & C); [intros ->; apply N; reflexivity|intros ->; apply N; reflexivity|].
         refine (bad_r _ _ _ _ closed_refusing X1 (reach_refusing _ _ _ _ _ R C N (or_intror (conj _ E)))). reflexivity. }
  assert (K : code < 0 /\ c_conn (s_c s') = false).
  { apply bind_done in H as (f & s3 & H3 & H). destruct (f =? 0) eqn:Ef; cbn [negb] in H.
    2: { apply ret_done in H as [-> ->]. unfold addMailHeader in H3. apply bind_done in H3 as (v & s4 & _ & H3).
         assert (N := cmd_sign _ _ _ _ _ H3 ltac:(reflexivity) G). split; [exact N|exact (cmd_lost _ _ _ _ _ H3 N)]. }
    apply bind_done in H as (v1 & s4 & _ & H). apply bind_done in H as (v2 & s5 & _ & H). apply bind_done in H as (v3 & s6 & _ & H).
    apply bind_done in H as (x & s7 & H7 & H). destruct (x =? 0) eqn:Ex; cbn [negb] in H.
    2: { apply ret_done in H as [-> ->].
         assert (N := cmd_sign _ _ _ _ _ H7 ltac:(reflexivity) G). split; [exact N|exact (cmd_lost _ _ _ _ _ H7 N)]. }
    apply bind_done in H as (v4 & s8 & _ & H). apply bind_done in H as (y & s9 & H9 & H). destruct (y =? 0) eqn:Ey; cbn [negb] in H.
    2: { apply ret_done in H as [-> ->].
         assert (N := cmd_sign _ _ _ _ _ H9 ltac:(reflexivity) G). split; [exact N|exact (cmd_lost _ _ _ _ _ H9 N)]. }
    apply ret_done in H as [-> _]. congruence. }
  destruct K as [N K]. split; [intros _; left; exact K|lia].
Qed.

Lemma chunks_lost : forall l err s code s', send_chunks l err s = (Done code, s') -> err < 0 -> code <> 0 ->
  code < 0 /\ c_conn (s_c s') = false.
Proof.
  induction l as [|x l IH]; intros err s code s' H E N; cbn [send_chunks] in H; [apply ret_done in H as [-> _]; congruence|].
  apply bind_done in H as (c & s1 & H1 & H). destruct (c =? 0) eqn:Ec; cbn [negb] in H; [exact (IH _ _ _ _ H E N)|].
  apply ret_done in H as [-> ->]. assert (Ns := cmd_sign _ _ _ _ _ H1 E N). split; [exact Ns|exact (cmd_lost _ _ _ _ _ H1 Ns)].
Qed.

(** The last exchange is the end of data. *)
Definition ended (s s' : st) : Prop := exists l h, reach s s' (l ++ [(END_line, h)]).
Lemma body_fails : forall m s code s', setMailBody m s = (Done code, s') -> code <> 0 ->
  (code < 0 -> lost s s') /\ (0 <= code -> ended s s').
Proof.
  intros m s code s' H G. unfold setMailBody in H. apply bind_done in H as (u & s1 & H1 & H). assert (R1 := reach_log _ _ _ _ H1).
  unfold bind at 1, gete in H. apply bind_done in H as (body & s2 & H2 & H).
  assert (s2 = s1) by (unfold lift in H2; destruct (body_real _ _); inversion H2; reflexivity). subst s2.
  apply bind_done in H as (r & s3 & H3 & H).
  set (err := if (512 <? length body)%nat then CLIENT_SENDMAIL_BODYPART_ERROR else CLIENT_SENDMAIL_BODY_ERROR) in *.
  assert (Er : err < 0) by (unfold err; destruct (512 <? length body)%nat; reflexivity).
  destruct (r =? 0) eqn:E; cbn [negb] in H.
  2: { apply ret_done in H as [-> ->]. destruct (chunks_lost _ _ _ _ _ H3 Er G) as [N K]. split; [intros _; left; exact K|lia]. }
  apply Z.eqb_eq in E. subst r. assert (R3 := chunks_done _ _ _ _ H3 ltac:(lia)).
  apply bind_done in H as (u2 & s4 & H4 & H). assert (R4 := reach_log _ _ _ _ H4).
  assert (X4 : ext s s4) by (eapply ext_trans; [exact (reach_ext _ _ _ R1)|]; eapply ext_trans; [exact (reach_ext _ _ _ R3)|exact (reach_ext _ _ _ R4)]).
  apply bind_done in H as (d & s5 & H5 & H).
  destruct (d =? STATUS_CODE_REQUESTED_MAIL_ACTION_OK_OR_COMPLETED) eqn:Ed; cbn [negb] in H.
  2: { apply ret_done in H as [-> ->]. split; intros N.
       - exact (lost_r _ _ _ X4 (fb_lost _ _ _ _ _ _ H5 ltac:(reflexivity) ltac:(reflexivity) N)).
       - destruct (fb_reach _ _ _ _ _ _ H5 ltac:(discriminate)) as (h & R & C); [intros ->; apply N; reflexivity|intros ->; apply N; reflexivity|].
         exists (silent (map cstr (body_chunks body))), h.
         exact (reach_trans _ _ _ [] _ R1 (reach_trans _ _ _ _ _ R3 (reach_trans _ _ _ [] _ R4 R))). }
  unfold bind at 1, getc in H. destruct (c_batch (s_c s5)); [apply ret_done in H as [-> _]; congruence|].
  apply bind_done in H as (q & s6 & H6 & H). destruct (q =? 0) eqn:Eq; cbn [negb] in H; [apply ret_done in H as [-> _]; congruence|].
  apply ret_done in H as [-> ->]. unfold sendQuitCommand, sendQuit_with in H6. apply bind_done in H6 as (v & s7 & _ & H6).
  assert (N := cmd_sign _ _ _ _ _ H6 ltac:(reflexivity) G). split; [intros _; left; exact (cmd_lost _ _ _ _ _ H6 N)|lia].
Qed.

Lemma transaction_fails : forall m s code s', mail_transaction m s = (Done code, s') -> code <> 0 ->
  (code < 0 -> lost s s') /\
  (0 <= code -> bad refusing s s' \/ exists s1, ext s s1 /\ (ended s1 s' \/ s1 = s /\ exists l, reach s s' l /\ said_no l)).
Proof.
  intros m s code s' H G. unfold mail_transaction in H.
  apply bind_done in H as (r & s1 & H1 & H). destruct (r =? 0) eqn:Er; cbn [negb] in H.
  2: { apply ret_done in H as [-> ->]. destruct (set_recipients_fails _ _ _ _ H1 G) as [I1 I2]. split; [exact I1|].
       intros N. destruct (I2 N) as [K|K]; [left; exact K|right; exists s; split; [apply ext_refl|right; split; [reflexivity|exact K]]]. }
  assert (X1 := recipients_ext _ _ _ _ H1).
  apply bind_done in H as (h & s2 & H2 & H). destruct (h =? 0) eqn:Eh; cbn [negb] in H.
  2: { apply ret_done in H as [-> ->]. destruct (headers_fails _ _ _ _ H2 G) as [I1 I2]. split; intros N.
       - exact (lost_r _ _ _ X1 (I1 N)).
       - left. exact (bad_r _ _ _ _ closed_refusing X1 (I2 N)). }
  assert (X2 := headers_ext _ _ _ _ H2).
  apply bind_done in H as (b & s3 & H3 & H). destruct (b =? 0) eqn:Eb; cbn [negb] in H.
  2: { apply ret_done in H as [-> ->]. destruct (body_fails _ _ _ _ H3 G) as [I1 I2]. split; intros N.
       - exact (lost_r _ _ _ (ext_trans _ _ _ X1 X2) (I1 N)).
       - right. exists s2. split; [exact (ext_trans _ _ _ X1 X2)|left; exact (I2 N)]. }
  unfold bind at 1, getc in H. apply bind_done in H as (u & s4 & _ & H). apply ret_done in H as [-> _]. congruence.
Qed.

Lemma said_no_closed : forall l, said_no l -> leaves_open l -> False.
Proof.
  intros l S (l1 & line & reply & l2 & -> & _ & A & _). apply Forall_app in S as [_ S]. inversion S as [|? ? [_ K] _]; subst. exact (K A).
Qed.
Lemma connection_not_mail : forall d, connection_line d -> ~ mail_command d.
Proof.
  intros d H [r M]. destruct H as [H|[H|[[q H]|H]]].
  - rewrite H in M. discriminate M.
  - rewrite H in M. discriminate M.
  - rewrite H in M. discriminate M.
  - apply H. rewrite M. vm_compute. tauto.
Qed.
Lemma leaves_open_app : forall a b, Forall connection_line (map fst a) -> leaves_open (a ++ b) -> leaves_open b.
Proof.
  induction a as [|x a IH]; intros b F H; [exact H|]. inversion F as [|? ? F1 F2]; subst. apply IH; [exact F2|].
  destruct H as (l1 & line & reply & l2 & E & M & A & N). destruct l1 as [|y l1]; inversion E; subst.
  - exfalso. exact (connection_not_mail _ F1 M).
  - exists l1, line, reply, l2. auto.
Qed.
Lemma ended_not_open : forall l h, leaves_open (l ++ [(END_line, h)]) -> False.
Proof.
  intros l h (l1 & line & reply & l2 & E & M & A & N). destruct l2 as [|y l2] using rev_ind.
  - apply app_inj_tail in E as [_ E]. inversion E; subst. destruct M as [q M]. discriminate M.
  - rewrite app_comm_cons, app_assoc in E. apply app_inj_tail in E as [_ <-]. apply N. rewrite map_app. apply in_or_app. right. left. reflexivity.
Qed.

Lemma send_either : forall m s code s', sendMail m s = (Done code, s') -> code <> 0 ->
  c_conn (s_c s') = false \/
  exists s1 t1, s_t s1 = s_t s ++ t1 /\ Forall connection_line (map fst (exchanges t1)) /\ mail_transaction m s1 = (Done code, s').
Proof.
  intros m s code s' H G. destruct (c_conn (s_c s)) eqn:C.
  - right. rewrite sendMail_old in H by assumption. unfold bind, updc in H.
    exists (mkSt (set_conn true (s_c s)) (s_e s) (s_t s)), []. rewrite app_nil_r. split; [reflexivity|]. split; [constructor|exact H].
  - rewrite sendMail_new in H by assumption. destruct (establish_conn s C) as [W _]. destruct (any_establish m s C) as [W2 _].
    unfold bind in H. destruct (establish s) as [o s1] eqn:E. cbn [snd] in W, W2.
    destruct (steps_written _ _ _ W) as (t1 & T1 & Hw).
    assert (Cl : Forall connection_line (written t1)).
    { apply Forall_forall. intros d Hd. destruct (Hw d Hd) as [X|[X|[-> _]]]; [exact X|exact X|right; left; reflexivity]. }
    destruct o as [r| | | | |]; try discriminate H.
    unfold finish in H. destruct (r =? 0) eqn:R; cbn [negb] in H.
    + right. unfold bind, updc in H. exists (c_state s1 (set_conn true)), t1. split; [exact T1|]. split; [exact Cl|exact H].
    + left. inversion H; subst. eapply (steps_conn_off (any_but_conn m)); [|exact W2|exact C]. intros [].
Qed.

Lemma send_again : forall m s code s' t, sendMail m s = (Done code, s') -> s_t s' = s_t s ++ t -> standard t -> code <> 0 ->
  c_conn (s_c s') = false \/ (0 < code /\ (~ leaves_open (exchanges t) \/ refused (exchanges t))).
Proof.
  intros m s code s' t H T S G.
  destruct (send_either _ _ _ _ H G) as [L|(s1 & t1 & T1 & Cl & H2)]; [left; exact L|].
  destruct (transaction_quiet _ _ _ _ H2) as (t2 & T2 & Q).
  assert (Et : t = t1 ++ t2) by (rewrite T2, T1, <- app_assoc in T; apply app_inv_head in T; symmetry; exact T).
  destruct (transaction_fails _ _ _ _ H2 G) as [I1 I2].
  destruct (Z.lt_ge_cases code 0) as [N|N].
  - left. destruct (I1 N) as [L|(u & Tu & O)]; [exact L|]. exfalso. rewrite T2 in Tu.
    apply app_inv_head in Tu. subst u. apply (standard_oddneg t S). subst t. apply (proj2 closed_oddneg), O.
  - right. split; [lia|]. rewrite Et, (exchanges_app _ _ _ Q).
    destruct (I2 N) as [(u & Tu & O)|(s2 & [u1 X] & [(l & h & R)|(-> & l & R & Sn)])].
    + right. rewrite T2 in Tu. apply app_inv_head in Tu. subst u. destruct (refusing_refused _ O) as (x & Ix & Kx).
      exists x. split; [apply in_or_app; right; exact Ix|exact Kx].
    + left. intros O. apply leaves_open_app in O; [|exact Cl]. destruct R as (_ & u2 & X2 & K2).
      rewrite X, T2, <- app_assoc in X2. apply app_inv_head in X2.
      rewrite X2, (exchanges_app _ _ _ K2), app_assoc in O. exact (ended_not_open _ _ O).
    + left. intros O. apply leaves_open_app in O; [|exact Cl]. destruct R as (_ & u2 & X2 & K2). rewrite T2 in X2.
      apply app_inv_head in X2. subst u2. rewrite (talk_exchanges _ _ K2) in O. exact (said_no_closed _ Sn O).
Qed.

(** ** A new connection *)
Definition sf {A} (m : M A) : Prop := forall s, exists t, s_t (snd (m s)) = s_t s ++ t /\
  ((t = [] /\ forall a, fst (m s) <> Done a) \/ exists r t', t = EvSocket r :: t').
Lemma initialize_eq : forall s, initializeSession s = initializeSessionPOSIX (fresh_log s).
Proof. reflexivity. Qed.
Lemma sf_initialize : sf initializeSession.
Proof.
  intros s. rewrite initialize_eq. change (s_t s) with (s_t (fresh_log s)). generalize (fresh_log s). clear s. intros s.
  rewrite session_eq. destruct (e_sock (s_e s)) as [|[n|er] l].
  - exists []. rewrite app_nil_r. split; [reflexivity|]. left. split; [reflexivity|]. intros a X. discriminate X.
  - match goal with |- context [session_tail ?s1] => set (q := s1) end.
    destruct (walk_session_tail (fun _ => True) I I I I I q) as [W _]. apply steps_trace in W as [t' T]. rewrite T. cbn [q s_t].
    exists (EvSocket (SkFd n) :: t'). rewrite <- app_assoc. split; [reflexivity|right; eauto].
  - match goal with |- context [bind ?m ?k ?s1] => set (q := s1); assert (G : grows (bind m k)) by (unfold log_errno; gs) end.
    destruct (G q) as [t' T]. rewrite T. cbn [q s_t].
    exists (EvSocket (SkErr er) :: t'). rewrite <- app_assoc. split; [reflexivity|right; eauto].
Qed.
Lemma sf_bind : forall {A C} (m : M A) (k : A -> M C), sf m -> (forall a, grows (k a)) -> sf (bind m k).
Proof.
  intros A C m k H G s. destruct (H s) as (t & T & K). unfold bind. destruct (m s) as [o s1]. cbn [fst snd] in *.
  destruct o as [a| | | | |]; try (exists t; split; [exact T|]; destruct K as [[-> _]|K]; [left; split; [reflexivity|intros ? X; discriminate X]|right; exact K]).
  destruct K as [[_ K]|(r & t' & ->)]; [exfalso; exact (K a eq_refl)|].
  destruct (G a s1) as [t2 T2]. exists (EvSocket r :: t' ++ t2). split; [rewrite T2, T, <- app_assoc; reflexivity|right; eauto].
Qed.
Lemma sf_establish : sf establish.
Proof.
  assert (G := grows_establish). intros s. unfold establish, bind at 1 2, getc.
  destruct (c_kind (s_c s)); unfold establishPlain, establishOpp, establishForced; apply sf_bind; try apply sf_initialize; intros a;
  repeat first [apply grows_auth | apply grows_identify | apply grows_identify_tls | apply grows_greetings | apply grows_greetings_tls |
    apply grows_upgrade | apply grows_starttls | g1].
Qed.
Lemma send_socket : forall m s, c_conn (s_c s) = false -> exists t, s_t (snd (sendMail m s)) = s_t s ++ t /\ new_socket_first t.
Proof.
  intros m s C. assert (K : sf (r <- establish;; if negb (r =? 0) then ret r else updc (set_conn true);; mail_transaction m)).
  { apply sf_bind; [apply sf_establish|]. intros a. destruct (negb (a =? 0)); [apply grows_ret|]. apply grows_bind; [apply grows_updc|]. intros _ q.
    destruct (mail_transaction m q) as [o q'] eqn:E. destruct (transaction_quiet _ _ _ _ E) as (t & T & _). exists t. exact T. }
  unfold sendMail, bind at 1, getc. rewrite C. destruct (K s) as (t & T & [[-> _]|(r & t' & ->)]); (eexists; split; [exact T|]).
  - left. reflexivity.
  - right. eauto.
Qed.

(** ** The world *)
Lemma world_send_again : forall i m w code w' t, step (OSend i m) w = (Done code, w') -> w_trace w' = w_trace w ++ t -> standard t -> code <> 0 ->
  disconnected w' i \/ (0 < code /\ (~ leaves_open (exchanges t) \/ refused (exchanges t))).
Proof.
  intros i m w code w' t H T S G. cbn [step] in H. destruct (get_client w i) as [c|] eqn:Gc.
  2: { unfold run_on in H. rewrite Gc in H. discriminate H. }
  assert (K := run_on_get i (sendMail m) Some w c Gc). rewrite H in K. cbn [snd] in K.
  unfold run_on in H. rewrite Gc in H. destruct (sendMail m (mkSt c (w_env w) (w_trace w))) as [o s'] eqn:E. inversion H; subst. cbn [snd] in K.
  destruct (send_again _ _ _ _ _ E T S G) as [L|L]; [left|right; exact L].
  exists (s_c s'). split; assumption.
Qed.
Lemma world_reconnects : forall i m w x w' t, disconnected w i -> step (OSend i m) w = (x, w') -> w_trace w' = w_trace w ++ t -> new_socket_first t.
Proof.
  intros i m w x w' t (c & Gc & C) H T. cbn [step] in H. unfold run_on in H. rewrite Gc in H.
  destruct (send_socket m (mkSt c (w_env w) (w_trace w)) C) as (t' & T' & K).
  destruct (sendMail m (mkSt c (w_env w) (w_trace w))) as [o s'] eqn:E. inversion H; subst. cbn [snd s_t w_trace] in *.
  rewrite T in T'. apply app_inv_head in T'. subst t'. exact K.
Qed.
Lemma world_lost_again : forall i m m2 w code w1 t x w2 t2,
  step (OSend i m) w = (Done code, w1) -> w_trace w1 = w_trace w ++ t -> standard t -> code < 0 ->
  step (OSend i m2) w1 = (x, w2) -> w_trace w2 = w_trace w1 ++ t2 -> new_socket_first t2.
Proof.
  intros i m m2 w code w1 t x w2 t2 H T S N H2 T2. eapply world_reconnects; [|exact H2|exact T2].
  destruct (world_send_again _ _ _ _ _ _ H T S ltac:(lia)) as [D|[P _]]; [exact D|lia].
Qed.
