(** Proofs about the authentication. *)

From Coq Require Import Ascii String List NArith ZArith Bool Lia ZifyBool ZifyNat ZifyN.
From Verif Require Import Base Lib ModelUtil ModelBase64 ModelAddress ModelAttachment ModelMessage ModelReply ModelErrors ModelState ModelClient ModelWorld
  SpecDialogue SpecReply SpecLife SpecDead SpecAuth ProofSteps ProofWalk ProofPhases ProofEstablish ProofLog ProofSend ProofLife ProofDialogue ProofMail ProofMail2
  ProofCode ProofStage ProofTls ProofWorld ProofReply.
Import ListNotations.
Open Scope Z_scope.

(** ** Pieces *)
Definition yields (t : list event) (l : list str) : Prop := forall rest, pieces None (t ++ rest) = l ++ pieces None rest.
Lemma yields_nil : yields [] [].
Proof. intros rest. reflexivity. Qed.
Lemma yields_app : forall a b l m, yields a l -> yields b m -> yields (a ++ b) (l ++ m).
Proof. intros a b l m H1 H2 rest. rewrite <- !app_assoc, H1, H2. reflexivity. Qed.
Lemma yields_pieces : forall t l, yields t l -> pieces None t = l.
Proof. intros t l H. specialize (H []). rewrite app_nil_r in H. cbn [pieces flush] in H. rewrite app_nil_r in H. exact H. Qed.

Definition only_fcntl (t : list event) : Prop := Forall (fun ev => match ev with EvFcntl _ _ _ => True | _ => False end) t.
Lemma fcntl_yields : forall t, only_fcntl t -> yields t [].
Proof.
  intros t H rest. induction H as [|ev t Hev H IH]; [reflexivity|]. destruct ev; try destruct Hev. cbn [app pieces flush]. exact IH.
Qed.
Lemma fcntl_flush : forall t cur rest, only_fcntl t -> t <> [] -> pieces cur (t ++ rest) = flush cur ++ pieces None rest.
Proof.
  intros t cur rest H N. destruct H as [|ev t Hev H]; [congruence|]. destruct ev; try destruct Hev. cbn [app pieces]. f_equal.
  apply (fcntl_yields t H rest).
Qed.

Lemma sys_fcntl_events : forall m s, exists ev, s_t (snd (sys_fcntl m s)) = s_t s ++ [ev] /\ only_fcntl [ev].
Proof.
  intros m s. unfold sys_fcntl, bind, getc, gete, upde, emit, ret. destruct (e_fcntl (s_e s)); (eexists; split; [reflexivity|repeat constructor]).
Qed.
Lemma log_errno_events : forall e s u s', log_errno e s = (Done u, s') -> s_t s' = s_t s.
Proof.
  intros e s u s' H. unfold log_errno in H. apply bind_done in H as (u1 & s1 & H1 & H). unfold bind, gete in H.
  destruct u. apply logc_core in H as (_ & _ & H & _). inversion H1; subst. exact H.
Qed.
Lemma fcntl_events : forall m s a s', (m = setSocketToNonBlocking \/ m = setSocketToBlocking) ->
  m s = (Done a, s') -> exists t, s_t s' = s_t s ++ t /\ only_fcntl t /\ t <> [].
Proof.
  intros m s a s' Hm H. 
  assert (X : forall md s a s', sys_fcntl md s = (Done a, s') -> exists ev, s_t s' = s_t s ++ [ev] /\ only_fcntl [ev]).
  { intros md q b q' E. destruct (sys_fcntl_events md q) as (ev & T & F). rewrite E in T. eauto. }
  destruct Hm as [-> | ->].
  - unfold setSocketToNonBlocking in H. apply bind_done in H as (g & s1 & H1 & H). apply X in H1 as (e1 & T1 & F1).
    apply bind_done in H as (u & s2 & H2 & H).
    assert (Q2 : s_t s2 = s_t s1) by (destruct g; [eapply log_errno_events; eassumption|apply ret_done in H2 as [_ ->]; reflexivity]).
    apply bind_done in H as (r & s3 & H3 & H). apply X in H3 as (e3 & T3 & F3).
    assert (Q4 : s_t s' = s_t s3).
    { destruct r; [apply bind_done in H as (u' & s4 & H4 & H); apply ret_done in H as [_ ->]; eapply log_errno_events; eassumption|
        apply ret_done in H as [_ ->]; reflexivity]. }
    exists ([e1] ++ [e3]). rewrite Q4, T3, Q2, T1, <- app_assoc. split; [reflexivity|]. split; [apply Forall_app; auto|discriminate].
  - unfold setSocketToBlocking in H. apply bind_done in H as (g & s1 & H1 & H). apply X in H1 as (e1 & T1 & F1).
    destruct g.
    { apply bind_done in H as (u & s2 & H2 & H). apply ret_done in H as [_ ->]. apply log_errno_events in H2.
      exists [e1]. rewrite H2, T1. split; [reflexivity|]. split; [exact F1|discriminate]. }
    apply bind_done in H as (r & s3 & H3 & H). apply X in H3 as (e3 & T3 & F3).
    assert (Q4 : s_t s' = s_t s3).
    { destruct r; [apply bind_done in H as (u' & s4 & H4 & H); apply ret_done in H as [_ ->]; eapply log_errno_events; eassumption|
        apply ret_done in H as [_ ->]; reflexivity]. }
    exists ([e1] ++ [e3]). rewrite Q4, T3, T1, <- app_assoc. split; [reflexivity|]. split; [apply Forall_app; auto|discriminate].
Qed.

Lemma raw_loop_pieces : forall fd tmo rs wait got acc w g full evs rest,
  raw_loop fd tmo wait got acc rs = (Done (w, g, full), evs, rest) -> ~ In NUL acc -> (got = false -> acc = []) ->
  (g = true \/ (tmo <= w)%N) /\ ~ In NUL full /\
  forall more, pieces (if got then Some acc else None) (evs ++ more) = pieces (if g then Some full else None) more.
Proof.
  intros fd tmo rs. induction rs as [|r rs IH]; intros wait got acc w g full evs rest H N A; cbn [raw_loop] in H; [discriminate H|].
  destruct (rbytes r) as [|c0 d0] eqn:R.
  - assert (Q : forall cur more, pieces cur (EvRecv fd r :: more) = pieces cur more).
    { intros cur more. destruct r as [[|c d]|]; [reflexivity| |reflexivity]. discriminate R. }
    destruct (is_err r && got) eqn:E.
    { inversion H; subst. apply andb_true_iff in E as [_ ->]. split; [left; reflexivity|]. split; [exact N|]. intros more. cbn [app]. apply Q. }
    destruct (wait + 1 <? tmo)%N eqn:W.
    + destruct (raw_loop fd tmo (wait + 1) got acc rs) as [[o evs'] rest'] eqn:L. inversion H; subst.
      destruct (IH _ _ _ _ _ _ _ _ L N A) as (I1 & I2 & I3). split; [exact I1|]. split; [exact I2|]. intros more. cbn [app]. rewrite Q.
      cbn [pieces]. apply I3.
    + inversion H; subst. split; [right; lia|]. split; [exact N|]. intros more. cbn [app]. rewrite Q. reflexivity.
  - assert (Q : forall cur more, pieces cur (EvRecv fd r :: more) = pieces (Some (so_far cur ++ cstr (c0 :: d0))) more).
    { intros cur more. destruct r as [[|c d]|er]; [discriminate R| |discriminate R]. unfold rbytes, SERVERRESPONSE_BUFFER_LENGTH in R.
      rewrite <- R. reflexivity. }
    assert (Sf : so_far (if got then Some acc else None) = acc) by (destruct got; [reflexivity|symmetry; apply A; reflexivity]).
    assert (N2 : ~ In NUL (acc ++ cstr (c0 :: d0))).
    { intros I0. apply in_app_or in I0 as [I0|I0]; [exact (N I0)|exact (nul_notin_cstr _ I0)]. }
    destruct (SERVERRESPONSE_BUFFER_LENGTH <=? _)%nat; [discriminate H|].
    destruct (wait <? tmo)%N.
    + destruct (raw_loop fd tmo wait true (acc ++ cstr (c0 :: d0)) rs) as [[o evs'] rest'] eqn:L. inversion H; subst.
      destruct (IH _ _ _ _ _ _ _ _ L N2 ltac:(discriminate)) as (I1 & I2 & I3). split; [exact I1|]. split; [exact I2|]. intros more.
      cbn [app]. rewrite Q, Sf. apply I3.
    + inversion H; subst. split; [left; reflexivity|]. split; [exact N2|]. intros more. cbn [app]. rewrite Q, Sf. reflexivity.
Qed.

Lemma raw_reply_pieces : forall s code s', getRawCommandReply s = (Done code, s') -> code <> -1 ->
  exists t p, s_t s' = s_t s ++ t /\ reads_only t /\ yields t [p] /\ c_resp (s_c s') = Some p.
Proof.
  intros s code s' H N. destruct (raw_reply_trace _ _ _ H) as (_ & t0 & h & T0 & RO & _).
  unfold getRawCommandReply in H.
  apply bind_done in H as (u1 & s1 & H1 & H). apply fcntl_events in H1 as (t1 & T1 & F1 & _); [|left; reflexivity].
  unfold bind at 1 2, getc, gete in H.
  destruct (raw_loop _ _ _ _ _ _) as [[o evs] rest] eqn:E.
  apply bind_done in H as (u2 & s2 & H2 & H). apply bind_done in H as (u3 & s3 & H3 & H).
  apply bind_done in H as (u4 & s4 & H4 & H). destruct o as [[[w g] full]| | | | |]; try discriminate H4.
  inversion H2; subst u2 s2. inversion H3; subst u3 s3. inversion H4; subst u4 s4. clear H2 H3 H4.
  apply raw_loop_pieces in E as (E1 & E2 & E3); [|intros []|reflexivity].
  apply bind_done in H as (u5 & s5 & H5 & H). apply fcntl_events in H5 as (t5 & T5 & F5 & N5); [|right; reflexivity].
  cbn in T5. destruct (_ || _) eqn:W; [|apply ret_done in H as [-> _]; congruence].
  assert (G : g = true) by (destruct E1 as [E1|E1]; [exact E1|destruct g; [reflexivity|lia]]). subst g.
  apply bind_done in H as (u6 & s6 & H6 & H). apply bind_done in H as (u7 & s7 & H7 & H).
  apply ret_done in H as [-> ->]. destruct u7. apply logs_core in H7 as (_ & _ & H7 & H8). inversion H6; subst. clear H6.
  cbn in H7, H8. exists (t1 ++ evs ++ t5), full.
  assert (T : s_t s7 = s_t s ++ t1 ++ evs ++ t5) by (rewrite H7, T5, T1, <- !app_assoc; reflexivity).
  split; [exact T|]. split; [rewrite T in T0; apply app_inv_head in T0; rewrite T0; exact RO|]. split.
  - apply (yields_app t1 (evs ++ t5) [] [full]); [apply fcntl_yields, F1|]. intros more. rewrite <- app_assoc. rewrite E3.
    apply (fcntl_flush t5 (Some full) more F5 N5).
  - rewrite H8. f_equal. apply cstr_nonul, E2.
Qed.

Lemma wait_loop_pieces : forall i rs tmo wait d evs rest, wait_loop (EvRead i) tmo wait rs = (Done (Some d), evs, rest) ->
  d <> [] /\ yields evs [drop_last_byte d].
Proof.
  intros i rs. induction rs as [|r rs IH]; intros tmo wait d evs rest H; cbn [wait_loop] in H; [discriminate H|].
  destruct (rbytes r) as [|c0 d0] eqn:R.
  - assert (Q : forall cur more, pieces cur (EvRead i r :: more) = pieces cur more).
    { intros cur more. destruct r as [[|c x]|]; [reflexivity| |reflexivity]. discriminate R. }
    destruct (wait <? tmo)%N; [|inversion H].
    destruct (wait_loop (EvRead i) tmo (wait + 1) rs) as [[o evs'] rest'] eqn:L. inversion H; subst.
    destruct (IH _ _ _ _ _ L) as [I1 I2]. split; [exact I1|]. intros more. cbn [app]. rewrite Q. cbn [pieces]. apply I2.
  - destruct (wait <? tmo)%N; inversion H; subst. split; [discriminate|]. intros more. cbn [app].
    destruct r as [[|c x]|er]; [discriminate R| |discriminate R]. cbn [pieces flush app].
    unfold rbytes, SERVERRESPONSE_BUFFER_LENGTH in R. rewrite R. f_equal. unfold drop_last_byte.
    f_equal. rewrite removelast_firstn_len. f_equal. lia.
Qed.

Lemma reply_pieces : forall s code s', getServerReply s = (Done code, s') -> code <> -1 ->
  exists t p, s_t s' = s_t s ++ t /\ reads_only t /\ yields t [p] /\ c_resp (s_c s') = Some p.
Proof.
  intros s code s' H N. unfold getServerReply, bind, getc in H.
  assert (T : getServerReplyTLS s = (Done code, s') ->
    exists t p, s_t s' = s_t s ++ t /\ reads_only t /\ yields t [p] /\ c_resp (s_c s') = Some p).
  { clear H. intros H. unfold getServerReplyTLS in H. apply bind_done in H as (r & s1 & H1 & H).
    destruct r as [d|]; [|apply ret_done in H as [-> _]; congruence].
    destruct (wait_bio_trace _ _ _ H1) as (t0 & h & T0 & RO & _).
    unfold wait_bio, bind at 1, getc in H1. destruct (c_bio (s_c s)) as [b|].
    2: { unfold wait_null_bio, bind at 1, getc in H1. apply bind_done in H1 as (v & s2 & _ & H1). apply ret_done in H1 as [H1 _]. discriminate H1. }
    unfold bind at 1, gete in H1. destruct (wait_loop _ _ _ _) as [[o evs] rest] eqn:E.
    apply bind_done in H1 as (u2 & s2 & H2 & H1). apply bind_done in H1 as (u3 & s3 & H3 & H1).
    unfold lift in H1. inversion H1; subst o s1. inversion H2; subst. inversion H3; subst.
    apply wait_loop_pieces in E as [E1 E2]. cbn in T0.
    apply bind_done in H as (u4 & s4 & H4 & H). apply bind_done in H as (u5 & s5 & H5 & H). apply ret_done in H as [-> ->].
    destruct u5. apply logs_core in H5 as (_ & _ & H5 & H6). inversion H4; subst. cbn in H5, H6.
    apply app_inv_head in T0. subst t0.
    exists evs, (drop_last_byte d). split; [exact H5|]. split; [exact RO|]. split; [exact E2|].
    rewrite H6. f_equal. apply cstr_cstr. }
  destruct (c_kind (s_c s)); [exact (raw_reply_pieces _ _ _ H N)|apply T, H|apply T, H].
Qed.

(** ** The answer to EHLO *)
Lemma joined_cons : forall r ps, joined (r :: ps) = r ++ concat (map (fun p => LF :: p) ps).
Proof.
  intros r ps. revert r. induction ps as [|p ps IH]; intros r; [symmetry; apply app_nil_r|].
  change (joined (r :: p :: ps)) with (r ++ [LF] ++ joined (p :: ps)). rewrite IH. reflexivity.
Qed.
Lemma ehlo_loop_pieces : forall fuel tmo o s s', ehlo_loop fuel tmo o s = (Done 250, s') -> tmo <> 250 ->
  exists t ps, s_t s' = s_t s ++ t /\ reads_only t /\ yields t ps /\
    c_auth (s_c s') = extractAuthenticationOptions (Some (o ++ concat (map (fun p => LF :: p) ps))).
Proof.
  intros fuel tmo. induction fuel as [|f IH]; intros o s s' H N; cbn [ehlo_loop] in H; destruct (containsAllOptions o); try discriminate H.
  1,2: apply bind_done in H as (u & s1 & H1 & H); apply ret_done in H as [_ ->]; inversion H1; subst;
    exists [], []; cbn [concat map]; rewrite !app_nil_r; (split; [reflexivity|]); (split; [intros ev []|]); (split; [apply yields_nil|reflexivity]).
  apply bind_done in H as (code & s1 & H1 & H). destruct (Z.eqb_spec code (-1)); [apply ret_done in H as [H _]; congruence|].
  destruct (negb (code =? 250)) eqn:K; [apply ret_done in H as [H _]; lia|].
  apply reply_pieces in H1 as (t1 & p & T1 & R1 & Y1 & P1); [|assumption].
  unfold bind, getc in H. rewrite P1 in H. apply IH in H as (t2 & ps & T2 & R2 & Y2 & A2); [|exact N].
  exists (t1 ++ t2), (p :: ps). split; [rewrite T2, T1, app_assoc; reflexivity|]. split; [apply reads_only_app; assumption|].
  split; [apply (yields_app t1 t2 [p] ps Y1 Y2)|]. rewrite A2. cbn [concat map]. rewrite <- !app_assoc. reflexivity.
Qed.

Lemma raw3_pieces : forall d err tmo s s', sendRaw3 d err tmo s = (Done 250, s') -> err <> 0 -> err <> 250 -> tmo <> 250 ->
  exists ev t p, s_t s' = s_t s ++ ev :: t /\ writes (cstr d) ev /\ reads_only t /\ yields t [p] /\ c_resp (s_c s') = Some p.
Proof.
  intros d err tmo s s' H N E T. unfold sendRaw3 in H. apply bind_done in H as (r & s1 & H1 & H).
  destruct (r =? 0) eqn:R; cbn [negb] in H; [|apply ret_done in H as [H _]; congruence].
  apply Z.eqb_eq in R. subst r. apply sendRaw2_done in H1 as (C1 & ev & T1 & W1); [|exact N].
  apply bind_done in H as (c & s2 & H2 & H). destruct (Z.eqb_spec c (-1)) as [->|Nc]; cbn [negb] in H.
  { apply bind_done in H as (u & s3 & _ & H). apply ret_done in H as [H _]. congruence. }
  apply ret_done in H as [_ ->]. apply raw_reply_pieces in H2 as (t & p & T2 & R2 & Y2 & P2); [|exact Nc].
  exists ev, t, p. split; [rewrite T2, T1, <- app_assoc; reflexivity|]. split; [|auto].
  destruct W1 as [(fd & x & -> & _)|(b & x & -> & _)]; [left|right]; eauto.
Qed.
Lemma feedback_pieces : forall d err tmo s s', sendFeedback d err tmo s = (Done 250, s') -> err <> 0 -> err <> 250 -> tmo <> 250 ->
  exists ev t p, s_t s' = s_t s ++ ev :: t /\ writes (cstr d) ev /\ reads_only t /\ yields t [p] /\ c_resp (s_c s') = Some p.
Proof.
  intros d err tmo s s' H N E T. unfold sendFeedback, bind at 1, getc in H.
  assert (G : sendFeedbackTLS d err tmo s = (Done 250, s') ->
    exists ev t p, s_t s' = s_t s ++ ev :: t /\ writes (cstr d) ev /\ reads_only t /\ yields t [p] /\ c_resp (s_c s') = Some p).
  { clear H. intros H. unfold sendFeedbackTLS, bind at 1, getc in H. destruct (c_bio (s_c s)) as [b|]; [|eapply raw3_pieces; eassumption].
    apply bind_done in H as (r & s1 & H1 & H). apply puts_core in H1 as [C1 T1].
    assert (K : (code <- getServerReply;; if negb (code =? -1) then ret code else cleanup;; ret tmo) s1 = (Done 250, s') ->
      exists ev t p, s_t s' = s_t s ++ ev :: t /\ writes (cstr d) ev /\ reads_only t /\ yields t [p] /\ c_resp (s_c s') = Some p).
    { clear H. intros H. apply bind_done in H as (c & s2 & H2 & H). destruct (Z.eqb_spec c (-1)) as [->|Nc]; cbn [negb] in H.
      { apply bind_done in H as (u & s3 & _ & H). apply ret_done in H as [H _]. congruence. }
      apply ret_done in H as [_ ->]. apply reply_pieces in H2 as (t & p & T2 & R2 & Y2 & P2); [|exact Nc].
      eexists _, t, p. split; [rewrite T2, T1, <- app_assoc; reflexivity|]. split; [right; eauto|auto]. }
    destruct r; [exact (K H)|exact (K H)| |discriminate H].
    apply bind_done in H as (u & s2 & _ & H). apply bind_done in H as (u3 & s3 & _ & H). apply ret_done in H as [H _]. congruence. }
  destruct (c_kind (s_c s)); [eapply raw3_pieces; eassumption|exact (G H)|exact (G H)].
Qed.

(** The EHLO exchange was just made and its answer analysed. *)
Definition greeted (s s' : st) : Prop :=
  exists u e reads, s_t s' = s_t s ++ u ++ e :: reads /\ writes EHLO_line e /\ reads_only reads /\
    c_auth (s_c s') = extractAuthenticationOptions (Some (seen reads)) /\
    forall d, In d (written u) -> d = EHLO_line \/ d = STARTTLS.
Lemma ehlo_pieces : forall err tmo s s', ehlo_with err tmo s = (Done 250, s') -> err <> 0 -> err <> 250 -> tmo <> 250 -> greeted s s'.
Proof.
  intros err tmo s s' H N E T. unfold ehlo_with in H. apply bind_done in H as ([] & s0 & H0 & H). apply logc_core in H0 as (_ & _ & T0 & _).
  apply bind_done in H as (code & s1 & H1 & H). destruct (Z.eqb_spec code 250) as [->|K]; cbn [negb] in H; [|apply ret_done in H as [H _]; congruence].
  apply feedback_pieces in H1 as (ev & t1 & p & T1 & W1 & R1 & Y1 & P1); try assumption.
  unfold bind, getc, gete in H. rewrite P1 in H. apply ehlo_loop_pieces in H as (t2 & ps & T2 & R2 & Y2 & A2); [|exact T].
  exists [], ev, (t1 ++ t2). split; [rewrite T2, T1, T0, <- app_assoc; reflexivity|]. split; [exact W1|]. split; [apply reads_only_app; assumption|].
  split; [|intros d []]. rewrite A2. unfold seen. rewrite (yields_pieces _ _ (yields_app _ _ _ _ Y1 Y2)). cbn [app]. rewrite joined_cons. reflexivity.
Qed.
Lemma identify_pieces : forall s s', sendServerIdentification s = (Done 250, s') -> greeted s s'.
Proof. intros s s' H. eapply ehlo_pieces; [exact H|discriminate|discriminate|discriminate]. Qed.
Lemma greeted_after : forall s s1 s', (exists t, s_t s1 = s_t s ++ t /\ forall d, In d (written t) -> d = EHLO_line \/ d = STARTTLS) ->
  greeted s1 s' -> greeted s s'.
Proof.
  intros s s1 s' (t & T & W) (u & e & reads & E & We & R & A & Wu). exists (t ++ u), e, reads.
  split; [rewrite E, T, <- !app_assoc; reflexivity|]. split; [exact We|]. split; [exact R|]. split; [exact A|].
  intros d H. rewrite written_app in H. apply in_app_or in H as [H|H]; auto.
Qed.
Lemma identify_tls_pieces : forall s s', getServerSecureIdentification s = (Done 250, s') -> greeted s s'.
Proof.
  intros s s' H. unfold getServerSecureIdentification in H. apply bind_done in H as ([] & s0 & H0 & H). apply logc_core in H0 as (_ & _ & T0 & _).
  apply ehlo_pieces in H; try discriminate. eapply greeted_after; [|exact H]. exists []. rewrite app_nil_r. split; [exact T0|intros d []].
Qed.

(** ** The stages before the authentication *)
Definition np {A} (m : M A) : Prop := forall s, fst (m s) <> Undef (UB_NullDeref PAuth).
Lemma np_bind : forall {A C} (m : M A) (k : A -> M C), np m -> (forall a, np (k a)) -> np (bind m k).
Proof. intros A C m k H1 H2 s. unfold bind. specialize (H1 s). destruct (m s) as [[] s1]; try discriminate; [apply H2|]. intros X. apply H1. inversion X. reflexivity. Qed.
Lemma np_getc : forall {C} (k : client -> M C), (forall a, np (k a)) -> np (bind getc k).
Proof. intros C k H s. apply H. Qed.
Lemma np_gete : forall {C} (k : env -> M C), (forall a, np (k a)) -> np (bind gete k).
Proof. intros C k H s. apply H. Qed.
Lemma np_addLog : forall i p, np (addLog i p).
Proof.
  intros i p s. unfold addLog, bind, getc. destruct (c_log (s_c s)); cbv zeta; [|discriminate].
  repeat match goal with |- context [if ?b then _ else _] => destruct b end; discriminate.
Qed.
Lemma np_cleanup_f : forall f, np (cleanup_f f).
Proof.
  induction f as [|f IH]; [discriminate|]. cbn [cleanup_f].
  unfold sendQuit_with, sendCommandPtr_with, sendRaw2_with, sendCommandTLS_with, sys_send, sys_puts, setLastSocketErrNo, free_tls, close_socket, logc.
  repeat first [ apply np_addLog | apply np_getc; intros ? | apply np_gete; intros ? | apply np_bind; [|intros ?] | exact IH
               | match goal with |- np (if ?b then _ else _) => destruct b | |- np (match ?x with _ => _ end) => destruct x end
               | intros ?; discriminate ].
Qed.
Lemma np_cleanup : np cleanup.
Proof. intros s. apply np_cleanup_f. Qed.
Lemma np_lift : forall {A} (o : outcome A), o <> Undef (UB_NullDeref PAuth) -> np (lift o).
Proof. intros A o H s. exact H. Qed.
Ltac n1 :=
  lazymatch goal with
  | |- np cleanup => apply np_cleanup
  | |- np (logc _) => apply np_addLog
  | |- np (logs _) => apply np_addLog
  | |- np (addLog _ _) => apply np_addLog
  | |- np (bind getc _) => apply np_getc; intros ?
  | |- np (bind gete _) => apply np_gete; intros ?
  | |- np (bind _ _) => apply np_bind; [|intros ?]
  | |- np (if ?b then _ else _) => destruct b
  | |- np (match ?x with _ => _ end) => destruct x
  | |- np _ => intros ?; discriminate
  end.
Ltac ns := repeat (n1; cbv zeta).
Lemma np_initialize : np initializeSession.
Proof.
  unfold initializeSession, initializeSessionPOSIX, sys_gethostbyname, sys_connect, wait_connect, setSocketToBlocking, setSocketToNonBlocking, log_errno, sys_fcntl, setLastSocketErrNo.
  ns.
Qed.
Lemma wait_loop_np : forall mk rs tmo w, fst (fst (wait_loop mk tmo w rs)) <> Undef (UB_NullDeref PAuth).
Proof.
  intros mk rs. induction rs as [|r rs IH]; intros tmo w; cbn [wait_loop]; [discriminate|].
  destruct (rbytes r); [|destruct (w <? tmo)%N; discriminate]. destruct (w <? tmo)%N; [|discriminate].
  specialize (IH tmo (w + 1)%N). destruct (wait_loop _ _ _ _) as [[o ?] ?]. exact IH.
Qed.
Lemma raw_loop_np : forall fd rs tmo w g acc, fst (fst (raw_loop fd tmo w g acc rs)) <> Undef (UB_NullDeref PAuth).
Proof.
  intros fd rs. induction rs as [|r rs IH]; intros tmo w g acc; cbn [raw_loop]; [discriminate|].
  destruct (rbytes r).
  - destruct (is_err r && g); [discriminate|]. destruct (w + 1 <? tmo)%N; [|discriminate].
    specialize (IH tmo (w + 1)%N g acc). destruct (raw_loop _ _ _ _ _ _) as [[o ?] ?]. exact IH.
  - destruct (_ <=? _)%nat; [discriminate|]. destruct (w <? tmo)%N; [|discriminate].
    match goal with |- context [raw_loop fd tmo w true ?a rs] => specialize (IH tmo w true a) end. destruct (raw_loop _ _ _ _ _ _) as [[o ?] ?]. exact IH.
Qed.
Lemma np_raw_reply : np getRawCommandReply.
Proof.
  unfold getRawCommandReply. apply np_bind; [unfold setSocketToNonBlocking, log_errno, sys_fcntl, setLastSocketErrNo; ns|intros _].
  apply np_getc; intros c. apply np_gete; intros e. pose proof (raw_loop_np (c_sock c) (e_recv e) (c_timeout c) 0%N false []) as X.
  destruct (raw_loop _ _ _ _ _ _) as [[o ?] ?]. cbn [fst] in X.
  apply np_bind; [ns|intros _]. apply np_bind; [ns|intros _]. apply np_bind; [apply np_lift, X|]. intros [[w g] full].
  apply np_bind; [unfold setSocketToBlocking, log_errno, sys_fcntl, setLastSocketErrNo; ns|intros _]. unfold setLastServerResponse. ns.
Qed.
Lemma np_wait_bio : np wait_bio.
Proof.
  unfold wait_bio. apply np_getc; intros c. destruct (c_bio c) as [b|]; [|unfold wait_null_bio; ns].
  apply np_gete; intros e. pose proof (wait_loop_np (EvRead (bio_id b)) (e_bread e) (c_timeout c) 0%N) as X.
  destruct (wait_loop _ _ _ _) as [[o ?] ?]. cbn [fst] in X.
  apply np_bind; [ns|intros _]. apply np_bind; [ns|intros _]. apply np_lift, X.
Qed.
Lemma np_reply : np getServerReply.
Proof.
  unfold getServerReply. apply np_getc; intros c.
  assert (T : np getServerReplyTLS) by (unfold getServerReplyTLS, setLastServerResponse; apply np_bind; [apply np_wait_bio|]; intros []; ns).
  destruct (c_kind c); [apply np_raw_reply|exact T|exact T].
Qed.
Lemma np_raw3 : forall d err tmo, np (sendRaw3 d err tmo).
Proof.
  intros. unfold sendRaw3, sendRaw2, sendRaw2_with, sys_send, setLastSocketErrNo. ns. apply np_raw_reply.
Qed.
Lemma np_feedback : forall d err tmo, np (sendFeedback d err tmo).
Proof.
  intros. unfold sendFeedback. apply np_getc; intros c.
  assert (T : np (sendFeedbackTLS d err tmo)).
  { unfold sendFeedbackTLS. apply np_getc; intros c0. destruct (c_bio c0); [|apply np_raw3]. unfold sys_puts, setLastSocketErrNo.
    apply np_bind; [ns|]. intros []; try (apply np_bind; [apply np_reply|intros ?]); ns. }
  destruct (c_kind c); [apply np_raw3|exact T|exact T].
Qed.
Lemma np_fb : forall d err tmo, np (sendFeedbackPtr d err tmo).
Proof. intros. unfold sendFeedbackPtr. apply np_getc; intros c. destruct (c_rawptr c); [apply np_raw3|apply np_feedback]. Qed.
Lemma np_ehlo_loop : forall f tmo o, np (ehlo_loop f tmo o).
Proof.
  induction f as [|f IH]; intros tmo o; cbn [ehlo_loop]; destruct (containsAllOptions o); ns; first [apply np_reply|apply IH].
Qed.
Lemma np_ehlo : forall err tmo, np (ehlo_with err tmo).
Proof. intros. unfold ehlo_with. ns; [apply np_feedback|apply np_ehlo_loop]. Qed.
Lemma np_greeting_result : forall r, np (greeting_result r).
Proof. intros r. unfold greeting_result. ns. Qed.
Lemma np_greetings : np checkServerGreetings.
Proof.
  unfold checkServerGreetings. apply np_getc; intros c. apply np_gete; intros e. pose proof (wait_loop_np (EvRecv (c_sock c)) (e_recv e) (c_timeout c) 0%N) as X.
  destruct (wait_loop _ _ _ _) as [[o ?] ?]. cbn [fst] in X.
  apply np_bind; [ns|intros _]. apply np_bind; [ns|intros _]. apply np_bind; [apply np_lift, X|apply np_greeting_result].
Qed.
Lemma np_greetings_tls : np checkServerGreetingsTLS.
Proof. unfold checkServerGreetingsTLS. apply np_bind; [apply np_wait_bio|apply np_greeting_result]. Qed.
Lemma np_identify : np sendServerIdentification.
Proof. apply np_ehlo. Qed.
Lemma np_identify_tls : np getServerSecureIdentification.
Proof. unfold getServerSecureIdentification. apply np_bind; [ns|intros _]. apply np_ehlo. Qed.
Lemma np_starttls : np startTLSNegotiation.
Proof. unfold startTLSNegotiation, fresh_id, setLastSocketErrNo. ns. Qed.
Lemma np_upgrade : np upgradeToSecureConnection.
Proof. unfold upgradeToSecureConnection. apply np_bind; [ns|intros _]. apply np_raw3. Qed.

(** ** What happens before the authentication *)
Definition pre_label (l : label) : Prop :=
  match l with LConn | LNull => False | LSend d | LPuts d => d = EHLO_line | _ => True end.
Lemma pre_base : forall l, base l -> pre_label l.
Proof. intros []; cbn; tauto. Qed.
Lemma pre_written : forall s s', steps pre_label s s' ->
  exists t, s_t s' = s_t s ++ t /\ forall d, In d (written t) -> d = EHLO_line \/ d = STARTTLS.
Proof.
  intros s s' H. destruct (steps_written _ _ _ H) as (t & T & W). exists t. split; [exact T|]. intros d Hd.
  destruct (W d Hd) as [X|[X|[X _]]]; auto.
Qed.
Lemma pre_conn : forall s s', steps pre_label s s' -> c_conn (s_c s) = false -> c_conn (s_c s') = false.
Proof. intros s s' H. apply (steps_conn_off pre_label); [exact (fun x => x)|exact H]. Qed.
Lemma pre_quit : forall s, c_conn (s_c s) = false -> quit_ok pre_label s.
Proof. intros s H E. rewrite H, andb_false_r in E. discriminate E. Qed.

Definition early_codes : list Z :=
  [1; SOCKET_INIT_SESSION_CREATION_ERROR; SOCKET_INIT_SESSION_CONNECT_ERROR; SOCKET_INIT_SESSION_CONNECT_TIMEOUT;
   SOCKET_INIT_SESSION_GETHOSTBYNAME_ERROR; SOCKET_INIT_SESSION_FCNTL_GET_ERROR; SOCKET_INIT_SESSION_FCNTL_SET_ERROR;
   SOCKET_INIT_SESSION_GET_SOCKET_OPTIONS_ERROR; SOCKET_INIT_SESSION_DELAYED_CONNECTION_ERROR;
   SOCKET_INIT_CLIENT_SEND_EHLO_ERROR; SOCKET_INIT_CLIENT_SEND_EHLO_TIMEOUT;
   SOCKET_INIT_CLIENT_SEND_STARTTLS_ERROR; SOCKET_INIT_CLIENT_SEND_STARTTLS_TIMEOUT;
   SSL_CLIENT_STARTTLS_INITSSLCTX_ERROR; SSL_CLIENT_STARTTLS_BIONEWSSLCONNECT_ERROR; SSL_CLIENT_STARTTLS_CTX_SET_DEFAULT_VERIFY_PATHS_ERROR;
   SSL_CLIENT_STARTTLS_BIO_CONNECT_ERROR; SSL_CLIENT_STARTTLS_BIO_HANDSHAKE_ERROR; SSL_CLIENT_STARTTLS_GET_CERTIFICATE_ERROR;
   SSL_CLIENT_STARTTLS_VERIFY_RESULT_ERROR; SSL_CLIENT_INITSECURECLIENT_ERROR; SSL_CLIENT_INITSECURECLIENT_TIMEOUT].
Definition stopped (k : clientkind) (s : st) (x : outcome Z) (s' : st) : Prop :=
  steps pre_label s s' /\ x <> Undef (UB_NullDeref PAuth) /\
  forall r, x = Done r -> In r early_codes \/ bad (spoken r) s s' \/ (r = 0 /\ k = KOpp).

Lemma split_phase : forall k l (m : M Z) c K s0 s x s', steps pre_label s0 s -> walk pre_label m s -> np m -> staged l m ->
  (forall r, In r l -> r <> c -> In r early_codes) ->
  bind m (fun a => if negb (a =? c) then ret a else K) s = (x, s') ->
  stopped k s0 x s' \/ exists s1, m s = (Done c, s1) /\ steps pre_label s0 s1 /\ K s1 = (x, s').
Proof.
  intros k l m c K s0 s x s' S0 [W _] N G L H. unfold bind in H. specialize (N s). destruct (m s) as [o s1] eqn:E. cbn [fst snd] in *.
  assert (S1 : steps pre_label s0 s1) by (eapply steps_trans; eassumption).
  destruct o as [r| | | | |]; try (inversion H; subst; left; split; [exact S1|]; split; [discriminate|intros r' X; discriminate X]).
  - destruct (Z.eqb_spec r c) as [->|Nc]; cbn [negb] in H; [right; eauto|]. unfold ret in H. inversion H; subst x s'. left. split; [exact S1|].
    split; [discriminate|]. intros r' X. inversion X; subst r'. destruct (G _ _ _ E) as [I0|I0]; [left; apply L; assumption|].
    right. left. refine (bad_r _ _ _ _ (closed_spoken r) _ I0). exact (steps_trace _ _ _ S0).
  - inversion H; subst. left. split; [exact S1|]. split; [|intros r' X; discriminate X]. intros X. apply N. inversion X. reflexivity.
Qed.
Lemma split_bind : forall {A} k (m : M A) K s0 s x s', steps pre_label s0 s -> walk pre_label m s -> np m ->
  bind m K s = (x, s') -> stopped k s0 x s' \/ exists a s1, m s = (Done a, s1) /\ steps pre_label s0 s1 /\ K a s1 = (x, s').
Proof.
  intros A k m K s0 s x s' S0 [W _] N H. unfold bind in H. specialize (N s). destruct (m s) as [o s1] eqn:E. cbn [fst snd] in *.
  assert (S1 : steps pre_label s0 s1) by (eapply steps_trans; eassumption).
  destruct o as [r| | | | |]; try (inversion H; subst; left; split; [exact S1|]; split; [discriminate|intros r' X; discriminate X]).
  - right. eauto.
  - inversion H; subst. left. split; [exact S1|]. split; [|intros r' X; discriminate X]. intros X. apply N. inversion X. reflexivity.
Qed.

Lemma establish_split : forall s x s', c_conn (s_c s) = false -> establish s = (x, s') ->
  stopped (c_kind (s_c s)) s x s' \/
  exists s2, steps pre_label s s2 /\ greeted s s2 /\ authenticate_if_needed s2 = (x, s').
Proof.
  intros s x s' C H. unfold establish, bind at 1, getc in H.
  assert (NC : ~ pre_label LConn) by exact (fun x => x).
  assert (I0 : forall q, walk pre_label initializeSession q) by (intros q; apply winitialize; try exact pre_base; exact I).
  assert (G0 : forall q, walk pre_label checkServerGreetings q) by (intros q; apply wgreetings; exact pre_base).
  assert (G1 : forall q, walk pre_label checkServerGreetingsTLS q) by (intros q; apply wgreetings_tls; exact pre_base).
  assert (E0 : forall q, steps pre_label s q -> walk pre_label sendServerIdentification q).
  { intros q Sq. apply wident; try exact pre_base; try exact NC; try exact I; try (intros; reflexivity). apply pre_quit, (pre_conn _ _ Sq C). }
  assert (E1 : forall q, steps pre_label s q -> walk pre_label getServerSecureIdentification q).
  { intros q Sq. apply wsecure_ident; try exact pre_base; try exact NC; try exact I; try (intros; reflexivity). apply pre_quit, (pre_conn _ _ Sq C). }
  assert (T0 : forall q, steps pre_label s q -> walk pre_label startTLSNegotiation q).
  { intros q Sq. apply wtls; try exact pre_base; try exact NC; try exact I. apply pre_quit, (pre_conn _ _ Sq C). }
  assert (L0 : forall i q, walk pre_label (logc i) q) by (intros i q; apply walk_logc; exact I).
  destruct (c_kind (s_c s)) eqn:Ki.
  - unfold establishPlain in H.
    apply (split_phase KPlain _ _ _ _ _ _ _ _ (st_refl _ _) (I0 _) np_initialize staged_initialize) in H; [|cbv; intuition congruence].
    destruct H as [H|(s1 & _ & S1 & H)]; [left; exact H|].
    apply (split_phase KPlain _ _ _ _ _ _ _ _ S1 (G0 _) np_greetings staged_greetings) in H; [|cbv; intuition congruence].
    destruct H as [H|(s2 & _ & S2 & H)]; [left; exact H|].
    apply (split_phase KPlain _ _ _ _ _ _ _ _ S2 (E0 _ S2) np_identify staged_identify) in H; [|cbv; intuition congruence].
    destruct H as [H|(s3 & H3 & S3 & H)]; [left; exact H|].
    right. exists s3. split; [exact S3|]. split; [|exact H]. eapply greeted_after; [apply (pre_written _ _ S2)|]. apply identify_pieces, H3.
  - unfold establishOpp in H.
    apply (split_phase KOpp _ _ _ _ _ _ _ _ (st_refl _ _) (I0 _) np_initialize staged_initialize) in H; [|cbv; intuition congruence].
    destruct H as [H|(s1 & _ & S1 & H)]; [left; exact H|].
    apply (split_phase KOpp _ _ _ _ _ _ _ _ S1 (G0 _) np_greetings staged_greetings) in H; [|cbv; intuition congruence].
    destruct H as [H|(s2 & _ & S2 & H)]; [left; exact H|].
    apply (split_phase KOpp _ _ _ _ _ _ _ _ S2 (E0 _ S2) np_identify staged_identify) in H; [|cbv; intuition congruence].
    destruct H as [H|(s3 & H3 & S3 & H)]; [left; exact H|].
    unfold bind at 1, getc in H.
    assert (W : walk pre_label (lift (isStartTLSSupported (c_resp (s_c s3)))) s3).
    { apply walk_lift. intros u Hu. destruct (starttls_undef _ _ Hu) as [-> [r' Hr]].
      exists r'. split; [assumption|]. rewrite Hr in Hu. exact Hu. }
    apply (split_bind KOpp _ _ _ _ _ _ S3 W) in H.
    2: { apply np_lift. intros X. destruct (starttls_undef _ _ X) as [Y _]. discriminate Y. }
    destruct H as [H|(tls & s3' & H3' & S3' & H)]; [left; exact H|]. 
    assert (Ks : c_kind (s_c s3') = KOpp).
    { pose proof (steps_config _ _ _ S3') as Cf. unfold config in Cf. inversion Cf. congruence. }
    destruct tls.
    + apply (split_bind KOpp _ _ _ _ _ _ S3' (L0 _ _) (np_addLog _ _)) in H.
      destruct H as [H|(u & s4 & H4 & S4 & H)]; [left; exact H|]. destruct u. apply logc_core in H4 as (C4 & _). core_facts C4.
      assert (U : walk pre_label upgradeToSecureConnection s4).
      { apply wupgrade; try exact pre_base; try exact NC; try exact I; [congruence|]. apply pre_quit, (pre_conn _ _ S4 C). }
      apply (split_phase KOpp _ _ _ _ _ _ _ _ S4 U np_upgrade staged_upgrade) in H; [|cbv; intuition congruence].
      destruct H as [H|(s5 & _ & S5 & H)]; [left; exact H|].
      apply (split_phase KOpp _ _ _ _ _ _ _ _ S5 (T0 _ S5) np_starttls staged_starttls) in H; [|cbv; intuition congruence].
      destruct H as [H|(s6 & _ & S6 & H)]; [left; exact H|].
      apply (split_phase KOpp _ _ _ _ _ _ _ _ S6 (E1 _ S6) np_identify_tls staged_identify_tls) in H; [|cbv; intuition congruence].
      destruct H as [H|(s7 & H7 & S7 & H)]; [left; exact H|].
      right. exists s7. split; [exact S7|]. split; [|exact H]. eapply greeted_after; [apply (pre_written _ _ S6)|]. apply identify_tls_pieces, H7.
    + apply (split_bind KOpp _ _ _ _ _ _ S3' (L0 _ _) (np_addLog _ _)) in H.
      destruct H as [H|(u & s4 & _ & S4 & H)]; [left; exact H|]. unfold bind, updc in H. inversion H; subst. left. split.
      { eapply steps_trans; [exact S4|]. eapply steps_one; [apply es_keep|exact I]. }
      split; [discriminate|]. intros r X. inversion X. auto.
  - unfold establishForced in H.
    apply (split_phase KForced _ _ _ _ _ _ _ _ (st_refl _ _) (I0 _) np_initialize staged_initialize) in H; [|cbv; intuition congruence].
    destruct H as [H|(s1 & _ & S1 & H)]; [left; exact H|].
    apply (split_phase KForced _ _ _ _ _ _ _ _ S1 (T0 _ S1) np_starttls staged_starttls) in H; [|cbv; intuition congruence].
    destruct H as [H|(s2 & _ & S2 & H)]; [left; exact H|].
    apply (split_phase KForced _ _ _ _ _ _ _ _ S2 (G1 _) np_greetings_tls staged_greetings_tls) in H; [|cbv; intuition congruence].
    destruct H as [H|(s3 & _ & S3 & H)]; [left; exact H|].
    apply (split_phase KForced _ _ _ _ _ _ _ _ S3 (E1 _ S3) np_identify_tls staged_identify_tls) in H; [|cbv; intuition congruence].
    destruct H as [H|(s4 & H4 & S4 & H)]; [left; exact H|].
    right. exists s4. split; [exact S4|]. split; [|exact H]. eapply greeted_after; [apply (pre_written _ _ S3)|]. apply identify_tls_pieces, H4.
Qed.

(** ** The lines of the authentication *)
Lemma base_silent : forall {A} (m : M A) s, walk base m s -> exists t, s_t (snd (m s)) = s_t s ++ t /\ written t = [].
Proof.
  intros A m s [S _]. destruct (steps_written _ _ _ S) as (t & T & W). exists t. split; [exact T|].
  destruct (written t) as [|d l]; [reflexivity|]. destruct (W d (or_introl eq_refl)) as [X|[X|[_ X]]]; destruct X.
Qed.
Lemma base_quit : forall s, c_conn (s_c s) = false -> quit_ok base s.
Proof. intros s H E. rewrite H, andb_false_r in E. discriminate E. Qed.
Lemma base_conn : ~ base LConn.
Proof. exact (fun x => x). Qed.
Definition one_write {A} (d : str) (m : M A) : Prop := forall s, c_conn (s_c s) = false ->
  exists t, s_t (snd (m s)) = s_t s ++ t /\ written t = [d] /\ c_conn (s_c (snd (m s))) = false.
Lemma one_write_rest : forall {A C} d (m : M A) (k : A -> M C),
  (forall s r s1, m s = (Done r, s1) -> s_c s1 = s_c s /\ exists ev, s_t s1 = s_t s ++ [ev] /\ writes d ev) ->
  (forall s, exists r s1, m s = (Done r, s1)) ->
  (forall r s, c_conn (s_c s) = false -> walk base (k r) s) -> one_write d (bind m k).
Proof.
  intros A C d m k H1 H2 H3 s Cn. destruct (H2 s) as (r & s1 & E). destruct (H1 _ _ _ E) as (E1 & ev & T1 & W). unfold bind. rewrite E.
  assert (C1 : c_conn (s_c s1) = false) by congruence. specialize (H3 r s1 C1). destruct (base_silent _ _ H3) as (t & T & Wt).
  exists ([ev] ++ t). rewrite T, T1, <- app_assoc. split; [reflexivity|]. split; [rewrite written_app, Wt, (written_write d ev W); reflexivity|].
  refine (steps_conn_off base _ _ base_conn (proj1 H3) C1).
Qed.
Lemma raw3_eq : forall d err tmo, forall s, sendRaw3 d err tmo s = bind (sys_send (cstr d)) (fun r =>
  bind (match r with WErr er => setLastSocketErrNo er;; cleanup;; ret err | WSigpipe => killed | _ => ret 0 end)
    (fun r => if negb (r =? 0) then ret err else code <- getRawCommandReply;; if negb (code =? -1) then ret code else cleanup;; ret tmo)) s.
Proof. intros. unfold sendRaw3, sendRaw2, sendRaw2_with. rewrite bind_assoc. reflexivity. Qed.
Lemma wb_bind : forall {A C} (m : M A) (k : A -> M C) s, c_conn (s_c s) = false -> walk base m s ->
  (forall a s1, c_conn (s_c s1) = false -> walk base (k a) s1) -> walk base (bind m k) s.
Proof.
  intros A C m k s Cn W K. apply walk_bind; [exact W|]. intros a s1 _ S. apply K. exact (steps_conn_off base _ _ base_conn S Cn).
Qed.
Lemma wb_cleanup : forall s, c_conn (s_c s) = false -> walk base cleanup s.
Proof. intros s Cn. apply wcleanup; [exact (fun l x => x)|apply base_quit, Cn]. Qed.
Lemma wb_errno : forall e s, walk base (setLastSocketErrNo e) s.
Proof. intros. apply werrno. exact (fun l x => x). Qed.
Lemma wb_after : forall tmo r s, c_conn (s_c s) = false -> walk base (if negb (r =? -1) then ret r else cleanup;; ret tmo) s.
Proof. intros tmo r s Cn. destruct (negb _); [apply walk_ret|]. apply wb_bind; [exact Cn|apply wb_cleanup, Cn|]. intros. apply walk_ret. Qed.
Lemma one_write_raw3 : forall d err tmo, one_write (cstr d) (sendRaw3 d err tmo).
Proof.
  intros d err tmo s Cn. rewrite raw3_eq. revert s Cn. apply one_write_rest.
  - intros s r s1 H. apply send_core in H as [C T]. split; [exact C|]. eexists. split; [exact T|left; eauto].
  - intros s. unfold sys_send, bind, getc, gete, emit, upde, ret. destruct (e_send (s_e s)); eauto.
  - intros r s Cn. apply wb_bind; [exact Cn| |].
    + destruct r; try apply walk_ret; try apply walk_killed. apply wb_bind; [exact Cn|apply wb_errno|]. intros _ s1 C1.
      apply wb_bind; [exact C1|apply wb_cleanup, C1|]. intros. apply walk_ret.
    + intros a s1 C1. destruct (negb _); [apply walk_ret|]. apply wb_bind; [exact C1|apply wraw_reply; exact (fun l x => x)|].
      intros c s2 C2. apply wb_after, C2.
Qed.
Lemma one_write_tls : forall d err tmo, one_write (cstr d) (sendFeedbackTLS d err tmo).
Proof.
  intros d err tmo s Cn. destruct (c_bio (s_c s)) as [b|] eqn:Bs.
  2: { assert (Q : sendFeedbackTLS d err tmo s = sendRaw3 d err tmo s) by (unfold sendFeedbackTLS, bind at 1, getc; rewrite Bs; reflexivity).
       rewrite Q. apply one_write_raw3, Cn. }
  match goal with |- exists t, s_t (snd ?z) = _ /\ _ => assert (Q : z = (r <- sys_puts b (cstr d);;
    match r with
    | WErr er => setLastSocketErrNo er;; cleanup;; ret err
    | WSigpipe => killed
    | _ => code <- getServerReply;; if negb (code =? -1) then ret code else cleanup;; ret tmo
    end) s) by (unfold sendFeedbackTLS, bind at 1, getc; rewrite Bs; reflexivity) end.
  rewrite Q. clear Q Bs. revert s Cn. apply one_write_rest.
  - intros s r s1 H. apply puts_core in H as [C T]. split; [exact C|]. eexists. split; [exact T|right; eauto].
  - intros s. unfold sys_puts, bind, gete, emit, upde, ret. destruct (e_bputs (s_e s)); eauto.
  - intros r s Cn. destruct r; try apply walk_killed.
    3: { apply wb_bind; [exact Cn|apply wb_errno|]. intros _ s1 C1. apply wb_bind; [exact C1|apply wb_cleanup, C1|]. intros. apply walk_ret. }
    all: apply wb_bind; [exact Cn|apply wreply; exact (fun l x => x)|]; intros c s2 C2; apply wb_after, C2.
Qed.
Lemma one_write_fb : forall d err tmo, one_write (cstr d) (sendFeedbackPtr d err tmo).
Proof.
  intros d err tmo s Cn.
  assert (Q : sendFeedbackPtr d err tmo s = if c_rawptr (s_c s) then sendRaw3 d err tmo s else
    match c_kind (s_c s) with KPlain => sendRaw3 d err tmo s | _ => sendFeedbackTLS d err tmo s end)
    by (unfold sendFeedbackPtr, sendFeedback, bind, getc; destruct (c_rawptr (s_c s)), (c_kind (s_c s)); reflexivity).
  rewrite Q. destruct (c_rawptr (s_c s)); [apply one_write_raw3, Cn|].
  destruct (c_kind (s_c s)); [apply one_write_raw3, Cn|apply one_write_tls, Cn|apply one_write_tls, Cn].
Qed.

Definition script (k : mechanism) (cr : credential) : list str :=
  match k with
  | Plain => [plain_command cr]
  | Login => [B "AUTH LOGIN" ++ CRLF; Encode (cr_user cr) ++ CRLF; Encode (cr_pass cr) ++ CRLF]
  | Xoauth2 => [xoauth2_command cr]
  end.
Definition begun {A} (l : list str) (m : M A) : Prop := forall s, c_conn (s_c s) = false ->
  exists t n, s_t (snd (m s)) = s_t s ++ t /\ written t = map cstr (firstn n l) /\ c_conn (s_c (snd (m s))) = false /\
    (forall r, fst (m s) = Done r -> (0 < n)%nat).
Lemma begun_one : forall d err tmo, begun [d] (sendFeedbackPtr d err tmo).
Proof. intros d err tmo s Cn. destruct (one_write_fb d err tmo s Cn) as (t & T & W & C). exists t, 1%nat. split; [exact T|]. split; [exact W|]. split; [exact C|]. lia. Qed.
Lemma begun_more : forall d err tmo l (k : Z -> M Z), (forall a, begun l (k a)) -> begun (d :: l) (bind (sendFeedbackPtr d err tmo) k).
Proof.
  intros d err tmo l k K s Cn. destruct (one_write_fb d err tmo s Cn) as (t & T & W & C). unfold bind.
  destruct (sendFeedbackPtr d err tmo s) as [o s1]. cbn [snd] in *.
  destruct o as [a| | | | |]; try (exists t, 1%nat; (split; [exact T|]); (split; [exact W|]); (split; [exact C|]); intros; lia).
  destruct (K a s1 C) as (t2 & n & T2 & W2 & C2 & _). exists (t ++ t2), (S n). split; [rewrite T2, T, app_assoc; reflexivity|].
  split; [rewrite written_app, W, W2; reflexivity|]. split; [exact C2|]. lia.
Qed.
Lemma begun_any_ret : forall l (r : Z), forall s, c_conn (s_c s) = false -> exists t n, s_t (snd (ret r s)) = s_t s ++ t /\ written t = map cstr (firstn n l) /\ c_conn (s_c (snd (ret r s))) = false.
Proof. intros l r s Cn. exists [], 0%nat. rewrite app_nil_r. auto. Qed.

(** Like [begun] but possibly stopping before the first line. *)
Definition part {A} (l : list str) (m : M A) : Prop := forall s, c_conn (s_c s) = false ->
  exists t n, s_t (snd (m s)) = s_t s ++ t /\ written t = map cstr (firstn n l) /\ c_conn (s_c (snd (m s))) = false.
Lemma part_ret : forall l (r : Z), part l (ret r).
Proof. intros l r. exact (begun_any_ret l r). Qed.
Lemma begun_part : forall {A} l (m : M A), begun l m -> part l m.
Proof. intros A l m H s Cn. destruct (H s Cn) as (t & n & T & W & C & _). eauto. Qed.
Lemma begun_more' : forall d err tmo l (k : Z -> M Z), (forall a, part l (k a)) -> begun (d :: l) (bind (sendFeedbackPtr d err tmo) k).
Proof.
  intros d err tmo l k K s Cn. destruct (one_write_fb d err tmo s Cn) as (t & T & W & C). unfold bind.
  destruct (sendFeedbackPtr d err tmo s) as [o s1]. cbn [snd] in *.
  destruct o as [a| | | | |]; try (exists t, 1%nat; (split; [exact T|]); (split; [exact W|]); (split; [exact C|]); intros; lia).
  destruct (K a s1 C) as (t2 & n & T2 & W2 & C2). exists (t ++ t2), (S n). split; [rewrite T2, T, app_assoc; reflexivity|].
  split; [rewrite written_app, W, W2; reflexivity|]. split; [exact C2|]. lia.
Qed.
Lemma begun_log : forall {A} l i (m : M A), begun l m -> begun l (logc i;; m).
Proof.
  intros A l i m H s Cn. unfold bind. destruct (base_silent (logc i) s (walk_logc base i s I)) as (t & T & W).
  destruct (logc i s) as [o s1] eqn:E. cbn [snd] in *.
  assert (C1 : c_conn (s_c s1) = false).
  { refine (steps_conn_off base s s1 base_conn _ Cn). pose proof (walk_logc base i s I) as [S _]. rewrite E in S. exact S. }
  destruct o as [a| | | | |]; try (exists t, 0%nat; (split; [exact T|]); (split; [exact W|]); (split; [exact C1|]); intros r X; discriminate X).
  destruct (H s1 C1) as (t2 & n & T2 & W2 & C2 & N2). exists (t ++ t2), n. split; [rewrite T2, T, app_assoc; reflexivity|].
  split; [rewrite written_app, W, W2; reflexivity|]. auto.
Qed.
Definition run_mechanism (k : mechanism) (cr : credential) : M Z :=
  match k with Plain => authPlain cr | Login => authLogin cr | Xoauth2 => authXOauth2 cr end.
Lemma begun_mechanism : forall k cr, begun (script k cr) (run_mechanism k cr).
Proof.
  intros [] cr; cbn [run_mechanism script]; apply begun_log; try apply begun_one.
  apply begun_more'. intros a. destruct (negb _); [apply part_ret|]. apply begun_part, begun_more'. intros a2.
  destruct (negb _); [apply part_ret|]. apply begun_part, begun_one.
Qed.

(** The mechanism that is used. *)
Definition offered (o : authopts) (k : mechanism) : bool := match k with Plain => ao_plain o | Login => ao_login o | Xoauth2 => ao_xoauth2 o end.
Definition allowed (r : authmethod) (k : mechanism) : bool :=
  method_ok r (match k with Plain => kPlain | Login => kLogin | Xoauth2 => kXOauth2 end).
Lemma allowed_spec : forall r k, allowed r k = true <-> compatible r k.
Proof. intros [] []; unfold compatible; cbn; split; intros H; try discriminate H; try (destruct H as [H|H]; discriminate H); auto. Qed.
Definition choice (o : authopts) (r : authmethod) : option mechanism :=
  find (fun k => offered o k && allowed r k) [Plain; Login; Xoauth2].
Lemma authenticate_eq : forall s cr o, c_cred (s_c s) = Some cr -> c_auth (s_c s) = Some o ->
  authenticateClient s = match choice o (cr_method cr) with Some k => run_mechanism k cr s | None => (Done CLIENT_AUTHENTICATION_METHOD_NOTSUPPORTED, s) end.
Proof.
  intros s cr o C A. unfold authenticateClient, bind at 1, getc. rewrite C, A. unfold choice, find, offered, allowed.
  destruct (ao_plain o && method_ok (cr_method cr) kPlain); [reflexivity|].
  destruct (ao_login o && method_ok (cr_method cr) kLogin); [reflexivity|].
  destruct (ao_xoauth2 o && method_ok (cr_method cr) kXOauth2); reflexivity.
Qed.

(** What an authentication stage does. *)
Definition attempted (s : st) (x : outcome Z) (s' : st) (t : list event) : Prop :=
  match c_cred (s_c s) with
  | None => t = [] /\ x = Done 0
  | Some cr =>
      match c_auth (s_c s) with
      | None => t = [] /\ x = Undef (UB_NullDeref PAuth)
      | Some o =>
          match choice o (cr_method cr) with
          | None => t = [] /\ x = Done CLIENT_AUTHENTICATION_METHOD_NOTSUPPORTED
          | Some k => exists n, written t = map cstr (firstn n (script k cr)) /\ (forall r, x = Done r -> (0 < n)%nat)
          end
      end
  end.
Lemma authenticate_attempted : forall s x s', c_conn (s_c s) = false -> authenticate_if_needed s = (x, s') ->
  exists t, s_t s' = s_t s ++ t /\ attempted s x s' t /\ c_conn (s_c s') = false.
Proof.
  intros s x s' Cn H. unfold attempted. unfold authenticate_if_needed, bind at 1, getc in H. destruct (c_cred (s_c s)) as [cr|] eqn:C.
  2: { inversion H; subst. exists []. rewrite app_nil_r. auto. }
  destruct (c_auth (s_c s)) as [o|] eqn:A.
  2: { assert (Q : authenticateClient s = (Undef (UB_NullDeref PAuth), s)) by (unfold authenticateClient, bind, getc; rewrite C, A; reflexivity).
       unfold bind in H. rewrite Q in H. inversion H; subst. exists []. rewrite app_nil_r. auto. }
  unfold bind in H. rewrite (authenticate_eq _ _ _ C A) in H. destruct (choice o (cr_method cr)) as [k|].
  2: { inversion H; subst. exists []. rewrite app_nil_r. auto. }
  destruct (begun_mechanism k cr s Cn) as (t & n & T & W & Cs & N). destruct (run_mechanism k cr s) as [y s1]. cbn [fst snd] in *.
  exists t. destruct y as [r| | | | |]; try (inversion H; subst; split; [exact T|]; split; [|exact Cs]; exists n; split; [exact W|]; intros r X; discriminate X).
  assert (s' = s1) by (destruct (negb _) in H; inversion H; reflexivity). subst s'. split; [exact T|]. split; [|exact Cs].
  exists n. split; [exact W|]. intros _ _. exact (N r eq_refl).
Qed.
