(** Opening the session, waiting for a reply, return codes. *)

From Coq Require Import Ascii String List NArith ZArith Bool Lia ZifyBool ZifyNat ZifyN.
From Verif Require Import Base Lib ModelUtil ModelBase64 ModelAddress ModelAttachment
  ModelErrors ModelReply ModelMessage ModelState ModelClient ModelWorld
  ProofSteps ProofWalk ProofPhases ProofEstablish ProofLog ProofSend ProofWorld
  SpecAddress SpecText SpecReply SpecErrors SpecMime SpecDialogue SpecConn ProofReply ProofAddress ProofMime ProofTls
  ProofDialogue ProofMail ProofMail2 ProofMail3 ProofMail4.
Import ListNotations.
Open Scope Z_scope.

(** ** Opening the session (C53) *)

Definition same_env (s s' : st) : Prop := s_e s' = s_e s.
Lemma log_errno_env : forall er s u s', log_errno er s = (Done u, s') -> s_e s' = s_e s.
Proof.
  intros er s u s' H. unfold log_errno in H. apply bind_done in H as (u1 & s1 & H1 & H).
  unfold bind, gete in H. destruct u. apply logc_core in H as (_ & E & _). inversion H1; subst. exact E.
Qed.
Lemma fcntl_env : forall m s a s', sys_fcntl m s = (Done a, s') ->
  a = nth 0 (e_fcntl (s_e s)) None /\ s_e s' = set_fcntl (tl (e_fcntl (s_e s))) (s_e s).
Proof.
  intros m s a s' H. unfold sys_fcntl, bind, getc, gete, upde, emit, ret in H.
  destruct (e_fcntl (s_e s)) as [|r l] eqn:E; inversion H; subst; cbn; split; auto.
  rewrite <- E. destruct (s_e s); reflexivity.
Qed.
Lemma nth_tl : forall {A} n (l : list A) d, nth n (tl l) d = nth (S n) l d.
Proof. intros A n [|a l] d; [destruct n; reflexivity|reflexivity]. Qed.

Lemma nonblocking_env : forall s r s', setSocketToNonBlocking s = (Done r, s') ->
  r = (if succeeded (nth 1 (e_fcntl (s_e s)) None) then 0 else -8) /\
  s_e s' = set_fcntl (tl (tl (e_fcntl (s_e s)))) (s_e s).
Proof.
  intros s r s' H. unfold setSocketToNonBlocking in H. apply bind_done in H as (g & s1 & H1 & H).
  apply fcntl_env in H1 as [-> E1]. apply bind_done in H as (u & s2 & H2 & H).
  assert (E2 : s_e s2 = s_e s1).
  { destruct (nth 0 _ _); [eapply log_errno_env; eassumption|apply ret_done in H2 as [_ ->]; reflexivity]. }
  apply bind_done in H as (g & s3 & H3 & H). apply fcntl_env in H3 as [-> E3].
  rewrite E2, E1 in *. cbn [e_fcntl set_fcntl] in *. rewrite nth_tl in H.
  destruct (nth 1 (e_fcntl (s_e s)) None).
  - apply bind_done in H as (u' & s4 & H4 & H). apply ret_done in H as [-> ->]. apply log_errno_env in H4.
    split; [reflexivity|]. rewrite H4, E3. reflexivity.
  - apply ret_done in H as [-> ->]. split; [reflexivity|]. rewrite E3. reflexivity.
Qed.
Lemma blocking_env : forall s r s', setSocketToBlocking s = (Done r, s') ->
  r = (if succeeded (nth 0 (e_fcntl (s_e s)) None) then if succeeded (nth 1 (e_fcntl (s_e s)) None) then 0 else -8 else -7).
Proof.
  intros s r s' H. unfold setSocketToBlocking in H. apply bind_done in H as (g & s1 & H1 & H).
  apply fcntl_env in H1 as [-> E1]. destruct (nth 0 _ _).
  - apply bind_done in H as (u & s2 & H2 & H). apply ret_done in H as [-> ->]. reflexivity.
  - apply bind_done in H as (g & s3 & H3 & H). apply fcntl_env in H3 as [-> E3]. rewrite E1 in H. cbn [e_fcntl set_fcntl] in H.
    rewrite nth_tl in H. destruct (nth 1 _ _).
    + apply bind_done in H as (u & s2 & H2 & H). apply ret_done in H as [-> ->]. reflexivity.
    + apply ret_done in H as [-> ->]. reflexivity.
Qed.
Lemma wait_connect_code : forall s r s', wait_connect s = (Done r, s') ->
  nth 0 (e_select (s_e s)) SelReady <> SelErr 4 ->
  r = first_failure [ (match nth 0 (e_select (s_e s)) SelReady with SelErr _ => false | _ => true end, -2);
       (match nth 0 (e_select (s_e s)) SelReady with SelTimeout => false | _ => true end, -3);
       (match nth 0 (e_sopt (s_e s)) (SoVal 0) with SoErr _ => false | _ => true end, -9);
       (match nth 0 (e_sopt (s_e s)) (SoVal 0) with SoVal v => v =? 0 | _ => true end, -10) ] /\
  e_fcntl (s_e s') = e_fcntl (s_e s).
Proof.
  intros s r s' H N. unfold wait_connect, bind at 1, getc in H. destruct (FD_SETSIZE <=? c_sock (s_c s)); [discriminate H|].
  apply bind_done in H as (u & s1 & H1 & H). inversion H1; subst u s1. clear H1. unfold bind at 1, gete in H. cbn [s_e] in H.
  apply bind_done in H as (q & s2 & H2 & H).
  assert (Q : q = nth 0 (e_select (s_e s)) SelReady /\ e_sopt (s_e s2) = e_sopt (s_e s) /\ e_fcntl (s_e s2) = e_fcntl (s_e s)).
  { destruct (e_select (s_e s)); [apply ret_done in H2 as [-> ->]; auto|].
    apply bind_done in H2 as (u & s3 & H3 & H2). apply ret_done in H2 as [-> ->]. inversion H3; subst. auto. }
  destruct Q as (Q1 & Q2 & Q3). rewrite <- Q1 in *. destruct q.
  - unfold bind at 1, gete in H. apply bind_done in H as (o & s3 & H3 & H).
    assert (O : o = nth 0 (e_sopt (s_e s)) (SoVal 0) /\ e_fcntl (s_e s3) = e_fcntl (s_e s)).
    { rewrite Q2 in H3. destruct (e_sopt (s_e s)); [apply ret_done in H3 as [-> ->]; auto|].
      apply bind_done in H3 as (u & s4 & H4 & H3). apply ret_done in H3 as [-> ->]. inversion H4; subst. auto. }
    destruct O as [O1 O2]. rewrite <- O1. destruct o.
    + apply bind_done in H as (u & s4 & H4 & H). apply ret_done in H as [-> ->]. apply log_errno_env in H4. rewrite H4. auto.
    + cbn [first_failure]. destruct (v =? 0).
      * apply ret_done in H as [-> ->]. auto.
      * apply bind_done in H as (u & s4 & H4 & H). apply ret_done in H as [-> ->]. apply log_errno_env in H4. rewrite H4. auto.
  - apply ret_done in H as [-> ->]. auto.
  - destruct (errno =? EINTR) eqn:E; [apply Z.eqb_eq in E; subst; contradiction|].
    apply bind_done in H as (u & s4 & H4 & H). apply ret_done in H as [-> ->]. apply log_errno_env in H4. rewrite H4. auto.
Qed.

Lemma session_code : forall s r s', initializeSession s = (Done r, s') -> usual_calls (s_e s) ->
  r = first_failure (session_calls (s_e s)).
Proof.
  intros s r s' H (F0 & F1 & Hs). unfold initializeSession in H. apply bind_done in H as (uu & s0 & H0 & H).
  unfold updc in H0. apply pair_equal_spec in H0 as [_ H0]. assert (E0 : s_e s0 = s_e s) by (subst s0; reflexivity).
  clear H0. unfold initializeSessionPOSIX, bind at 1, gete in H. rewrite E0 in H.
  unfold session_calls, nth_answer in *. destruct (e_sock (s_e s)) as [|[n|er] l] eqn:Sk; [discriminate H| |].
  2:{ apply bind_done in H as (u1 & s1 & H1 & H). apply bind_done in H as (u2 & s2 & H2 & H).
      apply bind_done in H as (u3 & s3 & H3 & H). apply bind_done in H as (u4 & s4 & H4 & H). apply ret_done in H as [-> _]. reflexivity. }
  apply bind_done in H as (u1 & s1 & H1 & H). apply bind_done in H as (u2 & s2 & H2 & H).
  apply bind_done in H as (u3 & s3 & H3 & H). inversion H1; subst u1 s1. inversion H2; subst u2 s2. inversion H3; subst u3 s3.
  clear H1 H2 H3. unfold bind at 1, getc in H. cbn [s_c] in H.
  match type of H with match ?x with _ => _ end _ = _ => destruct x as [name|] end; [|discriminate H].
  apply bind_done in H as (h & s4 & H4 & H).
  assert (Hh : h = nth 0 (e_host (s_e s)) (Some 4) /\ e_fcntl (s_e s4) = e_fcntl (s_e s) /\ e_conn (s_e s4) = e_conn (s_e s) /\
    e_select (s_e s4) = e_select (s_e s) /\ e_sopt (s_e s4) = e_sopt (s_e s)).
  { unfold sys_gethostbyname, bind at 1, gete in H4. cbn [s_e set_esock e_host] in H4. rewrite E0 in H4.
    destruct (e_host (s_e s)).
    - apply bind_done in H4 as (u & s5 & H5 & H4). apply ret_done in H4 as [-> ->]. inversion H5; subst. cbn. rewrite ?E0. auto 6.
    - apply bind_done in H4 as (u & s5 & H5 & H4). apply bind_done in H4 as (u6 & s6 & H6 & H4).
      apply ret_done in H4 as [-> ->]. inversion H5; subst. inversion H6; subst. cbn. rewrite ?E0. auto 6. }
  destruct Hh as (Hh & G1 & G2 & G3 & G4). rewrite <- Hh. cbn [nth app first_failure].
  destruct h as [len|]; [|apply ret_done in H as [-> _]; reflexivity].
  destruct (len <? 0) eqn:L0.
  { apply ret_done in H as [-> _]. replace (0 <=? len) with false by lia. reflexivity. }
  replace (0 <=? len) with true by lia. destruct (4 <? len); [discriminate H|].
  apply bind_done in H as (nb & s5 & H5 & H). apply nonblocking_env in H5 as [-> E5]. rewrite G1 in *. rewrite F0, F1 in *. cbn [succeeded] in *.
  cbn [negb Z.eqb first_failure] in *.
  apply bind_done in H as (u & s6 & H6 & H). destruct u. apply logc_core in H6 as (_ & E6 & _).
  apply bind_done in H as (q & s7 & H7 & H).
  assert (Q : q = nth 0 (e_conn (s_e s)) None /\ e_fcntl (s_e s7) = tl (tl (e_fcntl (s_e s))) /\
    e_select (s_e s7) = e_select (s_e s) /\ e_sopt (s_e s7) = e_sopt (s_e s)).
  { unfold sys_connect, bind at 1 2, getc, gete in H7. rewrite E6, E5 in H7. cbn [e_conn set_fcntl] in H7. rewrite G2 in H7.
    destruct (e_conn (s_e s)).
    - apply bind_done in H7 as (u & s8 & H8 & H7). apply ret_done in H7 as [-> ->]. inversion H8; subst. cbn.
      rewrite E6, E5. cbn. auto.
    - apply bind_done in H7 as (u & s8 & H8 & H7). apply bind_done in H7 as (u9 & s9 & H9 & H7).
      apply ret_done in H7 as [-> ->]. inversion H8; subst. inversion H9; subst. cbn. rewrite E6, E5. cbn. auto. }
  destruct Q as (Q & Q1 & Q2 & Q3). rewrite <- Q. 
  assert (BL : forall s8, e_fcntl (s_e s8) = tl (tl (e_fcntl (s_e s))) -> setSocketToBlocking s8 = (Done r, s') ->
    r = first_failure [(succeeded (nth 2 (e_fcntl (s_e s)) None), -7); (succeeded (nth 3 (e_fcntl (s_e s)) None), -8)]).
  { intros s8 E8 HB. apply blocking_env in HB. rewrite E8 in HB. rewrite !nth_tl in HB. rewrite HB.
    cbn [first_failure].
    destruct (succeeded (nth 2 (e_fcntl (s_e s)) None)); [|reflexivity].
    destruct (succeeded (nth 3 (e_fcntl (s_e s)) None)); reflexivity. }
  destruct q as [er|].
  - cbn [succeeded in_progress orb]. unfold EINPROGRESS in H. destruct (er =? 115) eqn:P.
    + apply bind_done in H as (w & s8 & H8 & H). apply wait_connect_code in H8 as [W1 W2]; [|rewrite Q2; exact Hs].
      rewrite Q2, Q3 in W1. cbn [first_failure] in W1. rewrite Q1 in W2. cbn [app first_failure].
      destruct (w =? 0) eqn:W0.
      * specialize (BL _ W2 H). apply Z.eqb_eq in W0. subst w. cbn [first_failure] in BL.
        destruct (match nth 0 (e_select (s_e s)) SelReady with SelErr _ => false | _ => true end); [|discriminate W0].
        destruct (match nth 0 (e_select (s_e s)) SelReady with SelTimeout => false | _ => true end); [|discriminate W0].
        destruct (match nth 0 (e_sopt (s_e s)) (SoVal 0) with SoErr _ => false | _ => true end); [|discriminate W0].
        destruct (match nth 0 (e_sopt (s_e s)) (SoVal 0) with SoVal v => v =? 0 | _ => true end); [|discriminate W0].
        exact BL.
      * apply ret_done in H as [-> _]. rewrite W1 in W0 |- *.
        destruct (match nth 0 (e_select (s_e s)) SelReady with SelErr _ => false | _ => true end); [|reflexivity].
        destruct (match nth 0 (e_select (s_e s)) SelReady with SelTimeout => false | _ => true end); [|reflexivity].
        destruct (match nth 0 (e_sopt (s_e s)) (SoVal 0) with SoErr _ => false | _ => true end); [|reflexivity].
        destruct (match nth 0 (e_sopt (s_e s)) (SoVal 0) with SoVal v => v =? 0 | _ => true end); [|reflexivity].
        discriminate W0.
    + apply bind_done in H as (u & s8 & H8 & H). apply ret_done in H as [-> _]. reflexivity.
  - cbn [succeeded in_progress orb app first_failure]. specialize (BL _ Q1 H). exact BL.
Qed.

(** ** Waiting for a reply (C39) *)

Lemma slept_app : forall a b, slept (a ++ b) = (slept a + slept b)%N.
Proof.
  induction a as [|ev a IH]; intros b; [reflexivity|]. cbn [app]. unfold slept in *. cbn [fold_right]. rewrite IH. destruct ev; lia.
Qed.
Lemma slept_quiet : forall s s', quiet_trace s s' -> exists t, s_t s' = s_t s ++ t /\ Forall deaf t.
Proof. intros s s' H. exact H. Qed.

Definition one_read (mk : recv_res -> event) : Prop := (exists fd, mk = EvRecv fd) \/ (exists i, mk = EvRead i).
Lemma mk_slept : forall mk r, one_read mk -> forall l, slept (mk r :: l) = slept l.
Proof. intros mk r [[fd ->]|[i ->]] l; reflexivity. Qed.
Lemma mk_delivers : forall mk r, one_read mk -> (delivers (mk r) <-> rbytes r <> []).
Proof. intros mk r [[fd ->]|[i ->]]; destruct r as [[|c d]|e]; cbn; split; intros H; try exact I; try contradiction; try discriminate; apply H; reflexivity. Qed.

Lemma wait_loop_time : forall mk, one_read mk -> forall rs tmo wait o evs rest, wait_loop mk tmo wait rs = (o, evs, rest) -> (wait <= tmo)%N ->
  (slept evs <= tmo - wait)%N /\
  (o = Done None -> slept evs = (tmo - wait)%N) /\
  (forall d, o = Done (Some d) -> (slept evs < tmo - wait)%N /\ exists ev, In ev evs /\ delivers ev) /\
  (forall x, o = Done x -> (exists ev, In ev evs /\ delivers ev) -> (slept evs < tmo - wait)%N -> x <> None).
Proof.
  intros mk M rs. induction rs as [|r rs IH]; intros tmo wait o evs rest H L; cbn [wait_loop] in H.
  { inversion H; subst. cbn. split; [lia|]. repeat split; discriminate. }
  destruct (rbytes r) as [|c0 d0] eqn:R.
  - destruct (wait <? tmo)%N eqn:W.
    + destruct (wait_loop mk tmo (wait + 1) rs) as [[o' evs'] rest'] eqn:E. inversion H; subst. apply IH in E as (E1 & E2 & E3 & E4); [|lia].
      rewrite (mk_slept mk r M). cbn [slept fold_right]. fold (slept evs').
      split; [lia|]. split; [intros X; specialize (E2 X); lia|]. split.
      * intros d X. destruct (E3 d X) as [E5 (ev & I1 & I2)]. split; [lia|]. exists ev. split; [right; right; exact I1|exact I2].
      * intros x X (ev & I1 & I2) Lt. apply (E4 x X); [|lia]. destruct I1 as [<-|[<-|I1]].
        -- apply (mk_delivers mk r M) in I2. congruence.
        -- destruct I2.
        -- eauto.
    + inversion H; subst. rewrite (mk_slept mk r M). cbn. split; [lia|]. split; [intros _; lia|]. split; [discriminate|]. intros x X _ Lt. lia.
  - inversion H; subst. rewrite (mk_slept mk r M). cbn [slept fold_right].
    split; [lia|]. split; [destruct (wait <? tmo)%N eqn:W; intros X; [discriminate X|lia]|]. split.
    + intros d X. destruct (wait <? tmo)%N eqn:W; [|discriminate X]. split; [lia|]. exists (mk r). split; [left; reflexivity|].
      apply (mk_delivers mk r M). rewrite R. discriminate.
    + intros x X _ Lt. replace (wait <? tmo)%N with true in X by lia. inversion X. discriminate.
Qed.

Lemma wait_bio_time : forall s o s', wait_bio s = (o, s') -> exists t, s_t s' = s_t s ++ t /\
  (slept t <= c_timeout (s_c s))%N /\ (o = Done None -> slept t = c_timeout (s_c s)) /\
  (forall d, o = Done (Some d) -> (slept t < c_timeout (s_c s))%N /\ exists ev, In ev t /\ delivers ev) /\
  (forall x, o = Done x -> (exists ev, In ev t /\ delivers ev) -> (slept t < c_timeout (s_c s))%N -> x <> None).
Proof.
  intros s o s' H. unfold wait_bio, bind at 1, getc in H. destruct (c_bio (s_c s)) as [b|].
  - unfold bind at 1, gete in H. destruct (wait_loop _ _ _ _) as [[o1 evs] rest] eqn:E.
    apply wait_loop_time in E; [|right; eexists; reflexivity|lia]. rewrite N.sub_0_r in E.
    unfold bind, upde, emits, lift in H. apply pair_equal_spec in H as [<- <-]. exists evs. split; [reflexivity|exact E].
  - unfold wait_null_bio, bind at 1, getc in H. destruct (0 <? c_timeout (s_c s))%N eqn:T.
    + unfold bind, emit, ret in H. apply pair_equal_spec in H as [<- <-]. exists [EvSleep (c_timeout (s_c s))].
      split; [reflexivity|]. cbn. split; [lia|]. split; [intros _; lia|]. split; [discriminate|].
      intros x _ (ev & [<-|[]] & D). destruct D.
    + unfold bind, ret in H. apply pair_equal_spec in H as [<- <-]. exists []. rewrite app_nil_r. cbn.
      split; [reflexivity|]. split; [lia|]. split; [intros _; lia|]. split; [discriminate|]. intros x _ (ev & [] & _).
Qed.

Lemma raw_loop_time : forall fd tmo rs wait got acc o evs rest, raw_loop fd tmo wait got acc rs = (o, evs, rest) ->
  (slept evs <= N.max 1 (tmo - wait))%N /\
  forall w g full, o = Done (w, g, full) ->
    (g = got || existsb (fun ev => match ev with EvRecv _ (RData (_ :: _)) => true | _ => false end) evs) /\
    (g = false -> slept evs = N.max 1 (tmo - wait) /\ (tmo <= w)%N).
Proof.
  intros fd tmo rs. induction rs as [|r rs IH]; intros wait got acc o evs rest H; cbn [raw_loop] in H.
  { inversion H; subst. cbn. split; [lia|]. discriminate. }
  destruct (rbytes r) as [|c0 d0] eqn:R.
  - assert (Q : match r with RData (_ :: _) => true | _ => false end = false).
    { destruct r as [[|c d]|e]; try reflexivity. discriminate R. }
    destruct (is_err r && got) eqn:EG.
    { inversion H; subst. cbn [slept fold_right existsb]. split; [lia|]. intros w g full X. inversion X; subst. rewrite Q.
      apply andb_prop in EG as [_ ->]. split; [reflexivity|discriminate]. }
    destruct (wait + 1 <? tmo)%N eqn:W.
    + destruct (raw_loop fd tmo (wait + 1) got acc rs) as [[o' evs'] rest'] eqn:E. inversion H; subst. apply IH in E as [E1 E2].
      cbn [slept fold_right existsb]. fold (slept evs'). rewrite Q. split; [lia|]. intros w g full X. destruct (E2 _ _ _ X) as [E3 E4].
      cbn [orb]. split; [exact E3|]. intros Y. specialize (E4 Y). lia.
    + inversion H; subst. cbn [slept fold_right existsb]. rewrite Q. split; [lia|]. intros w g full X. inversion X; subst.
      split; [destruct g; reflexivity|]. lia.
  - assert (Q : match r with RData (_ :: _) => true | _ => false end = true).
    { destruct r as [[|c d]|e]; try discriminate R. reflexivity. }
    destruct (SERVERRESPONSE_BUFFER_LENGTH <=? length (c0 :: d0))%nat.
    { inversion H; subst. cbn. split; [lia|]. discriminate. }
    destruct (wait <? tmo)%N eqn:W.
    + destruct (raw_loop fd tmo wait true (acc ++ cstr (c0 :: d0)) rs) as [[o' evs'] rest'] eqn:E. inversion H; subst. apply IH in E as [E1 E2].
      cbn [slept fold_right existsb]. fold (slept evs'). rewrite Q. split; [lia|]. intros w g full X. destruct (E2 _ _ _ X) as [E3 E4].
      cbn [orb] in *. rewrite orb_true_r. subst g. split; [reflexivity|]. discriminate.
    + inversion H; subst. cbn [slept fold_right existsb]. rewrite Q. split; [lia|]. intros w g full X. inversion X; subst.
      cbn [orb]. rewrite orb_true_r. split; [reflexivity|discriminate].
Qed.

(** The pieces around the loop neither sleep nor read. *)
Definition idle (ev : event) : Prop := match ev with EvFcntl _ _ _ => True | _ => False end.
Definition idles {A} (m : M A) : Prop := forall s, c_timeout (s_c (snd (m s))) = c_timeout (s_c s) /\
  exists t, s_t (snd (m s)) = s_t s ++ t /\ Forall idle t.
Lemma idles_bind : forall {A C} (m : M A) (k : A -> M C), idles m -> (forall a, idles (k a)) -> idles (bind m k).
Proof.
  intros A C m k H K s. destruct (H s) as (E & t & T & F). unfold bind. destruct (m s) as [o s1]. cbn [snd] in *.
  destruct o; try (split; [exact E|exists t; auto]). destruct (K a s1) as (E' & t' & T' & F').
  split; [rewrite E', E; reflexivity|]. exists (t ++ t'). rewrite T', T, app_assoc. split; [reflexivity|]. apply Forall_app. auto.
Qed.
Lemma idles_ret : forall {A} (a : A), idles (ret a).
Proof. intros A a s. split; [reflexivity|]. exists []. rewrite app_nil_r. auto. Qed.
Lemma idles_addLog : forall i p, idles (addLog i p).
Proof.
  intros i p s. destruct (addLog i p s) as [o s'] eqn:E. unfold addLog, bind, getc in E.
  assert (X : s' = s \/ exists l n, s' = mkSt (set_log l n (s_c s)) (s_e s) (s_t s)).
  { destruct (c_log (s_c s)); [|inversion E; subst; auto]. cbv zeta in E.
    repeat match type of E with (if ?b then _ else _) _ = _ => destruct b end; inversion E; subst; eauto. }
  cbn [snd]. destruct X as [-> | (l & n & ->)]; (split; [reflexivity|exists []; rewrite app_nil_r; auto]).
Qed.
Lemma idles_log_errno : forall e, idles (log_errno e).
Proof.
  intros e. unfold log_errno. apply idles_bind; [intros s; split; [reflexivity|exists []; rewrite app_nil_r; auto]|]. intros _.
  intros s. exact (idles_addLog (e_strerror (s_e s) e) (B "c") s).
Qed.
Lemma idles_fcntl : forall m, idles (sys_fcntl m).
Proof.
  intros m s. unfold sys_fcntl, bind, getc, gete, upde, emit, ret.
  destruct (e_fcntl (s_e s)); (split; [reflexivity|]); (eexists; split; [reflexivity|repeat constructor]).
Qed.
Lemma idles_nonblocking : idles setSocketToNonBlocking.
Proof.
  unfold setSocketToNonBlocking. apply idles_bind; [apply idles_fcntl|]. intros g. apply idles_bind; [destruct g; [apply idles_log_errno|apply idles_ret]|].
  intros _. apply idles_bind; [apply idles_fcntl|]. intros [e|]; [apply idles_bind; [apply idles_log_errno|intros _]|]; apply idles_ret.
Qed.
Lemma idles_blocking : idles setSocketToBlocking.
Proof.
  unfold setSocketToBlocking. apply idles_bind; [apply idles_fcntl|]. intros [e|]; [apply idles_bind; [apply idles_log_errno|intros _]; apply idles_ret|].
  apply idles_bind; [apply idles_fcntl|]. intros [e|]; [apply idles_bind; [apply idles_log_errno|intros _]|]; apply idles_ret.
Qed.
Lemma slept_idle : forall t, Forall idle t -> slept t = 0%N /\ (forall ev, In ev t -> ~ delivers ev) /\ (forall h, dialogue (t ++ h) = dialogue h).
Proof.
  intros t H. induction H as [|ev t H _ IH]; [cbn; auto|]. destruct IH as (I1 & I2 & I3). destruct ev; destruct H. cbn.
  split; [exact I1|]. split; [intros ev [<-|X]; [auto|apply I2, X]|exact I3].
Qed.
Definition clear_side (ev : event) : Prop := match ev with EvRead _ _ => False | _ => True end.
Lemma existsb_delivers : forall fd tmo rs wait got acc o evs rest, raw_loop fd tmo wait got acc rs = (o, evs, rest) ->
  (existsb (fun ev => match ev with EvRecv _ (RData (_ :: _)) => true | _ => false end) evs = true <-> exists ev, In ev evs /\ delivers ev).
Proof.
  intros fd tmo rs wait got acc o evs rest H.
  assert (X : forall ev, In ev evs -> delivers ev -> match ev with EvRecv _ (RData (_ :: _)) => true | _ => false end = true).
  { assert (N : forall ev, In ev evs -> clear_side ev).
    { revert wait got acc o evs rest H. induction rs as [|r rs IH]; intros wait got acc o evs rest H; cbn [raw_loop] in H; [inversion H; subst; intros ev []|].
      assert (G : forall l, (forall ev, In ev l -> clear_side ev) ->
        forall ev, In ev (EvRecv fd r :: l) \/ In ev (EvRecv fd r :: EvSleep 1 :: l) -> clear_side ev).
      { intros l Hl ev [[<-|X]|[<-|[<-|X]]]; try exact I; exact (Hl ev X). }
      assert (G0 : forall ev : event, In ev [] -> clear_side ev) by (intros ev []).
      destruct (rbytes r) as [|c0 d0].
      - destruct (is_err r && got); [inversion H; subst; intros ev X; apply (G [] G0 ev); auto|].
        destruct (wait + 1 <? tmo)%N; [|inversion H; subst; intros ev X; apply (G [] G0 ev); auto].
        destruct (raw_loop _ _ _ _ _ _) as [[o' evs'] rest'] eqn:E. assert (E' := IH _ _ _ _ _ _ E). clear E. rename E' into E. inversion H; subst. intros ev X. apply (G evs' E ev). auto.
      - destruct (SERVERRESPONSE_BUFFER_LENGTH <=? length (c0 :: d0))%nat; [inversion H; subst; intros ev X; apply (G [] G0 ev); auto|].
        destruct (wait <? tmo)%N; [|inversion H; subst; intros ev X; apply (G [] G0 ev); auto].
        destruct (raw_loop _ _ _ _ _ _) as [[o' evs'] rest'] eqn:E. assert (E' := IH _ _ _ _ _ _ E). clear E. rename E' into E. inversion H; subst. intros ev X. apply (G evs' E ev). auto. }
    intros ev I1 I2. specialize (N ev I1). destruct ev; try contradiction. destruct r as [[|c d]|e]; try contradiction. reflexivity. }
  rewrite existsb_exists. split.
  - intros (ev & I1 & I2). exists ev. split; [exact I1|]. destruct ev; try discriminate I2. destruct r as [[|c d]|e]; try discriminate I2. exact I.
  - intros (ev & I1 & I2). eauto.
Qed.

Lemma heard_no_nul : forall t, ~ In NUL (fst (dialogue t)).
Proof.
  induction t as [|ev t IH]; [intros []|].
  destruct ev; cbn [dialogue]; try exact IH; try (destruct (dialogue t); cbn; exact (fun x => x));
    (destruct r; [|exact IH]); destruct (dialogue t) as [h l]; cbn [fst] in *; intros X; apply in_app_or in X as [X|X];
    first [exact (IH X) | exact (nul_notin_cstr _ X)].
Qed.

(** One reply on the unencrypted connection. *)
Lemma raw_reply_time : forall s o s', getRawCommandReply s = (o, s') -> exists t, s_t s' = s_t s ++ t /\
  (slept t <= N.max 1 (c_timeout (s_c s)))%N /\
  (forall r, o = Done r -> (forall ev, In ev t -> ~ delivers ev) -> r = -1 /\ slept t = N.max 1 (c_timeout (s_c s))) /\
  (forall r, o = Done r -> (exists ev, In ev t /\ delivers ev) -> r = extractReturnCode (Some (heard t)) /\ c_resp (s_c s') = Some (heard t)).
Proof.
  intros s o s' H. unfold getRawCommandReply in H. unfold bind at 1 in H.
  destruct (idles_nonblocking s) as (E1 & t1 & T1 & F1). destruct (setSocketToNonBlocking s) as [o1 s1]. cbn [snd] in *.
  destruct (slept_idle _ F1) as (Z1 & D1 & H1).
  destruct o1; try (apply pair_equal_spec in H as [<- <-]; exists t1; split; [exact T1|]; split; [lia|]; split; discriminate).
  unfold bind at 1 2, getc, gete in H. destruct (raw_loop _ _ _ _ _ _) as [[o2 evs] rest] eqn:E.
  assert (Ex := existsb_delivers _ _ _ _ _ _ _ _ _ E). assert (Tr := raw_loop_trace (c_sock (s_c s1)) (c_timeout (s_c s1)) (e_recv (s_e s1)) 0 false []).
  assert (Ti := raw_loop_time _ _ _ _ _ _ _ _ _ E). rewrite N.sub_0_r in Ti. rewrite E1 in *. destruct Ti as [Ti1 Ti2].
  unfold bind at 1 2 3, upde, emits, lift in H. cbn [s_c s_e s_t] in H.
  assert (Sl : slept (t1 ++ evs) = slept evs) by (rewrite slept_app, Z1; reflexivity).
  assert (Bad : forall A (x : outcome A), (forall a, x <> Done a) -> o2 <> o2 \/ True) by auto.
  destruct o2 as [[[w g] full]| | | | |];
    try (apply pair_equal_spec in H as [<- <-]; exists (t1 ++ evs); cbn [s_t]; rewrite T1, app_assoc;
         split; [reflexivity|]; rewrite Sl; split; [exact Ti1|]; split; discriminate).
  destruct (Ti2 w g full eq_refl) as [Ti3 Ti4]. clear Ti2. cbn [orb] in Ti3.
  destruct (Tr w g full evs rest E) as [RO Fu]. cbn [app] in Fu.
  match type of H with (bind _ _ ?x) = _ => set (s2 := x) in H end.
  unfold bind at 1 in H. destruct (idles_blocking s2) as (E3 & t3 & T3 & F3). destruct (setSocketToBlocking s2) as [o3 s3]. cbn [snd] in *.
  destruct (slept_idle _ F3) as (Z3 & D3 & H3).
  assert (T : s_t s3 = s_t s ++ t1 ++ evs ++ t3) by (rewrite T3; subst s2; cbn [s_t]; rewrite T1, <- !app_assoc; reflexivity).
  assert (Sl3 : slept (t1 ++ evs ++ t3) = slept evs) by (rewrite !slept_app, Z1, Z3; lia).
  destruct o3; try (apply pair_equal_spec in H as [<- <-]; exists (t1 ++ evs ++ t3); split; [exact T|]; rewrite Sl3; split; [exact Ti1|]; split; discriminate).
  assert (He : heard (t1 ++ evs ++ t3) = full).
  { unfold heard. rewrite H1. destruct (dialogue_reads evs t3 RO) as [-> _]. rewrite <- (app_nil_r t3), H3. cbn. rewrite app_nil_r. symmetry. exact Fu. }
  assert (De : (exists ev, In ev (t1 ++ evs ++ t3) /\ delivers ev) <-> g = true).
  { rewrite Ti3, Ex. split; intros (ev & I1 & I2).
    - apply in_app_or in I1 as [I1|I1]; [exfalso; exact (D1 _ I1 I2)|]. apply in_app_or in I1 as [I1|I1]; [eauto|exfalso; exact (D3 _ I1 I2)].
    - exists ev. split; [apply in_or_app; right; apply in_or_app; left; exact I1|exact I2]. }
  destruct g.
  - rewrite orb_true_r in H. unfold bind at 1, setLastServerResponse, updc in H. cbn [s_c s_e s_t] in H.
    unfold bind in H. unfold logs in H.
    match type of H with context [addLog ?i ?p ?x] => assert (A := idles_addLog i p x); destruct (addLog i p x) as [o4 s4] eqn:L end.
    destruct A as (_ & t4 & T4 & F4). cbn [snd s_t] in T4. destruct (slept_idle _ F4) as (Z4 & _ & _).
    assert (X : exists u, o4 = Done u \/ forall r, o <> Done r) by (exists tt; destruct o4 as [[]| | | | |]; [left; reflexivity|right..]; apply pair_equal_spec in H as [<- _]; discriminate).
    assert (T4' : s_t s4 = s_t s ++ t1 ++ evs ++ t3 ++ t4) by (rewrite T4, T, <- !app_assoc; reflexivity).
    destruct X as [u [-> | X]].
    + unfold ret in H. apply pair_equal_spec in H as [<- <-]. destruct u. apply addLog_core in L as (_ & _ & L1 & L2). cbn in L1, L2.
      exists (t1 ++ evs ++ t3). rewrite Sl3, He. split; [rewrite L1; exact T|]. split; [exact Ti1|]. split.
      * intros r Hr Nd. exfalso. destruct (proj2 De eq_refl) as (ev & I1 & I2). exact (Nd ev I1 I2).
      * intros r Hr _. inversion Hr; subst r. split; [reflexivity|]. rewrite L2. f_equal. 
        assert (NN : ~ In NUL full). { rewrite Fu. apply heard_no_nul. }
        apply cstr_nonul. exact NN.
    + assert (s' = s4) by (destruct o4; [exfalso; apply pair_equal_spec in H as [H _]; exact (X _ (eq_sym H))|apply pair_equal_spec in H as [_ <-]; reflexivity..]).
      subst s'. exists (t1 ++ evs ++ t3 ++ t4). split; [exact T4'|]. rewrite !slept_app, Z1, Z3, Z4. split; [lia|].
      split; intros r Hr; exfalso; exact (X r Hr).
  - rewrite orb_false_r in H. destruct (Ti4 eq_refl) as [Ti5 Ti6]. 
    replace (w <? c_timeout (s_c s))%N with false in H by lia. unfold ret in H. apply pair_equal_spec in H as [<- <-].
    exists (t1 ++ evs ++ t3). rewrite Sl3. split; [exact T|]. split; [exact Ti1|]. split.
    + intros r Hr _. inversion Hr; subst. auto.
    + intros r _ De'. apply De in De'. discriminate De'.
Qed.
