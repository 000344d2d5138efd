(** The mode of a socket during an operation. *)

From Coq Require Import Ascii String List NArith ZArith Bool Lia.
From Verif Require Import Base ModelUtil ModelBase64 ModelAddress ModelAttachment
  ModelErrors ModelReply ModelMessage ModelState ModelClient ModelWorld ModelWin SpecMode ProofSteps ProofEstablish ProofTls.
Import ListNotations.
Open Scope Z_scope.

(** ** A machine that checks the calls of one operation *)

(** The descriptor of the client, its mode, whether something was written in
    this operation, whether the client had a connection or made a socket, and
    whether the descriptor comes from a socket made in this operation. *)
Record mst := mkMst { cur : Z; pol : bool; wrote : bool; ready : bool; made : bool }.
Definition when {A} (b : bool) (a : A) : option A := if b then Some a else None.
Definition mstep (a : mst) (ev : event) : option mst :=
  match ev with
  | EvSocket (SkFd n) => when (negb (pol a)) (mkMst (Z.of_N n) false (wrote a) true true)
  | EvSocket (SkErr _) => when (negb (pol a)) (mkMst (-1) false (wrote a) false false)
  | EvFcntl fd (Some b) true => when ((fd =? cur a) && xorb b (pol a) && ready a && (negb b || wrote a || made a)) (mkMst (cur a) b (wrote a) (ready a) (made a))
  | EvSend fd _ _ => when ((fd =? cur a) && negb (pol a) && ready a) (mkMst (cur a) false true (ready a) (made a))
  | EvPuts _ _ _ => when (negb (pol a)) (mkMst (cur a) false true (ready a) (made a))
  | EvRead _ _ | EvHandshake _ _ => when (negb (pol a)) a
  | EvRecv fd _ => when ((fd =? cur a) && eqb (pol a) (wrote a)) a
  | EvClose fd => when ((fd =? cur a) && negb (pol a)) (mkMst 0 false (wrote a) (ready a) false)
  | _ => Some a
  end.
Fixpoint mrun (a : mst) (t : list event) : option mst :=
  match t with [] => Some a | ev :: r => match mstep a ev with Some b => mrun b r | None => None end end.
Lemma mrun_app t1 : forall a t2, mrun a (t1 ++ t2) = match mrun a t1 with Some b => mrun b t2 | None => None end.
Proof. induction t1 as [|ev t1 IH]; intros a t2; cbn; [reflexivity|]. destruct (mstep a ev); [apply IH|reflexivity]. Qed.

(** ** Functions *)

Definition is_done {A} (o : outcome A) : bool := match o with Done _ => true | _ => false end.
Definition goes {A} (o : outcome A) : bool := match o with Done _ | Throw => true | _ => false end.
Definition fit (s : st) (a : mst) : Prop := cur a = c_sock (s_c s) /\ pol a = false /\ ready a = true.
Definition obeys {A} (need gives : bool) (m : M A) : Prop := forall s, exists t, s_t (snd (m s)) = s_t s ++ t /\
  forall a, Forall switched t -> fit s a -> (need = true -> wrote a = true) -> exists a', mrun a t = Some a' /\
    (goes (fst (m s)) = true -> fit (snd (m s)) a') /\
    (is_done (fst (m s)) = true -> wrote a = true \/ gives = true -> wrote a' = true).

Lemma ob_same {A} n (m : M A) : (forall s, s_t (snd (m s)) = s_t s /\ c_sock (s_c (snd (m s))) = c_sock (s_c s)) -> obeys n false m.
Proof.
  intros H s. destruct (H s) as [H1 H2]. exists []. rewrite app_nil_r. split; [exact H1|]. intros a _ (F1 & F2 & F3) _. exists a. split; [reflexivity|].
  split; [unfold fit; now rewrite H2|]. intros _ [W|W]; [exact W|discriminate].
Qed.
Lemma ob_stop {A} n g (m : M A) : (forall s, s_t (snd (m s)) = s_t s /\ goes (fst (m s)) = false) -> obeys n g m.
Proof.
  intros H s. destruct (H s) as [H1 H2]. exists []. rewrite app_nil_r. split; [exact H1|]. intros a _ _ _. exists a. split; [reflexivity|].
  destruct (fst (m s)); try discriminate H2; split; discriminate.
Qed.
Lemma ob_bind {A C} n g1 g (m : M A) (k : A -> M C) : obeys n g1 m -> (forall a, obeys (n || g1) g (k a)) -> obeys n (g1 || g) (bind m k).
Proof.
  intros H K s. destruct (H s) as (t1 & E1 & X1). unfold bind. destruct (m s) as [o s1]. cbn [fst snd] in *.
  destruct o as [x| | | | |]; try (exists t1; split; [exact E1|]; intros a S F N; destruct (X1 a S F N) as (a' & R & D & _); exists a'; split; [exact R|split; [exact D|discriminate]]).
  destruct (K x s1) as (t2 & E2 & X2). exists (t1 ++ t2). split; [now rewrite E2, E1, app_assoc|]. intros a S F N. apply Forall_app in S as [S1 S2].
  destruct (X1 a S1 F N) as (a1 & R1 & D1 & W1). specialize (D1 eq_refl). specialize (W1 eq_refl).
  destruct (X2 a1 S2 D1) as (a2 & R2 & D2 & W2). { rewrite orb_true_iff. intros [Q|Q]; auto. }
  exists a2. split; [now rewrite mrun_app, R1|]. split; [exact D2|]. intros Q. specialize (W2 Q). rewrite orb_true_iff. intuition.
Qed.
Lemma ob_weak {A} n g n' g' (m : M A) : obeys n g m -> (n = true -> n' = true) -> (g' = true -> g = true) -> obeys n' g' m.
Proof.
  intros H N G s. destruct (H s) as (t & E & X). exists t. split; [exact E|]. intros a S F W. destruct (X a S F) as (a' & R & D & W'); [auto|].
  exists a'. split; [exact R|]. split; [exact D|]. intuition.
Qed.
(** The usual case: nothing needed, nothing promised. *)
Lemma ob_seq {A C} n (m : M A) (k : A -> M C) : obeys n false m -> (forall a, obeys n false (k a)) -> obeys n false (bind m k).
Proof. intros H K. apply (ob_bind n false false); [exact H|]. intros a. rewrite orb_false_r. apply K. Qed.
(** After a write. *)
Lemma ob_then {A C} n g (m : M A) (k : A -> M C) : obeys n true m -> (forall a, obeys true false (k a)) -> obeys n g (bind m k).
Proof.
  intros H K. apply (ob_weak n true); [|auto|auto]. change true with (true || false) at 1. apply ob_bind; [exact H|]. intros a. rewrite orb_true_r. apply K.
Qed.
(** Before a write. *)
Lemma ob_before {A C} n (m : M A) (k : A -> M C) : obeys n false m -> (forall a, obeys n true (k a)) -> obeys n true (bind m k).
Proof. intros H K. apply (ob_bind n false true); [exact H|]. intros a. rewrite orb_false_r. apply K. Qed.
Lemma ob_emit n g (ev : event) : (forall s a, fit s a -> (n = true -> wrote a = true) -> exists a', mstep a ev = Some a' /\ fit s a' /\ (wrote a = true \/ g = true -> wrote a' = true)) ->
  obeys n g (emit ev).
Proof.
  intros H s. exists [ev]. split; [reflexivity|]. intros a _ F N. destruct (H s a F N) as (a' & R & F' & W). exists a'. cbn [mrun]. rewrite R. auto.
Qed.
Lemma ob_emits n (l : list event) : (forall s a, fit s a -> (n = true -> wrote a = true) -> Forall (fun ev => mstep a ev = Some a) l) -> obeys n false (emits l).
Proof.
  intros H s. exists l. split; [reflexivity|]. intros a _ F N. exists a. specialize (H s a F N). split.
  - clear -H. induction H as [|ev l E _ IH]; cbn; [reflexivity|]. now rewrite E.
  - split; [intros _; exact F|]. intros _ [W|W]; [exact W|discriminate].
Qed.
Lemma ob_lift {A} n (o : outcome A) : obeys n false (lift o).
Proof. apply ob_same. split; reflexivity. Qed.
Lemma ob_addLog n i p : obeys n false (addLog i p).
Proof.
  unfold addLog. apply ob_seq; [apply ob_same; split; reflexivity|]. intros c. destruct (c_log c) as [lg|]; [|apply ob_stop; split; reflexivity].
  cbv zeta. match goal with |- context[if ?b then lift _ else _] => destruct b end; [apply ob_lift|].
  match goal with |- context[if ?b then updc _ else _] => destruct b end; [apply ob_same; split; reflexivity|apply ob_stop; split; reflexivity].
Qed.

(** ** System calls *)

Lemma ob_send n d : obeys n true (sys_send d).
Proof.
  intros [c e t0]. unfold sys_send, bind, getc, gete, upde, emit, ret. cbn [s_c s_e s_t fst snd].
  destruct (e_send e) as [|r l]; cbn [fst snd s_t s_c s_e];
    (eexists; split; [reflexivity|]; intros [cu po wr re ma] _ (F1 & F2 & F3) _; cbn in F1, F2, F3; subst;
     eexists; cbn [mrun mstep cur pol wrote ready negb]; rewrite Z.eqb_refl; cbn; split; [reflexivity|]; split; [intros _; unfold fit; cbn; auto|auto]).
Qed.
Lemma ob_puts n b d : obeys n true (sys_puts b d).
Proof.
  intros [c e t0]. unfold sys_puts, bind, getc, gete, upde, emit, ret. cbn [s_c s_e s_t fst snd].
  destruct (e_bputs e) as [|r l]; cbn [fst snd s_t s_c s_e];
    (eexists; split; [reflexivity|]; intros [cu po wr re ma] _ (F1 & F2 & F3) _; cbn in F1, F2, F3; subst;
     eexists; cbn [mrun mstep cur pol wrote ready negb when]; split; [reflexivity|]; split; [intros _; unfold fit; cbn; auto|auto]).
Qed.
Lemma ob_close n : obeys n false close_socket.
Proof.
  intros [c e t0]. unfold close_socket, bind, getc, updc, emit, ret. cbn [s_c s_e s_t fst snd].
  destruct (c_sock c =? 0) eqn:Q; cbn [fst snd s_t s_c s_e].
  - exists []. rewrite app_nil_r. split; [reflexivity|]. intros a _ (F1 & F2 & F3) _. exists a. split; [reflexivity|]. apply Z.eqb_eq in Q. split; [|intros _ [W|W]; [exact W|discriminate]].
    intros _. unfold fit. cbn in *. rewrite F1, Q. destruct c; auto.
  - eexists; split; [reflexivity|]; intros [cu po wr re ma] _ (F1 & F2 & F3) _; cbn in F1, F2, F3; subst.
    eexists; cbn [mrun mstep cur pol wrote ready negb]; rewrite Z.eqb_refl; cbn; split; [reflexivity|]; split; [intros _; unfold fit; cbn; auto|].
    intros _ [W|W]; [exact W|discriminate].
Qed.
Lemma wait_events mk n rs : forall w o evs rest, wait_loop mk n w rs = (o, evs, rest) -> Forall (fun ev => (exists r, ev = mk r) \/ ev = EvSleep 1) evs.
Proof.
  induction rs as [|r rs IH]; intros w o evs rest E; cbn in E; [injection E as <- <- <-; constructor|].
  destruct (rbytes r).
  - destruct (w <? n)%N; [|injection E as <- <- <-; constructor; [left; now exists r|constructor]].
    destruct (wait_loop mk n (w + 1)%N rs) as [[o1 e1] r1] eqn:L. injection E as <- <- <-.
    constructor; [left; now exists r|]. constructor; [now right|]. eapply IH; eauto.
  - injection E as <- <- <-. constructor; [left; now exists r|constructor].
Qed.
Lemma raw_events fd n rs : forall w g a o evs rest, raw_loop fd n w g a rs = (o, evs, rest) -> Forall (fun ev => (exists r, ev = EvRecv fd r) \/ ev = EvSleep 1) evs.
Proof.
  induction rs as [|r rs IH]; intros w g a o evs rest E; cbn [raw_loop] in E; [injection E as <- <- <-; constructor|].
  destruct (rbytes r) as [|b d].
  - destruct (is_err r && g); [injection E as <- <- <-; constructor; [left; now exists r|constructor]|].
    destruct (w + 1 <? n)%N.
    + destruct (raw_loop fd n (w + 1)%N g a rs) as [[o1 e1] r1] eqn:L. injection E as <- <- <-.
      constructor; [left; now exists r|]. constructor; [now right|]. eapply IH; eauto.
    + injection E as <- <- <-. constructor; [left; now exists r|]. constructor; [now right|constructor].
  - destruct (_ <=? _)%nat; [injection E as <- <- <-; constructor; [left; now exists r|constructor]|].
    destruct (w <? n)%N; [|injection E as <- <- <-; constructor; [left; now exists r|constructor]].
    destruct (raw_loop fd n w true (a ++ cstr (b :: d)) rs) as [[o1 e1] r1] eqn:L. injection E as <- <- <-.
    constructor; [left; now exists r|]. eapply IH; eauto.
Qed.
Lemma mrun_same a l : Forall (fun ev => mstep a ev = Some a) l -> mrun a l = Some a.
Proof. induction 1 as [|ev l E _ IH]; cbn; [reflexivity|]. now rewrite E. Qed.

Ltac walk := repeat match goal with
  | |- obeys _ false (bind _ _) => apply ob_seq; [|intros ?]
  | |- obeys _ _ (addLog _ _) => apply ob_addLog
  | |- obeys _ _ (logc _) => apply ob_addLog
  | |- obeys _ _ (logs _) => apply ob_addLog
  | |- obeys _ _ getc => apply ob_same; split; reflexivity
  | |- obeys _ _ gete => apply ob_same; split; reflexivity
  | |- obeys _ _ (ret _) => apply ob_same; split; reflexivity
  | |- obeys _ _ (lift _) => apply ob_lift
  | |- obeys _ _ (updc _) => apply ob_same; split; reflexivity
  | |- obeys _ _ (upde _) => apply ob_same; split; reflexivity
  | |- obeys _ _ (setLastSocketErrNo _) => apply ob_same; split; reflexivity
  | |- obeys _ _ (setLastServerResponse _) => apply ob_same; split; reflexivity
  | |- obeys _ _ (fail_ub _) => apply ob_stop; split; reflexivity
  | |- obeys _ _ blocked => apply ob_stop; split; reflexivity
  | |- obeys _ _ killed => apply ob_stop; split; reflexivity
  | |- obeys _ _ diverge => apply ob_stop; split; reflexivity
  | |- obeys _ _ (match ?x with _ => _ end) => destruct x
  | |- obeys _ _ (let _ := _ in _) => cbv zeta
  | H : obeys ?n ?g ?m |- obeys ?n ?g ?m => exact H
  end.
Lemma ob_log_errno n er : obeys n false (log_errno er). Proof. unfold log_errno. walk. Qed.
Lemma ob_greeting n r : obeys n false (greeting_result r). Proof. unfold greeting_result. walk. Qed.

(** The greeting: it comes before anything is written. *)
Definition obeys0 {A} (m : M A) : Prop := forall s, exists t, s_t (snd (m s)) = s_t s ++ t /\
  forall a, Forall switched t -> fit s a -> wrote a = false -> exists a', mrun a t = Some a' /\
    (goes (fst (m s)) = true -> fit (snd (m s)) a').
Lemma ob0_bind {A C} (m : M A) (k : A -> M C) : obeys0 m -> (forall a, obeys false false (k a)) -> obeys0 (bind m k).
Proof.
  intros H K s. destruct (H s) as (t1 & E1 & X1). unfold bind. destruct (m s) as [o s1]. cbn [fst snd] in *.
  destruct o as [x| | | | |]; try (exists t1; split; [exact E1|]; intros a S F N; destruct (X1 a S F N) as (a' & R & D); exists a'; split; [exact R|exact D]).
  destruct (K x s1) as (t2 & E2 & X2). exists (t1 ++ t2). split; [now rewrite E2, E1, app_assoc|]. intros a S F N. apply Forall_app in S as [S1 S2].
  destruct (X1 a S1 F N) as (a1 & R1 & D1). specialize (D1 eq_refl).
  destruct (X2 a1 S2 D1) as (a2 & R2 & D2 & _); [discriminate|]. exists a2. split; [now rewrite mrun_app, R1|exact D2].
Qed.
Lemma greetings_eq c e t0 o evs rest : wait_loop (EvRecv (c_sock c)) (c_timeout c) 0 (e_recv e) = (o, evs, rest) ->
  checkServerGreetings (mkSt c e t0) = bind (lift o) greeting_result (mkSt c (set_recv rest e) (t0 ++ evs)).
Proof. intros L. unfold checkServerGreetings, bind at 1 2, getc, gete. cbn [s_c s_e s_t]. now rewrite L. Qed.
Lemma ob0_greetings : obeys0 checkServerGreetings.
Proof.
  intros [c e t0]. destruct (wait_loop (EvRecv (c_sock c)) (c_timeout c) 0 (e_recv e)) as [[o evs] rest] eqn:L. rewrite (greetings_eq _ _ _ _ _ _ L).
  pose proof (ob_seq false (lift o) greeting_result (ob_lift false o) (ob_greeting false) (mkSt c (set_recv rest e) (t0 ++ evs))) as (t & E & X).
  exists (evs ++ t). split; [rewrite E; cbn [s_t]; now rewrite app_assoc|]. intros a S F W. apply Forall_app in S as [_ S].
  assert (R : mrun a evs = Some a).
  { apply mrun_same. eapply Forall_impl; [|eapply wait_events, L]. intros ev [[r ->]| ->]; [|reflexivity]. cbn. destruct F as (F1 & F2 & F3).
    cbn in F1. rewrite F1, F2, W. cbn. now rewrite Z.eqb_refl. }
  destruct (X a S F) as (a' & R' & D & _); [discriminate|]. exists a'. split; [now rewrite mrun_app, R|exact D].
Qed.

(** The switches. *)
Definition turned (b : bool) (a : mst) : mst := mkMst (cur a) b (wrote a) (ready a) (made a).
Lemma fcntl_eq mode s : exists e t r, sys_fcntl mode s = (Done r, mkSt (s_c s) e (s_t s ++ t)) /\
  t = [EvFcntl (c_sock (s_c s)) mode (match r with None => true | Some _ => false end)].
Proof.
  destruct s as [c e t]. unfold sys_fcntl, bind, getc, gete. cbn [s_c s_e s_t]. destruct (e_fcntl e) as [|r l]; unfold emit, ret, upde; cbn; eexists _, _, _; split; reflexivity.
Qed.
Definition switches (b : bool) (m : M Z) : Prop := forall s, exists t, s_t (snd (m s)) = s_t s ++ t /\
  (Forall switched t -> fst (m s) = Done 0 /\ s_c (snd (m s)) = s_c s /\
     forall a, cur a = c_sock (s_c s) -> pol a = negb b -> ready a = true -> (b = true -> wrote a = true \/ made a = true) -> mrun a t = Some (turned b a)).
Lemma trace_of {A} n g (m : M A) s : obeys n g m -> exists t, s_t (snd (m s)) = s_t s ++ t.
Proof. intros H. destruct (H s) as (t & E & _). now exists t. Qed.
Lemma ob_err er (r : Z) : obeys false false (log_errno er;; ret r).
Proof. apply ob_seq; [apply ob_log_errno|]. intros ?. walk. Qed.
Lemma sw_non : switches true setSocketToNonBlocking.
Proof.
  intros s. destruct (setSocketToNonBlocking s) as [O S'] eqn:EM. cbn [fst snd]. unfold setSocketToNonBlocking in EM.
  destruct (fcntl_eq None s) as (e1 & t1 & r1 & E1 & T1). unfold bind at 1 in EM. rewrite E1 in EM.
  set (s1 := mkSt (s_c s) e1 (s_t s ++ t1)) in *.
  assert (H : exists o s2 t2, (match r1 with Some er => log_errno er | None => ret tt end) s1 = (o, s2) /\ s_t s2 = s_t s1 ++ t2 /\
    (r1 = None -> o = Done tt /\ s2 = s1 /\ t2 = [])).
  { destruct r1 as [er|].
    - destruct (trace_of false false _ s1 (ob_log_errno false er)) as (t2 & E2). destruct (log_errno er s1) as [o s2]. exists o, s2, t2. split; [reflexivity|]. split; [exact E2|discriminate].
    - exists (Done tt), s1, []. rewrite app_nil_r. auto. }
  destruct H as (o & s2 & t2 & E2 & T2 & H2). unfold bind at 1 in EM. rewrite E2 in EM.
  destruct o as [[]| | | | |];
    try (injection EM as <- <-; exists (t1 ++ t2); split; [rewrite T2; unfold s1; cbn [s_t]; now rewrite app_assoc|]; intros S; exfalso; subst t1; inversion S as [|? ? Q _]; subst; destruct r1; [discriminate Q|]; destruct (H2 eq_refl) as [Q2 _]; discriminate Q2).
  destruct (fcntl_eq (Some true) s2) as (e3 & t3 & r3 & E3 & T3). unfold bind at 1 in EM. rewrite E3 in EM. set (s3 := mkSt (s_c s2) e3 (s_t s2 ++ t3)) in *.
  destruct r3 as [er|].
  - destruct (trace_of false false _ s3 (ob_err er SOCKET_INIT_SESSION_FCNTL_SET_ERROR)) as (t4 & E4). rewrite EM in E4. cbn [snd] in E4.
    exists (t1 ++ t2 ++ t3 ++ t4). split; [rewrite E4; unfold s3; cbn [s_t]; rewrite T2; unfold s1; cbn [s_t]; now rewrite <- !app_assoc|].
    intros S. exfalso. apply Forall_app in S as [_ S]. apply Forall_app in S as [_ S]. apply Forall_app in S as [S _]. subst t3. inversion S as [|? ? Q _]. discriminate Q.
  - injection EM as <- <-. exists (t1 ++ t2 ++ t3). split; [unfold s3; cbn; rewrite T2; unfold s1; cbn [s_t]; now rewrite <- !app_assoc|].
    intros S. apply Forall_app in S as [S1 _]. subst t1 t3. inversion S1 as [|? ? Q _]. destruct r1 as [er|]; [discriminate Q|].
    destruct (H2 eq_refl) as (_ & -> & ->). split; [reflexivity|]. split; [reflexivity|]. intros a A1 A2 A3 A4. cbn. rewrite A1, A2, A3, Z.eqb_refl. cbn. unfold turned. rewrite A1, A3. destruct (A4 eq_refl) as [->| ->]; [reflexivity|]. now rewrite orb_true_r.
Qed.
Lemma sw_block : switches false setSocketToBlocking.
Proof.
  intros s. destruct (setSocketToBlocking s) as [O S'] eqn:EM. cbn [fst snd]. unfold setSocketToBlocking in EM.
  destruct (fcntl_eq None s) as (e1 & t1 & r1 & E1 & T1). unfold bind at 1 in EM. rewrite E1 in EM.
  set (s1 := mkSt (s_c s) e1 (s_t s ++ t1)) in *. destruct r1 as [er|].
  - destruct (trace_of false false _ s1 (ob_err er SOCKET_INIT_SESSION_FCNTL_GET_ERROR)) as (t4 & E4). rewrite EM in E4. cbn [snd] in E4.
    exists (t1 ++ t4). split; [rewrite E4; unfold s1; cbn [s_t]; now rewrite <- !app_assoc|].
    intros S. exfalso. apply Forall_app in S as [S _]. subst t1. inversion S as [|? ? Q _]. discriminate Q.
  - destruct (fcntl_eq (Some false) s1) as (e3 & t3 & r3 & E3 & T3). unfold bind at 1 in EM. rewrite E3 in EM. set (s3 := mkSt (s_c s1) e3 (s_t s1 ++ t3)) in *. destruct r3 as [er|].
    + destruct (trace_of false false _ s3 (ob_err er SOCKET_INIT_SESSION_FCNTL_SET_ERROR)) as (t4 & E4). rewrite EM in E4. cbn [snd] in E4.
      exists (t1 ++ t3 ++ t4). split; [rewrite E4; unfold s3, s1; cbn [s_t]; now rewrite <- !app_assoc|].
      intros S. exfalso. apply Forall_app in S as [_ S]. apply Forall_app in S as [S _]. subst t3. inversion S as [|? ? Q _]. discriminate Q.
    + injection EM as <- <-. exists (t1 ++ t3). split; [unfold s3, s1; cbn; now rewrite <- !app_assoc|]. intros _. split; [reflexivity|]. split; [reflexivity|].
      intros a A1 A2 A3 _. subst t1 t3. cbn. rewrite A1, A2, A3, Z.eqb_refl. cbn. unfold turned. now rewrite A1, A3.
Qed.

(** A reply in clear. *)
Lemma ob_raw_reply : obeys true false getRawCommandReply.
Proof.
  intros s. destruct (getRawCommandReply s) as [O S'] eqn:EM. cbn [fst snd]. unfold getRawCommandReply in EM. unfold bind at 1 in EM.
  destruct (sw_non s) as (t1 & T1 & X1). destruct (setSocketToNonBlocking s) as [o1 s1]. cbn [fst snd] in T1, X1.
  destruct o1 as [r1| | | | |];
    try (injection EM as <- <-; exists t1; split; [exact T1|]; intros a S F N; exfalso; destruct (X1 S) as [Q _]; discriminate Q).
  unfold bind at 1 2, getc, gete in EM. destruct (raw_loop (c_sock (s_c s1)) (c_timeout (s_c s1)) 0 false [] (e_recv (s_e s1))) as [[o evs] rest] eqn:L.
  set (s2 := mkSt (s_c s1) (set_recv rest (s_e s1)) (s_t s1 ++ evs)).
  set (k := fun w : N * bool * str => let '(wait, got, full) := w in setSocketToBlocking;;
     (if (wait <? c_timeout (s_c s1))%N || got then setLastServerResponse full;; logs full;; ret (extractReturnCode (Some full)) else ret (-1))).
  assert (EQ : (upde (set_recv rest);; emits evs;; w <- lift o;; k w) s1 = bind (lift o) k s2) by reflexivity.
  change (upde (set_recv rest);; emits evs;; w <- lift o;; (let '(wait, got, full) := w in setSocketToBlocking;;
     (if (wait <? c_timeout (s_c s1))%N || got then setLastServerResponse full;; logs full;; ret (extractReturnCode (Some full)) else ret (-1))))
    with (upde (set_recv rest);; emits evs;; w <- lift o;; k w) in EM. rewrite EQ in EM. clear EQ.
  assert (R : forall a, Forall switched t1 -> fit s a -> wrote a = true -> mrun a (t1 ++ evs) = Some (turned true a)).
  { intros a S1 (F1 & F2 & F3) W. destruct (X1 S1) as (_ & C1 & Y1). rewrite mrun_app, (Y1 a F1 F2 F3) by auto. apply mrun_same.
    eapply Forall_impl; [|eapply raw_events, L]. intros ev [[r ->]| ->]; [|reflexivity]. cbn. rewrite F1, C1, W, Z.eqb_refl. reflexivity. }
  destruct o as [[[wait got] full]| | | | |]; unfold bind at 1, lift in EM;
    try (injection EM as <- <-; exists (t1 ++ evs); split; [unfold s2; cbn [s_t]; rewrite T1; now rewrite app_assoc|]; intros a S F N; apply Forall_app in S as [S1 _];
         eexists; split; [apply R; auto|]; split; discriminate).
  2: { exfalso. clear -L. revert L. generalize (e_recv (s_e s1)) 0%N false ([] : str) evs rest. intros rs. induction rs as [|r rs IH]; intros w g a ev re L; cbn [raw_loop] in L; [discriminate|].
       destruct (rbytes r) as [|b d].
       - destruct (is_err r && g); [discriminate|]. destruct (w + 1 <? c_timeout (s_c s1))%N; [|discriminate].
         destruct (raw_loop _ _ (w + 1)%N g a rs) as [[o1 e1] r2] eqn:Q. injection L as -> <- <-. eapply IH, Q.
       - destruct (_ <=? _)%nat; [discriminate|]. destruct (w <? c_timeout (s_c s1))%N; [|discriminate].
         destruct (raw_loop _ _ w true _ rs) as [[o1 e1] r2] eqn:Q. injection L as -> <- <-. eapply IH, Q. }
  unfold k in EM. unfold bind at 1 in EM. destruct (sw_block s2) as (t3 & T3 & X3). destruct (setSocketToBlocking s2) as [o3 s3]. cbn [fst snd] in T3, X3.
  assert (T3' : s_t s3 = s_t s ++ t1 ++ evs ++ t3) by (rewrite T3; unfold s2; cbn [s_t]; rewrite T1; now rewrite <- !app_assoc).
  destruct o3 as [r3| | | | |];
    try (injection EM as <- <-; exists (t1 ++ evs ++ t3); split; [exact T3'|]; intros a S F N; exfalso; apply Forall_app in S as [_ S]; apply Forall_app in S as [_ S]; destruct (X3 S) as [Q _]; discriminate Q).
  match type of EM with (if ?b then _ else _) s3 = _ => set (last := if b then setLastServerResponse full;; logs full;; ret (extractReturnCode (Some full)) else ret (-1)) end.
  assert (OL : obeys true false last) by (unfold last; walk). destruct (OL s3) as (t4 & T4 & X4). change (last s3 = (O, S')) in EM. rewrite EM in T4, X4. cbn [fst snd] in T4, X4.
  exists (t1 ++ evs ++ t3 ++ t4). split; [rewrite T4, T3'; now rewrite <- !app_assoc|]. intros a S F N.
  apply Forall_app in S as [S1 S]. apply Forall_app in S as [_ S]. apply Forall_app in S as [S3 S4].
  destruct (X3 S3) as (_ & C3 & Y3). destruct (X1 S1) as (_ & C1 & _).
  assert (F' : fit s3 a). { destruct F as (F1 & F2 & F3). unfold fit. rewrite C3. unfold s2. cbn [s_c]. rewrite C1. auto. }
  destruct (X4 a S4 F' N) as (a' & R4 & D4). exists a'. split; [|exact D4].
  rewrite (app_assoc t1 evs), mrun_app, (R a S1 F (N eq_refl)), mrun_app. destruct F as (F1 & F2 & F3).
  rewrite Y3; [|cbn; rewrite C1; exact F1|reflexivity|exact F3|discriminate]. destruct a as [cu po wr re ma]. cbn in F2. subst po. exact R4.
Qed.

(** ** The session *)

Lemma ob_null n : obeys n false wait_null_bio.
Proof.
  unfold wait_null_bio. apply ob_seq; [walk|]. intros c. apply ob_seq; [|intros; walk]. destruct (0 <? c_timeout c)%N; [|walk].
  apply ob_emit. intros s a F _. exists a. split; [reflexivity|]. split; [exact F|]. intros [W|W]; [exact W|discriminate].
Qed.
Lemma ob_bio n : obeys n false wait_bio.
Proof.
  unfold wait_bio. apply ob_seq; [walk|]. intros c. destruct (c_bio c) as [b|]; [|apply ob_null]. apply ob_seq; [walk|]. intros e.
  destruct (wait_loop (EvRead (bio_id b)) (c_timeout c) 0 (e_bread e)) as [[o evs] rest] eqn:L. apply ob_seq; [walk|]. intros _. apply ob_seq; [|intros; walk].
  apply ob_emits. intros s a (_ & F & _) _. eapply Forall_impl; [|eapply wait_events, L]. intros ev [[r ->]| ->]; [|reflexivity]. cbn. now rewrite F.
Qed.
Lemma ob_greetingsTLS n : obeys n false checkServerGreetingsTLS.
Proof. unfold checkServerGreetingsTLS. apply ob_seq; [apply ob_bio|]. intros r. apply ob_greeting. Qed.
Lemma ob_replyTLS n : obeys n false getServerReplyTLS.
Proof. unfold getServerReplyTLS. apply ob_seq; [apply ob_bio|]. intros r. walk. Qed.
Lemma ob_reply : obeys true false getServerReply.
Proof.
  unfold getServerReply. apply ob_seq; [walk|]. intros c. destruct (c_kind c); [apply ob_raw_reply|apply ob_replyTLS|apply ob_replyTLS].
Qed.

Lemma ob_any {A} n (m : M A) : obeys false false m -> obeys n false m.
Proof. intros H. eapply ob_weak; [exact H|discriminate|discriminate]. Qed.
Lemma ob_quiet n ev : (forall a, mstep a ev = Some a) -> obeys n false (emit ev).
Proof. intros H. apply ob_emit. intros s a F _. exists a. rewrite H. split; [reflexivity|]. split; [exact F|]. intros [W|W]; [exact W|discriminate]. Qed.
Lemma ob_raw2 n cl cmd err : obeys false false cl -> obeys n true (sendRaw2_with cl cmd err).
Proof.
  intros H. unfold sendRaw2_with. apply ob_then; [apply ob_send|]. intros r. pose proof (ob_any true _ H). destruct r; walk.
Qed.
Lemma ob_commandTLS cl cmd err : obeys false false cl -> obeys false false (sendCommandTLS_with cl cmd err).
Proof.
  intros H. unfold sendCommandTLS_with. apply ob_seq; [walk|]. intros c. destruct (c_bio c) as [b|]; [|walk].
  apply ob_then; [apply ob_puts|]. intros r. pose proof (ob_any true _ H). destruct r; walk.
Qed.
Lemma ob_ptr cl cmd err : obeys false false cl -> obeys false false (sendCommandPtr_with cl cmd err).
Proof.
  intros H. unfold sendCommandPtr_with. apply ob_seq; [walk|]. intros c.
  assert (R : obeys false false (sendRaw2_with cl cmd err)) by (eapply ob_weak; [apply (ob_raw2 false), H|discriminate|discriminate]).
  destruct (c_rawptr c); [exact R|]. destruct (c_kind c); [exact R| |]; apply ob_commandTLS, H.
Qed.
Lemma ob_quit cl : obeys false false cl -> obeys false false (sendQuit_with cl).
Proof. intros H. unfold sendQuit_with. apply ob_seq; [walk|]. intros _. apply ob_ptr, H. Qed.
Lemma ob_free n : obeys n false free_tls.
Proof.
  unfold free_tls. apply ob_seq; [walk|]. intros c. apply ob_seq; [destruct (c_ctx c); [apply ob_quiet; reflexivity|walk]|]. intros _. apply ob_seq; [walk|]. intros _.
  apply ob_seq; [destruct (c_bio c); [apply ob_quiet; reflexivity|walk]|]. intros _. walk.
Qed.
Lemma ob_cleanup_f n : obeys false false (cleanup_f n).
Proof.
  induction n as [|n IH]; cbn [cleanup_f]; [walk|]. apply ob_seq; [walk|]. intros c. apply ob_seq.
  { destruct (c_batch c && c_conn c); [|walk]. apply ob_seq; [apply ob_quit, IH|]. intros; walk. }
  intros _. apply ob_seq; [walk|]. intros _. apply ob_seq; [destruct (c_kind c); [walk|apply ob_free|apply ob_free]|]. intros _. apply ob_close.
Qed.
Lemma ob_cleanup : obeys false false cleanup.
Proof. intros s. apply (ob_cleanup_f (cleanup_fuel (s_e s)) s). Qed.
Lemma ob_cleanup' n : obeys n false cleanup. Proof. apply ob_any, ob_cleanup. Qed.
Lemma ob_raw3 n cmd err tm : obeys n true (sendRaw3 cmd err tm).
Proof.
  unfold sendRaw3. apply ob_then; [apply ob_raw2, ob_cleanup|]. intros r. destruct (negb (r =? 0)); [walk|].
  apply ob_seq; [apply ob_raw_reply|]. intros code. destruct (negb (code =? -1)); [walk|]. apply ob_seq; [apply ob_cleanup'|]. intros; walk.
Qed.
Lemma ob_feed n cmd err tm : obeys n true (sendFeedback cmd err tm).
Proof.
  unfold sendFeedback. apply ob_before; [walk|]. intros c. destruct (c_kind c); [apply ob_raw3| |];
  (unfold sendFeedbackTLS; apply ob_before; [walk|]; intros c'; destruct (c_bio c') as [b|]; [|apply ob_raw3];
   apply ob_then; [apply ob_puts|]; intros r; pose proof (ob_cleanup' true); pose proof ob_reply; destruct r; walk).
Qed.
Lemma ob_feedptr n cmd err tm : obeys n true (sendFeedbackPtr cmd err tm).
Proof. unfold sendFeedbackPtr. apply ob_before; [walk|]. intros c. destruct (c_rawptr c); [apply ob_raw3|apply ob_feed]. Qed.
Lemma ob_fp cmd err tm : obeys false false (sendFeedbackPtr cmd err tm).
Proof. eapply ob_weak; [apply (ob_feedptr false)|auto|auto]. Qed.
Lemma ob_cptr cmd err : obeys false false (sendCommandPtr cmd err).
Proof. apply ob_ptr, ob_cleanup. Qed.

Lemma ob_ehlo_loop n : forall tc o, obeys true false (ehlo_loop n tc o).
Proof.
  induction n as [|n IH]; intros tc o; cbn [ehlo_loop]; (destruct (containsAllOptions o); [walk|]); [walk|].
  apply ob_seq; [apply ob_reply|]. intros code. destruct (code =? -1); [walk|]. destruct (negb (code =? 250)); [walk|].
  apply ob_seq; [walk|]. intros c. destruct (c_resp c); [apply IH|walk].
Qed.
Lemma ob_ehlo err tm : obeys false false (ehlo_with err tm).
Proof.
  unfold ehlo_with. apply ob_seq; [walk|]. intros _. apply ob_then; [apply ob_feed|]. intros code. destruct (negb (code =? 250)); [walk|].
  apply ob_seq; [walk|]. intros c. destruct (c_resp c); [|walk]. apply ob_seq; [walk|]. intros e. apply ob_ehlo_loop.
Qed.
Ltac sess := repeat match goal with
  | |- obeys _ _ (sendFeedbackPtr _ _ _) => apply ob_fp
  | |- obeys _ _ (sendCommandPtr _ _) => apply ob_cptr
  | |- obeys _ _ (ehlo_with _ _) => apply ob_ehlo
  | |- obeys _ _ (sendRaw3 _ _ _) => eapply ob_weak; [apply (ob_raw3 false)|auto|auto]
  | |- obeys _ _ sendQuitCommand => apply ob_quit, ob_cleanup
  | |- obeys _ _ cleanup => apply ob_cleanup
  | |- obeys _ _ checkServerGreetingsTLS => apply ob_greetingsTLS
  | |- obeys _ _ (emit (EvFcntl _ _ _)) => fail 1
  | |- obeys _ _ (emit (EvHandshake _ _)) => apply ob_emit; let F := fresh "F" in intros ? ? F _; eexists; cbn [mstep]; rewrite (proj1 (proj2 F)); cbn [negb when]; split; [reflexivity|]; split; [exact F|]; intros [?|?]; [assumption|discriminate]
  | |- obeys _ _ (emit _) => apply ob_quiet; reflexivity
  | |- _ => progress walk
  end.
Lemma ob_auth : obeys false false authenticate_if_needed.
Proof. unfold authenticate_if_needed, authenticateClient, authPlain, authLogin, authXOauth2. sess. Qed.
Lemma ob_tls : obeys false false startTLSNegotiation.
Proof. unfold startTLSNegotiation, fresh_id. sess. Qed.
Lemma ob_ident : obeys false false sendServerIdentification. Proof. unfold sendServerIdentification. sess. Qed.
Lemma ob_secure : obeys false false getServerSecureIdentification. Proof. unfold getServerSecureIdentification. sess. Qed.
Lemma ob_mail_from l : forall z, obeys false false (mail_from_loop l z).
Proof. induction l as [|f r IH]; intros z; cbn [mail_from_loop]; sess. apply IH. Qed.
Lemma ob_add l : forall z, obeys false false (addMailRecipients l z).
Proof. induction l as [|f r IH]; intros z; cbn [addMailRecipients]; [walk|]. apply ob_seq; [walk|]. intros _. apply ob_seq; [sess|]. intros code. apply IH. Qed.
Lemma ob_rcpts l : obeys false false (recipients_loop l).
Proof.
  induction l as [|[n|q] r IH]; cbn [recipients_loop]; [walk|exact IH|]. apply ob_seq; [apply ob_add|]. intros code. walk.
Qed.
Lemma ob_chunks l err : obeys false false (send_chunks l err).
Proof. induction l as [|x r IH]; cbn [send_chunks]; [walk|]. apply ob_seq; [apply ob_cptr|]. intros code. walk. Qed.
Lemma ob_header f a : obeys false false (address_header f a).
Proof. unfold address_header, addMailHeader. destruct a as [[|n]|[|x l]]; sess. Qed.
Lemma ob_transaction m : obeys false false (mail_transaction m).
Proof.
  unfold mail_transaction. apply ob_seq.
  { unfold setMailRecipients. apply ob_seq; [apply ob_mail_from|]. intros code. destruct (negb _); [walk|apply ob_rcpts]. }
  intros r. destruct (negb _); [walk|]. apply ob_seq.
  { unfold setMailHeaders, addMailHeader. pose proof ob_header. repeat (progress sess || apply ob_header). }
  intros h. destruct (negb _); [walk|]. apply ob_seq.
  { unfold setMailBody. pose proof ob_chunks. repeat (progress sess || apply ob_chunks). }
  intros b. sess.
Qed.

(** ** Connecting *)

Definition at_start (s : st) (a : mst) : Prop := cur a = c_sock (s_c s) /\ pol a = false /\ wrote a = false.
Definition begins (m : M Z) : Prop := forall s, exists t, s_t (snd (m s)) = s_t s ++ t /\
  forall a, Forall switched t -> at_start s a -> exists a', mrun a t = Some a' /\
    wrote a' = false /\ (fst (m s) = Done 0 -> fit (snd (m s)) a').

(** A part of connecting that keeps the client's descriptor and makes no
    socket call the machine looks at. *)
Definition idle {A} (m : M A) : Prop := forall s, exists t, s_t (snd (m s)) = s_t s ++ t /\ c_sock (s_c (snd (m s))) = c_sock (s_c s) /\
  forall a, mrun a t = Some a.
Lemma id_bind {A C} (m : M A) (k : A -> M C) : idle m -> (forall a, idle (k a)) -> idle (bind m k).
Proof.
  intros H K s. destruct (H s) as (t1 & E1 & C1 & X1). unfold bind. destruct (m s) as [o s1]. cbn [fst snd] in *.
  destruct o as [x| | | | |]; try (exists t1; auto; fail). destruct (K x s1) as (t2 & E2 & C2 & X2). exists (t1 ++ t2).
  split; [now rewrite E2, E1, app_assoc|]. split; [congruence|]. intros a. now rewrite mrun_app, X1.
Qed.
Lemma id_same {A} (m : M A) : (forall s, s_t (snd (m s)) = s_t s /\ c_sock (s_c (snd (m s))) = c_sock (s_c s)) -> idle m.
Proof. intros H s. destruct (H s). exists []. rewrite app_nil_r. auto. Qed.
Lemma id_emit ev : (forall a, mstep a ev = Some a) -> idle (emit ev).
Proof. intros H s. exists [ev]. split; [reflexivity|]. split; [reflexivity|]. intros a. cbn. now rewrite H. Qed.
Lemma id_addLog i p : idle (addLog i p).
Proof.
  unfold addLog. apply id_bind; [apply id_same; split; reflexivity|]. intros c. destruct (c_log c) as [lg|]; [|apply id_same; split; reflexivity].
  cbv zeta. match goal with |- context[if ?b then lift _ else _] => destruct b end; [apply id_same; split; reflexivity|].
  match goal with |- context[if ?b then updc _ else _] => destruct b end; apply id_same; split; reflexivity.
Qed.
Ltac idl := repeat match goal with
  | |- idle (bind _ _) => apply id_bind; [|intros ?]
  | |- idle (addLog _ _) => apply id_addLog
  | |- idle (logc _) => apply id_addLog
  | |- idle (log_errno _) => unfold log_errno
  | |- idle (emit _) => apply id_emit; reflexivity
  | |- idle (match ?x with _ => _ end) => destruct x
  | |- idle (let _ := _ in _) => cbv zeta
  | |- idle _ => apply id_same; split; reflexivity
  end.
Lemma id_host n : idle (sys_gethostbyname n). Proof. unfold sys_gethostbyname. idl. Qed.
Lemma id_connect : idle sys_connect. Proof. unfold sys_connect. idl. Qed.
Lemma id_wait : idle wait_connect. Proof. unfold wait_connect. idl. Qed.

Definition hoare {A} (P : st -> mst -> Prop) (m : M A) (Q : A -> st -> mst -> Prop) (X : bool -> st -> mst -> Prop) : Prop :=
  forall s, exists t, s_t (snd (m s)) = s_t s ++ t /\
  forall a, Forall switched t -> P s a -> exists a', mrun a t = Some a' /\
    match fst (m s) with Done x => Q x (snd (m s)) a' | o => X (goes o) (snd (m s)) a' end.
Lemma ho_bind {A C} P R (m : M A) (k : A -> M C) Q X : hoare P m R X -> (forall x, hoare (R x) (k x) Q X) -> hoare P (bind m k) Q X.
Proof.
  intros H K s. destruct (H s) as (t1 & E1 & X1). unfold bind. destruct (m s) as [o s1]. cbn [fst snd] in *.
  destruct o as [x| | | | |]; try (exists t1; auto; fail). destruct (K x s1) as (t2 & E2 & X2). exists (t1 ++ t2).
  split; [now rewrite E2, E1, app_assoc|]. intros a S F. apply Forall_app in S as [S1 S2]. destruct (X1 a S1 F) as (a1 & R1 & D1).
  destruct (X2 a1 S2 D1) as (a2 & R2 & D2). exists a2. split; [now rewrite mrun_app, R1|exact D2].
Qed.
Lemma ho_weak {A} (P P' : st -> mst -> Prop) (m : M A) (Q Q' : A -> st -> mst -> Prop) (X X' : bool -> st -> mst -> Prop) : hoare P m Q X -> (forall s a, P' s a -> P s a) -> (forall x s a, Q x s a -> Q' x s a) -> (forall b s a, X b s a -> X' b s a) -> hoare P' m Q' X'.
Proof.
  intros H HP HQ HX s. destruct (H s) as (t & E & Y). exists t. split; [exact E|]. intros a S F. destruct (Y a S (HP _ _ F)) as (a' & R & D).
  exists a'. split; [exact R|]. destruct (fst (m s)); auto.
Qed.
Lemma ho_obeys {A} (m : M A) (X : bool -> st -> mst -> Prop) : obeys false false m -> (forall b s a, (b = true -> fit s a) -> X b s a) -> hoare fit m (fun _ => fit) X.
Proof.
  intros H HX s. destruct (H s) as (t & E & Y). exists t. split; [exact E|]. intros a S F. destruct (Y a S F) as (a' & R & D & _); [discriminate|].
  exists a'. split; [exact R|]. destruct (fst (m s)); auto.
Qed.
(** A part that keeps the descriptor keeps every condition on it and on the machine. *)
Lemma ho_idle {A} (m : M A) (p : Z -> mst -> Prop) (X : bool -> st -> mst -> Prop) : idle m -> (forall b s a, p (c_sock (s_c s)) a -> X b s a) ->
  hoare (fun s => p (c_sock (s_c s))) m (fun _ s => p (c_sock (s_c s))) X.
Proof.
  intros H HX s. destruct (H s) as (t & E & C & R). exists t. split; [exact E|]. intros a _ F. exists a. split; [apply R|]. rewrite <- C in F. destruct (fst (m s)); auto.
Qed.
Lemma ho_ret {A} (x : A) (P : st -> mst -> Prop) (Q : A -> st -> mst -> Prop) X : (forall s a, P s a -> Q x s a) -> hoare P (ret x) Q X.
Proof. intros H s. exists []. rewrite app_nil_r. split; [reflexivity|]. intros a _ F. exists a. split; [reflexivity|]. apply H, F. Qed.

Definition inits (k : Z) (a : mst) : Prop := cur a = k /\ pol a = false /\ wrote a = false.
Definition opened (k : Z) (a : mst) : Prop := cur a = k /\ pol a = false /\ wrote a = false /\ ready a = true /\ made a = true.
Definition trying (k : Z) (a : mst) : Prop := cur a = k /\ pol a = true /\ wrote a = false /\ ready a = true /\ made a = true.
Definition silent (b : bool) (s : st) (a : mst) : Prop := wrote a = false.
Definition joined (r : Z) (s : st) (a : mst) : Prop := wrote a = false /\ (r = 0 -> fit s a).

Lemma ho_non : hoare (fun s => opened (c_sock (s_c s))) setSocketToNonBlocking (fun r s a => r = 0 /\ trying (c_sock (s_c s)) a) silent.
Proof.
  intros s. destruct (sw_non s) as (t & E & Y). exists t. split; [exact E|]. intros a S (F1 & F2 & F3 & F4 & F5). destruct (Y S) as (D & C & R).
  exists (turned true a). rewrite (R a F1 F2 F4), D, C by auto. split; [reflexivity|]. split; [reflexivity|]. destruct a; cbn in *. unfold trying, turned. cbn. auto.
Qed.
Lemma ho_block : hoare (fun s => trying (c_sock (s_c s))) setSocketToBlocking joined silent.
Proof.
  intros s. destruct (sw_block s) as (t & E & Y). exists t. split; [exact E|]. intros a S (F1 & F2 & F3 & F4 & F5). destruct (Y S) as (D & C & R).
  exists (turned false a). rewrite (R a F1 F2 F4), D by auto. split; [reflexivity|]. destruct a; cbn in *. unfold joined, fit, turned. cbn. rewrite C. auto.
Qed.
Lemma ho_trying_fail {A} (m : M A) (r : Z) : idle m -> r <> 0 -> hoare (fun s => trying (c_sock (s_c s))) (m;; ret r) joined silent.
Proof.
  intros H N. eapply ho_bind; [apply (ho_idle m trying); [exact H|unfold silent, trying; intuition]|]. intros ?; cbv beta. apply ho_ret. unfold joined, trying. intuition.
Qed.
Lemma ho_open_fail {A} (m : M A) (p : Z -> mst -> Prop) (r : Z) : idle m -> (forall k a, p k a -> wrote a = false) -> r <> 0 -> hoare (fun s => p (c_sock (s_c s))) (m;; ret r) joined silent.
Proof.
  intros H HP N. eapply ho_bind; [apply (ho_idle m p); [exact H|unfold silent; eauto]|]. intros ?; cbv beta. apply ho_ret. unfold joined. intros s a F. split; [eauto|contradiction].
Qed.
Lemma ho_socket_err {A} er (k : M A) Q X : hoare (fun s => inits (c_sock (s_c s))) k Q X ->
  hoare (fun s => inits (c_sock (s_c s))) (emit (EvSocket (SkErr er));; updc (set_sock (-1));; k) Q X.
Proof.
  intros H [c e t0]. destruct (H (mkSt (set_sock (-1) c) e (t0 ++ [EvSocket (SkErr er)]))) as (t & E & Y). exists (EvSocket (SkErr er) :: t).
  split; [etransitivity; [exact E|]; cbn [s_t]; now rewrite <- app_assoc|]. intros a S (F1 & F2 & F3). inversion S as [|? ? _ S2]; subst.
  destruct (Y (mkMst (-1) false (wrote a) false false) S2) as (a' & R & D); [unfold inits; cbn; auto|]. exists a'. split; [|exact D]. cbn [mrun mstep]. rewrite F2. exact R.
Qed.
Lemma ho_socket {A} n (k : M A) Q X : hoare (fun s => opened (c_sock (s_c s))) k Q X ->
  hoare (fun s => inits (c_sock (s_c s))) (emit (EvSocket (SkFd n));; updc (set_sock (Z.of_N n));; k) Q X.
Proof.
  intros H [c e t0]. destruct (H (mkSt (set_sock (Z.of_N n) c) e (t0 ++ [EvSocket (SkFd n)]))) as (t & E & Y). exists (EvSocket (SkFd n) :: t).
  split; [etransitivity; [exact E|]; cbn [s_t]; now rewrite <- app_assoc|]. intros a S (F1 & F2 & F3). inversion S as [|? ? _ S2]; subst.
  destruct (Y (mkMst (Z.of_N n) false (wrote a) true true) S2) as (a' & R & D); [unfold opened; cbn; auto|]. exists a'. split; [|exact D]. cbn [mrun mstep]. rewrite F2. exact R.
Qed.
Lemma ho_stop {A} (m : M A) (P : st -> mst -> Prop) Q : (forall s, s_t (snd (m s)) = s_t s /\ is_done (fst (m s)) = false) -> (forall s a, P s a -> wrote a = false) -> hoare P m Q silent.
Proof.
  intros H W s. destruct (H s) as [E D]. exists []. rewrite app_nil_r. split; [exact E|]. intros a _ F. exists a. split; [reflexivity|].
  destruct (fst (m s)); try discriminate D; eapply W, F.
Qed.
Lemma ho_init : hoare (fun s => inits (c_sock (s_c s))) initializeSession joined silent.
Proof.
  assert (W0 : forall k a, inits k a -> wrote a = false) by (unfold inits; intuition).
  assert (W1 : forall k a, opened k a -> wrote a = false) by (unfold opened; intuition).
  assert (W2 : forall k a, trying k a -> wrote a = false) by (unfold trying; intuition).
  unfold initializeSession. eapply ho_bind; [apply (ho_idle _ inits); [idl|unfold silent; eauto]|]. intros ?; cbv beta. unfold initializeSessionPOSIX.
  eapply ho_bind; [apply (ho_idle _ inits); [idl|unfold silent; eauto]|]. intros e; cbv beta. destruct (e_sock e) as [|[n|er] l].
  - apply ho_stop; [split; reflexivity|intros s a; apply W0].
  - eapply ho_bind; [apply (ho_idle _ inits); [idl|unfold silent; eauto]|]. intros ?; cbv beta. apply ho_socket.
    eapply ho_bind; [apply (ho_idle _ opened); [idl|unfold silent; eauto]|]. intros c; cbv beta. destruct (c_server c) as [name|]; [|apply ho_stop; [split; reflexivity|intros s a; apply W1]].
    eapply ho_bind; [apply (ho_idle _ opened); [apply id_host|unfold silent; eauto]|]. intros h; cbv beta.
    assert (J : forall r, r <> 0 -> hoare (fun s => opened (c_sock (s_c s))) (ret r) joined silent).
    { intros r N. apply ho_ret. intros s a F. split; [eapply W1, F|contradiction]. }
    destruct h as [len|]; [|apply J; discriminate]. destruct (len <? 0); [apply J; discriminate|]. destruct (4 <? len); [apply ho_stop; [split; reflexivity|intros s a; apply W1]|].
    eapply ho_bind; [apply ho_non|]. intros nb. destruct (negb (nb =? 0)) eqn:Q.
    { apply ho_ret. intros s a [-> _]. discriminate Q. }
    apply (ho_weak (fun s => trying (c_sock (s_c s))) _ _ joined _ silent); [|intuition|auto|auto].
    eapply ho_bind; [apply (ho_idle _ trying); [apply id_addLog|unfold silent; eauto]|]. intros ?; cbv beta.
    eapply ho_bind; [apply (ho_idle _ trying); [apply id_connect|unfold silent; eauto]|]. intros r; cbv beta. destruct r as [er|]; [|apply ho_block].
    destruct (er =? EINPROGRESS); [|apply ho_trying_fail; [unfold log_errno; idl|discriminate]].
    eapply ho_bind; [apply (ho_idle _ trying); [apply id_wait|unfold silent; eauto]|]. intros w; cbv beta. destruct (w =? 0) eqn:Z0; [apply ho_block|].
    apply ho_ret. intros s a F. split; [eapply W2, F|]. intros ->. discriminate Z0.
  - eapply ho_bind; [apply (ho_idle _ inits); [idl|unfold silent; eauto]|]. intros ?; cbv beta. apply ho_socket_err. apply ho_open_fail; [unfold log_errno; idl|exact W0|discriminate].
Qed.

(** ** Operations *)

(** After an operation that wrote and returned, the socket blocks. *)
Definition settled (b : bool) (s : st) (a : mst) : Prop := b = true -> wrote a = true -> fit s a.
Lemma ho_zero {A} (r : Z) (P : st -> mst -> Prop) (k : M A) Q X (x : A) : (r = 0 -> hoare P k Q X) -> (forall s a, P s a -> r <> 0 -> Q x s a) -> hoare P (if negb (r =? 0) then ret x else k) Q X.
Proof. intros H N. destruct (r =? 0) eqn:E; cbn; [apply H, Z.eqb_eq, E|]. apply Z.eqb_neq in E. apply ho_ret. auto. Qed.
Lemma ho_tail {A} (m : M A) : obeys false false m -> hoare fit m (fun _ => fit) settled.
Proof. intros H. apply ho_obeys; [exact H|]. unfold settled. auto. Qed.
Definition linked (r : Z) (s : st) (a : mst) : Prop := (r = 0 -> fit s a) /\ (wrote a = true -> fit s a).
Lemma ho_linked (m : M Z) : obeys false false m -> hoare fit m linked settled.
Proof. intros H. eapply ho_weak; [apply ho_tail, H|auto| |auto]. unfold linked. auto. Qed.
Lemma ho_start k : hoare fit k linked settled ->
  hoare (fun s => inits (c_sock (s_c s))) (r <- initializeSession;; if negb (r =? 0) then ret r else k) linked settled.
Proof.
  intros H. eapply ho_bind; [eapply ho_weak; [apply ho_init|auto|intros x s a J; exact J|unfold silent, settled; intros b s a W _ Q; congruence]|].
  intros r. apply ho_zero.
  - intros ->. eapply ho_weak; [exact H| |auto|auto]. intros s a [_ J]. auto.
  - intros s a [W _] N. split; [contradiction|congruence].
Qed.
Lemma ho_start0 (m : M Z) : obeys0 m ->
  hoare (fun s => inits (c_sock (s_c s))) (r <- initializeSession;; if negb (r =? 0) then ret r else m) linked settled.
Proof.
  intros H. eapply ho_bind; [eapply ho_weak; [apply ho_init|auto|intros x s a J; exact J|unfold silent, settled; intros b s a W _ Q; congruence]|].
  intros r. apply ho_zero.
  - intros ->. intros s. destruct (H s) as (t & E & Y). exists t. split; [exact E|]. intros a S [W J]. destruct (Y a S (J eq_refl) W) as (a' & R & D). exists a'. split; [exact R|].
    destruct (fst (m s)); unfold linked, settled; auto.
  - intros s a [W _] N. split; [contradiction|congruence].
Qed.
Lemma ho_establish : hoare (fun s => inits (c_sock (s_c s))) establish linked settled.
Proof.
  unfold establish. eapply ho_bind; [apply (ho_idle _ inits); [idl|unfold settled, inits; intuition congruence]|]. intros c; cbv beta.
  assert (T : obeys false false (i <- sendServerIdentification;; (if negb (i =? STATUS_CODE_REQUESTED_MAIL_ACTION_OK_OR_COMPLETED) then ret i else authenticate_if_needed))).
  { apply ob_seq; [apply ob_ident|]. intros i. destruct (negb _); [walk|apply ob_auth]. }
  destruct (c_kind c).
  - unfold establishPlain. apply ho_start0. apply ob0_bind; [apply ob0_greetings|]. intros g. destruct (negb _); [walk|exact T].
  - unfold establishOpp. apply ho_start0. apply ob0_bind; [apply ob0_greetings|]. intros g. destruct (negb _); [walk|].
    apply ob_seq; [apply ob_ident|]. intros i. unfold upgradeToSecureConnection. pose proof ob_tls. pose proof ob_secure. pose proof ob_auth. sess.
  - unfold establishForced. apply ho_start. apply ho_linked. pose proof ob_tls. pose proof ob_secure. pose proof ob_auth. sess.
Qed.
Definition opstart (c : client) : mst := mkMst (c_sock c) false false (c_conn c) false.

(** Only sendMail itself declares a client connected. *)
Lemma establish_off s : c_conn (s_c s) = false -> c_conn (s_c (snd (establish s))) = false.
Proof.
  intros C. assert (W : walk (fun l => l <> LConn) establish s) by (apply westablish; first [discriminate|exact C|intros H; apply H; reflexivity|intros [] X; cbn in X; first [discriminate|contradiction]|intros; split; discriminate|intros; discriminate]).
  eapply ProofTls.steps_conn_off; [|apply W|exact C]; cbv beta. intros N. apply N. reflexivity.
Qed.
Definition settle (b : bool) (s : st) (a : mst) : Prop := b = true -> wrote a = true \/ c_conn (s_c s) = true -> fit s a.
Lemma ho_off {A} P (m : M A) Q X : hoare P m Q X -> (forall s, c_conn (s_c s) = false -> c_conn (s_c (snd (m s))) = false) ->
  hoare (fun s a => P s a /\ c_conn (s_c s) = false) m (fun x s a => Q x s a /\ c_conn (s_c s) = false) (fun b s a => X b s a /\ c_conn (s_c s) = false).
Proof.
  intros H N s. destruct (H s) as (t & E & Y). exists t. split; [exact E|]. intros a S [F C]. destruct (Y a S F) as (a' & R & D). exists a'. split; [exact R|].
  specialize (N s C). destruct (fst (m s)); auto.
Qed.
Lemma ho_send m : hoare (fun s a => a = opstart (s_c s)) (sendMail m) (fun _ => settle true) settle.
Proof.
  unfold sendMail. eapply (ho_bind _ (fun c s a => c = s_c s /\ a = opstart (s_c s))).
  { intros s. exists []. rewrite app_nil_r. split; [reflexivity|]. intros a _ F. exists a. cbn. auto. }
  intros c. eapply (ho_bind _ (fun r s a => (r = 0 -> fit s a) /\ (wrote a = true \/ c_conn (s_c s) = true -> fit s a))).
  - destruct (c_conn c) eqn:C.
    + apply ho_ret. intros s a [-> ->]. unfold fit, opstart. cbn. auto.
    + eapply ho_weak; [apply (ho_off _ _ _ _ ho_establish establish_off)| | |].
      * intros s a [-> ->]. unfold inits, opstart. cbn. auto.
      * intros r s a [[L1 L2] O]. cbn beta. rewrite O. split; [exact L1|]. intros [W|W]; [auto|discriminate].
      * intros b s a [L O]. unfold settle. rewrite O. intros G [W|W]; [apply L; assumption|discriminate].
  - intros r. apply ho_zero.
    + intros ->. eapply (ho_weak fit _ _ (fun _ => fit) _ (fun b s a => b = true -> fit s a)); [|intros s a [L _]; apply L; reflexivity|unfold settle; auto|unfold settle; auto].
      apply ho_obeys; [|auto]. apply ob_seq; [walk|]. intros _. apply ob_transaction.
    + intros s a [_ L] _ _. exact L.
Qed.
Lemma quiet_cleanup s : c_conn (s_c s) = false -> exists t, s_t (snd (cleanup s)) = s_t s ++ t /\ forall a, cur a = c_sock (s_c s) -> pol a = false -> wrote a = false ->
  exists a', mrun a t = Some a' /\ pol a' = false /\ wrote a' = false.
Proof.
  intros C. destruct s as [c e t0]. cbn [s_c] in C. unfold cleanup, cleanup_fuel. cbn [cleanup_f s_e].
  unfold bind, getc, free_tls, close_socket, updc, emit, ret. cbn [s_c]. rewrite C, andb_false_r.
  destruct (c_kind c), (c_ctx c) as [x|] eqn:X, (c_bio c) as [b|] eqn:Y, (c_sock c =? 0) eqn:Z0; unfold bind, getc, updc, emit, ret; cbn [fst snd s_c s_e s_t set_conn set_ctx set_bio c_sock c_ctx c_bio];
    repeat (first [rewrite X|rewrite Y|rewrite Z0]; cbn [fst snd s_c s_e s_t set_conn set_ctx set_bio c_sock c_ctx c_bio]);
    (eexists; split; [rewrite <- ?app_assoc; first [reflexivity|symmetry; apply app_nil_r]|]; intros a A1 A2 A3; cbn [app mrun mstep]; rewrite ?A2, ?A1, ?Z.eqb_refl; cbn; eexists; split; [reflexivity|auto]).
Qed.

(** One operation on a client. *)
Lemma op_machine {A} i (m : M A) f w x w' c : get_client w i = Some c -> run_on i m f w = (x, w') ->
  exists s, m (mkSt c (w_env w) (w_trace w)) = (x, s) /\ w' = mkWorld (list_set (w_clients w) i (f (s_c s))) (s_e s) (s_t s).
Proof. intros G. unfold run_on. rewrite G. destruct (m _) as [o s]. intros H. injection H as <- <-. exists s. auto. Qed.
