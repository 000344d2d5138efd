(** The time spent waiting in the Windows build (compare ProofTime.v). *)

From Coq Require Import Ascii String List NArith ZArith Bool Lia ZifyBool ZifyNat ZifyN.
From Verif Require Import Base Lib ModelUtil ModelBase64 ModelAddress ModelAttachment ModelMessage ModelReply ModelErrors ModelState ModelClient ModelWorld
  SpecAddress SpecReply SpecErrors SpecDialogue SpecConn SpecPatience
  ProofReply ProofSteps ProofWalk ProofDialogue ProofMail ProofMail4 ProofConn ProofCode ProofTime ProofPatience
  ModelWin ProofWinWalk SpecWinSafe ProofWinSafe.
Import ListNotations.
Open Scope N_scope.

Section Time.
Variable T : N.
Let L := N.max 1 T.
Notation timed := (timed T).

Definition timedW {A} (n : N) (m : W A) : Prop := forall v, c_timeout (v_c v) = T ->
  c_timeout (v_c (snd (m v))) = T /\ exists t, v_t (snd (m v)) = v_t v ++ t /\ slept (socks t) <= L * (activity (socks t) + n).

Lemma tw_base {A} n (m : M A) : timed n m -> timedW n (base m).
Proof.
  intros H v E. destruct (H (mkSt (v_c v) (v_e v) []) E) as (E1 & t & T1 & S). unfold base. destruct (m _) as [o s]. cbn [snd s_t app] in *.
  split; [exact E1|]. exists (map WSock t). cbn [v_t]. rewrite T1, socks_map. auto.
Qed.
Lemma tw_bind : forall {A C} n p (m : W A) (k : A -> W C), timedW n m -> (forall a, timedW p (k a)) -> timedW (n + p) (wbind m k).
Proof.
  intros A C n p m k H1 H2 s E. unfold wbind. specialize (H1 s E) as (E1 & t & T1 & S1). destruct (m s) as [o s1]. cbn [snd] in *.
  assert (X : L * (activity (socks t) + n) <= L * (activity (socks t) + (n + p))) by (apply N.mul_le_mono_l; lia).
  destruct o; try (split; [exact E1|]; exists t; split; [exact T1|exact (N.le_trans _ _ _ S1 X)]).
  destruct (H2 a s1 E1) as (E2 & t2 & T2 & S2). split; [exact E2|]. exists (t ++ t2). split; [rewrite T2, T1, app_assoc; reflexivity|].
  rewrite socks_app, slept_app, (activity_app T). replace (activity (socks t) + activity (socks t2) + (n + p)) with ((activity (socks t) + n) + (activity (socks t2) + p)) by lia.
  rewrite N.mul_add_distr_l. lia.
Qed.
Lemma tw_bind0 : forall {A C} (m : W A) (k : A -> W C), timedW 0 m -> (forall a, timedW 0 (k a)) -> timedW 0 (wbind m k).
Proof. intros. apply (tw_bind 0 0); assumption. Qed.
Lemma tw_bind1 : forall {A C} (m : W A) (k : A -> W C), timedW 0 m -> (forall a, timedW 1 (k a)) -> timedW 1 (wbind m k).
Proof. intros. apply (tw_bind 0 1); assumption. Qed.
Lemma tw_weak : forall {A} (m : W A), timedW 0 m -> timedW 1 m.
Proof.
  intros A m H s E. destruct (H s E) as (E1 & t & T1 & S). split; [exact E1|]. exists t. split; [exact T1|].
  rewrite N.mul_add_distr_l in *. lia.
Qed.
Lemma tw_ret {A} (a : A) : timedW 0 (wret a).
Proof. intros v E. split; [exact E|]. exists []. split; [symmetry; apply app_nil_r|]. cbn. lia. Qed.
Lemma tw_put ev : match ev with WSock _ => False | _ => True end -> timedW 0 (wput ev).
Proof. intros H v E. split; [exact E|]. exists [ev]. split; [reflexivity|]. destruct ev; [destruct H|..]; cbn; lia. Qed.
Lemma tw_on b : timedW 0 (set_on b).
Proof. intros v E. split; [exact E|]. exists []. split; [symmetry; apply app_nil_r|]. cbn. lia. Qed.
Lemma tw_get : timedW 0 get_on.
Proof. intros v E. split; [exact E|]. exists []. split; [symmetry; apply app_nil_r|]. cbn. lia. Qed.
Lemma tw_next {A} (g : wenv -> list A) st d : timedW 0 (next g st d).
Proof.
  intros v E. unfold next. destruct (g (v_w v)); (split; [exact E|]; exists []; split; [symmetry; apply app_nil_r|]; cbn; lia).
Qed.
Lemma timed_errno er : timed 0 (log_errno er).
Proof. apply idle_timed, idles_log_errno. Qed.
Ltac still := apply timed_still; intros ?; split; reflexivity.
Ltac bs := repeat (lazymatch goal with
  | |- timed 0 (logc _) => apply timed_addLog
  | |- timed 0 (logs _) => apply timed_addLog
  | |- timed 0 (addLog _ _) => apply timed_addLog
  | |- timed 0 (log_errno _) => apply timed_errno
  | |- timed 0 (sys_send _) => apply timed_send
  | |- timed 0 (sys_puts _ _) => apply timed_puts
  | |- timed 0 (emit _) => apply timed_emit; reflexivity
  | |- timed 0 (bind _ _) => apply timed_bind0; [|intros ?]
  | |- timed 0 (match ?x with _ => _ end) => destruct x
  | |- timed 0 _ => still
  end; cbv zeta).
Lemma tw_message er : timedW 0 (addWSAMessage er).
Proof.
  intros v E. unfold addWSAMessage. destruct (x_format (v_w v) er); [|exact (tw_ret tt v E)].
  exact (tw_base 0 (logc s) (timed_addLog T _ _) v E).
Qed.
Ltac w1 :=
  lazymatch goal with
  | |- timedW 0 (wret _) => apply tw_ret
  | |- timedW 0 (wput _) => apply tw_put; exact Logic.I
  | |- timedW 0 (set_on _) => apply tw_on
  | |- timedW 0 get_on => apply tw_get
  | |- timedW 0 (next _ _ _) => apply tw_next
  | |- timedW 0 (addWSAMessage _) => apply tw_message
  | |- timedW 0 (base _) => apply tw_base
  | |- timedW 0 (wbind _ _) => apply tw_bind0; [|intros ?]
  | |- timedW 0 (if ?b then _ else _) => destruct b
  | |- timedW 0 (match ?x with _ => _ end) => destruct x
  end.
Ltac ws := repeat (w1; cbv zeta); try (bs; fail).

Lemma tw_clean : timedW 0 doWSACleanup.
Proof. unfold doWSACleanup. ws. Qed.
Lemma tw_release : timedW 0 release_winsock.
Proof. unfold release_winsock. ws. all: apply tw_clean. Qed.
Lemma tw_raw2 : forall c d e, timedW 0 c -> timedW 0 (sendRaw2W c d e).
Proof. intros c d e H. unfold sendRaw2W. ws; exact H. Qed.
Lemma tw_cmd : forall c d e, timedW 0 c -> timedW 0 (sendCommandPtrW c d e).
Proof. intros c d e H. unfold sendCommandPtrW, sendCommandTLSW. ws; try exact H; apply tw_raw2; exact H. Qed.
Lemma tw_cleanup_f : forall f, timedW 0 (cleanup_fW f).
Proof.
  induction f as [|f IH]; cbn [cleanup_fW]; [ws|]. unfold sendQuitW, close_socketW, free_tls, close_socket. ws; first [apply tw_release|apply tw_cmd; exact IH].
Qed.
Lemma tw_cleanup : timedW 0 cleanupW.
Proof. intros v. apply (tw_cleanup_f (cleanup_fuel (v_e v)) v). Qed.
Lemma tw_mode b : timedW 0 (setSocketMode b).
Proof. unfold setSocketMode. ws. Qed.

(** A result that says nothing about a timeout, or says it after a silence. *)
Definition fair (r : outcome Z) (t : list wevent) : Prop :=
  forall z, r = Done z -> coded_reads (socks t) -> In z timeout_codes -> silence T (socks t).

(** A reply: at most [L], and free of charge only if something came; a code, or
    nothing after a silence. *)
Definition repliesW (m : W Z) : Prop := forall v, c_timeout (v_c v) = T ->
  c_timeout (v_c (snd (m v))) = T /\ exists t, v_t (snd (m v)) = v_t v ++ t /\ slept (socks t) <= L /\
    (forall r, fst (m v) = Done r -> r <> (-1)%Z -> 1 <= activity (socks t)) /\
    (forall r, fst (m v) = Done r -> coded_reads (socks t) -> (0 <= r)%Z \/ (r = (-1)%Z /\ silence T (socks t))).
Lemma rw_base m : replies T m -> answers T m -> repliesW (base m).
Proof.
  intros H A v E. destruct (H (mkSt (v_c v) (v_e v) []) E) as (E1 & t & T1 & S & D). unfold base.
  specialize (A (mkSt (v_c v) (v_e v) [])). destruct (m _) as [o s]. cbn [fst snd s_t app] in *.
  split; [exact E1|]. exists (map WSock t). cbn [v_t]. rewrite T1, socks_map. split; [reflexivity|]. split; [exact S|]. split; [exact D|].
  intros r -> G. exact (A r s t E eq_refl T1 G).
Qed.
Definition mute {A} (m : W A) : Prop := forall v, c_timeout (v_c (snd (m v))) = c_timeout (v_c v) /\
  exists t, v_t (snd (m v)) = v_t v ++ t /\ socks t = [].
Lemma mute_base {A} (m : M A) : (forall s, c_timeout (s_c (snd (m s))) = c_timeout (s_c s) /\ s_t (snd (m s)) = s_t s) -> mute (base m).
Proof.
  intros H v. destruct (H (mkSt (v_c v) (v_e v) [])) as [H1 H2]. unfold base. destruct (m _) as [o s]. cbn [snd s_t s_c v_c v_t] in *.
  split; [exact H1|]. exists []. rewrite H2. auto.
Qed.
Lemma mute_bind {A C} (m : W A) (k : A -> W C) : mute m -> (forall a, mute (k a)) -> mute (wbind m k).
Proof.
  intros H J v. unfold wbind. destruct (H v) as (E1 & t & T1 & S1). destruct (m v) as [o v1]. cbn [snd] in *.
  destruct o; try (split; [exact E1|]; exists t; split; [exact T1|exact S1]).
  destruct (J a v1) as (E2 & t2 & T2 & S2). split; [congruence|]. exists (t ++ t2). rewrite T2, T1, app_assoc, socks_app, S1, S2. auto.
Qed.
Lemma still_log i p s : c_timeout (s_c (snd (addLog i p s))) = c_timeout (s_c s) /\ s_t (snd (addLog i p s)) = s_t s.
Proof.
  destruct (idles_addLog i p s) as [E _]. split; [exact E|]. destruct (addLog i p s) as [o s'] eqn:H. exact (log_trace _ _ _ _ _ H).
Qed.
Lemma mute_mode b : mute (setSocketMode b).
Proof.
  unfold setSocketMode. apply mute_bind; [apply mute_base; intros s; split; reflexivity|]. intros c.
  apply mute_bind. { intros v. unfold next. destruct (x_ioctl (v_w v)); (split; [reflexivity|]; exists []; rewrite app_nil_r; auto). }
  intros r. apply mute_bind. { intros v. split; [reflexivity|]. exists [WIoctl (c_sock c) b r]. auto. }
  intros _. destruct r as [er|].
  - apply mute_bind.
    + apply mute_base. intros s. unfold log_errno, bind, gete, setLastSocketErrNo, updc, logc.
      match goal with |- context [addLog ?i ?p ?x] => destruct (still_log i p x) as [A1 A2]; destruct (addLog i p x) as [[] s4] end; cbn in *; auto.
    + intros _ v. split; [reflexivity|]. exists []. rewrite app_nil_r. auto.
  - intros v. split; [reflexivity|]. exists []. rewrite app_nil_r. auto.
Qed.
Lemma rw_raw : repliesW getRawCommandReplyW.
Proof.
  intros v E.
  set (Q := fun x : outcome Z * vst => c_timeout (v_c (snd x)) = T /\ exists t, v_t (snd x) = v_t v ++ t /\ slept (socks t) <= L /\
    (forall r, fst x = Done r -> r <> (-1)%Z -> 1 <= activity (socks t)) /\
    (forall r, fst x = Done r -> coded_reads (socks t) -> (0 <= r)%Z \/ (r = (-1)%Z /\ silence T (socks t)))).
  change (Q (getRawCommandReplyW v)). unfold getRawCommandReplyW. unfold wbind at 1. destruct (mute_mode true v) as (E1 & t1 & T1 & S1).
  destruct (setSocketMode true v) as [o1 v1]. cbn [snd] in *. rewrite E in E1.
  assert (Stop : forall o : outcome Z, (forall r, o <> Done r) -> Q (o, v1)).
  { intros o N. split; [exact E1|]. exists t1. rewrite S1. split; [exact T1|]. split; [cbn; lia|]. split; intros r X; elim (N r X). }
  destruct o1; try (apply Stop; discriminate). clear Stop.
  unfold wbind at 1, base at 1, getc. cbn [s_c s_e s_t v_c v_e map]. unfold wbind at 1, base at 1, bind at 1, gete. cbn [s_c s_e s_t v_c v_e v_t].
  destruct (raw_loop _ _ _ _ _ _) as [[o2 evs] rest] eqn:R. rewrite app_nil_r.
  assert (Ex := existsb_delivers _ _ _ _ _ _ _ _ _ R). assert (Ti := raw_loop_time _ _ _ _ _ _ _ _ _ R). rewrite N.sub_0_r, E1 in Ti. destruct Ti as [Ti1 Ti2].
  assert (Tr := raw_loop_trace (c_sock (v_c v1)) (c_timeout (v_c v1)) (e_recv (v_e v1)) 0 false []).
  unfold bind at 1 2, upde, emits, lift. cbn [s_c s_e s_t app v_c v_on v_e v_w v_t].
  set (v2 := mkV (v_c v1) (v_on v1) (set_recv rest (v_e v1)) (v_w v1) (v_t v1 ++ map WSock evs)).
  assert (T2 : v_t v2 = v_t v ++ t1 ++ map WSock evs) by (subst v2; cbn [v_t]; now rewrite T1, app_assoc).
  assert (S2 : socks (t1 ++ map WSock evs) = evs) by (now rewrite socks_app, S1, socks_map).
  assert (E2 : c_timeout (v_c v2) = T) by exact E1.
  destruct o2 as [[[w g] full]| | | | |];
    try (fold v2; split; [exact E2|]; exists (t1 ++ map WSock evs); rewrite S2; split; [exact T2|]; split; [exact Ti1|]; split; discriminate).
  destruct (Ti2 w g full eq_refl) as [Ti3 Ti4]. clear Ti2. cbn [orb] in Ti3. destruct (Tr w g full evs rest R) as [RO Fu]. cbn [app] in Fu. clear Tr.
  fold v2. unfold wbind. destruct (mute_mode false v2) as (E3 & t3 & T3 & S3). destruct (setSocketMode false v2) as [o3 v3]. cbn [snd] in *. rewrite E2 in E3.
  assert (T3' : v_t v3 = v_t v ++ t1 ++ map WSock evs ++ t3) by (rewrite T3, T2, <- !app_assoc; reflexivity).
  assert (S3' : socks (t1 ++ map WSock evs ++ t3) = evs) by (now rewrite !socks_app, S1, socks_map, S3, app_nil_r).
  destruct o3; try (split; [exact E3|]; exists (t1 ++ map WSock evs ++ t3); rewrite S3'; split; [exact T3'|]; split; [exact Ti1|]; split; discriminate).
  match goal with |- context [base ?m v3] => assert (F : mute (base m)) end.
  { apply mute_base. intros s. destruct (_ || g)%bool; [|split; reflexivity]. unfold bind, setLastServerResponse, updc, logs.
    match goal with |- context [addLog ?i ?p ?x] => destruct (still_log i p x) as [A1 A2]; destruct (addLog i p x) as [[] s4] end; cbn in *; auto. }
  destruct (F v3) as (E4 & t4 & T4 & S4). rewrite E3 in E4. unfold Q.
  split; [exact E4|]. exists (t1 ++ map WSock evs ++ t3 ++ t4). split; [rewrite T4, T3', <- !app_assoc; reflexivity|].
  assert (S4' : socks (t1 ++ map WSock evs ++ t3 ++ t4) = evs) by (now rewrite !socks_app, S1, socks_map, S3, S4, app_nil_r).
  rewrite S4'. split; [exact Ti1|]. clear F E4 T4 S4 S4' T3' S3' T3 S3 T2 S2. rewrite E1. unfold base.
  destruct g.
  - symmetry in Ti3. apply Ex in Ti3. split; [intros; apply (active_some T); exact Ti3|]. rewrite orb_true_r.
    unfold bind, setLastServerResponse, updc, logs.
    match goal with |- context [addLog ?i ?p ?x] => destruct (addLog i p x) as [[] s4] end; cbn [fst]; try discriminate.
    intros r X G. injection X as <-. left. rewrite Fu. exact (heard_code evs G Ti3 RO).
  - destruct (Ti4 eq_refl) as [Ti5 Ti6]. rewrite orb_false_r. replace (w <? T) with false by lia. cbn [fst ret]. split; [intros r X; congruence|].
    intros r X _. injection X as <-. right. split; [reflexivity|]. apply silence_all; [|rewrite Ti5; lia].
    apply Forall_forall. intros ev I. assert (D : ~ delivers ev).
    { intros D. assert (X : false = true) by (rewrite Ti3; apply Ex; eauto). discriminate X. }
    specialize (RO ev I). destruct ev; try exact Logic.I; try destruct RO;
      (destruct r as [[|c d]|er]; [exact Logic.I|elim D; exact Logic.I|exact Logic.I]).
Qed.
Lemma reply_eq v : getServerReplyW v = (match c_kind (v_c v) with KPlain => getRawCommandReplyW | _ => base getServerReplyTLS end) v.
Proof.
  unfold getServerReplyW, wbind, base at 1, getc. cbn [s_c s_e s_t map v_c v_e v_on v_w v_t]. rewrite app_nil_r. destruct v. reflexivity.
Qed.
Lemma rw_reply : repliesW getServerReplyW.
Proof.
  intros v E. rewrite reply_eq.
  destruct (c_kind (v_c v)); [apply rw_raw|..]; try exact E; (apply rw_base; [apply replies_tls|apply answers_tls|exact E]).
Qed.
End Time.
