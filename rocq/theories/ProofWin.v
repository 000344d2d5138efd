(** The dialogue of the Windows build is that of the POSIX build. *)

From Coq Require Import Ascii String List NArith ZArith Bool Lia.
From Verif Require Import Base ModelUtil ModelBase64 ModelAddress ModelAttachment
  ModelErrors ModelReply ModelMessage ModelState ModelClient ModelWorld ModelWin SpecWin.
Import ListNotations.
Open Scope Z_scope.

Local Arguments posix_env : simpl never.

(** ** Functions that do not look at the platform *)

Definition neutral {A} (m : M A) : Prop := forall c e, exists o c' e' tp, filter shared tp = tp /\
  forall t f, m (mkSt c e t) = (o, mkSt c' e' (t ++ tp)) /\
              m (mkSt c (posix_env f e) t) = (o, mkSt c' (posix_env f e') (t ++ tp)).

Lemma neu_pure {A} (g : client -> env -> outcome A) h (m : M A) :
  (forall s, m s = (g (s_c s) (s_e s), mkSt (h (s_c s)) (s_e s) (s_t s))) ->
  (forall c e f, g c (posix_env f e) = g c e) -> neutral m.
Proof.
  intros H G c e. exists (g c e), (h c), e, []. split; [reflexivity|]. intros t f. rewrite !H. cbn. now rewrite app_nil_r, G.
Qed.
Lemma neu_ret {A} (a : A) : neutral (ret a).
Proof. apply (neu_pure (fun _ _ => Done a) (fun c => c)); [now intros []|reflexivity]. Qed.
Lemma neu_getc : neutral getc.
Proof. apply (neu_pure (fun c _ => Done c) (fun c => c)); [now intros []|reflexivity]. Qed.
Lemma neu_updc g : neutral (updc g).
Proof. apply (neu_pure (fun c _ => Done tt) g); [now intros []|reflexivity]. Qed.
Lemma neu_lift {A} (o : outcome A) : neutral (lift o).
Proof. apply (neu_pure (fun _ _ => o) (fun c => c)); [now intros []|reflexivity]. Qed.
Lemma neu_ub {A} u : neutral (@fail_ub A u).
Proof. apply (neu_pure (fun _ _ => Undef u) (fun c => c)); [now intros []|reflexivity]. Qed.
Lemma neu_blocked {A} : neutral (@blocked A).
Proof. apply (neu_pure (fun _ _ => Blocked) (fun c => c)); [now intros []|reflexivity]. Qed.
Lemma neu_killed {A} : neutral (@killed A).
Proof. apply (neu_pure (fun _ _ => Killed) (fun c => c)); [now intros []|reflexivity]. Qed.
Lemma neu_diverge {A} : neutral (@diverge A).
Proof. apply (neu_pure (fun _ _ => Diverge) (fun c => c)); [now intros []|reflexivity]. Qed.
Lemma neu_upde g : (forall f e, g (posix_env f e) = posix_env f (g e)) -> neutral (upde g).
Proof.
  intros H c e. exists (Done tt), c, (g e), []. split; [reflexivity|]. intros t f. unfold upde. cbn [s_c s_e s_t]. now rewrite app_nil_r, H.
Qed.
Lemma neu_emits l : filter shared l = l -> neutral (emits l).
Proof. intros H c e. exists (Done tt), c, e, l. split; [exact H|]. intros t f. now cbn. Qed.
Lemma neu_emit ev : shared ev = true -> neutral (emit ev).
Proof. intros H c e. exists (Done tt), c, e, [ev]. split; [cbn; now rewrite H|]. intros t f. now cbn. Qed.

Lemma neu_bind {A C} (m : M A) (k : A -> M C) : neutral m -> (forall a, neutral (k a)) -> neutral (bind m k).
Proof.
  intros H K c e. destruct (H c e) as (o & c1 & e1 & tp & F & X).
  destruct o as [a| | | | |];
    try (eexists _, c1, e1, tp; split; [exact F|]; intros t f; unfold bind;
         destruct (X t f) as [-> ->]; split; reflexivity).
  destruct (K a c1 e1) as (o2 & c2 & e2 & tp2 & F2 & Y). exists o2, c2, e2, (tp ++ tp2).
  split; [now rewrite filter_app, F, F2|]. intros t f. unfold bind. destruct (X t f) as [-> ->].
  destruct (Y (t ++ tp) f) as [-> ->]. now rewrite app_assoc.
Qed.
Lemma neu_gete {C} (k : env -> M C) : (forall e, neutral (k e)) -> (forall f e, k (posix_env f e) = k e) ->
  neutral (bind gete k).
Proof.
  intros K H c e. destruct (K e c e) as (o & c1 & e1 & tp & F & X). exists o, c1, e1, tp. split; [exact F|].
  intros t f. unfold bind, gete. cbn. rewrite H. apply X.
Qed.
Lemma neu_ext {A} (m m' : M A) : (forall s, m s = m' s) -> neutral m -> neutral m'.
Proof. intros H X c e. destruct (X c e) as (o & c1 & e1 & tp & F & Y). exists o, c1, e1, tp. split; [exact F|]. intros t f. rewrite <- !H. apply Y. Qed.

Lemma neu_addLog i p : neutral (addLog i p).
Proof.
  unfold addLog. apply neu_bind; [apply neu_getc|]. intros c. destruct (c_log c) as [lg|]; [|apply neu_ub].
  cbv zeta. destruct (_ && _); [apply neu_lift|]. destruct (_ && _)%N; [apply neu_updc|apply neu_ub].
Qed.
Lemma neu_logc i : neutral (logc i). Proof. apply neu_addLog. Qed.
Lemma neu_logs i : neutral (logs i). Proof. apply neu_addLog. Qed.
Lemma neu_errno z : neutral (setLastSocketErrNo z). Proof. apply neu_updc. Qed.
Lemma neu_log_errno z : neutral (log_errno z).
Proof.
  apply neu_bind; [apply neu_errno|]. intros _. apply neu_gete; [intros; apply neu_logc|reflexivity].
Qed.
Lemma neu_resp s : neutral (setLastServerResponse s). Proof. apply neu_updc. Qed.

Ltac neu := repeat first
  [ apply neu_ret | apply neu_getc | apply neu_updc | apply neu_lift | apply neu_ub | apply neu_blocked | apply neu_killed
  | apply neu_diverge | apply neu_logc | apply neu_logs | apply neu_addLog | apply neu_errno | apply neu_log_errno | apply neu_resp
  | apply neu_upde; reflexivity | apply neu_emit; reflexivity
  | match goal with
    | |- neutral (bind gete _) => apply neu_gete; [intros ?|reflexivity]
    | |- neutral (bind _ _) => apply neu_bind; [|intros ?]
    | |- neutral (match ?x with _ => _ end) => destruct x
    | |- neutral (let _ := _ in _) => cbv zeta
    end ].

Lemma neu_connect : neutral sys_connect. Proof. unfold sys_connect. neu. Qed.
Lemma neu_send d : neutral (sys_send d). Proof. unfold sys_send. neu. Qed.
Lemma neu_puts b d : neutral (sys_puts b d). Proof. unfold sys_puts. neu. Qed.
Lemma neu_fresh : neutral fresh_id. Proof. unfold fresh_id. neu. Qed.
Lemma neu_close : neutral close_socket. Proof. unfold close_socket. neu. Qed.
Lemma neu_free : neutral free_tls. Proof. unfold free_tls. neu. Qed.

Lemma wait_shared mk n rs : (forall r, shared (mk r) = true) -> forall w o evs rest,
  wait_loop mk n w rs = (o, evs, rest) -> filter shared evs = evs.
Proof.
  intros H. induction rs as [|r rs IH]; intros w o evs rest E; cbn in E.
  - now injection E as <- <- <-.
  - destruct (rbytes r).
    + destruct (w <? n)%N.
      * destruct (wait_loop mk n (w + 1)%N rs) as [[o1 e1] r1] eqn:L. injection E as <- <- <-.
        cbn. rewrite H. cbn. f_equal. f_equal. eapply IH; eauto.
      * injection E as <- <- <-. cbn. now rewrite H.
    + injection E as <- <- <-. cbn. now rewrite H.
Qed.
Lemma raw_shared fd n rs : forall w g a o evs rest, raw_loop fd n w g a rs = (o, evs, rest) -> filter shared evs = evs.
Proof.
  induction rs as [|r rs IH]; intros w g a o evs rest E; cbn [raw_loop] in E.
  - now injection E as <- <- <-.
  - destruct (rbytes r) as [|b d].
    + destruct (is_err r && g); [now injection E as <- <- <-|].
      destruct (w + 1 <? n)%N; [|now injection E as <- <- <-].
      destruct (raw_loop fd n (w + 1)%N g a rs) as [[o1 e1] r1] eqn:L. injection E as <- <- <-.
      cbn. f_equal. f_equal. eapply IH; eauto.
    + destruct (_ <=? _)%nat; [now injection E as <- <- <-|].
      destruct (w <? n)%N; [|now injection E as <- <- <-].
      destruct (raw_loop fd n w true (a ++ cstr (b :: d)) rs) as [[o1 e1] r1] eqn:L. injection E as <- <- <-.
      cbn. f_equal. eapply IH; eauto.
Qed.

Lemma neu_greeting r : neutral (greeting_result r).
Proof. unfold greeting_result. neu. Qed.
Lemma neu_greetings : neutral checkServerGreetings.
Proof.
  unfold checkServerGreetings. apply neu_bind; [apply neu_getc|]. intros c. apply neu_gete; [|reflexivity]. intros e.
  destruct (wait_loop _ _ _ _) as [[o evs] rest] eqn:L. apply neu_bind; [apply neu_upde; reflexivity|]. intros _.
  apply neu_bind; [apply neu_emits; eapply wait_shared; [|exact L]; reflexivity|]. intros _.
  apply neu_bind; [apply neu_lift|]. intros r. apply neu_greeting.
Qed.
Lemma neu_null : neutral wait_null_bio. Proof. unfold wait_null_bio. neu. Qed.
Lemma neu_bio : neutral wait_bio.
Proof.
  unfold wait_bio. apply neu_bind; [apply neu_getc|]. intros c. destruct (c_bio c) as [b|]; [|apply neu_null].
  apply neu_gete; [|reflexivity]. intros e.
  destruct (wait_loop _ _ _ _) as [[o evs] rest] eqn:L. apply neu_bind; [apply neu_upde; reflexivity|]. intros _.
  apply neu_bind; [apply neu_emits; eapply wait_shared; [|exact L]; reflexivity|]. intros _. apply neu_lift.
Qed.
Lemma neu_greetingsTLS : neutral checkServerGreetingsTLS.
Proof. unfold checkServerGreetingsTLS. apply neu_bind; [apply neu_bio|]. intros. apply neu_greeting. Qed.
Lemma neu_replyTLS : neutral getServerReplyTLS.
Proof. unfold getServerReplyTLS. apply neu_bind; [apply neu_bio|]. intros. neu. Qed.

(** ** The simulation *)

Definition simw {A} (mw : W A) (mp : M A) : Prop := forall v, exists o c' on' e' x' tw,
  mw v = (o, mkV c' on' e' x' (v_t v ++ tw)) /\
  (Forall smooth tw -> forall f', exists f tp, talk tp = wtalk tw /\
     forall t, mp (mkSt (v_c v) (posix_env f (v_e v)) t) = (o, mkSt c' (posix_env f' e') (t ++ tp))).

Lemma wtalk_app a b : wtalk (a ++ b) = wtalk a ++ wtalk b.
Proof. apply flat_map_app. Qed.
Lemma wtalk_sock l : wtalk (map WSock l) = talk l.
Proof.
  induction l as [|e l IH]; [reflexivity|]. unfold wtalk, talk in *. cbn [map flat_map filter]. rewrite IH.
  destruct (shared e); reflexivity.
Qed.
Lemma talk_app a b : talk (a ++ b) = talk a ++ talk b.
Proof. apply filter_app. Qed.

Lemma sim_base {A} (m : M A) : neutral m -> simw (base m) m.
Proof.
  intros H v. destruct (H (v_c v) (v_e v)) as (o & c & e & tp & F & X).
  exists o, c, (v_on v), e, (v_w v), (map WSock tp). split.
  - unfold base. destruct (X [] []) as [-> _]. reflexivity.
  - intros _ f'. exists f', tp. split; [now rewrite wtalk_sock|]. intros t. apply (X t f').
Qed.
Lemma sim_ret {A} (a : A) : simw (wret a) (ret a).
Proof.
  intros [c on e x t0]. exists (Done a), c, on, e, x, []. split; [cbn; now rewrite app_nil_r|]. intros _ f'. exists f', [].
  split; [reflexivity|]. intros t. cbn. now rewrite app_nil_r.
Qed.
Lemma sim_bind {A C} (mw : W A) mp (kw : A -> W C) kp : simw mw mp -> (forall a, simw (kw a) (kp a)) ->
  simw (wbind mw kw) (bind mp kp).
Proof.
  intros H K v. destruct (H v) as (o & c & on & e & x & tw & E & X).
  destruct o as [a| | | | |];
    try (eexists _, c, on, e, x, tw; split; [unfold wbind; rewrite E; reflexivity|];
         intros S f'; destruct (X S f') as (f & tp & T & Y); exists f, tp; split; [exact T|];
         intros t; unfold bind; rewrite Y; reflexivity).
  destruct (K a (mkV c on e x (v_t v ++ tw))) as (o2 & c2 & on2 & e2 & x2 & tw2 & E2 & X2).
  exists o2, c2, on2, e2, x2, (tw ++ tw2). split; [unfold wbind; rewrite E, E2; cbn; now rewrite app_assoc|].
  intros S f'. apply Forall_app in S as [S1 S2]. destruct (X2 S2 f') as (f1 & tp2 & T2 & Y2).
  destruct (X S1 f1) as (f & tp & T & Y). exists f, (tp ++ tp2). split; [now rewrite talk_app, wtalk_app, T, T2|].
  intros t. unfold bind. rewrite Y. cbn in Y2. rewrite Y2. now rewrite app_assoc.
Qed.
Lemma sim_gete {C} (kw : env -> W C) (kp : env -> M C) : (forall e, simw (kw e) (kp e)) ->
  (forall f e, kp (posix_env f e) = kp e) -> simw (wbind (base gete) kw) (bind gete kp).
Proof.
  intros K H v. destruct (K (v_e v) (mkV (v_c v) (v_on v) (v_e v) (v_w v) (v_t v ++ []))) as (o & c & on & e & x & tw & E & X).
  exists o, c, on, e, x, tw. split; [unfold wbind, base, gete; cbn in *; rewrite E; now rewrite app_nil_r|].
  intros S f'. destruct (X S f') as (f & tp & T & Y). exists f, tp. split; [exact T|]. intros t.
  unfold bind, gete. cbn in *. rewrite H. apply Y.
Qed.
Lemma sim_ext {A} (mw mw' : W A) mp mp' : (forall v, mw v = mw' v) -> (forall s, mp s = mp' s) ->
  simw mw mp -> simw mw' mp'.
Proof.
  intros H H' S v. destruct (S v) as (o & c & on & e & x & tw & E & X). exists o, c, on, e, x, tw.
  split; [now rewrite <- H|]. intros Q f'. destruct (X Q f') as (f & tp & T & Y). exists f, tp. split; [exact T|].
  intros t. rewrite <- H'. apply Y.
Qed.
(** An event of Windows alone, and functions that leave the shared part alone. *)
Definition silentw (mw : W unit) : Prop := forall v, exists on' x' tw,
  mw v = (Done tt, mkV (v_c v) on' (v_e v) x' (v_t v ++ tw)) /\ wtalk tw = [].
Lemma sim_silent {C} (mw : W unit) (kw : W C) kp : silentw mw -> simw kw kp -> simw (wbind mw (fun _ => kw)) kp.
Proof.
  intros H K v. destruct (H v) as (on & x & tw & E & T0).
  destruct (K (mkV (v_c v) on (v_e v) x (v_t v ++ tw))) as (o2 & c2 & on2 & e2 & x2 & tw2 & E2 & X2).
  exists o2, c2, on2, e2, x2, (tw ++ tw2). split; [unfold wbind; rewrite E, E2; cbn; now rewrite app_assoc|].
  intros S f'. apply Forall_app in S as [S1 S2]. destruct (X2 S2 f') as (f & tp & T & Y).
  exists f, tp. split; [now rewrite wtalk_app, T0|]. exact Y.
Qed.
Lemma sil_put ev : (forall e, ev <> WSock e) -> silentw (wput ev).
Proof.
  intros H [c on e x t]. exists on, x, [ev]. split; [reflexivity|]. destruct ev; try reflexivity. now destruct (H ev).
Qed.
Lemma sil_on b : silentw (set_on b).
Proof. intros [c on e x t]. exists b, x, []. split; [cbn; now rewrite app_nil_r|reflexivity]. Qed.
(** A result of a script, followed by its event: it may be assumed smooth. *)
Lemma sim_next {C} {R} get set (d : R) (mk : R -> wevent) (kw : R -> W C) kp :
  (forall r e, mk r <> WSock e) ->
  (forall r, smooth (mk r) -> simw (kw r) kp) ->
  (forall r v, exists o c on e x tw, kw r v = (o, mkV c on e x (v_t v ++ tw))) ->
  simw (wbind (next get set d) (fun r => wbind (wput (mk r)) (fun _ => kw r))) kp.
Proof.
  intros N K L v. set (r := match get (v_w v) with [] => d | r :: _ => r end).
  set (x := match get (v_w v) with [] => v_w v | _ :: l => set l (v_w v) end).
  set (v1 := mkV (v_c v) (v_on v) (v_e v) x (v_t v ++ [mk r])).
  assert (E : (wbind (next get set d) (fun r => wbind (wput (mk r)) (fun _ => kw r))) v = kw r v1).
  { unfold wbind, next, wput, v1, r, x. destruct v; cbn. destruct (get v_w); reflexivity. }
  destruct (L r v1) as (o & c & on & e & x' & tw & E1). cbn in E1. rewrite <- app_assoc in E1.
  exists o, c, on, e, x', ([mk r] ++ tw). split; [now rewrite E|]. intros S f'. apply Forall_app in S as [S1 S2].
  inversion S1 as [|? ? S3 _]; subst. destruct (K r S3 v1) as (o2 & c2 & on2 & e2 & x2 & tw2 & E2 & X2).
  rewrite E2 in E1. cbn in E1. injection E1 as -> -> -> -> -> E1. rewrite <- app_assoc in E1. cbn in E1.
  apply app_inv_head in E1. injection E1 as ->. destruct (X2 S2 f') as (f & tp & T & Y). exists f, tp.
  split; [|exact Y]. rewrite wtalk_app, <- T. destruct (mk r) eqn:M; try reflexivity. now destruct (N r ev).
Qed.
