(** The dialogue of the Windows build with a server that agrees with
    everything. *)

From Coq Require Import Ascii String List NArith ZArith Bool Lia.
From Verif Require Import Base Lib ModelUtil ModelBase64 ModelAddress ModelAttachment
  ModelErrors ModelReply ModelMessage ModelState ModelClient ModelWorld SpecText SpecReply SpecMime SpecDialogue SpecAuth SpecForward
  ProofLog ProofDialogue ProofLife ProofForward ProofForward4 ProofForward5 ProofMail4 ProofSafety ModelWin SpecWin SpecWinPair SpecWinForward ProofWin ProofWinSafe ProofWinSafe2 ProofWinLong ProofWinMail ProofWinForward.
Import ListNotations.
Open Scope Z_scope.

Definition shortd (d : str) : Prop := (slen d <= INT_MAX)%N.
Lemma fits_written t : Forall shortd (written t) -> Forall fits t.
Proof.
  intros H. apply Forall_forall. intros ev I. destruct ev; try exact Logic.I.
  apply in_split in I as (a & b & ->). apply (proj1 (Forall_forall _ _) H). apply written_in. left. eauto.
Qed.

Lemma base64_short p s d : base64_line p s d -> (slen p + 2 * slen s + 6 <= INT_MAX)%N -> shortd d.
Proof. intros (b & -> & _ & _ & L) H. unfold shortd. rewrite !slen_app. change (slen CRLF) with 2%N. lia. Qed.
Definition short_turn (y : (str -> Prop) * str) : Prop := forall d, fst y d -> shortd d.
Lemma auth_short k u p rs : short_secret (mkCred u p kImplicit) -> Forall short_turn (combine (map fst (auth_steps k u p)) rs).
Proof.
  unfold short_secret. cbn [cr_user cr_pass]. intros H.
  assert (K : forall (l : list ((str -> Prop) * string)) (rs : list str), Forall (fun t : (str -> Prop) * string => forall d, fst t d -> shortd d) l -> Forall short_turn (combine (map fst l) rs)).
  { induction l as [|a l IH]; intros [|r rs'] F; try constructor; inversion F; subst; [|apply IH; assumption]. intros d. cbn. auto. }
  assert (L : forall p0 s0 d, base64_line p0 s0 d -> (slen p0 <= 100)%N -> (slen s0 <= 1000000030)%N -> shortd d).
  { intros p0 s0 d E H1 H2. apply (base64_short _ _ _ E). unfold INT_MAX. lia. }
  apply K. destruct k; unfold auth_steps.
  - constructor; [|constructor]. intros d E. apply (L _ _ _ E); [vm_compute; discriminate|]. rewrite !slen_app. change (slen [NUL]) with 1%N. lia.
  - constructor; [|constructor; [|constructor; [|constructor]]]; intros d E; [cbn in E; subst d; vm_compute; discriminate| |]; (apply (L _ _ _ E); [change (slen []) with 0%N; lia|lia]).
  - constructor; [|constructor]. intros d E. apply (L _ _ _ E); [vm_compute; discriminate|]. rewrite !slen_app.
    change (slen (B "user=")) with 5%N. change (slen (B "auth=Bearer ")) with 12%N. change (slen [SOH_char]) with 1%N. change (slen [SOH_char; SOH_char]) with 2%N. lia.
Qed.

Lemma session_short c tls clear secure turns : session c tls clear secure turns -> short_login c -> Forall short_turn turns.
Proof.
  intros S L.
  assert (A : forall b r steps rs, login_steps c b r steps -> Forall short_turn (combine (map fst steps) rs)).
  { unfold login_steps. intros b r steps rs H. destruct (c_cred c) as [cr|] eqn:E; [|subst; constructor]. destruct H as (k & _ & ->). apply auth_short. exact (L cr E). }
  assert (Q : forall d r, shortd d -> short_turn (eq d, r)) by (intros d r H x; cbn; intros <-; exact H).
  assert (E1 : shortd EHLO_line) by (vm_compute; discriminate). assert (E2 : shortd (B "STARTTLS" ++ CRLF)) by (vm_compute; discriminate).
  inversion S; subst; repeat (constructor; [apply Q; assumption|]); try constructor; eapply A; eassumption.
Qed.
Lemma conn_short conn turns : as_listed conn turns -> Forall short_turn turns -> Forall shortd (map fst conn).
Proof. induction 1 as [|x y l s [H _] F IH]; intros T; cbn; constructor; inversion T; subst; auto. Qed.

Lemma concat_short : forall l (d : str), In d l -> (slen d <= slen (concat l))%N.
Proof.
  induction l as [|a l IH]; intros d H; [destruct H|]. cbn [concat]. rewrite slen_app. destruct H as [->|H]; [lia|]. specialize (IH d H). lia.
Qed.
Lemma mail_short fs m b rs mail : mail_dialogue fs m b rs mail -> (slen (concat (mail_commands m)) <= INT_MAX)%N -> (slen (mail_text fs m) <= INT_MAX)%N ->
  Forall shortd (map fst mail).
Proof.
  intros (lines & E & ->) S1 S2. rewrite <- E in S2. apply Forall_forall. intros d H. rewrite !map_app in H.
  apply in_app_or in H as [H|H]; [|apply in_app_or in H as [H|H]; [|apply in_app_or in H as [H|H]]].
  - apply in_map_iff in H as ([x y] & <- & H). apply in_combine_l in H. apply concat_short in H. unfold shortd. cbn [fst]. lia.
  - unfold silent in H. rewrite map_map in H. cbn [fst] in H. rewrite map_id in H. apply concat_short in H. unfold shortd. lia.
  - destruct H as [<-|[]]. vm_compute. discriminate.
  - destruct b; [destruct H|]. destruct H as [<-|[]]. vm_compute. discriminate.
Qed.

(** ** One operation *)

Definition wsends (i : nat) (c : client) (m : message) (w : wworld) (turns : list ((str -> Prop) * str)) (rs : list str) : Prop :=
  exists w' t conn mail, wstep (OSend i m) w = (Done 0, w') /\ ww_trace w' = ww_trace w ++ t /\ exchanges (wtalk t) = conn ++ mail /\
    as_listed conn turns /\ mail_dialogue (e_fs (w_env (ww w))) m (c_batch c) rs mail /\ transmitted (wtalk t) = concat (map fst (conn ++ mail)).
Lemma wsends_step i c m w turns rs : get_client (ww w) i = Some c -> calm (ww_env w) -> (c_conn c = false -> opens (w_env (ww w))) ->
  Forall short_turn turns -> (slen (concat (mail_commands m)) <= INT_MAX)%N -> (slen (mail_text (e_fs (w_env (ww w))) m) <= INT_MAX)%N ->
  sends (mkSt c (posix_env [] (w_env (ww w))) []) m turns rs -> wsends i c m w turns rs.
Proof.
  intros G C O Ts S1 S2 (s' & t & conn & mail & E & T & X & F & A & D). cbn [s_c s_e s_t app posix_env e_fs] in *.
  destruct (fs_send m (fun c1 e1 => c1 = c /\ e1 = w_env (ww w))) with (c := c) (e := w_env (ww w)) (x := ww_env w) as (o & c' & e' & tp & P & Wn); [intros ? ? [-> ->]; exact O|exact C|split; reflexivity|].
  rewrite (P []) in E. injection E as -> <-. cbn [s_t app] in T. subst tp.
  assert (Ft : Forall fits t).
  { apply fits_written. unfold written. rewrite X, map_app. apply Forall_app. split; [eapply conn_short; eassumption|eapply mail_short; eassumption]. }
  destruct (Wn Ft (nth i (ww_on w) false) (ww_trace w)) as (on' & tw & Ew & Et).
  eexists _, tw, conn, mail. split; [cbn [wstep]; unfold run_onW; rewrite G, Ew; reflexivity|]. split; [reflexivity|].
  rewrite Et, exchanges_talk, transmitted_talk. split; [exact X|]. split; [exact A|]. split; [exact D|].
  rewrite (full_transmitted _ F). unfold written. rewrite X. reflexivity.
Qed.

Lemma wworld_cooperative : forall i c m w tls clear secure turns rs more1 more2, get_client (ww w) i = Some c -> c_conn c = false -> calm (ww_env w) ->
  session c tls clear secure turns -> mail_answers m rs -> wreliable (w_env (ww w)) ->
  (tls = true -> wnegotiates c (w_env (ww w))) -> named c -> short_login c -> (0 < c_timeout c)%N -> text_ok m -> message_ok m ->
  (slen (concat (mail_commands m)) <= INT_MAX)%N -> (slen (mail_text (e_fs (w_env (ww w))) m) <= INT_MAX)%N ->
  e_recv (w_env (ww w)) = clear ++ (if tls then [] else in_clear rs) ++ more1 -> (tls = true -> e_bread (w_env (ww w)) = over_tls (secure ++ rs) ++ more2) ->
  wsends i c m w turns rs.
Proof.
  intros i c m w tls clear secure turns rs more1 more2 G Cn C S A [R1 R2 R3 (fd & more & R4)] Ng Nm Sl Tm Tk Mk S1 S2 Rc Rb.
  apply wsends_step; try assumption.
  - intros _. split; [exact R3|]. exists fd, more. exact R4.
  - eapply session_short; eassumption.
  - eapply send_now'; cbn [s_c s_e s_t posix_env]; try eassumption.
    + constructor; cbn [posix_env e_send e_bputs e_fcntl e_host e_conn e_sock]; try assumption; try reflexivity. eauto.
    + intros H. destruct (Ng H) as (t & l & E & N). exists (trusting t), (map trusting l). unfold posix_env. cbn [e_tls]. rewrite E. split; [reflexivity|]. cbn. tauto.
    + unfold INT_MAX in S1. lia.
    + cbn [posix_env e_fs]. unfold INT_MAX in S2. lia.
Qed.

Lemma wrun_good ops e x i c : let w := snd (wrun ops (initial_wworld e x)) in get_client (ww w) i = Some c -> c_conn c = true -> good_log c.
Proof.
  intros w G Cn. refine (f_log _ _ _ (_ : fit ops c (w_trace (pw w))) Cn).
  assert (H : lawful ops w); [|exact (proj1 H i c G)].
  apply (wrun_inv (fun o => In o ops) (lawful ops)); [apply lawful_wstep|auto|apply lawful_initial].
Qed.
Lemma wworld_kept : forall ops e x i c m tls rs more, let w := snd (wrun ops (initial_wworld e x)) in
  get_client (ww w) i = Some c -> c_conn c = true -> calm (ww_env w) -> carries tls c -> mail_answers m rs ->
  e_send (w_env (ww w)) = [] -> e_bputs (w_env (ww w)) = [] -> (0 < c_timeout c)%N -> text_ok m -> message_ok m ->
  (slen (getCommunicationLog c) < 281474976710656)%N -> (slen (concat (mail_commands m)) <= INT_MAX)%N -> (slen (mail_text (e_fs (w_env (ww w))) m) <= INT_MAX)%N ->
  (if tls then e_bread (w_env (ww w)) else e_recv (w_env (ww w))) = arrives tls rs ++ more ->
  wsends i c m w [] rs.
Proof.
  intros ops e x i c m tls rs more w G Cn C Ch A Q1 Q2 Tm Tk Mk Sl S1 S2 H.
  pose proof (wrun_good ops e x i c G Cn) as GL.
  apply wsends_step; try assumption; [intros X; congruence|constructor|].
  eapply (send_kept tls _ m rs more); cbn [s_c s_e s_t posix_env e_send e_bputs e_fcntl e_bread e_recv e_fs]; try eassumption; try reflexivity.
  - split; [exact GL|]. destruct GL as (lg & E & _). exists lg. split; [exact E|]. unfold getCommunicationLog in Sl. rewrite E in Sl. lia.
  - unfold INT_MAX in S1. lia.
  - unfold INT_MAX in S2. lia.
Qed.

Lemma wworld_none_applies : forall i c cr m w tls clear secure l more1 more2, get_client (ww w) i = Some c -> c_conn c = false -> calm (ww_env w) -> c_cred c = Some cr ->
  session_without c cr tls clear secure l -> wreliable (w_env (ww w)) -> (tls = true -> wnegotiates c (w_env (ww w))) -> named c -> (0 < c_timeout c)%N ->
  e_recv (w_env (ww w)) = clear ++ more1 -> (tls = true -> e_bread (w_env (ww w)) = over_tls secure ++ more2) ->
  exists w' t, wstep (OSend i m) w = (Done CLIENT_AUTHENTICATION_METHOD_NOTSUPPORTED, w') /\ ww_trace w' = ww_trace w ++ t /\ exchanges (wtalk t) = l /\
    transmitted (wtalk t) = concat (map fst l).
Proof.
  intros i c cr m w tls clear secure l more1 more2 G Cn C Cc S [R1 R2 R3 (fd & more & R4)] Ng Nm Tm Hr Hb.
  destruct (establish_refused tls clear secure l (mkSt c (posix_env [] (w_env (ww w))) []) cr more1 more2 S Cc) as (s' & t & E & T & X & F); cbn [s_c s_e s_t posix_env]; try assumption.
  - constructor; cbn [posix_env e_send e_bputs e_fcntl e_host e_conn e_sock]; try assumption; try reflexivity. eauto.
  - intros H. destruct (Ng H) as (t & l' & E & N). exists (trusting t), (map trusting l'). unfold posix_env. cbn [e_tls]. rewrite E. split; [reflexivity|]. cbn. tauto.
  - assert (Em : sendMail m (mkSt c (posix_env [] (w_env (ww w))) []) = (Done CLIENT_AUTHENTICATION_METHOD_NOTSUPPORTED, s')).
    { unfold sendMail, bind at 1, getc. cbn [s_c]. rewrite Cn. unfold bind at 1. rewrite E. reflexivity. }
    destruct (fs_send m (fun c1 e1 => c1 = c /\ e1 = w_env (ww w))) with (c := c) (e := w_env (ww w)) (x := ww_env w) as (o & c' & e' & tp & P & Wn);
      [intros ? ? [-> ->] _; split; [exact R3|exists fd, more; exact R4]|exact C|split; reflexivity|].
    rewrite (P []) in Em. injection Em as -> <-. cbn [s_t app] in T. subst tp.
    assert (Ft : Forall fits t).
    { apply fits_written. unfold written. rewrite X. assert (E1 : shortd EHLO_line) by (vm_compute; discriminate). assert (E2 : shortd (B "STARTTLS" ++ CRLF)) by (vm_compute; discriminate).
      inversion S; subst; cbn [map fst]; repeat (constructor; [assumption|]); constructor. }
    destruct (Wn Ft (nth i (ww_on w) false) (ww_trace w)) as (on' & tw & Ew & Et).
    eexists _, tw. split; [cbn [wstep]; unfold run_onW; rewrite G, Ew; reflexivity|]. split; [reflexivity|].
    rewrite Et, exchanges_talk, transmitted_talk. split; [exact X|]. rewrite (full_transmitted _ F). unfold written. rewrite X. reflexivity.
Qed.

(** ** Whatever the POSIX build does *)

Lemma wrun_same ops e x : calm x -> let u := run ops (initial_world (posix_env [] e)) in Forall ordinary (w_trace (snd u)) ->
  exists w', wrun ops (initial_wworld e x) = (fst u, w') /\ wtalk (ww_trace w') = SpecWin.talk (w_trace (snd u)) /\ w_clients (ww w') = w_clients (snd u).
Proof.
  intros C u F.
  destruct (fwd_programs ordinary) with (ops := ops) (w := initial_wworld e x) (u := initial_world (posix_env [] e)) (t := w_trace (snd u)) as (w' & tw & E & (Tc & _) & Y & Z).
  - intros fd d r H. exact H.
  - intros er H. exact H.
  - intros fd port H. discriminate H.
  - repeat split; apply C.
  - reflexivity.
  - exact F.
  - exists w'. split; [exact E|]. split; [|exact Tc]. rewrite Y. exact Z.
Qed.
