(** Exceptions: the code of a client throws only if its log grows beyond any
    memory.  The length of the log and what is left of the environment's script
    pay for the entries. *)

From Coq Require Import Ascii String List NArith ZArith Bool Lia ZifyBool ZifyNat ZifyN.
From Verif Require Import Base Lib ModelUtil ModelBase64 ModelAddress ModelAttachment
  ModelErrors ModelReply ModelMessage ModelState ModelClient ModelWorld ProofLog ProofForward.
Import ListNotations.
Open Scope Z_scope.

Section Throw.
(** Bounds for the texts of the system, for the server names and for what is
    left of the script. *)
Variables T V R0 : N.

Definition price : N := 2 * T + 100.
Fixpoint incoming (l : list recv_res) : N :=
  match l with
  | [] => 0
  | RData d :: r => price + 2 * slen d + incoming r
  | RErr _ :: r => price + incoming r
  end.
Definition events_left (e : env) : N :=
  N.of_nat (length (e_send e) + length (e_bputs e) + length (e_fcntl e)).
Definition stock (e : env) : N := (incoming (e_recv e) + incoming (e_bread e) + price * events_left e)%N.
Definition used (c : client) : N := match c_log c with None => 0 | Some lg => slen (lg_text lg) end.
Definition phi (s : st) : N := (used (s_c s) + stock (s_e s))%N.
Definition fit_env (e : env) : Prop := (forall z, slen (e_strerror e z) <= T)%N /\ (forall z, slen (e_x509str e z) <= T)%N /\ (stock e <= R0)%N.
Definition fit_client (c : client) : Prop :=
  (forall n, c_server c = Some n -> slen n <= V)%N /\ (slen (dec_of_N (c_port c)) <= 10)%N.
Definition fit (s : st) : Prop := fit_env (s_e s) /\ fit_client (s_c s).

Definition spends {A} (g : A -> N) (K : N) (m : M A) : Prop := forall s, fit s ->
  match m s with
  | (Done a, s') => fit s' /\ (phi s' + g a <= phi s + K)%N
  | (Throw, _) => (LIM < 2 * (phi s + K))%N
  | _ => True
  end.
Notation costs := (spends (fun _ => 0%N)).

(** Taking something from the script. *)
Lemma fit_less s s' : fit s -> s_c s' = s_c s -> e_strerror (s_e s') = e_strerror (s_e s) -> e_x509str (s_e s') = e_x509str (s_e s) -> (stock (s_e s') <= stock (s_e s))%N -> fit s'.
Proof. intros [(F1 & F2 & F3) F4] C S X L. split; [|now rewrite C]. split; [|split]; rewrite ?S, ?X; [assumption|assumption|lia]. Qed.

Lemma spends_bind {A C} g K1 K2 (m : M A) (k : A -> M C) : spends g K1 m -> (forall a, costs (K2 + g a)%N (k a)) -> costs (K1 + K2)%N (bind m k).
Proof.
  intros H1 H2 s F. specialize (H1 s F). unfold bind. destruct (m s) as [[a| | | | |] s1]; try exact Logic.I; [|lia].
  destruct H1 as [F1 L1]. specialize (H2 a s1 F1). destruct (k a s1) as [[b| | | | |] s2]; try exact Logic.I; [|lia]. destruct H2 as [F2 L2]. split; [exact F2|lia].
Qed.
Lemma costs_bind {A C} K1 K2 (m : M A) (k : A -> M C) : costs K1 m -> (forall a, costs K2 (k a)) -> costs (K1 + K2)%N (bind m k).
Proof. intros H1 H2. apply (spends_bind _ _ _ _ _ H1). intros a. rewrite N.add_0_r. apply H2. Qed.
Lemma spends_more {A} g K K' (m : M A) : spends g K m -> (K <= K')%N -> spends g K' m.
Proof. intros H L s F. specialize (H s F). destruct (m s) as [[a| | | | |] s']; try exact Logic.I; [destruct H; split; [assumption|lia]|lia]. Qed.
Lemma costs_ret {A} K (a : A) : costs K (ret a).
Proof. intros s F. cbn. split; [exact F|lia]. Qed.
Lemma costs_getc {C} K (k : client -> M C) : (forall c, fit_client c -> costs K (k c)) -> costs K (bind getc k).
Proof. intros H s F. exact (H (s_c s) (proj2 F) s F). Qed.
Lemma costs_gete {C} K (k : env -> M C) : (forall e, fit_env e -> costs K (k e)) -> costs K (bind gete k).
Proof. intros H s F. exact (H (s_e s) (proj1 F) s F). Qed.
Lemma costs_emit K ev : costs K (emit ev).
Proof. intros s F. cbn. split; [exact F|]. unfold phi. cbn. lia. Qed.
Lemma costs_emits K l : costs K (emits l).
Proof. intros s F. cbn. split; [exact F|]. unfold phi. cbn. lia. Qed.
Lemma costs_ub {A} K u : costs K (@fail_ub A u). Proof. intros s F. exact Logic.I. Qed.
Lemma costs_blocked {A} K : costs K (@blocked A). Proof. intros s F. exact Logic.I. Qed.
Lemma costs_diverge {A} K : costs K (@diverge A). Proof. intros s F. exact Logic.I. Qed.
Lemma costs_killed {A} K : costs K (@killed A). Proof. intros s F. exact Logic.I. Qed.
Lemma costs_lift {A} K (o : outcome A) : o <> Throw -> costs K (lift o).
Proof. intros N s F. unfold lift. destruct o; try exact Logic.I; [split; [exact F|lia]|now contradiction N]. Qed.
Lemma costs_updc K g : (forall c, c_log (g c) = c_log c) -> (forall c, c_server (g c) = c_server c) -> (forall c, c_port (g c) = c_port c) -> costs K (updc g).
Proof.
  intros L S P s [F1 F2]. cbn. split; [split; [exact F1|]|unfold phi, used; cbn; rewrite L; lia]. unfold fit_client in *. cbn. rewrite S, P. exact F2.
Qed.
Lemma costs_upde K g : (forall e, stock (g e) <= stock e)%N -> (forall e, e_strerror (g e) = e_strerror e) -> (forall e, e_x509str (g e) = e_x509str e) -> costs K (upde g).
Proof.
  intros L S P s [(F1 & F1' & F3) F2]. cbn. specialize (L (s_e s)). split; [split; [|exact F2]|unfold phi; cbn; lia]. split; [|split]; cbn; rewrite ?S, ?P; [assumption|assumption|lia].
Qed.

Lemma take_short n s : (slen (take n s) <= slen s)%N.
Proof. unfold take. destruct (slen s <=? n)%N; [lia|]. unfold slen. rewrite firstn_length. lia. Qed.
Definition logged (v : option logbuf) (n : N) (s : st) : st := mkSt (set_log v n (s_c s)) (s_e s) (s_t s).
Lemma log_once item prefix s : (slen prefix <= 5)%N -> fit s ->
  match addLog item prefix s with
  | (Done _, s') => fit s' /\ (phi s' <= phi s + (2 * slen item + 10))%N /\ exists v n, s' = logged v n s
  | (Throw, _) => (LIM < phi s + (2 * slen item + 10))%N
  | _ => True
  end.
Proof.
  intros Lp F. unfold addLog, bind at 1, getc. destruct (c_log (s_c s)) as [lg|] eqn:L; [|exact Logic.I]. cbv zeta.
  set (it := if str_eqb prefix (B "c") then escape_crlf (cstr item) else cstr item).
  assert (I : (slen it <= 2 * slen item)%N). { pose proof (cstr_slen item). unfold it. destruct (str_eqb prefix (B "c")); [pose proof (escape_length (cstr item))|]; lia. }
  assert (U : used (s_c s) = slen (lg_text lg)) by (unfold used; now rewrite L).
  set (grow := (u64 _ <=? _)%N). set (size := if grow then _ else _).
  destruct (grow && (MAX_OBJECT <? size)%N) eqn:G.
  - unfold lift. apply andb_prop in G as [G1 G2]. unfold size in G2. rewrite G1 in G2. apply N.ltb_lt in G2. unfold phi. rewrite U. unfold MAX_OBJECT, INITIAL_COMM_LOG_LENGTH, LIM in *. lia.
  - match goal with |- context [if ?b then updc _ else _] => destruct b end; [|exact Logic.I]. cbn [updc s_c s_e s_t]. split; [exact F|]. split; [|now eexists _, _]. unfold phi. cbn [s_c s_e]. rewrite U. unfold used. cbn [c_log set_log lg_text].
    match goal with |- context [slen (take ?n (?a ++ ?b1 ++ ?b2 ++ ?b3 ++ ?b4))] => pose proof (take_short n (a ++ b1 ++ b2 ++ b3 ++ b4)) as X end.
    rewrite !slen_app in X. repeat match type of X with context [slen (take ?n ?y)] => match y with context [take] => fail 1 | _ => pose proof (take_short n y); generalize dependent (slen (take n y)); intros end end.
    change (slen [LF]) with 1%N in *. change (slen (B ": ")) with 2%N in *. lia.
Qed.
Lemma costs_log item prefix : (slen prefix <= 5)%N -> costs (2 * slen item + 10)%N (addLog item prefix).
Proof.
  intros Lp s F. pose proof (log_once item prefix s Lp F) as H. destruct (addLog item prefix s) as [[a| | | | |] s']; try exact Logic.I; [|lia].
  destruct H as (H1 & H2 & _). split; [exact H1|lia].
Qed.
Lemma costs_logc item : costs (2 * slen item + 10)%N (logc item). Proof. apply costs_log. cbn. lia. Qed.
Lemma costs_logs item : costs (2 * slen item + 10)%N (logs item). Proof. apply costs_log. cbn. lia. Qed.

Lemma costs_errno z : costs price (log_errno z).
Proof.
  unfold log_errno, setLastSocketErrNo. change price with (0 + price)%N. apply costs_bind; [now apply costs_updc|]. intros _. apply costs_gete. intros e [E _].
  eapply spends_more; [apply costs_logc|]. specialize (E z). unfold price. lia.
Qed.

(** fcntl: a failure is paid by the script. *)
Lemma spends_fcntl mode : spends (fun r => match r with Some _ => price | None => 0%N end) 0 (sys_fcntl mode).
Proof.
  intros s F. unfold sys_fcntl, bind, getc, gete. destruct (e_fcntl (s_e s)) as [|r l] eqn:E.
  - cbn. split; [exact F|]. unfold phi. cbn. lia.
  - cbn. split; [apply (fit_less s); [exact F|reflexivity|reflexivity|reflexivity|unfold stock, events_left; cbn; rewrite E; cbn [length]; lia]|]. unfold phi, stock, events_left. cbn. rewrite E. cbn [length]. destruct r; lia.
Qed.
Lemma costs_nonblocking : costs 0 setSocketToNonBlocking.
Proof.
  unfold setSocketToNonBlocking. change 0%N with (0 + 0)%N. apply (spends_bind _ _ _ _ _ (spends_fcntl _)). intros g.
  apply (spends_more _ ((match g with Some _ => price | None => 0 end) + 0)); [|destruct g; lia].
  apply costs_bind. { destruct g; [apply costs_errno|apply costs_ret]. }
  intros _. change 0%N with (0 + 0)%N. apply (spends_bind _ _ _ _ _ (spends_fcntl _)). intros r. destruct r; [|apply costs_ret].
  apply (spends_more _ (price + 0)); [|lia]. apply costs_bind; [apply costs_errno|]. intros _. apply costs_ret.
Qed.
Lemma costs_blocking : costs 0 setSocketToBlocking.
Proof.
  unfold setSocketToBlocking. change 0%N with (0 + 0)%N. apply (spends_bind _ _ _ _ _ (spends_fcntl _)). intros g. destruct g.
  - apply (spends_more _ (price + 0)); [|lia]. apply costs_bind; [apply costs_errno|]. intros _. apply costs_ret.
  - change (0 + 0)%N with (0 + 0)%N. apply (spends_bind _ _ _ _ _ (spends_fcntl _)). intros r. destruct r; [|apply costs_ret].
    apply (spends_more _ (price + 0)); [|lia]. apply costs_bind; [apply costs_errno|]. intros _. apply costs_ret.
Qed.

(** The reading loops. *)
Lemma rbytes_short r : (slen (rbytes r) <= match r with RData d => slen d | RErr _ => 0 end)%N.
Proof. unfold rbytes, slen. destruct r as [d|]; [|cbn; lia]. rewrite firstn_length. lia. Qed.
Lemma incoming_cons r l : (price + 2 * slen (rbytes r) + incoming l <= incoming (r :: l))%N.
Proof. pose proof (rbytes_short r). destruct r; cbn [incoming] in *; lia. Qed.
Lemma raw_loop_pays fd t : forall rs w g acc o evs rest, raw_loop fd t w g acc rs = (o, evs, rest) ->
  match o with
  | Done (_, _, full) => (incoming rest + 2 * slen full + price <= incoming rs + 2 * slen acc)%N
  | Throw => False
  | _ => True
  end.
Proof.
  induction rs as [|r rs IH]; intros w g acc o evs rest H; cbn [raw_loop] in H; [injection H as <- <- <-; exact Logic.I|].
  pose proof (incoming_cons r rs) as P. destruct (rbytes r) as [|x y] eqn:R.
  - destruct (is_err r && g); [injection H as <- <- <-; lia|]. destruct (w + 1 <? t)%N.
    + destruct (raw_loop fd t (w + 1) g acc rs) as [[o1 e1] r1] eqn:Q. injection H as <- <- <-. specialize (IH _ _ _ _ _ _ Q). destruct o1 as [[[? ?] ?]| | | | |]; try exact IH. lia.
    + injection H as <- <- <-. lia.
  - destruct (_ <=? _)%nat; [injection H as <- <- <-; exact Logic.I|]. pose proof (cstr_slen (x :: y)) as C. set (cs := cstr (x :: y)) in *. clearbody cs. set (xy := slen (x :: y)) in *. clearbody xy. destruct (w <? t)%N.
    + destruct (raw_loop fd t w true (acc ++ cs) rs) as [[o1 e1] r1] eqn:Q. injection H as <- <- <-. specialize (IH _ _ _ _ _ _ Q). destruct o1 as [[[? ?] ?]| | | | |]; try exact IH. rewrite slen_app in IH. lia.
    + injection H as <- <- <-. rewrite slen_app. lia.
Qed.
Lemma wait_loop_pays mk t : forall rs w o evs rest, wait_loop mk t w rs = (o, evs, rest) ->
  match o with
  | Done (Some d) => (incoming rest + 2 * slen d + price <= incoming rs)%N
  | Done None => (incoming rest <= incoming rs)%N
  | Throw => False
  | _ => True
  end.
Proof.
  induction rs as [|r rs IH]; intros w o evs rest H; cbn [wait_loop] in H; [injection H as <- <- <-; exact Logic.I|].
  pose proof (incoming_cons r rs) as P. destruct (rbytes r) as [|x y] eqn:R.
  - destruct (w <? t)%N.
    + destruct (wait_loop mk t (w + 1) rs) as [[o1 e1] r1] eqn:Q. injection H as <- <- <-. specialize (IH _ _ _ _ Q). destruct o1 as [[?|]| | | | |]; try exact IH; lia.
    + injection H as <- <- <-. lia.
  - injection H as <- <- <-. destruct (w <? t)%N; lia.
Qed.

Lemma costs_raw_reply : costs 0 getRawCommandReply.
Proof.
  unfold getRawCommandReply. change 0%N with (0 + 0)%N. apply costs_bind; [apply costs_nonblocking|]. intros _ s F.
  unfold bind at 1, getc. unfold bind at 1, gete. destruct (raw_loop _ _ _ _ _ (e_recv (s_e s))) as [[o evs] rest] eqn:R. pose proof (raw_loop_pays _ _ _ _ _ _ _ _ _ R) as P.
  unfold bind at 1, upde. unfold bind at 1, emits. unfold bind at 1, lift. destruct o as [[[w g] full]| | | | |]; try exact Logic.I; [|contradiction P]. change (slen []) with 0%N in P.
  set (s2 := mkSt _ _ _). assert (F2 : fit s2) by (apply (fit_less s); [exact F|reflexivity|reflexivity|reflexivity|unfold stock, events_left, s2; cbn [s_c s_e set_recv set_bread e_recv e_bread e_send e_bputs e_fcntl]; lia]). assert (Q : (phi s2 + (2 * slen full + price) <= phi s)%N). { unfold phi, stock, events_left, s2. cbn [s_c s_e set_recv e_recv e_bread e_send e_bputs e_fcntl]. lia. }
  clearbody s2. set (c := s_c s). clearbody c.
  assert (K : costs (2 * slen full + 10)%N (setSocketToBlocking ;; (if (w <? c_timeout c)%N || g then setLastServerResponse full ;; logs full ;; ret (extractReturnCode (Some full)) else ret (-1)))).
  { apply (spends_more _ (0 + (2 * slen full + 10))); [|lia]. apply costs_bind; [apply costs_blocking|]. intros _. destruct (_ || _)%bool; [|apply costs_ret].
    apply (spends_more _ (0 + (2 * slen full + 10))); [|lia]. apply costs_bind; [now apply costs_updc|]. intros _.
    apply (spends_more _ ((2 * slen full + 10) + 0)); [|lia]. apply costs_bind; [apply costs_logs|]. intros _. apply costs_ret. }
  specialize (K s2 F2). unfold price in *. match goal with |- match ?x with _ => _ end => destruct x as [[a| | | | |] s3] end; try exact Logic.I; [|lia].
  destruct K as [K1 K2]. split; [exact K1|lia].
Qed.

Lemma drop_last_short d : (slen (drop_last_byte d) <= slen d)%N.
Proof. unfold drop_last_byte. pose proof (cstr_slen (firstn (length d - 1) d)). unfold slen in *. rewrite firstn_length in *. lia. Qed.
Definition heard (r : option str) : N := match r with Some d => 2 * slen d + price | None => 0 end.
Lemma spends_wait_bio : spends heard 0 wait_bio.
Proof.
  intros s F. unfold wait_bio, bind at 1, getc. destruct (c_bio (s_c s)) as [b|].
  - unfold bind at 1, gete. destruct (wait_loop _ _ _ (e_bread (s_e s))) as [[o evs] rest] eqn:R. pose proof (wait_loop_pays _ _ _ _ _ _ _ R) as P.
    unfold bind at 1, upde. unfold bind at 1, emits, lift. destruct o as [[d|]| | | | |]; try exact Logic.I; try exact (False_ind _ P); (split; [apply (fit_less s); [exact F|reflexivity|reflexivity|reflexivity|unfold stock, events_left; cbn [s_c s_e set_recv set_bread e_recv e_bread e_send e_bputs e_fcntl]; lia]|]; unfold phi, stock, events_left; cbn [s_c s_e set_bread e_recv e_bread e_send e_bputs e_fcntl heard]; lia).
  - unfold wait_null_bio, bind, getc. destruct (0 <? c_timeout (s_c s))%N; cbn; (split; [exact F|]; unfold phi; cbn; lia).
Qed.
Lemma costs_tls_reply : costs 0 getServerReplyTLS.
Proof.
  unfold getServerReplyTLS. change 0%N with (0 + 0)%N. apply (spends_bind _ _ _ _ _ spends_wait_bio). intros [d|]; [|apply costs_ret]. pose proof (drop_last_short d). cbv zeta. unfold heard, price.
  eapply spends_more; [eapply (costs_bind 0); [now apply costs_updc|]; intros _; eapply (costs_bind _ 0); [apply costs_logs|]; intros _; apply costs_ret|]. lia.
Qed.
Lemma costs_reply : costs 0 getServerReply.
Proof. unfold getServerReply. apply costs_getc. intros c _. destruct (c_kind c); [apply costs_raw_reply|apply costs_tls_reply|apply costs_tls_reply]. Qed.
Lemma costs_greeting r : costs (heard r + 100) (greeting_result r).
Proof.
  destruct r as [d|]; [|apply costs_ret]. unfold greeting_result. cbv zeta. pose proof (drop_last_short d). unfold heard, price.
  eapply spends_more; [eapply costs_bind; [apply costs_logs|]; intros _; apply (costs_bind 50 0); [|intros _; apply costs_ret]|].
  - destruct (_ =? _); [|apply costs_ret]. eapply spends_more; [apply costs_logc|]. cbn. lia.
  - lia.
Qed.
Lemma costs_greetings_tls : costs 100 checkServerGreetingsTLS.
Proof. unfold checkServerGreetingsTLS. change 100%N with (0 + 100)%N. apply (spends_bind _ _ _ _ _ spends_wait_bio). intros r. eapply spends_more; [apply costs_greeting|]. lia. Qed.
Lemma costs_greetings : costs 100 checkServerGreetings.
Proof.
  intros s F. unfold checkServerGreetings, bind at 1, getc. unfold bind at 1, gete. destruct (wait_loop _ _ _ (e_recv (s_e s))) as [[o evs] rest] eqn:R. pose proof (wait_loop_pays _ _ _ _ _ _ _ R) as P.
  unfold bind at 1, upde. unfold bind at 1, emits. unfold bind at 1, lift. destruct o as [r| | | | |]; try exact Logic.I; [|contradiction P].
  set (s2 := mkSt _ _ _). assert (F2 : fit s2) by (apply (fit_less s); [exact F|reflexivity|reflexivity|reflexivity|unfold stock, events_left, s2; cbn [s_c s_e set_recv set_bread e_recv e_bread e_send e_bputs e_fcntl]; destruct r; lia]). assert (Q : (phi s2 + heard r <= phi s)%N). { unfold phi, stock, events_left, s2. cbn [s_c s_e set_recv e_recv e_bread e_send e_bputs e_fcntl]. destruct r; cbn [heard]; lia. }
  clearbody s2. pose proof (costs_greeting r s2 F2) as K. destruct (greeting_result r s2) as [[a| | | | |] s3]; try exact Logic.I; [|lia]. destruct K as [K1 K2]. split; [exact K1|lia].
Qed.

(** Writing: a failure is paid by the script. *)
Definition failed (r : send_res) : N := match r with WErr _ => price | _ => 0 end.
Lemma spends_send d : spends failed 0 (sys_send d).
Proof.
  intros s F. unfold sys_send, bind, getc, gete. destruct (e_send (s_e s)) as [|r l] eqn:E.
  - cbn. split; [exact F|]. unfold phi. cbn. lia.
  - cbn. split; [apply (fit_less s); [exact F|reflexivity|reflexivity|reflexivity|unfold stock, events_left; cbn; rewrite E; cbn [length]; lia]|]. unfold phi, stock, events_left. cbn. rewrite E. cbn [length]. destruct r; cbn [failed]; lia.
Qed.
Lemma spends_puts b d : spends failed 0 (sys_puts b d).
Proof.
  intros s F. unfold sys_puts, bind, gete. destruct (e_bputs (s_e s)) as [|r l] eqn:E.
  - cbn. split; [exact F|]. unfold phi. cbn. lia.
  - cbn. split; [apply (fit_less s); [exact F|reflexivity|reflexivity|reflexivity|unfold stock, events_left; cbn; rewrite E; cbn [length]; lia]|]. unfold phi, stock, events_left. cbn. rewrite E. cbn [length]. destruct r; cbn [failed]; lia.
Qed.

Lemma send_total d s : exists r s', sys_send d s = (Done r, s').
Proof. unfold sys_send, bind, getc, gete. destruct (e_send (s_e s)); cbn; eexists _, _; reflexivity. Qed.
Lemma puts_total b d s : exists r s', sys_puts b d s = (Done r, s').
Proof. unfold sys_puts, bind, gete. destruct (e_bputs (s_e s)); cbn; eexists _, _; reflexivity. Qed.

Definition stuck (c : client) : Prop := c_batch c = true /\ c_conn c = true /\ c_kind c <> KPlain /\ c_rawptr c = false /\ c_bio c = None.
Lemma never_done : forall f s, stuck (s_c s) -> match cleanup_f f s with (Done _, _) => False | _ => True end.
Proof.
  induction f as [|f IH]; intros s ST; [exact Logic.I|]. pose proof ST as (H1 & H2 & H3 & H4 & H5).
  cbn [cleanup_f]. unfold bind at 1, getc. rewrite H1, H2. cbn [andb]. unfold bind at 1, sendQuit_with. unfold bind at 1 2.
  destruct (logc (B "QUIT" ++ CRLF) s) as [[u| | | | |] s1] eqn:L; try exact Logic.I.
  assert (X : exists v n, s1 = logged v n s).
  { unfold logc, addLog, bind at 1, getc in L. destruct (c_log (s_c s)) as [lg|]; [|discriminate L]. cbv zeta in L. destruct (_ && _) in L; [discriminate L|]. match type of L with context [if ?b then updc _ else _] => destruct b end; [|discriminate L]. unfold updc in L. injection L as _ <-. now eexists _, _. }
  destruct X as (v & n & ->). unfold sendCommandPtr_with, bind at 1, getc. cbn [s_c logged set_log c_rawptr c_kind]. rewrite H4.
  assert (Y : match sendCommandTLS_with (cleanup_f f) (B "QUIT" ++ CRLF) CLIENT_SENDMAIL_QUIT_ERROR (logged v n s) with (Done _, _) => False | _ => True end).
  { unfold sendCommandTLS_with, bind at 1, getc. cbn [s_c logged set_log c_bio]. rewrite H5. unfold bind at 1, setLastSocketErrNo, updc. unfold bind at 1.
    match goal with |- context [cleanup_f f ?x] => specialize (IH x ST); destruct (cleanup_f f x) as [[a| | | | |] s2]; try exact Logic.I; contradiction IH end. }
  destruct (c_kind (s_c s)) eqn:Kd; [contradiction H3; reflexivity| |];
    (destruct (sendCommandTLS_with _ _ _ _) as [[a| | | | |] s2]; try exact Logic.I; contradiction Y).
Qed.

Definition tidy (f : nat) : Prop := forall s, fit s ->
  match cleanup_f f s with
  | (Done _, s') => fit s' /\ (phi s' <= phi s + 22)%N
  | (Throw, _) => (LIM < phi s + 22 * N.of_nat f)%N
  | _ => True
  end.
Lemma quit_f f : tidy f -> forall s, fit s -> c_batch (s_c s) && c_conn (s_c s) = true ->
  match sendQuit_with (cleanup_f f) s with
  | (Done _, s') => fit s' /\ (phi s' <= phi s + 22)%N
  | (Throw, _) => (LIM < phi s + 22 * N.of_nat (S f))%N
  | _ => True
  end.
Proof.
  intros IH s F BC. apply andb_prop in BC as [HB HC]. unfold sendQuit_with, bind at 1.
  assert (L := log_once (B "QUIT" ++ CRLF) (B "c") s). change (slen (B "c")) with 1%N in L. specialize (L ltac:(lia) F). unfold logc.
  change (2 * slen (B "QUIT" ++ CRLF) + 10)%N with 22%N in L. destruct (addLog (B "QUIT" ++ CRLF) (B "c") s) as [[u| | | | |] s1]; try exact Logic.I; [|lia].
  destruct L as (F1 & P1 & v & n & E1).
  assert (Raw : match sendRaw2_with (cleanup_f f) (B "QUIT" ++ CRLF) CLIENT_SENDMAIL_QUIT_ERROR s1 with (Done _, s') => fit s' /\ (phi s' <= phi s + 22)%N | (Throw, _) => (LIM < phi s + 22 * N.of_nat (S f))%N | _ => True end).
  { unfold sendRaw2_with, bind at 1. pose proof (spends_send (cstr (B "QUIT" ++ CRLF)) s1 F1) as W. destruct (send_total (cstr (B "QUIT" ++ CRLF)) s1) as (r & s2 & SE). rewrite SE in W |- *.
    destruct W as [F2 P2]. destruct r; cbn [failed] in P2; try exact Logic.I; try (split; [exact F2|lia]).
    unfold bind at 1, setLastSocketErrNo, updc. unfold bind at 1. set (s3 := mkSt _ _ _). assert (F3 : fit s3) by exact F2. change (phi s2) with (phi s3) in P2. clearbody s3. specialize (IH s3 F3).
    unfold price in P2. destruct (cleanup_f f s3) as [[a| | | | |] s4]; try exact Logic.I; [|lia]. destruct IH as [F4 P4]. split; [exact F4|lia]. }
  unfold sendCommandPtr_with, bind at 1, getc. destruct (c_rawptr (s_c s1)) eqn:Rw; [exact Raw|].
  assert (Tls : c_kind (s_c s1) <> KPlain -> match sendCommandTLS_with (cleanup_f f) (B "QUIT" ++ CRLF) CLIENT_SENDMAIL_QUIT_ERROR s1 with (Done _, s') => fit s' /\ (phi s' <= phi s + 22)%N | (Throw, _) => (LIM < phi s + 22 * N.of_nat (S f))%N | _ => True end).
  { intros NK. unfold sendCommandTLS_with, bind at 1, getc. destruct (c_bio (s_c s1)) as [b|] eqn:Bi.
    - unfold bind at 1. pose proof (spends_puts b (cstr (B "QUIT" ++ CRLF)) s1 F1) as W. destruct (puts_total b (cstr (B "QUIT" ++ CRLF)) s1) as (r & s2 & SE). rewrite SE in W |- *.
      destruct W as [F2 P2]. destruct r; cbn [failed] in P2; try exact Logic.I; try (split; [exact F2|lia]).
      unfold bind at 1, setLastSocketErrNo, updc. unfold bind at 1. set (s3 := mkSt _ _ _). assert (F3 : fit s3) by exact F2. change (phi s2) with (phi s3) in P2. clearbody s3. specialize (IH s3 F3).
      unfold price in P2. destruct (cleanup_f f s3) as [[a| | | | |] s4]; try exact Logic.I; [|lia]. destruct IH as [F4 P4]. split; [exact F4|lia].
    - unfold bind at 1, setLastSocketErrNo, updc. unfold bind at 1. set (s3 := mkSt _ _ _). assert (F3 : fit s3) by exact F1. assert (P3 : phi s3 = phi s1) by reflexivity.
      assert (ST : stuck (s_c s3)). { subst s3. cbn [s_c]. subst s1. repeat split; assumption. }
      clearbody s3. specialize (IH s3 F3). pose proof (never_done f s3 ST) as ND. destruct (cleanup_f f s3) as [[a| | | | |] s4]; try exact Logic.I; [contradiction ND|lia]. }
  destruct (c_kind (s_c s1)); [exact Raw|apply Tls; discriminate|apply Tls; discriminate].
Qed.
Lemma tail_quiet k s : exists s', (updc (set_conn false) ;; (match k with KPlain => ret tt | _ => free_tls end) ;; close_socket) s = (Done tt, s') /\ (fit s -> fit s') /\ phi s' = phi s.
Proof.
  assert (Cl : forall s, exists s', close_socket s = (Done tt, s') /\ (fit s -> fit s') /\ phi s' = phi s).
  { intros [c e t]. unfold close_socket, bind, getc. cbn [s_c]. destruct (c_sock c =? 0); cbn; eexists; (split; [reflexivity|]); (split; [intros [F1 F2]; split; [exact F1|exact F2]|reflexivity]). }
  assert (Fr : forall s, exists s', free_tls s = (Done tt, s') /\ (fit s -> fit s') /\ phi s' = phi s).
  { intros [c e t]. unfold free_tls, bind, getc. cbn [s_c]. destruct (c_ctx c), (c_bio c); cbn; eexists; (split; [reflexivity|]); (split; [intros [F1 F2]; split; [exact F1|exact F2]|reflexivity]). }
  unfold bind at 1, updc. set (s1 := mkSt _ _ _). assert (F1 : fit s -> fit s1) by (intros F; exact F). change (phi s) with (phi s1). clearbody s1. unfold bind.
  destruct k.
  - destruct (Cl s1) as (s2 & E & F2 & P2). cbn [ret]. eexists. split; [exact E|]. split; [auto|exact P2].
  - destruct (Fr s1) as (s2 & -> & F2 & P2). destruct (Cl s2) as (s3 & E & F3 & P3). exists s3. split; [exact E|]. split; [auto|congruence].
  - destruct (Fr s1) as (s2 & -> & F2 & P2). destruct (Cl s2) as (s3 & E & F3 & P3). exists s3. split; [exact E|]. split; [auto|congruence].
Qed.
Lemma tidy_all : forall f, tidy f.
Proof.
  induction f as [|f IH]; intros s F; [exact Logic.I|]. cbn [cleanup_f]. unfold bind at 1, getc.
  destruct (c_batch (s_c s) && c_conn (s_c s)) eqn:BC.
  - unfold bind at 1. unfold bind at 1. pose proof (quit_f f IH s F BC) as Q. destruct (sendQuit_with (cleanup_f f) s) as [[a| | | | |] s1]; try exact Logic.I; [|exact Q]. destruct Q as [F1 P1].
    cbn [ret]. destruct (tail_quiet (c_kind (s_c s)) s1) as (s2 & -> & F2 & P2). split; [exact (F2 F1)|lia].
  - unfold bind at 1, ret at 1. destruct (tail_quiet (c_kind (s_c s)) s) as (s2 & -> & F2 & P2). split; [exact (F2 F)|lia].
Qed.
Lemma costs_cleanup : costs 22 cleanup.
Proof.
  intros s F. unfold cleanup. pose proof (tidy_all (cleanup_fuel (s_e s)) s F) as H. destruct (cleanup_f _ s) as [[a| | | | |] s1]; try exact Logic.I; [destruct H; split; [assumption|lia]|].
  assert (22 * N.of_nat (cleanup_fuel (s_e s)) <= 44 + phi s)%N; [|lia]. unfold cleanup_fuel, phi, stock, events_left, price. nia.
Qed.

(** Commands. *)
Lemma costs_zero {A C} K (m : M A) (k : A -> M C) : costs 0 m -> (forall a, costs K (k a)) -> costs K (bind m k).
Proof. intros H1 H2. exact (costs_bind 0 K m k H1 H2). Qed.
Lemma costs_raw2 cmd err : costs 0 (sendRaw2 cmd err).
Proof.
  unfold sendRaw2, sendRaw2_with. change 0%N with (0 + 0)%N. apply (spends_bind _ _ _ _ _ (spends_send _)). intros r. destruct r; cbn [failed]; try apply costs_ret; try apply costs_killed.
  apply costs_zero; [now apply costs_updc|]. intros _. eapply spends_more; [apply (costs_bind 22 0); [apply costs_cleanup|]; intros _; apply costs_ret|]. unfold price. lia.
Qed.
(** Only a command that fails costs anything. *)
Definition spared (r : Z) : N := if r =? 0 then 22 else 0.
Lemma spends_command cmd err : err <> 0 -> spends spared 22 (sendCommandPtr cmd err).
Proof.
  intros NE. assert (E0 : spared err = 0%N) by (unfold spared; destruct (Z.eqb_spec err 0); [contradiction|reflexivity]).
  assert (Raw : spends spared 22 (sendRaw2_with cleanup cmd err)).
  { intros s F. pose proof (costs_raw2 cmd err s F) as H. unfold sendRaw2 in H. destruct (sendRaw2_with cleanup cmd err s) as [[a| | | | |] s1]; try exact Logic.I; [|lia]. destruct H as [H1 H2]. split; [exact H1|]. unfold spared. destruct (a =? 0); lia. }
  assert (Tls : spends spared 22 (sendCommandTLS_with cleanup cmd err)).
  { intros s F. unfold sendCommandTLS_with, bind at 1, getc. destruct (c_bio (s_c s)) as [b|].
    - unfold bind at 1. pose proof (spends_puts b (cstr cmd) s F) as W. destruct (puts_total b (cstr cmd) s) as (r & s2 & SE). rewrite SE in W |- *. destruct W as [F2 P2]. destruct r; cbn [failed] in P2; try exact Logic.I; try (split; [exact F2|cbn; lia]).
      unfold bind at 1, setLastSocketErrNo, updc. unfold bind at 1. set (s3 := mkSt _ _ _). assert (F3 : fit s3) by exact F2. change (phi s2) with (phi s3) in P2. clearbody s3. pose proof (costs_cleanup s3 F3) as H.
      unfold price in P2. destruct (cleanup s3) as [[a| | | | |] s4]; try exact Logic.I; [|lia]. destruct H as [F4 P4]. cbn [ret]. split; [exact F4|rewrite E0; lia].
    - unfold bind at 1, setLastSocketErrNo, updc. unfold bind at 1. set (s3 := mkSt _ _ _). assert (F3 : fit s3) by exact F. assert (P3 : phi s3 = phi s) by reflexivity. clearbody s3. pose proof (costs_cleanup s3 F3) as H.
      destruct (cleanup s3) as [[a| | | | |] s4]; try exact Logic.I; [|lia]. destruct H as [F4 P4]. cbn [ret]. split; [exact F4|rewrite E0; lia]. }
  intros s F. unfold sendCommandPtr, sendCommandPtr_with, bind at 1, getc. destruct (c_rawptr (s_c s)); [exact (Raw s F)|]. destruct (c_kind (s_c s)); [exact (Raw s F)|exact (Tls s F)|exact (Tls s F)].
Qed.
Lemma costs_command cmd err : err <> 0 -> costs 22 (sendCommandPtr cmd err).
Proof.
  intros NE s F. pose proof (spends_command cmd err NE s F) as H. destruct (sendCommandPtr cmd err s) as [[a| | | | |] s1]; try exact Logic.I; [|exact H]. destruct H. split; [assumption|lia].
Qed.
Lemma costs_raw3 cmd err tmo : costs 22 (sendRaw3 cmd err tmo).
Proof.
  unfold sendRaw3. apply costs_zero; [apply costs_raw2|]. intros r. destruct (negb (r =? 0)); [apply costs_ret|]. apply costs_zero; [apply costs_raw_reply|]. intros code. destruct (negb _); [apply costs_ret|].
  apply (costs_bind 22 0); [apply costs_cleanup|]. intros _. apply costs_ret.
Qed.
Lemma costs_feedback cmd err tmo : costs 22 (sendFeedback cmd err tmo).
Proof.
  unfold sendFeedback. apply costs_getc. intros c _. assert (H : costs 22 (sendFeedbackTLS cmd err tmo)); [|destruct (c_kind c); [apply costs_raw3|exact H|exact H]].
  unfold sendFeedbackTLS. apply costs_getc. intros c2 _. destruct (c_bio c2) as [b|]; [|apply costs_raw3].
  change 22%N with (0 + 22)%N. apply (spends_bind _ _ _ _ _ (spends_puts _ _)). intros r. destruct r; cbn [failed]; try apply costs_killed.
  1, 2: rewrite N.add_0_r; apply costs_zero; [apply costs_reply|]; intros code; destruct (negb _); [apply costs_ret|]; apply (costs_bind 22 0); [apply costs_cleanup|]; intros _; apply costs_ret.
  apply costs_zero; [now apply costs_updc|]. intros _. eapply spends_more; [apply (costs_bind 22 0); [apply costs_cleanup|]; intros _; apply costs_ret|]. lia.
Qed.
Lemma costs_feedback_ptr cmd err tmo : costs 22 (sendFeedbackPtr cmd err tmo).
Proof. unfold sendFeedbackPtr. apply costs_getc. intros c _. destruct (c_rawptr c); [apply costs_raw3|apply costs_feedback]. Qed.

Lemma costs_ehlo_loop : forall f tc opts, costs 0 (ehlo_loop f tc opts).
Proof.
  induction f as [|f IH]; intros tc opts; cbn [ehlo_loop]; (destruct (containsAllOptions opts); [apply costs_zero; [now apply costs_updc|]; intros _; apply costs_ret|]).
  - apply costs_diverge.
  - apply costs_zero; [apply costs_reply|]. intros code. destruct (code =? -1); [apply costs_ret|]. destruct (negb _); [apply costs_ret|]. apply costs_getc. intros c _. destruct (c_resp c); [apply IH|apply costs_ub].
Qed.

(** The units of the rest: one unit pays any message of the library, of the
    system, or a server name. *)
Definition unit_price : N := 4 * T + 4 * V + 400.
Definition ucost {A} (n : nat) (m : M A) : Prop := costs (N.of_nat n * unit_price)%N m.
Lemma u_step {A C} K n (m : M A) (k : A -> M C) : costs K m -> (K <= unit_price)%N -> (forall a, ucost n (k a)) -> ucost (S n) (bind m k).
Proof. intros H1 L H2. unfold ucost in *. eapply spends_more; [eapply costs_bind; [exact H1|exact H2]|]. nia. Qed.
Lemma u_bind {A C} n1 n2 (m : M A) (k : A -> M C) : ucost n1 m -> (forall a, ucost n2 (k a)) -> ucost (n1 + n2) (bind m k).
Proof. intros H1 H2. unfold ucost in *. eapply spends_more; [eapply costs_bind; [exact H1|exact H2]|]. nia. Qed.
Lemma u_more {A} n n' (m : M A) : ucost n m -> (n <= n')%nat -> ucost n' m.
Proof. intros H L. unfold ucost in *. eapply spends_more; [exact H|]. nia. Qed.
Lemma u_last {A} K n (m : M A) : costs K m -> (K <= unit_price)%N -> ucost (S n) m.
Proof. intros H L. unfold ucost. eapply spends_more; [exact H|]. nia. Qed.
Lemma u_const item n : (slen item <= 150)%N -> ucost (S n) (logc item).
Proof. intros L. eapply u_last; [apply costs_logc|]. unfold unit_price. lia. Qed.

Lemma u_part {A C} n1 n (m : M A) (k : A -> M C) : ucost n1 m -> (n1 <= n)%nat -> (forall a, ucost (n - n1) (k a)) -> ucost n (bind m k).
Proof. intros H1 L H2. replace n with (n1 + (n - n1))%nat by lia. now apply u_bind. Qed.
Ltac part n := apply (u_part n); [|cbn; lia|intros ?; cbn [Nat.sub]].
Ltac small := unfold unit_price, price; lia.
Ltac u_go m := lazymatch m with
  | ret _ => apply costs_ret
  | fail_ub _ => apply costs_ub
  | blocked => apply costs_blocked
  | killed => apply costs_killed
  | sendFeedbackPtr _ _ _ => eapply u_last; [apply costs_feedback_ptr|small]
  | sendRaw3 _ _ _ => eapply u_last; [apply costs_raw3|small]
  | bind getc _ => apply costs_getc; intros ? ?
  | bind gete _ => apply costs_gete; intros ? ?
  | bind ?a _ => lazymatch a with
    | emit _ => apply costs_zero; [apply costs_emit|intros ?]
    | updc _ => apply costs_zero; [now apply costs_updc|intros ?]
    | setLastSocketErrNo _ => apply costs_zero; [now apply costs_updc|intros ?]
    | upde _ => apply costs_zero; [apply costs_upde; [intros ?; unfold stock, events_left; cbn; lia|reflexivity|reflexivity]|intros ?]
    | ret _ => apply costs_zero; [apply costs_ret|intros ?]
    | log_errno _ => eapply u_step; [apply costs_errno|small|intros ?]
    | cleanup => eapply u_step; [apply costs_cleanup|small|intros ?]
    | sendFeedbackPtr _ _ _ => eapply u_step; [apply costs_feedback_ptr|small|intros ?]
    | sendFeedback _ _ _ => eapply u_step; [apply costs_feedback|small|intros ?]
    | checkServerGreetings => eapply u_step; [apply costs_greetings|small|intros ?]
    | checkServerGreetingsTLS => eapply u_step; [apply costs_greetings_tls|small|intros ?]
    | setSocketToNonBlocking => apply costs_zero; [apply costs_nonblocking|intros ?]
    | setSocketToBlocking => apply costs_zero; [apply costs_blocking|intros ?]
    | logc ?x => eapply (u_step (2 * slen x + 10)); [apply costs_logc|unfold unit_price; match goal with |- (2 * ?l + _ <= _)%N => let v := eval vm_compute in l in change l with v end; lia|intros ?]
    | logs ?x => eapply (u_step (2 * slen x + 10)); [apply costs_logs|unfold unit_price; match goal with |- (2 * ?l + _ <= _)%N => let v := eval vm_compute in l in change l with v end; lia|intros ?]
    | addLog ?x _ => eapply (u_step (2 * slen x + 10)); [apply costs_log; vm_compute; discriminate|unfold unit_price; match goal with |- (2 * ?l + _ <= _)%N => let v := eval vm_compute in l in change l with v end; lia|intros ?]
    end
  end.
Ltac u_one := lazymatch goal with |- ucost _ ?m => u_go m | |- spends _ _ ?m => u_go m end.

Lemma u_wait : ucost 3 wait_connect.
Proof.
  unfold wait_connect. u_one. destruct (_ <=? _); [u_one|]. u_one. u_one.
  assert (X : forall r, ucost 3 (match r with
    | SelErr er => if er =? EINTR then ret SOCKET_INIT_SESSION_CONNECT_TIMEOUT else log_errno er;; ret SOCKET_INIT_SESSION_CONNECT_ERROR
    | SelTimeout => ret SOCKET_INIT_SESSION_CONNECT_TIMEOUT
    | SelReady =>
        e <- gete;;
        o <- (match e_sopt e with
              | [] => ret (SoVal 0)
              | o :: l => upde (set_sopt l);; ret o
              end);;
        match o with
        | SoErr er => log_errno er;; ret SOCKET_INIT_SESSION_GET_SOCKET_OPTIONS_ERROR
        | SoVal v =>
            if v =? 0 then ret 0
            else log_errno v;; ret SOCKET_INIT_SESSION_DELAYED_CONNECTION_ERROR
        end
    end)).
  { intros [| |er]; [|u_one|destruct (_ =? _); repeat u_one]. u_one. apply costs_zero.
    - destruct (e_sopt e0); repeat u_one.
    - intros [er|v]; [repeat u_one|]. destruct (_ =? _); repeat u_one. }
  apply costs_zero; [destruct (e_select e); repeat u_one|exact X].
Qed.

Lemma u_session_posix : ucost 10 initializeSessionPOSIX.
Proof.
  unfold initializeSessionPOSIX. u_one. destruct (e_sock e) as [|[n|er] l]; [u_one| |repeat u_one].
  u_one. u_one. u_one. apply costs_getc. intros c FC. destruct (c_server c) as [name|] eqn:Sv; [|u_one].
  apply costs_zero. { unfold sys_gethostbyname. u_one. destruct (e_host e0); repeat u_one. }
  intros [len|]; [|u_one]. destruct (_ <? _); [u_one|]. destruct (_ <? _); [u_one|]. u_one. destruct (negb _); [u_one|].
  eapply u_step; [apply costs_logc| |intros _].
  { destruct FC as [F1 F2]. specialize (F1 _ Sv). rewrite !slen_app. change (slen (B "Trying to connect to ")) with 21%N. change (slen (B " on port ")) with 9%N. unfold unit_price. lia. }
  apply costs_zero. { unfold sys_connect. u_one. u_one. cbv zeta. destruct (e_conn e0); repeat u_one. }
  assert (Bk : forall n, ucost n setSocketToBlocking) by (intros n0; unfold ucost; eapply spends_more; [apply costs_blocking|lia]).
  intros [er|]; [|apply Bk]. destruct (er =? _); [|repeat u_one].
  part 3%nat; [exact u_wait|]. destruct (_ =? _); [apply Bk|u_one].
Qed.
Lemma u_session : ucost 10 initializeSession.
Proof.
  unfold initializeSession. apply costs_zero; [|intros _; exact u_session_posix].
  intros s F. cbn. split; [exact F|]. unfold phi, used. cbn. lia.
Qed.
Lemma u_ehlo err tmo : ucost 2 (ehlo_with err tmo).
Proof.
  unfold ehlo_with. u_one. u_one. destruct (negb _); [u_one|]. u_one. destruct (c_resp c); [|u_one]. u_one. unfold ucost. cbn [N.of_nat N.mul]. apply costs_ehlo_loop.
Qed.
Lemma u_identification : ucost 3 sendServerIdentification.
Proof. eapply u_more; [apply u_ehlo|lia]. Qed.
Lemma u_secure_identification : ucost 3 getServerSecureIdentification.
Proof. unfold getServerSecureIdentification. u_one. apply u_ehlo. Qed.
Lemma u_auth : ucost 5 authenticate_if_needed.
Proof.
  unfold authenticate_if_needed. u_one. destruct (c_cred c); [|u_one]. part 5%nat; [| destruct (negb _); u_one].
  unfold authenticateClient. u_one. destruct (c_cred c1) as [cr|]; [|u_one]. destruct (c_auth c1); [|u_one].
  destruct (_ && _). { unfold authPlain. u_one. u_one. }
  destruct (_ && _). { unfold authLogin. u_one. u_one. destruct (negb _); [u_one|]. u_one. destruct (negb _); [u_one|]. u_one. }
  destruct (_ && _); [|u_one]. unfold authXOauth2. u_one. u_one.
Qed.
Lemma u_tls : ucost 12 startTLSNegotiation.
Proof.
  unfold startTLSNegotiation. u_one. u_one. destruct (e_tls e) as [|t l]; [u_one|]. u_one. destruct (negb (t_ctx t)); [repeat u_one|].
  assert (Fr : costs 0 fresh_id) by (unfold fresh_id; repeat u_one).
  apply costs_zero; [exact Fr|]. intros i. u_one. u_one. destruct (negb (t_bio t)); [repeat u_one|]. apply costs_zero; [exact Fr|]. intros b. u_one. u_one. u_one.
  destruct (c_server c); [|u_one]. destruct (_ <? _)%N; [u_one|]. destruct (negb _); [u_one|]. destruct (negb (t_connect t)); [repeat u_one|]. u_one. u_one. destruct (negb (t_handshake t)); [repeat u_one|]. u_one. u_one. destruct (negb (t_cert t)); [repeat u_one|]. u_one. u_one.
  destruct (_ && _); [repeat u_one|]. destruct (negb _); [|repeat u_one]. apply costs_gete. intros e2 (_ & E2 & _). eapply u_step; [apply costs_logs| |intros _; repeat u_one]. specialize (E2 (t_verify t)). unfold unit_price. lia.
Qed.
Lemma u_establish : ucost 40 establish.
Proof.
  assert (Id : ucost 3 sendServerIdentification) by exact u_identification. pose proof u_session as Is. pose proof u_auth as Ia. pose proof u_tls as It. pose proof u_secure_identification as Iq.
  unfold establish. u_one. destruct (c_kind c).
  - unfold establishPlain. part 10%nat; [exact Is|]. destruct (negb _); [u_one|]. u_one. destruct (negb _); [u_one|]. part 3%nat; [exact Id|]. destruct (negb _); [u_one|]. eapply u_more; [exact Ia|lia].
  - unfold establishOpp. part 10%nat; [exact Is|]. destruct (negb _); [u_one|]. u_one. destruct (negb _); [u_one|]. part 3%nat; [exact Id|]. destruct (negb _); [u_one|].
    u_one. apply costs_zero.
    { apply costs_lift. unfold isStartTLSSupported. destruct (c_resp c0) as [x|]; [|discriminate]. cbv zeta. destruct (cstr x) eqn:E; [discriminate|]. rewrite <- E. unfold trim, trimRight.
      assert (Tl : forall y, trimLeft y <> Throw). { induction y as [|q y IH]; cbn; [discriminate|]. destruct (isspace_char q) as [[]|]; congruence. }
      pose proof (Tl (cstr x)). destruct (trimLeft (cstr x)) as [y| | | | |]; cbn; try congruence. pose proof (Tl (rev y)). destruct (trimLeft (rev y)) as [y2| | | | |]; cbn; try congruence. destruct (rev y2); congruence. }
    intros [|].
    + u_one. unfold upgradeToSecureConnection. part 2%nat; [u_one; u_one|]. destruct (negb _); [u_one|]. part 12%nat; [exact It|]. destruct (negb _); [u_one|]. part 3%nat; [exact Iq|]. destruct (negb _); [u_one|]. eapply u_more; [exact Ia|lia].
    + u_one. u_one. u_one.
  - unfold establishForced. part 10%nat; [exact Is|]. destruct (negb _); [u_one|]. part 12%nat; [exact It|]. destruct (negb _); [u_one|]. u_one. destruct (negb _); [u_one|]. part 3%nat; [exact Iq|]. destruct (negb _); [u_one|]. eapply u_more; [exact Ia|lia].
Qed.
End Throw.
