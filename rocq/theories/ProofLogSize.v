(** The memory taken by communication logs. *)

From Coq Require Import Ascii String List NArith ZArith Bool Lia ZifyBool ZifyNat ZifyN.
From Verif Require Import Base Lib ModelUtil ModelBase64 ModelAddress ModelAttachment
  ModelErrors ModelReply ModelMessage ModelState ModelClient ModelWorld
  ProofSteps ProofWalk ProofPhases ProofEstablish ProofLog ProofSend ProofWorld ProofSafety SpecThrow.
From Verif Require ProofThrow ProofThrow2.
Import ListNotations.
Open Scope Z_scope.

(** At most 4097 bytes of the allocation are unused. *)
Definition log_tight (c : client) : Prop :=
  forall lg, c_log c = Some lg -> (slen (lg_text lg) <= c_logsize c)%N /\ (c_logsize c <= MAX_OBJECT)%N /\ (lg_cap lg <= slen (lg_text lg) + 4097)%N.

Lemma addLog_tight : forall item prefix s s', addLog item prefix s = (Done tt, s') -> log_tight (s_c s) -> log_tight (s_c s').
Proof.
  intros item prefix s s' H P. unfold addLog, bind at 1, getc in H.
  destruct (c_log (s_c s)) as [lg|] eqn:Lg; [|discriminate H]. destruct (P lg Lg) as (P1 & P2 & P3). cbv zeta in H.
  set (it := if str_eqb prefix (B "c") then escape_crlf (cstr item) else cstr item) in *.
  set (a := (1 + slen prefix + 2 + slen it + 1)%N) in *.
  assert (U : u64 (Z.of_N (c_logsize (s_c s)) - Z.of_N (slen (lg_text lg))) = (c_logsize (s_c s) - slen (lg_text lg))%N).
  { unfold u64. rewrite Z.mod_small; [lia|]. unfold MAX_OBJECT in *. lia. }
  rewrite U in H. assert (S3 : slen (B ": ") = 2%N) by reflexivity. assert (S1 : slen [LF] = 1%N) by reflexivity.
  assert (S : slen (lg_text lg ++ [LF] ++ prefix ++ B ": " ++ it) = (slen (lg_text lg) + a - 1)%N) by (rewrite !slen_app; unfold a; lia).
  assert (Fin : forall n cap, (slen (lg_text lg) + a <= n)%N -> (n <= MAX_OBJECT)%N -> (cap <= slen (lg_text lg) + a + 4096)%N ->
    (if ((slen (lg_text lg ++ take (u64 (Z.of_N n - 1)) [LF] ++ take (u64 (Z.of_N n - 1)) prefix ++
              take (u64 (Z.of_N n - 1)) (B ": ") ++ take (u64 (Z.of_N n - 1)) it) + 1 <=? cap) &&
              (u64 (Z.of_N n - 1) <? cap))%N
         then updc (set_log (Some (mkLog (take (u64 (Z.of_N n - 1)) (lg_text lg ++ take (u64 (Z.of_N n - 1)) [LF] ++
              take (u64 (Z.of_N n - 1)) prefix ++ take (u64 (Z.of_N n - 1)) (B ": ") ++ take (u64 (Z.of_N n - 1)) it)) cap)) n)
         else fail_ub (UB_BufferOverflow BufLog)) s = (Done tt, s') -> log_tight (s_c s')).
  { intros n cap N1 N2 N3 Rn.
    assert (U2 : u64 (Z.of_N n - 1) = (n - 1)%N). { unfold u64. rewrite Z.mod_small; [lia|]. unfold MAX_OBJECT, a in *. lia. }
    rewrite U2 in Rn.
    rewrite (take_all _ [LF]), (take_all _ prefix), (take_all _ (B ": ")), (take_all _ it) in Rn by (unfold a in *; lia).
    rewrite (take_all _ (lg_text lg ++ _)) in Rn by (rewrite S; lia).
    destruct (_ && _) in Rn; [|discriminate Rn]. injection Rn as <-. intros l L. cbn [s_c c_log set_log c_logsize] in *. injection L as <-. cbn [lg_text lg_cap]. 
    assert (S' : slen (lg_text lg ++ LF :: prefix ++ ":"%char :: " "%char :: it) = (slen (lg_text lg) + a - 1)%N) by exact S. rewrite S'. unfold a in *. lia. }
  destruct (c_logsize (s_c s) - slen (lg_text lg) <=? a)%N eqn:G; cbn [andb] in H.
  - unfold INITIAL_COMM_LOG_LENGTH in H. destruct (MAX_OBJECT <? slen (lg_text lg) + a + 4096)%N eqn:X; [discriminate H|].
    apply (Fin (slen (lg_text lg) + a + 4096)%N (slen (lg_text lg) + a + 4096)%N); [lia|lia|lia|exact H].
  - apply (Fin (c_logsize (s_c s)) (lg_cap lg)); [lia|lia|lia|exact H].
Qed.
Lemma steps_tight : forall P s s', steps P s s' -> log_tight (s_c s) -> log_tight (s_c s').
Proof.
  intros P s s' H. induction H; auto. intros F. apply IHsteps. clear IHsteps H1. destruct H; try exact F.
  - eapply addLog_tight; eassumption.
  - intros l L. injection L as <-. cbn. unfold INITIAL_COMM_LOG_LENGTH, MAX_OBJECT, slen. cbn. lia.
  - unfold teardown. destruct (c_kind (s_c s)); exact F.
Qed.
Lemma copy_tight : forall c d, log_tight c -> c_log d = log_copy (c_log c) -> c_logsize d = c_logsize c -> log_tight d.
Proof.
  intros c d P L S lg H. rewrite L in H. rewrite S. destruct (c_log c) as [l|] eqn:E; [|discriminate H]. cbn in H. injection H as <-. cbn [lg_text lg_cap].
  destruct (P l E) as (P1 & P2 & P3). lia.
Qed.
Lemma run_log_tight : forall ops e i c, get_client (snd (run ops (initial_world e))) i = Some c -> log_tight c.
Proof.
  intros ops e.
  apply (run_inv (fun _ => True) (all_clients (fun c _ => log_tight c))); [|auto|intros [|i] c H; discriminate H].
  intros o w x w' _ S A. eapply all_clients_step; [|  |exact S|exact A]; [auto|]. clear S A.
  intros i c O A _. destruct O.
  - eapply A; eassumption.
  - unfold client_new, obind in H0. destruct (check_server_name p); inversion H0; subst. intros lg L; discriminate L.
  - unfold client_copy in H1. destruct (c_server c); inversion H1; subst. match goal with G : get_client _ _ = Some ?x |- _ => apply (copy_tight x); [exact (A _ _ G)|reflexivity|reflexivity] end.
  - match goal with G : get_client _ _ = Some ?x |- _ => exact (A _ _ G) end.
  - intros lg L; discriminate L.
  - unfold client_assign in H4. destruct (c_server c); inversion H4; subst. match goal with G : get_client _ _ = Some ?x |- _ => apply (copy_tight x); [exact (A _ _ G)|reflexivity|reflexivity] end.
  - exact (A _ _ H1).
  - intros lg L; discriminate L.
  - destruct (sendMail_walk m (mkSt c (w_env w) (w_trace w))) as [W _].
    eapply steps_tight; [exact W|]. eapply A; eassumption.
  - unfold client_setServerName, obind in H1. destruct (check_server_name p); inversion H1; subst. exact (A _ _ H0).
  - exact (A _ _ H0).
  - exact (A _ _ H0).
  - exact (A _ _ H0).
  - exact (A _ _ H0).
  - exact (A _ _ H0).
  - exact (A _ _ H0).
Qed.

Theorem log_memory : forall ops e i c lg, get_client (snd (run ops (initial_world e))) i = Some c -> c_log c = Some lg ->
  (lg_cap lg <= slen (lg_text lg) + 4097)%N.
Proof. intros ops e i c lg G L. apply (run_log_tight ops e i c G lg L). Qed.
Theorem log_length : forall T ops e i c, modest T ops e -> survived (fst (run ops (initial_world e))) ->
  get_client (snd (run ops (initial_world e))) i = Some c ->
  (slen (getCommunicationLog c) <= 450 * (T + 100) * (total op_count ops + env_count e) + 25 * total op_size ops + 2 * env_size e)%N.
Proof.
  intros T ops e i c M S G. assert (Ne : ops <> []). { intros ->. destruct i; discriminate G. }
  pose proof (ProofThrow2.modest_cost _ _ _ M Ne) as C. pose proof (ProofThrow2.initial_holds T ops e M) as I.
  pose proof M as (_ & _ & M3 & _).
  pose proof (ProofThrow2.run_keeps T ops _ _ I M3 C (ProofThrow2.survived_continues _ S)) as [_ _ _ H].
  destruct (H c (ProofThrow2.get_in _ _ _ G)) as [_ U]. rewrite !ProofThrow2.stock_total in U. pose proof (ProofThrow2.cost_size T ops) as K.
  assert (E : ProofThrow.used c = slen (getCommunicationLog c)) by (unfold ProofThrow.used, getCommunicationLog; destruct (c_log c); reflexivity).
  rewrite E in U. unfold ProofThrow.price in U. nia.
Qed.
