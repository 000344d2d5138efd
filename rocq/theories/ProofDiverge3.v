(** What closing a connection writes. *)

From Coq Require Import Ascii String List NArith ZArith Bool Lia ZifyBool ZifyNat ZifyN.
From Verif Require Import Base Lib ModelUtil ModelBase64 ModelAddress ModelAttachment
  ModelErrors ModelReply ModelMessage ModelState ModelClient ModelWorld
  ProofSteps ProofWalk ProofPhases ProofEstablish ProofLog ProofSend ProofWorld
  SpecAddress SpecText SpecReply SpecMime SpecDialogue SpecLife SpecDead
  ProofTls ProofTls2 ProofDialogue ProofMail ProofMail2 ProofLife ProofCode ProofDead ProofDiverge ProofDiverge2.
Import ListNotations.
Open Scope Z_scope.

Lemma retries_nil : only_retries [].
Proof. split; [intros ev []|]. intros t1 ev t2 ev' E. destruct t1; discriminate E. Qed.
Lemma retries_nowrite : forall a b, only_retries a -> nowrite b -> only_retries (a ++ b).
Proof.
  intros a b [H1 H2] N. split.
  - intros ev I W. apply in_app_or in I as [I|I]; [exact (H1 _ I W)|destruct (N _ I W)].
  - intros t1 ev t2 ev' E W I W'. apply app_split in E as [(u & -> & ->)|(u & -> & E)].
    + apply in_app_or in I as [I|I]; [exact (H2 _ _ _ _ eq_refl W I W')|destruct (N _ I W')].
    + destruct (N ev); [rewrite E; apply in_or_app; right; left; reflexivity|exact W].
Qed.
Lemma retries_one : forall ev, writes (B "QUIT" ++ CRLF) ev -> only_retries [ev].
Proof.
  intros ev W. split; [intros x [<-|[]] _; exact W|]. intros t1 x t2 ev' E _ I. destruct t1 as [|y t1]; [|destruct t1; discriminate E].
  inversion E; subst. destruct I.
Qed.
Lemma retries_cons : forall ev t, writes (B "QUIT" ++ CRLF) ev -> failed ev -> only_retries t -> only_retries (ev :: t).
Proof.
  intros ev t W F [H1 H2]. split; [intros x [<-|I] Wx; [exact W|exact (H1 _ I Wx)]|].
  intros t1 x t2 ev' E Wx I W'. destruct t1 as [|y t1]; inversion E; subst; [exact F|]. exact (H2 _ _ _ _ eq_refl Wx I W').
Qed.

Definition retrying {A} (m : M A) : Prop := forall s, exists t, s_t (snd (m s)) = s_t s ++ t /\ only_retries t.
Lemma cleanup_f_retries : forall n, retrying (cleanup_f n).
Proof.
  induction n as [|n IH]; [intros s; exists []; split; [symmetry; apply app_nil_r|apply retries_nil]|].
  assert (Nil : forall A (m : M A) s, s_t (snd (m s)) = s_t s -> exists t, s_t (snd (m s)) = s_t s ++ t /\ only_retries t).
  { intros A m s E. exists []. split; [rewrite E; symmetry; apply app_nil_r|apply retries_nil]. }
  assert (End : forall k s, exists t, s_t (snd ((updc (set_conn false);; (match k with KPlain => ret tt | _ => free_tls end);; close_socket) s)) = s_t s ++ t /\ nowrite t).
  { intros k s. unfold free_tls, close_socket, updc, bind, getc, emit, ret.
    destruct k; cbn; try destruct (c_ctx (s_c s)), (c_bio (s_c s)); cbn; destruct (c_sock (s_c s) =? 0); cbn;
    rewrite <- ?app_assoc; (eexists; split; [first [reflexivity | symmetry; apply app_nil_r]|]); intros ev I W; cbn in I;
    repeat (destruct I as [<-|I]; [destruct W|]); destruct I. }
  assert (Rt : forall er s, exists t, s_t (snd ((setLastSocketErrNo er;; cleanup_f n;; ret CLIENT_SENDMAIL_QUIT_ERROR) s)) = s_t s ++ t /\ only_retries t).
  { intros er s. destruct (IH (c_state s (set_errno er))) as (t & T & Q). exists t. split; [|exact Q].
    unfold setLastSocketErrNo, updc. unfold bind. fold (c_state s (set_errno er)).
    destruct (cleanup_f n (c_state s (set_errno er))) as [[]]; cbn [snd ret] in *; exact T. }
  assert (Q : retrying (sendQuit_with (cleanup_f n))).
  { intros s. unfold sendQuit_with, logc. unfold bind. destruct (addLog (B "QUIT" ++ CRLF) (B "c") s) as [o s1] eqn:L.
    assert (T1 : s_t s1 = s_t s).
    { unfold addLog, bind, getc in L. destruct (c_log (s_c s)); [|inversion L; reflexivity]. cbv zeta in L.
      repeat match type of L with (if ?b then _ else _) _ = _ => destruct b end; inversion L; reflexivity. }
    destruct o as [[]| | | | |]; try (exists []; cbn; rewrite app_nil_r; split; [exact T1|apply retries_nil]). rewrite <- T1. clear L T1 s.
    assert (Sd : exists t, s_t (snd (sendRaw2_with (cleanup_f n) (B "QUIT" ++ CRLF) CLIENT_SENDMAIL_QUIT_ERROR s1)) = s_t s1 ++ t /\ only_retries t).
    { unfold sendRaw2_with, sys_send. unfold bind at 1 2 3, getc, gete.
      assert (W : forall r, writes (B "QUIT" ++ CRLF) (EvSend (c_sock (s_c s1)) (cstr (B "QUIT" ++ CRLF)) r)) by (intros r; left; eexists; eexists; reflexivity).
      destruct (e_send (s_e s1)) as [|r l]; [eexists; split; [reflexivity|]; apply retries_one, W|].
      unfold bind at 1 2, upde, emit. cbn [s_c s_e s_t]. unfold ret at 1. destruct r; try (eexists; split; [reflexivity|]; apply retries_one, W).
      match goal with |- context [bind (setLastSocketErrNo ?e) _ ?x] => destruct (Rt e x) as (t & T & R) end.
      eexists. split; [rewrite T; cbn [s_t]; rewrite <- app_assoc; reflexivity|]. apply retries_cons; [apply W|exact I|exact R]. }
    unfold sendCommandPtr_with. unfold bind at 1, getc. destruct (c_rawptr (s_c s1)); [exact Sd|].
    assert (Td : exists t, s_t (snd (sendCommandTLS_with (cleanup_f n) (B "QUIT" ++ CRLF) CLIENT_SENDMAIL_QUIT_ERROR s1)) = s_t s1 ++ t /\ only_retries t).
    { unfold sendCommandTLS_with. unfold bind at 1, getc. destruct (c_bio (s_c s1)) as [b|]; [|apply Rt].
      unfold sys_puts. unfold bind at 1 2, gete.
      assert (W : forall r, writes (B "QUIT" ++ CRLF) (EvPuts (bio_id b) (cstr (B "QUIT" ++ CRLF)) r)) by (intros r; right; eexists; eexists; reflexivity).
      destruct (e_bputs (s_e s1)) as [|r l]; [eexists; split; [reflexivity|]; apply retries_one, W|].
      unfold bind at 1 2, upde, emit. cbn [s_c s_e s_t]. unfold ret at 1. destruct r; try (eexists; split; [reflexivity|]; apply retries_one, W).
      match goal with |- context [bind (setLastSocketErrNo ?e) _ ?x] => destruct (Rt e x) as (t & T & R) end.
      eexists. split; [rewrite T; cbn [s_t]; rewrite <- app_assoc; reflexivity|]. apply retries_cons; [apply W|exact I|exact R]. }
    destruct (c_kind (s_c s1)); [exact Sd|exact Td|exact Td]. }
  intros s. rewrite cleanup_f_eq. unfold bind at 1, getc.
  assert (Q' : exists t, s_t (snd ((if c_batch (s_c s) && c_conn (s_c s) then _ <- sendQuit_with (cleanup_f n);; ret tt else ret tt) s)) = s_t s ++ t /\ only_retries t).
  { destruct (_ && _); [|apply Nil; reflexivity]. destruct (Q s) as (t & T & R). exists t. split; [|exact R].
    unfold bind. destruct (sendQuit_with (cleanup_f n) s) as [[]]; exact T. }
  destruct Q' as (t & T & R). unfold bind at 1.
  destruct ((if c_batch (s_c s) && c_conn (s_c s) then _ <- sendQuit_with (cleanup_f n);; ret tt else ret tt) s) as [o s1]. cbn [snd] in T.
  destruct o as [[]| | | | |]; try (exists t; split; [exact T|exact R]).
  destruct (End (c_kind (s_c s)) s1) as (t2 & T2 & N2). exists (t ++ t2). split; [etransitivity; [exact T2|rewrite T, app_assoc; reflexivity]|].
  apply retries_nowrite; assumption.
Qed.
Lemma world_destroy_retries : forall i w x w' t, step (ODestroy i) w = (x, w') -> w_trace w' = w_trace w ++ t -> only_retries t.
Proof.
  intros i w x w' t S T. cbn [step] in S. unfold run_on in S. destruct (get_client w i) as [c|].
  2:{ inversion S; subst. assert (t = []) as -> by (apply (app_inv_head (w_trace w')); rewrite app_nil_r; congruence). apply retries_nil. }
  pose proof (cleanup_f_retries (cleanup_fuel (w_env w)) (mkSt c (w_env w) (w_trace w))) as (t' & T' & R).
  unfold bind, cleanup in S. cbn [s_e s_t] in *. destruct (cleanup_f _ _) as [o s1]. cbn [snd] in T'.
  assert (X : s_t s1 = w_trace w') by (destruct o; inversion S; reflexivity). rewrite <- X, T' in T. apply app_inv_head in T. subst t'. exact R.
Qed.

(** A client whose destruction does not end. *)
Lemma destroy_stuck : forall i w x w', step (ODestroy i) w = (x, w') ->
  x = Diverge -> exists c, get_client w i = Some c /\ c_kind c <> KPlain /\ c_batch c = true /\ c_conn c = true /\ c_rawptr c = false /\ c_bio c = None.
Proof.
  intros i w x w' S ->. cbn [step] in S. unfold run_on in S. destruct (get_client w i) as [c|]; [|inversion S].
  exists c. split; [reflexivity|].
  assert (D : ~ ~ stuck c).
  { intros N. pose proof (cleanup_stops (mkSt c (w_env w) (w_trace w)) N) as X. unfold stops in X. unfold bind in S.
    destruct (cleanup _) as [o s1]. cbn [fst] in X. destruct o; inversion S. congruence. }
  destruct (c_batch c) eqn:Eb; [|exfalso; apply D; intros (X & _); congruence].
  destruct (c_conn c) eqn:Ec; [|exfalso; apply D; intros (_ & X & _); congruence].
  destruct (c_rawptr c) eqn:Er; [exfalso; apply D; intros (_ & _ & _ & X & _); congruence|].
  destruct (c_bio c) eqn:Ei; [exfalso; apply D; intros (_ & _ & _ & _ & X); congruence|].
  split; [|auto]. intros K. apply D. intros (_ & _ & X & _). congruence.
Qed.
