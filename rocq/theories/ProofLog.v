(** The communication log: buffer safety and content. *)

From Coq Require Import Ascii String List NArith ZArith Bool Lia ZifyBool ZifyNat ZifyN.
From Verif Require Import Base Lib ModelUtil ModelBase64 ModelAddress ModelAttachment
  ModelErrors ModelReply ModelMessage ModelState ModelClient ProofSteps ProofWalk ProofPhases ProofEstablish.
Import ListNotations.
Open Scope Z_scope.

(** The text of one entry. *)
Definition entry (prefix item : str) : str :=
  [LF] ++ prefix ++ B ": " ++ (if str_eqb prefix (B "c") then escape_crlf (cstr item) else cstr item).

(** A log that can be appended to. *)
Definition good_log (c : client) : Prop :=
  exists lg, c_log c = Some lg /\ lg_cap lg = c_logsize c /\
    (slen (lg_text lg) < lg_cap lg)%N /\ (lg_cap lg <= MAX_OBJECT)%N.


Lemma take_all : forall n s, (slen s <= n)%N -> take n s = s.
Proof. intros n s H. unfold take. replace (slen s <=? n)%N with true by lia. reflexivity. Qed.

Lemma addLog_good : forall item prefix s, good_log (s_c s) ->
  addLog item prefix s = (Throw, s) \/
  exists lg lg' n, c_log (s_c s) = Some lg /\ lg_text lg' = lg_text lg ++ entry prefix item /\
    addLog item prefix s = (Done tt, log_state s lg' n) /\
    lg_cap lg' = n /\ (slen (lg_text lg') < n)%N /\ (n <= MAX_OBJECT)%N.
Proof.
  intros item prefix s (lg & L & C & T & M). remember (addLog item prefix s) as r eqn:R.
  unfold addLog, bind at 1, getc in R. rewrite L in R. cbv zeta in R.
  unfold entry. set (it := if str_eqb prefix (B "c") then escape_crlf (cstr item) else cstr item) in *.
  rewrite <- C in R.
  assert (U : u64 (Z.of_N (lg_cap lg) - Z.of_N (slen (lg_text lg))) = (lg_cap lg - slen (lg_text lg))%N).
  { unfold u64. rewrite Z.mod_small; [lia|]. unfold MAX_OBJECT in M. lia. }
  rewrite U in R. set (a := (1 + slen prefix + 2 + slen it + 1)%N) in *.
  assert (S3 : slen (B ": ") = 2%N) by reflexivity. assert (S1 : slen [LF] = 1%N) by reflexivity.
  assert (S : slen (lg_text lg ++ [LF] ++ prefix ++ B ": " ++ it) = (slen (lg_text lg) + a - 1)%N)
    by (rewrite !slen_app; unfold a; lia).
  assert (Fin : forall n, (slen (lg_text lg) + a <= n)%N -> (n <= MAX_OBJECT)%N ->
    r = (if ((slen (lg_text lg ++ take (u64 (Z.of_N n - 1)) [LF] ++ take (u64 (Z.of_N n - 1)) prefix ++
              take (u64 (Z.of_N n - 1)) (B ": ") ++ take (u64 (Z.of_N n - 1)) it) + 1 <=? n) &&
              (u64 (Z.of_N n - 1) <? n))%N
         then updc (set_log (Some (mkLog (take (u64 (Z.of_N n - 1)) (lg_text lg ++ take (u64 (Z.of_N n - 1)) [LF] ++
              take (u64 (Z.of_N n - 1)) prefix ++ take (u64 (Z.of_N n - 1)) (B ": ") ++ take (u64 (Z.of_N n - 1)) it)) n)) n)
         else fail_ub (UB_BufferOverflow BufLog)) s ->
    exists lg0 lg' n, Some lg = Some lg0 /\ lg_text lg' = lg_text lg0 ++ [LF] ++ prefix ++ B ": " ++ it /\
      r = (Done tt, log_state s lg' n) /\ lg_cap lg' = n /\ (slen (lg_text lg') < n)%N /\ (n <= MAX_OBJECT)%N).
  { intros n N1 N2 Rn.
    assert (U2 : u64 (Z.of_N n - 1) = (n - 1)%N).
    { unfold u64. rewrite Z.mod_small; [lia|]. unfold MAX_OBJECT, a in *. lia. }
    rewrite U2 in Rn.
    rewrite (take_all _ [LF]), (take_all _ prefix), (take_all _ (B ": ")), (take_all _ it) in Rn by (unfold a in *; lia).
    rewrite S in Rn. rewrite (take_all _ (lg_text lg ++ _)) in Rn by (rewrite S; lia).
    replace ((slen (lg_text lg) + a - 1 + 1 <=? n) && (n - 1 <? n))%N with true in Rn by (unfold a in *; lia).
    exists lg, (mkLog (lg_text lg ++ [LF] ++ prefix ++ B ": " ++ it) n), n.
    cbn [lg_text lg_cap]. rewrite S. split; [reflexivity|]. split; [reflexivity|]. split; [exact Rn|].
    split; [reflexivity|]. split; [unfold a in *; lia|assumption]. }
  rewrite L.
  destruct (lg_cap lg - slen (lg_text lg) <=? a)%N eqn:G; cbn [andb] in R.
  - unfold INITIAL_COMM_LOG_LENGTH in R.
    destruct (MAX_OBJECT <? slen (lg_text lg) + a + 4096)%N eqn:X; [left; exact R|].
    right. apply (Fin (slen (lg_text lg) + a + 4096)%N); [lia|lia|exact R].
  - right. apply (Fin (lg_cap lg)); [lia|lia|exact R].
Qed.

Lemma good_fresh : forall s, good_log (s_c (log_state s (mkLog [] INITIAL_COMM_LOG_LENGTH) INITIAL_COMM_LOG_LENGTH)).
Proof. intros s. eexists. split; [reflexivity|]. unfold INITIAL_COMM_LOG_LENGTH, MAX_OBJECT. simpl. repeat split; lia. Qed.

Lemma estep_good : forall l s s', estep l s s' -> good_log (s_c s) -> good_log (s_c s').
Proof.
  intros l s s' H G. destruct H; try exact G.
  - destruct (addLog_good item prefix s G) as [X|(lg & lg' & n & L & T & X & C & S & M)];
      rewrite H in X; [discriminate X|]. injection X as ->. exists lg'. split; [reflexivity|].
    rewrite C. repeat split; assumption.
  - apply good_fresh.
  - unfold teardown. destruct (c_kind (s_c s)); exact G.
Qed.
Lemma steps_good : forall P s s', steps P s s' -> good_log (s_c s) -> good_log (s_c s').
Proof. intros P s s' H. induction H; auto. intros. apply IHsteps. eapply estep_good; eauto. Qed.

(** Opening a connection starts a new log, whatever the old one. *)
Definition fresh_log (s : st) : st := log_state s (mkLog [] INITIAL_COMM_LOG_LENGTH) INITIAL_COMM_LOG_LENGTH.

Lemma establish_fresh : forall s, establish s = establish (fresh_log s).
Proof.
  intros s. unfold establish. unfold bind at 1, getc. unfold bind at 1, getc.
  change (c_kind (s_c (fresh_log s))) with (c_kind (s_c s)).
  assert (I : initializeSession s = initializeSession (fresh_log s)) by reflexivity.
  destruct (c_kind (s_c s)).
  - unfold establishPlain, bind at 1. rewrite I. reflexivity.
  - unfold establishOpp, bind at 1. rewrite I. reflexivity.
  - unfold establishForced, bind at 1. rewrite I. reflexivity.
Qed.
