(** sendMail against a server that agrees, in a program. *)

From Coq Require Import Ascii String List NArith ZArith Bool Lia ZifyBool ZifyNat ZifyN.
From Verif Require Import Base Lib ModelUtil ModelBase64 ModelAddress ModelAttachment
  ModelErrors ModelReply ModelMessage ModelState ModelClient ModelWorld
  ProofSteps ProofWalk ProofPhases ProofEstablish ProofLog ProofSend ProofSafety
  SpecAddress SpecText SpecReply SpecMime SpecBase64 SpecDialogue SpecAuth SpecForward ProofReply ProofAddress ProofBase64 ProofMime
  ProofDialogue ProofMail ProofMail2 ProofMail3 ProofMail4 ProofAuth ProofAuth2 ProofAuth3 ProofForward ProofForward2 ProofForward3.
Import ListNotations.
Open Scope Z_scope.

Lemma rcpt_nonempty : forall a, (1 <= slen (rcpt_line a))%N.
Proof. intros a. unfold rcpt_line. rewrite slen_app. unfold slen. cbn [length B list_ascii_of_string]. lia. Qed.
Lemma volume_replies : forall (l : list str) rs, Forall (fun d => (1 <= slen d)%N) l -> Forall (fun r => (slen r < 1024)%N) rs -> (volume (combine l rs) <= 2100 * slen (concat l))%N.
Proof.
  induction l as [|d l IH]; intros rs H1 H2; [cbn; lia|]. inversion H1; subst. destruct rs as [|r rs]; [cbn [combine volume]; lia|]. inversion H2; subst.
  cbn [combine volume concat]. rewrite slen_app. specialize (IH rs H4 H6). lia.
Qed.
Lemma volume_lines : forall l, Forall (fun d => (1 <= slen d)%N) l -> (volume (silent l) <= 10 * slen (concat l))%N.
Proof.
  induction 1 as [|d l Hd H IH]; [cbn; lia|]. rewrite silent_cons, volume_app. cbn [volume concat]. rewrite slen_app. change (slen (@nil ascii)) with 0%N. lia.
Qed.
Lemma header_lines_nonempty : forall m, Forall (fun d => (1 <= slen d)%N) (data_headers m).
Proof.
  assert (H : forall f v, (1 <= slen (header_line f v))%N).
  { intros f v. unfold header_line. rewrite !slen_app. change (slen CRLF) with 2%N. lia. }
  intros m. unfold data_headers. apply Forall_app. split; [constructor; [apply H|constructor]|].
  assert (A : forall f a, Forall (fun d => (1 <= slen d)%N) (address_lines f a)).
  { intros f a. unfold address_lines. destruct a as [|[]]; try constructor; try apply H; constructor. }
  apply Forall_app. split; [apply A|]. apply Forall_app. split; [apply A|]. constructor; [apply H|]. constructor; [|constructor]. vm_compute. discriminate.
Qed.
(** The size of a mail: what is sent, except the attachments' separators. *)
Lemma mail_volume : forall fs m batch rf rr rd re, positive "250" rf -> Forall (positive "250") rr -> positive "354" rd -> positive "250" re ->
  (slen (concat (mail_commands m)) < 281474976710656)%N -> (slen (mail_text fs m) < 281474976710656)%N ->
  (32768 + 281474976710656 + (4 + volume (mail_talk fs m batch rf rr rd re)) <= LIM)%N.
Proof.
  intros fs m batch rf rr rd re P1 P2 P3 P4 S1 S2. unfold mail_talk. rewrite !volume_app. cbn [volume].
  unfold mail_commands in S1. rewrite !concat_app in S1. cbn [concat] in S1. rewrite !slen_app in S1.
  pose proof (positive_len _ _ P1). pose proof (positive_len _ _ P3). pose proof (positive_len _ _ P4).
  assert (F : Forall (fun r => (slen r < 1024)%N) rr) by (eapply Forall_impl; [|exact P2]; intros r; apply positive_len).
  assert (F' : Forall (fun d => (1 <= slen d)%N) (map rcpt_line (recipients m))) by (apply Forall_forall; intros d Hd; apply in_map_iff in Hd as (a & <- & _); apply rcpt_nonempty).
  pose proof (volume_replies _ _ F' F) as V1. pose proof (volume_lines _ (header_lines_nonempty m)) as V2. rewrite header_concat in V2.
  unfold mail_text in S2. rewrite slen_app in S2. destruct (body_chunks_spec (body_text fs m)) as (Bc & Bn & B1).
  assert (V3 : (volume (silent (body_chunks (body_text fs m))) <= 8 + 10 * slen (body_text fs m))%N).
  { destruct (body_text fs m) as [|x b] eqn:E; [rewrite (B1 ltac:(cbn; lia)); vm_compute; discriminate|]. rewrite <- E in *.
    pose proof (volume_lines (body_chunks (body_text fs m))) as V. rewrite Bc in V. assert (X : Forall (fun d => (1 <= slen d)%N) (body_chunks (body_text fs m))).
    { eapply Forall_impl; [|apply Bn; rewrite E; discriminate]. intros d Hd. cbn beta in Hd. unfold slen. lia. }
    specialize (V X). lia. }
  assert (V4 : (volume (goodbye batch) <= 100)%N) by (destruct batch; vm_compute; discriminate).
  change (slen DATA_line) with 6%N. change (slen END_line) with 5%N. unfold LIM. lia.
Qed.
Lemma combine_front : forall (a : list str) (b c : list str), length a = length b -> combine a (b ++ c) = combine a b.
Proof. induction a as [|x a IH]; intros [|y b] c H; try discriminate H; [destruct c; reflexivity|]. cbn [app combine]. rewrite IH by (cbn in H; lia). reflexivity. Qed.
Lemma combine_snoc : forall (a b : list str) x y, length a = length b -> combine (a ++ [x]) (b ++ [y]) = combine a b ++ [(x, y)].
Proof. induction a as [|u a IH]; intros [|v b] x y H; try discriminate H; [reflexivity|]. cbn [app combine]. rewrite IH by (cbn in H; lia). reflexivity. Qed.
Lemma talk_dialogue : forall fs m batch rf rr rd re, length rr = length (recipients m) ->
  mail_dialogue fs m batch ([rf] ++ rr ++ [rd; re]) (mail_talk fs m batch rf rr rd re).
Proof.
  intros fs m batch rf rr rd re L. exists (data_headers m ++ body_chunks (body_text fs m)). split.
  - rewrite concat_app, header_concat. destruct (body_chunks_spec (body_text fs m)) as (-> & _). reflexivity.
  - unfold mail_talk, mail_commands, silent, goodbye. rewrite map_app. cbn [app combine]. f_equal.
    assert (E1 : rr ++ [rd; re] = (rr ++ [rd]) ++ [re]) by (rewrite <- app_assoc; reflexivity). rewrite E1.
    rewrite combine_front by (rewrite !app_length, map_length, L; reflexivity). rewrite combine_snoc by (rewrite map_length, L; reflexivity).
    assert (E2 : last (rf :: (rr ++ [rd]) ++ [re]) [] = re) by (change (rf :: (rr ++ [rd]) ++ [re]) with ((rf :: rr ++ [rd]) ++ [re]); apply last_last).
    rewrite E2. rewrite <- !app_assoc. reflexivity.
Qed.

Definition sends (s : st) (m : message) (turns : list ((str -> Prop) * str)) (rs : list str) : Prop :=
  exists s' t conn mail, sendMail m s = (Done 0, s') /\ s_t s' = s_t s ++ t /\ exchanges t = conn ++ mail /\ full_writes t /\ as_listed conn turns /\
    mail_dialogue (e_fs (s_e s)) m (c_batch (s_c s)) rs mail.
Lemma send_now' : forall tls clear secure turns s m rs more1 more2, c_conn (s_c s) = false -> session (s_c s) tls clear secure turns -> mail_answers m rs -> reliable (s_e s) ->
  (tls = true -> negotiates (s_c s) (s_e s)) -> named (s_c s) -> (0 < c_timeout (s_c s))%N -> text_ok m -> message_ok m ->
  (slen (concat (mail_commands m)) < 281474976710656)%N -> (slen (mail_text (e_fs (s_e s)) m) < 281474976710656)%N ->
  e_recv (s_e s) = clear ++ (if tls then [] else in_clear rs) ++ more1 -> (tls = true -> e_bread (s_e s) = over_tls (secure ++ rs) ++ more2) ->
  sends s m turns rs.
Proof.
  intros tls clear secure turns s m rs more1 more2 Cn S (rf & rr & rd & re & -> & P1 & P2 & L & P3 & P4) Rl Ng Nm Tm Tk Mk S1 S2 Hr Hb.
  destruct (establish_now tls clear secure turns s _ more1 more2 S Rl Ng Nm Tm Hr Hb) as (s1 & t1 & l & c1 & e1 & E1 & R1 & T1 & K1 & F1 & Al & Q & Fs & Ch & Ct & Cb).
  set (s2 := mkSt (set_conn true (s_c s1)) (s_e s1) (s_t s1)).
  assert (R2 : ready (set_conn true c1) (arriving tls ([rf] ++ rr ++ [rd; re]) (if tls then more2 else more1) e1) 32768 s2).
  { destruct R1 as (A1 & A2 & A3). split; [|split; [exact A2|exact A3]]. change (set_conn true (blank (s_c s1)) = set_conn true (blank c1)). rewrite A1. reflexivity. }
  pose proof (mail_volume (e_fs (s_e s)) m (c_batch (s_c s)) rf rr rd re P1 P2 P3 P4 S1 S2) as V.
  destruct (transaction_now tls (set_conn true c1) e1 (if tls then more2 else more1) m rf rr rd re 32768 s2 Q ltac:(cbn [c_timeout set_conn]; lia) Ch Tk Mk P1 P2 L P3 P4)
    as (s3 & t3 & E3 & T3 & K3); [cbn [c_batch set_conn]; rewrite Cb, Fs; lia|exact R2|].
  cbn [c_batch set_conn] in K3. rewrite Cb, Fs in K3.
  exists s3, (t1 ++ t3), l, (mail_talk (e_fs (s_e s)) m (c_batch (s_c s)) rf rr rd re). split.
  { unfold sendMail, bind at 1, getc. rewrite Cn. unfold bind at 1. rewrite E1. cbn [Z.eqb negb]. exact E3. }
  split; [rewrite T3; cbn [s2 s_t]; rewrite T1, app_assoc; reflexivity|].
  split; [rewrite (exchanges_app _ _ _ (proj1 K3)), K1; reflexivity|]. split; [apply full_app; [exact F1|exact (proj2 K3)]|]. split; [exact Al|apply talk_dialogue, L].
Qed.
Lemma send_kept : forall tls s m rs more, c_conn (s_c s) = true -> carries tls (s_c s) -> mail_answers m rs -> e_send (s_e s) = [] -> e_bputs (s_e s) = [] -> e_fcntl (s_e s) = [] ->
  (0 < c_timeout (s_c s))%N -> text_ok m -> message_ok m -> room 281474976710656 (s_c s) ->
  (slen (concat (mail_commands m)) < 281474976710656)%N -> (slen (mail_text (e_fs (s_e s)) m) < 281474976710656)%N ->
  (if tls then e_bread (s_e s) else e_recv (s_e s)) = arrives tls rs ++ more ->
  sends s m [] rs.
Proof.
  intros tls s m rs more Cn Ch (rf & rr & rd & re & -> & P1 & P2 & L & P3 & P4) Q1 Q2 Q3 Tm Tk Mk Rm S1 S2 Ha.
  assert (Ea : arriving tls ([rf] ++ rr ++ [rd; re]) more (s_e s) = s_e s).
  { unfold arriving. destruct tls; cbn [arrives] in Ha; [unfold over_tls in Ha|unfold in_clear in Ha]; rewrite <- Ha; destruct (s_e s); reflexivity. }
  set (s2 := mkSt (set_conn true (s_c s)) (s_e s) (s_t s)).
  assert (R2 : ready (set_conn true (s_c s)) (arriving tls ([rf] ++ rr ++ [rd; re]) more (s_e s)) 281474976710656 s2).
  { split; [reflexivity|]. split; [rewrite Ea; reflexivity|exact Rm]. }
  pose proof (mail_volume (e_fs (s_e s)) m (c_batch (s_c s)) rf rr rd re P1 P2 P3 P4 S1 S2) as V.
  destruct (transaction_now tls (set_conn true (s_c s)) (s_e s) more m rf rr rd re 281474976710656 s2 (conj Q1 (conj Q2 Q3)) Tm Ch Tk Mk P1 P2 L P3 P4)
    as (s3 & t3 & E3 & T3 & K3); [cbn [c_batch set_conn]; lia|exact R2|]. cbn [c_batch set_conn] in K3.
  exists s3, t3, [], (mail_talk (e_fs (s_e s)) m (c_batch (s_c s)) rf rr rd re).
  split. { unfold sendMail, bind at 1, getc. rewrite Cn. exact E3. }
  split; [exact T3|]. split; [exact (talk_exchanges _ _ (proj1 K3))|]. split; [exact (proj2 K3)|]. split; [constructor|apply talk_dialogue, L].
Qed.

(** ** In a program *)
Lemma preferred_checked : forall tls r cr k line, no_nul (visible tls r) -> announced (visible tls r) line -> (exists a b, visible tls r = a ++ CRLF ++ b) ->
  match extractAuthenticationOptions (Some (visible tls r)) with Some o => choice o (cr_method cr) | None => None end = Some k -> preferred tls r cr k.
Proof.
  intros tls r cr k line Nn A M H. destruct (announced_extract _ _ Nn A M) as (o & Eo & O). destruct (extractAuthenticationOptions _) as [o'|] eqn:E' in H; [|discriminate H].
  assert (Z : Some o' = Some o) by (rewrite <- E'; exact Eo). injection Z as ->. split.
  - destruct M as (a & b & E). intros S. exact (S a b E).
  - exists line. split; [exact A|]. exact (choice_some _ _ _ _ H O).
Qed.
Lemma single_checked : forall l, find_sub CRLF l = None -> single_line l.
Proof. intros l H. exact (proj1 (find_sub_none CRLF l) H). Qed.
Lemma no_nul_checked : forall l, forallb (fun c => negb (Ascii.eqb c NUL)) l = true -> no_nul l.
Proof. intros l H X. rewrite forallb_forall in H. specialize (H _ X). rewrite Ascii.eqb_refl in H. discriminate H. Qed.
Lemma positive_checked : forall code r, prefixb (B code) r = true -> forallb (fun c => negb (Ascii.eqb c NUL)) r = true -> (3 <? length r)%nat && (length r <? 1024)%nat = true -> positive code r.
Proof.
  intros code r H1 H2 H3. split; [apply prefixb_spec, H1|]. split; [apply no_nul_checked, H2|]. apply andb_true_iff in H3 as [A B']. apply Nat.ltb_lt in A. apply Nat.ltb_lt in B'. auto.
Qed.

Definition sends_world (i : nat) (c : client) (m : message) (w : world) (turns : list ((str -> Prop) * str)) (rs : list str) : Prop :=
  exists w' t conn mail, step (OSend i m) w = (Done 0, w') /\ w_trace w' = w_trace w ++ t /\ exchanges t = conn ++ mail /\
    as_listed conn turns /\ mail_dialogue (e_fs (w_env w)) m (c_batch c) rs mail /\ transmitted t = concat (map fst (conn ++ mail)).
Lemma sends_step : forall i c m w turns rs, get_client w i = Some c -> sends (mkSt c (w_env w) (w_trace w)) m turns rs -> sends_world i c m w turns rs.
Proof.
  intros i c m w turns rs G (s' & t & conn & mail & E & T & X & F & A & D). cbn [s_c s_e s_t] in *.
  eexists _, t, conn, mail. split; [cbn [step]; unfold run_on; rewrite G, E; reflexivity|]. split; [exact T|]. split; [exact X|]. split; [exact A|]. split; [exact D|].
  rewrite (full_transmitted _ F). unfold written. rewrite X. reflexivity.
Qed.
Lemma world_cooperative : forall i c m w tls clear secure turns rs more1 more2, get_client w i = Some c -> c_conn c = false -> session c tls clear secure turns -> mail_answers m rs -> reliable (w_env w) ->
  (tls = true -> negotiates c (w_env w)) -> named c -> (0 < c_timeout c)%N -> text_ok m -> message_ok m ->
  (slen (concat (mail_commands m)) < 281474976710656)%N -> (slen (mail_text (e_fs (w_env w)) m) < 281474976710656)%N ->
  e_recv (w_env w) = clear ++ (if tls then [] else in_clear rs) ++ more1 -> (tls = true -> e_bread (w_env w) = over_tls (secure ++ rs) ++ more2) ->
  sends_world i c m w turns rs.
Proof.
  intros. eapply sends_step; [eassumption|]. eapply send_now'; eassumption.
Qed.
Lemma world_kept : forall ops e i c m tls rs more, let w := snd (run ops (initial_world e)) in
  get_client w i = Some c -> c_conn c = true -> carries tls c -> mail_answers m rs ->
  e_send (w_env w) = [] -> e_bputs (w_env w) = [] -> e_fcntl (w_env w) = [] -> (0 < c_timeout c)%N -> text_ok m -> message_ok m ->
  (slen (getCommunicationLog c) < 281474976710656)%N -> (slen (concat (mail_commands m)) < 281474976710656)%N -> (slen (mail_text (e_fs (w_env w)) m) < 281474976710656)%N ->
  (if tls then e_bread (w_env w) else e_recv (w_env w)) = arrives tls rs ++ more ->
  sends_world i c m w [] rs.
Proof.
  intros ops e i c m tls rs more w G Cn Ch A Q1 Q2 Q3 Tm Tk Mk Sl S1 S2 H. eapply sends_step; [exact G|].
  pose proof (f_log _ _ _ (run_fit ops e i c G) Cn) as GL.
  eapply (send_kept tls _ m rs more); try eassumption. split; [exact GL|]. destruct GL as (lg & E & _). exists lg. split; [exact E|]. unfold getCommunicationLog in Sl. rewrite E in Sl. cbn [s_c]. lia.
Qed.
