(** Properties of the dialogue carried over to the Windows build. *)

From Coq Require Import Ascii String List NArith ZArith Bool Lia.
From Verif Require Import Base ModelUtil ModelBase64 ModelAddress ModelAttachment
  ModelErrors ModelReply ModelMessage ModelState ModelClient ModelWorld SpecReply SpecMime SpecText SpecDialogue SpecLife SpecDead SpecAuth
  ProofDialogue ProofMail ProofMail5 ProofBcc ProofAuth3
  ModelWin SpecWin ProofWin ProofWin2 ProofWin3 ProofWinFail ProofWinLong.
Import ListNotations.
Open Scope Z_scope.

Notation ptalk := SpecWin.talk.

(** ** What both builds share *)

Lemma standard_talk t : standard (ptalk t) <-> standard t.
Proof. unfold standard. now rewrite exchanges_talk. Qed.
Lemma written_talk t : written (ptalk t) = written t.
Proof. unfold written. now rewrite exchanges_talk. Qed.
Lemma in_talk t ev : In ev (ptalk t) <-> In ev t /\ shared ev = true.
Proof. apply filter_In. Qed.
Lemma fields_talk t : fields_written (ptalk t) <-> fields_written t.
Proof.
  unfold fields_written. split; intros H ev I.
  - destruct (shared ev) eqn:Sh; [exact (H ev (proj2 (in_talk t ev) (conj I Sh)))|]. destruct ev; try exact Logic.I; discriminate Sh.
  - apply in_talk in I as [I _]. exact (H ev I).
Qed.
Lemma full_talk t : full_writes (ptalk t) <-> full_writes t.
Proof.
  unfold full_writes. split; intros H ev I.
  - destruct (shared ev) eqn:Sh; [exact (H ev (proj2 (in_talk t ev) (conj I Sh)))|]. destruct ev; try exact Logic.I; discriminate Sh.
  - apply in_talk in I as [I _]. exact (H ev I).
Qed.
Lemma transmitted_talk t : transmitted (ptalk t) = transmitted t.
Proof.
  unfold transmitted, SpecWin.talk. induction t as [|ev t IH]; [reflexivity|]. destruct ev; cbn [filter shared map concat accepted_bytes app]; now rewrite ?IH.
Qed.
Lemma phases_talk k t conn mail : phases k (ptalk t) conn mail <-> phases k t conn mail.
Proof. unfold phases. now rewrite exchanges_talk. Qed.
Lemma orderly_talk t : orderly (ptalk t) <-> orderly t.
Proof.
  unfold orderly. split; intros H ev c d I X.
  - apply (H ev c d); [|exact X]. apply in_talk. split; [exact I|]. now destruct X as [[y ->]|[y ->]].
  - apply (H ev c d); [|exact X]. apply in_talk in I. apply I.
Qed.
Lemma talk_split t : forall a ev b, ptalk t = a ++ ev :: b -> exists t1 t2, t = t1 ++ ev :: t2 /\ ptalk t1 = a /\ ptalk t2 = b.
Proof.
  unfold SpecWin.talk. induction t as [|e t IH]; intros a ev b E; cbn [filter] in E; [destruct a; discriminate|]. destruct (shared e) eqn:S.
  - destruct a as [|a0 a]; cbn [app] in E.
    + injection E as -> E. exists [], t. auto.
    + injection E as -> E. destruct (IH _ _ _ E) as (t1 & t2 & -> & <- & <-). exists (a0 :: t1), t2. cbn [app filter]. rewrite S. auto.
  - destruct (IH _ _ _ E) as (t1 & t2 & -> & <- & <-). exists (e :: t1), t2. cbn [app filter]. rewrite S. auto.
Qed.

(** ** One message *)

(** The POSIX build does the same with a client in the same state. *)
Lemma posix_send ops e x i m z w' t c : let w := snd (wrun ops (initial_wworld e x)) in
  get_client (ww w) i = Some c -> wstep (OSend i m) w = (z, w') -> ww_trace w' = ww_trace w ++ t -> Forall smooth t ->
  exists u u' tp, get_client u i = Some c /\ step (OSend i m) u = (z, u') /\ w_trace u' = w_trace u ++ tp /\
  e_fs (w_env u) = e_fs (w_env (ww w)) /\ ptalk tp = wtalk t /\ w_clients u' = w_clients (ww w').
Proof.
  intros w G S T F. destruct (each_operation ops e x (OSend i m) z w' t S T F) as (f & u' & E & C & TT).
  exists (mkWorld (w_clients (ww w)) (posix_env f (w_env (ww w))) []), u', (w_trace u').
  split; [exact G|]. split; [exact E|]. split; [reflexivity|]. split; [reflexivity|]. split; [exact TT|exact C].
Qed.
Lemma sent_smooth i m w w' t : wstep (OSend i m) w = (Done 0, w') -> ww_trace w' = ww_trace w ++ t ->
  standard (wtalk t) -> fields_fit t -> winsock_released t -> Forall smooth t.
Proof.
  intros S T St Fi Re. pose proof (send_told _ _ _ _ _ S T St) as K. apply Forall_forall. intros ev I.
  rewrite Forall_forall in K. specialize (K ev I). unfold told_all, clear in K.
  assert (N : failed ev = None).
  { destruct (failed ev) as [c0|] eqn:F; [|reflexivity]. destruct (failed_start _ _ _ _ _ _ _ _ S T I F) as [E _]. symmetry in E. destruct (failed_code _ _ F E). }
  destruct ev as [[]| | | | | | | | |]; cbn in *; try exact Logic.I; try assumption.
  - destruct r; [exact Logic.I|discriminate].
  - destruct ok; [reflexivity|discriminate].
  - destruct (r =? 0) eqn:Z0; [now apply Z.eqb_eq|discriminate].
  - now apply Re.
  - destruct (r =? 0) eqn:Z0; [now apply Z.eqb_eq|discriminate].
  - now apply (Fi d).
Qed.

Section Accepted.
Variables (ops : list op) (e : env) (x : wenv) (i : nat) (m : message) (w' : wworld) (t : list wevent) (c : client).
Let w := snd (wrun ops (initial_wworld e x)).
Hypothesis G : get_client (ww w) i = Some c.
Hypothesis T : ww_trace w' = ww_trace w ++ t.

Section Sent.
Hypothesis S : wstep (OSend i m) w = (Done 0, w').
Hypothesis St : standard (wtalk t).
Hypothesis Fi : fields_fit t.
Hypothesis Re : winsock_released t.
Lemma posix_sent : exists u u' tp, get_client u i = Some c /\ step (OSend i m) u = (Done 0, u') /\ w_trace u' = w_trace u ++ tp /\
  e_fs (w_env u) = e_fs (w_env (ww w)) /\ ptalk tp = wtalk t /\ w_clients u' = w_clients (ww w') /\ standard tp.
Proof.
  destruct (posix_send ops e x i m (Done 0) w' t c G S T (sent_smooth _ _ _ _ _ S T St Fi Re)) as (u & u' & tp & A & A1 & A2 & A3 & A4 & A5).
  exists u, u', tp. repeat (split; [assumption|]). apply standard_talk. now rewrite A4.
Qed.
Lemma win_end : exists before r, exchanges (wtalk t) = before ++ (END_line, r) :: (if c_batch c then [] else [(QUIT_line, [])]) /\
  answered "250" (END_line, r).
Proof.
  destruct posix_sent as (u & u' & tp & A1 & A2 & A3 & A4 & A5 & _ & A6).
  rewrite <- A5, exchanges_talk. exact (world_end i c m u u' tp A1 A3 A2 A6).
Qed.
Lemma win_announced : text_ok m -> exists conn mail, phases (c_conn c) (wtalk t) conn mail /\ announced_mail m mail.
Proof.
  intros O. destruct posix_sent as (u & u' & tp & A1 & A2 & A3 & A4 & A5 & _ & A6).
  rewrite <- A5. setoid_rewrite phases_talk. exact (world_announced i c m u u' tp A1 A3 A2 O A6).
Qed.
Lemma win_accepted : text_ok m -> fields_written (wtalk t) ->
  exists conn mail, phases (c_conn c) (wtalk t) conn mail /\ accepted_mail (e_fs (w_env (ww w))) m (c_batch c) mail.
Proof.
  intros O F. destruct posix_sent as (u & u' & tp & A1 & A2 & A3 & A4 & A5 & _ & A6).
  rewrite <- A5 in *. rewrite fields_talk in F. setoid_rewrite phases_talk. rewrite <- A4. exact (world_accepted i c m u u' tp A1 A3 A2 O A6 F).
Qed.
Lemma win_transmitted : text_ok m -> full_writes (wtalk t) ->
  exists conn mail, phases (c_conn c) (wtalk t) conn mail /\ accepted_mail (e_fs (w_env (ww w))) m (c_batch c) mail /\
    transmitted (wtalk t) = concat (map fst conn) ++ concat (map fst mail).
Proof.
  intros O F. destruct posix_sent as (u & u' & tp & A1 & A2 & A3 & A4 & A5 & _ & A6).
  rewrite <- A5 in *. rewrite full_talk in F. rewrite transmitted_talk. setoid_rewrite phases_talk. rewrite <- A4. exact (world_transmitted i c m u u' tp A1 A3 A2 O A6 F).
Qed.
Lemma win_header : text_ok m -> header_ok m -> fields_written (wtalk t) ->
  exists before r1 texts r2 after, exchanges (wtalk t) = before ++ (DATA_line, r1) :: silent texts ++ (END_line, r2) :: after /\
    head_lines (lines (concat texts)) = header_fields m.
Proof.
  intros O H F. destruct posix_sent as (u & u' & tp & A1 & A2 & A3 & A4 & A5 & _ & A6).
  rewrite <- A5 in *. rewrite fields_talk in F. rewrite exchanges_talk. exact (world_header i c m u u' tp A1 A3 A2 O H A6 F).
Qed.
End Sent.

Section Any.
Variable z : outcome Z.
Hypothesis S : wstep (OSend i m) w = (z, w').
Hypothesis Sm : Forall smooth t.
Lemma posix_any : exists u u' tp, get_client u i = Some c /\ step (OSend i m) u = (z, u') /\ w_trace u' = w_trace u ++ tp /\
  e_fs (w_env u) = e_fs (w_env (ww w)) /\ ptalk tp = wtalk t /\ w_clients u' = w_clients (ww w').
Proof. exact (posix_send ops e x i m z w' t c G S T Sm). Qed.
Lemma win_refused : standard (wtalk t) ->
  exists conn mail, phases (c_conn c) (wtalk t) conn mail /\
  forall a reply before after, mail = before ++ (rcpt_line a, reply) :: after -> ~ In DATA_line (map fst before) ->
  ~ answered "250" (rcpt_line a, reply) -> ~ In DATA_line (map fst after) /\ z <> Done 0.
Proof.
  intros St. destruct posix_any as (u & u' & tp & A1 & A2 & A3 & A4 & A5 & _). rewrite <- A5 in *. rewrite standard_talk in St. setoid_rewrite phases_talk.
  exact (world_refused i c m u u' tp A1 A3 z A2 St).
Qed.
Lemma win_data_texts : text_ok m ->
  exists conn mail, phases (c_conn c) (wtalk t) conn mail /\
  forall before r after, mail = before ++ (DATA_line, r) :: after -> ~ In DATA_line (map fst before) ->
  exists texts, with_quits texts (map fst after) /\
    (fields_written (wtalk t) -> exists quits, map fst after = texts ++ quits /\ Forall (eq QUIT_line) quits) /\
    (starts_with (concat texts) (mail_text (e_fs (w_env (ww w))) (without_bcc m) ++ END_line) \/
     (~ standard_reply r /\ starts_with (concat texts) (body_text (e_fs (w_env (ww w))) (without_bcc m) ++ END_line))).
Proof.
  intros O. destruct posix_any as (u & u' & tp & A1 & A2 & A3 & A4 & A5 & _). rewrite <- A5, <- A4 in *. setoid_rewrite phases_talk. setoid_rewrite fields_talk.
  exact (world_data_texts i c m u u' tp A1 A3 z A2 O).
Qed.
Lemma win_transmits t1 ev t2 d k : wtalk t = t1 ++ ev :: t2 -> writes d ev -> begins_auth k d -> before_mail t1 ->
  exists cr, c_cred c = Some cr /\ transmits k (cr_user cr) (cr_pass cr) d (written t2).
Proof.
  intros E Wr Be Bm. destruct posix_any as (u & u' & tp & A1 & A2 & A3 & A4 & A5 & _). rewrite <- A5 in E. destruct (talk_split _ _ _ _ E) as (p1 & p2 & -> & <- & <-).
  rewrite written_talk. assert (Bm' : before_mail p1) by (intros y I; apply Bm; now rewrite written_talk).
  exact (world_transmits i c m u z u' _ p1 ev p2 d k A1 A2 A3 eq_refl Wr Be Bm').
Qed.
Lemma win_authenticated t1 ev t2 d : orderly (wtalk t) -> c_kind c <> KOpp -> c_conn c = false -> c_cred c <> None ->
  wtalk t = t1 ++ ev :: t2 -> writes d ev -> mail_command d -> before_mail t1 ->
  exists before l, exchanges t1 = before ++ l /\ accepted_auth l.
Proof.
  intros Or K Cn Cr E Wr Mc Bm. destruct posix_any as (u & u' & tp & A1 & A2 & A3 & A4 & A5 & _). rewrite <- A5 in *. rewrite orderly_talk in Or. destruct (talk_split _ _ _ _ E) as (p1 & p2 & -> & <- & <-).
  rewrite exchanges_talk. assert (Bm' : before_mail p1) by (intros y I; apply Bm; now rewrite written_talk).
  exact (world_authenticated i c m u z u' _ p1 ev p2 d A1 A2 A3 Or K Cn Cr eq_refl Wr Mc Bm').
Qed.
End Any.
End Accepted.
