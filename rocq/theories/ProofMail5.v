(** The properties of a mail, in a program. *)

From Coq Require Import Ascii String List NArith ZArith Bool Lia.
From Verif Require Import Base Lib ModelUtil ModelAddress ModelAttachment
  ModelErrors ModelReply ModelMessage ModelState ModelClient ModelWorld
  SpecAddress SpecReply SpecMime SpecTls SpecDialogue SpecLife
  ProofTls2 ProofMail ProofMail2 ProofMail3 ProofMail4 ProofLife.
Import ListNotations.
Open Scope Z_scope.

Lemma step_mail : forall i c m w x w' t, get_client w i = Some c -> step (OSend i m) w = (x, w') ->
  w_trace w' = w_trace w ++ t ->
  exists s s', sendMail m s = (x, s') /\ s_c s = c /\ s_e s = w_env w /\ s_t s' = s_t s ++ t /\ get_client w' i = Some (s_c s').
Proof.
  intros i c m w x w' t G S T. destruct (step_send _ _ _ _ _ _ G S) as (X & _ & T' & C').
  exists (mkSt c (w_env w) (w_trace w)), (snd (sendMail m (mkSt c (w_env w) (w_trace w)))).
  split; [rewrite X; destruct (sendMail m _); reflexivity|]. split; [reflexivity|]. split; [reflexivity|].
  split; [rewrite <- T'; exact T|exact C'].
Qed.

Section World.
Variables (i : nat) (c : client) (m : message) (w w' : world) (t : list event).
Hypothesis G : get_client w i = Some c.
Hypothesis T : w_trace w' = w_trace w ++ t.

Lemma world_end : step (OSend i m) w = (Done 0, w') -> standard t ->
  exists before r, exchanges t = before ++ (END_line, r) :: (if c_batch c then [] else [(QUIT_line, [])]) /\
    answered "250" (END_line, r).
Proof. intros S H. destruct (step_mail _ _ _ _ _ _ _ G S T) as (s & s' & E & <- & _ & Ts & _). exact (send_end _ _ _ _ E Ts H). Qed.

Lemma world_refused : forall x, step (OSend i m) w = (x, w') -> standard t ->
  exists conn mail, phases (c_conn c) t conn mail /\
  forall a reply before after, mail = before ++ (rcpt_line a, reply) :: after -> ~ In DATA_line (map fst before) ->
  ~ answered "250" (rcpt_line a, reply) -> ~ In DATA_line (map fst after) /\ x <> Done 0.
Proof. intros x S H. destruct (step_mail _ _ _ _ _ _ _ G S T) as (s & s' & E & <- & _ & Ts & _). exact (send_refused _ _ _ _ _ E Ts H). Qed.

Lemma world_accepted : step (OSend i m) w = (Done 0, w') -> text_ok m -> standard t -> fields_written t ->
  exists conn mail, phases (c_conn c) t conn mail /\ accepted_mail (e_fs (w_env w)) m (c_batch c) mail.
Proof. intros S K H W. destruct (step_mail _ _ _ _ _ _ _ G S T) as (s & s' & E & <- & <- & Ts & _). exact (send_accepted _ _ _ _ K E Ts H W). Qed.

Lemma world_announced : step (OSend i m) w = (Done 0, w') -> text_ok m -> standard t ->
  exists conn mail, phases (c_conn c) t conn mail /\ announced_mail m mail.
Proof. intros S K H. destruct (step_mail _ _ _ _ _ _ _ G S T) as (s & s' & E & <- & _ & Ts & _). exact (send_announced _ _ _ _ K E Ts H). Qed.

Lemma world_data_lines : forall x, step (OSend i m) w = (x, w') ->
  exists conn mail, phases (c_conn c) t conn mail /\
  forall before r after, mail = before ++ (DATA_line, r) :: after -> ~ In DATA_line (map fst before) ->
  forall d h, In (d, h) after -> exists line, clear_line (e_fs (w_env w)) (without_bcc m) line /\ d = cstr line.
Proof. intros x S. destruct (step_mail _ _ _ _ _ _ _ G S T) as (s & s' & E & <- & <- & Ts & _). exact (send_data_lines _ _ _ _ _ E Ts). Qed.

Lemma world_sender : forall r, step (OSend i m) w = (Done r, w') -> text_ok m -> standard t ->
  exists conn mail, phases (c_conn c) t conn mail /\
  (mail = [] \/
   exists refused line reply rest more,
     mail = refused ++ (line, reply) :: rest /\ sender_lines (m_from m) = map fst refused ++ line :: more /\
     Forall (answered "501") refused /\
     (answered "250" (line, reply) \/
      (Forall (eq QUIT_line) (map fst rest) /\ (r = 501 -> more = []) /\ (100 <= r -> code_digits r reply)))).
Proof. intros r S K H. destruct (step_mail _ _ _ _ _ _ _ G S T) as (s & s' & E & <- & _ & Ts & _). exact (send_sender _ _ _ _ _ K E Ts H). Qed.

Lemma world_header : step (OSend i m) w = (Done 0, w') -> text_ok m -> header_ok m -> standard t -> fields_written t ->
  exists before r1 texts r2 after, exchanges t = before ++ (DATA_line, r1) :: silent texts ++ (END_line, r2) :: after /\
    head_lines (lines (concat texts)) = header_fields m.
Proof.
  intros S K Ho H W. destruct (world_accepted S K H W) as (conn & mail & (E & _) & sender & rcpts & r1 & texts & r2 & -> & _ & _ & _ & _ & C).
  exists (conn ++ sender ++ rcpts), r1, texts, r2, (if c_batch c then [] else [(QUIT_line, [])]).
  split; [rewrite E, <- !app_assoc; reflexivity|]. rewrite C. apply header_section, Ho.
Qed.

Lemma world_normal : step (OSend i m) w = (Done 0, w') -> c_batch c = false -> standard t -> fields_written t ->
  (exists t1 ev t2, t = t1 ++ ev :: t2 /\ writes QUIT_line ev /\ written t2 = [] /\ closed_in t2 ev) /\
  exists c', get_client w' i = Some c' /\ c_conn c' = false /\ c_sock c' = 0.
Proof.
  intros S Bc H W. destruct (step_mail _ _ _ _ _ _ _ G S T) as (s & s' & E & <- & _ & Ts & G').
  destruct (send_normal _ _ _ _ E Ts Bc H W) as (t1 & ev & t2 & -> & A1 & A2 & A3 & A4 & A5).
  split; [exists t1, ev, t2; auto|]. exists (s_c s'). auto.
Qed.

Lemma world_batch : step (OSend i m) w = (Done 0, w') -> c_batch c = true -> standard t -> fields_written t ->
  exists c', get_client w' i = Some c' /\ c_conn c' = true /\
  exists t1 ev t2, t = t1 ++ ev :: t2 /\ written_on c' END_line ev /\ written t2 = [] /\ (forall e, In e t2 -> ~ closing_event e).
Proof.
  intros S Bc H W. destruct (step_mail _ _ _ _ _ _ _ G S T) as (s & s' & E & <- & _ & Ts & G').
  destruct (send_batch _ _ _ _ E Ts Bc H W) as (t1 & ev & t2 & -> & A1 & A2 & A3 & A4).
  exists (s_c s'). split; [exact G'|]. split; [exact A4|]. exists t1, ev, t2. auto.
Qed.

Lemma world_reuse : forall x, step (OSend i m) w = (x, w') -> c_conn c = true -> forall ev, In ev t -> ~ opening_event ev.
Proof. intros x S H. destruct (step_mail _ _ _ _ _ _ _ G S T) as (s & s' & E & <- & _ & Ts & _). exact (kept_reuse _ _ _ _ _ E Ts H). Qed.

Lemma world_destroy : step (ODestroy i) w = (Done 0, w') ->
  (c_batch c = true -> c_conn c = true -> In QUIT_line (written t)) /\
  (c_sock c = 0 \/ In (EvClose (c_sock c)) t) /\
  (c_kind c <> KPlain -> (forall b, c_bio c = Some b -> In (EvBioFree (bio_id b)) t) /\
     (forall k, c_ctx c = Some k -> In (EvCtxFree k) t)).
Proof.
  intros S. cbn [step] in S. unfold run_on in S. rewrite G in S. unfold bind in S.
  destruct (cleanup (mkSt c (w_env w) (w_trace w))) as [o s'] eqn:E. destruct o; try discriminate S.
  assert (Ts : s_t s' = w_trace w ++ t).
  { rewrite <- T. cbn in S. inversion S; subst. reflexivity. }
  exact (destroy_closes (mkSt c (w_env w) (w_trace w)) a s' t E Ts).
Qed.

Lemma world_transmitted : step (OSend i m) w = (Done 0, w') -> text_ok m -> standard t -> full_writes t ->
  exists conn mail, phases (c_conn c) t conn mail /\ accepted_mail (e_fs (w_env w)) m (c_batch c) mail /\
    transmitted t = concat (map fst conn) ++ concat (map fst mail).
Proof.
  intros S K H W. assert (W' : fields_written t).
  { intros ev Hev. specialize (W ev Hev). destruct ev; try exact I; subst; exact I. }
  destruct (world_accepted S K H W') as (conn & mail & P & A). exists conn, mail. split; [exact P|]. split; [exact A|].
  rewrite (full_transmitted _ W). unfold written. destruct P as (-> & _). rewrite map_app, concat_app. reflexivity.
Qed.

Lemma world_unreadable : step (OSend i m) w = (Done 0, w') -> text_ok m -> standard t -> fields_written t ->
  forall fs, (forall f, e_fs (w_env w) f = None -> fs f = Some []) -> (forall f x, e_fs (w_env w) f = Some x -> fs f = Some x) ->
  exists conn mail, phases (c_conn c) t conn mail /\ accepted_mail fs m (c_batch c) mail.
Proof.
  intros S K H W fs F1 F2. destruct (world_accepted S K H W) as (conn & mail & P & sender & rcpts & r1 & texts & r2 & E & A1 & A2 & A3 & A4 & A5).
  exists conn, mail. split; [exact P|]. exists sender, rcpts, r1, texts, r2. do 5 (split; [assumption|]). rewrite A5.
  unfold mail_text. rewrite (unreadable_text (e_fs (w_env w)) fs m); [reflexivity| |exact F2]. intros f Hf. left. apply F1, Hf.
Qed.
End World.

(** Two accepted mails that differ in the Bcc list only. *)
Lemma world_bcc : forall i c m w w' t j d m2 u u' t2,
  get_client w i = Some c -> w_trace w' = w_trace w ++ t -> step (OSend i m) w = (Done 0, w') -> text_ok m -> standard t -> fields_written t ->
  get_client u j = Some d -> w_trace u' = w_trace u ++ t2 -> step (OSend j m2) u = (Done 0, u') -> text_ok m2 -> standard t2 -> fields_written t2 ->
  without_bcc m2 = without_bcc m -> e_fs (w_env u) = e_fs (w_env w) ->
  exists before r1 texts r2 after before' r1' texts' r2' after',
    exchanges t = before ++ (DATA_line, r1) :: silent texts ++ (END_line, r2) :: after /\
    exchanges t2 = before' ++ (DATA_line, r1') :: silent texts' ++ (END_line, r2') :: after' /\
    concat texts = concat texts'.
Proof.
  intros i c m w w' t j d m2 u u' t2 G T S K H W G2 T2 S2 K2 H2 W2 E F.
  destruct (world_accepted _ _ _ _ _ _ G T S K H W) as (conn & mail & (P & _) & sender & rcpts & r1 & texts & r2 & -> & _ & _ & _ & _ & C).
  destruct (world_accepted _ _ _ _ _ _ G2 T2 S2 K2 H2 W2) as (conn' & mail' & (P' & _) & sender' & rcpts' & r1' & texts' & r2' & -> & _ & _ & _ & _ & C').
  exists (conn ++ sender ++ rcpts), r1, texts, r2, (if c_batch c then [] else [(QUIT_line, [])]).
  exists (conn' ++ sender' ++ rcpts'), r1', texts', r2', (if c_batch d then [] else [(QUIT_line, [])]).
  split; [rewrite P, <- !app_assoc; reflexivity|]. split; [rewrite P', <- !app_assoc; reflexivity|].
  rewrite C, C', F. unfold without_bcc in E. inversion E as [[E1 E2 E3 E4 E5 E6 E7]].
  unfold mail_text, header_text, header_fields, body_text, body_lines, text_lines, text_headers. rewrite E1, E2, E3, E4, E5, E6, E7. reflexivity.
Qed.
