(** What is written after DATA, in every run. *)

From Coq Require Import Ascii String List NArith ZArith Bool Lia.
From Verif Require Import Base Lib ModelUtil ModelAddress ModelAttachment
  ModelErrors ModelReply ModelMessage ModelState ModelClient ModelWorld
  ProofSteps ProofWalk ProofPhases ProofEstablish ProofLog ProofSend ProofWorld
  SpecAddress SpecReply SpecMime SpecTls SpecDialogue SpecLife
  ProofReply ProofMime ProofTls ProofTls2 ProofDialogue ProofMail ProofMail2 ProofMail3 ProofMail4 ProofMail5.
Import ListNotations.
Open Scope Z_scope.

(** ** Clients that cannot write *)

Definition dead (c : client) : Prop := raw_command c = false /\ c_bio c = None.
Lemma dead_core : forall c d, core c = core d -> dead d -> dead c.
Proof.
  intros c d H [R N]. split; [rewrite (raw_command_core _ _ H); exact R|]. core_facts H. rewrite CFbio. exact N.
Qed.
Lemma dead_or_channel : forall c, dead c \/ channel c.
Proof.
  intros c. destruct (raw_command c) eqn:E; [right; left; exact E|]. destruct (c_bio c) eqn:Eb; [right; right; congruence|].
  left. split; assumption.
Qed.

Definition mute {A} (m : M A) : Prop := forall s, dead (s_c s) -> forall o s', m s = (o, s') ->
  exists t, s_t s' = s_t s ++ t /\ written t = [] /\ dead (s_c s').
Lemma mute_bind : forall {A C} (m : M A) (k : A -> M C), mute m -> (forall a, mute (k a)) -> mute (bind m k).
Proof.
  intros A C m k H1 H2 s D o s' H. unfold bind in H. destruct (m s) as [q s1] eqn:E.
  destruct (H1 s D _ _ E) as (t & T & W & D1).
  destruct q as [a| | | | |]; [|inversion H; subst; exists t; auto ..].
  destruct (H2 a s1 D1 _ _ H) as (t2 & T2 & W2 & D2). exists (t ++ t2). rewrite T2, T, app_assoc, written_app, W, W2. auto.
Qed.
Lemma mute_ret : forall {A} (a : A), mute (ret a).
Proof. intros A a s D o s' H. inversion H; subst. exists []. rewrite app_nil_r. auto. Qed.
Lemma mute_here : forall {A} (m : M A), (forall s o s', m s = (o, s') -> s_t s' = s_t s /\ (dead (s_c s) -> dead (s_c s'))) -> mute m.
Proof. intros A m H s D o s' E. apply H in E as [T K]. exists []. rewrite app_nil_r. auto. Qed.
Lemma mute_log : forall i, mute (logc i).
Proof.
  intros i. apply mute_here. intros s o s' H. destruct o as [[]| | | | |].
  1:{ apply logc_core in H as (C & _ & T & _). split; [exact T|]. apply dead_core, C. }
  all: unfold logc, addLog, bind, getc in H; destruct (c_log (s_c s)); [|inversion H; subst; auto]; cbv zeta in H;
    repeat match type of H with (if ?b then _ else _) _ = _ => destruct b end; inversion H; subst; auto.
Qed.
Lemma mute_errno : forall e, mute (setLastSocketErrNo e).
Proof. intros e. apply mute_here. intros s o s' H. inversion H; subst. auto. Qed.
Lemma mute_diverge : forall {A}, mute (@diverge A).
Proof. intros A. apply mute_here. intros s o s' H. inversion H; subst. auto. Qed.
Lemma mute_upd : forall f, (forall c, dead c -> dead (f c)) -> mute (updc f).
Proof. intros f F. apply mute_here. intros s o s' H. inversion H; subst. split; [reflexivity|apply F]. Qed.
Lemma mute_emit : forall ev, written [ev] = [] -> mute (emit ev).
Proof. intros ev W s D o s' H. inversion H; subst. exists [ev]. auto. Qed.
Lemma mute_getc : forall {A} (k : client -> M A), (forall c, dead c -> forall s, s_c s = c -> forall o s', k c s = (o, s') ->
  exists t, s_t s' = s_t s ++ t /\ written t = [] /\ dead (s_c s')) -> mute (c <- getc;; k c).
Proof. intros A k H s D o s' E. unfold bind at 1, getc in E. exact (H _ D s eq_refl _ _ E). Qed.

Lemma mute_cmd_with : forall clean d err, mute clean -> mute (sendCommandPtr_with clean d err).
Proof.
  intros clean d err Hc. unfold sendCommandPtr_with. apply mute_getc. intros c D s Ec o s' E. assert (D0 := D). destruct D0 as [R N].
  unfold raw_command in R. destruct (c_rawptr c); [discriminate R|]. destruct (c_kind c) eqn:Ek; [discriminate R| |].
  all: unfold sendCommandTLS_with, bind at 1, getc in E; rewrite Ec, N in E;
    refine (mute_bind _ _ (mute_errno _) (fun _ => mute_bind _ _ Hc (fun _ => mute_ret _)) s _ _ _ E);
    rewrite Ec; exact D.
Qed.
Lemma mute_cleanup_f : forall f, mute (cleanup_f f).
Proof.
  induction f as [|f IH]; [apply mute_diverge|]. cbn [cleanup_f].
  intros s D o s' E. unfold bind at 1, getc in E. revert s D o s' E.
  assert (F : mute (free_tls;; close_socket)).
  { apply mute_bind; [|intros _].
    - unfold free_tls. intros s D o s' E. unfold bind at 1, getc in E. destruct D as [R N]. rewrite N in E.
      revert E. generalize (c_ctx (s_c s)). intros k E.
      refine (mute_bind _ _ _ (fun _ => mute_bind _ _ (mute_upd _ _) (fun _ => mute_bind _ _ (mute_ret _) (fun _ => mute_upd _ _))) s (conj R N) _ _ E).
      + destruct k; [apply mute_emit; reflexivity|apply mute_ret].
      + intros c H. exact H.
      + intros c [H _]. split; [exact H|reflexivity].
    - unfold close_socket. intros s D o s' E. unfold bind at 1, getc in E. revert E. generalize (c_sock (s_c s)). intros k E.
      refine (mute_bind _ _ _ (fun _ => mute_upd _ _) s D _ _ E).
      + destruct (k =? 0); [apply mute_ret|apply mute_emit; reflexivity].
      + intros c H. exact H. }
  intros s D o s' E. destruct (c_kind (s_c s)) eqn:Ek.
  { destruct D as [R _]. unfold raw_command in R. rewrite Ek, orb_true_r in R. discriminate R. }
  all: refine (mute_bind _ _ _ (fun _ => mute_bind _ _ (mute_upd _ _) (fun _ => F)) s D _ _ E); [|intros c H; exact H];
    destruct (c_batch (s_c s) && c_conn (s_c s)); [|apply mute_ret];
    apply mute_bind; [|intros; apply mute_ret]; unfold sendQuit_with; apply mute_bind; [apply mute_log|intros _; apply mute_cmd_with, IH].
Qed.
Lemma mute_cmd : forall d err, mute (sendCommandPtr d err).
Proof.
  intros d err. apply mute_cmd_with. intros s D o s' E. exact (mute_cleanup_f _ s D o s' E).
Qed.
(** ... and it returns no success. *)
Lemma mute_cmd_code : forall d err s code s', dead (s_c s) -> sendCommandPtr d err s = (Done code, s') -> err <> 0 -> code = err.
Proof.
  intros d err s code s' [R N] H E. destruct (cmd_done _ _ _ _ _ H E) as [(_ & [C|C] & _)|[C _]]; congruence.
Qed.

(** ** Commands *)

Lemma once_cmd : forall d err s, channel (s_c s) ->
  exists ev t, s_t (snd (sendCommandPtr d err s)) = s_t s ++ ev :: t /\ writes (cstr d) ev /\ only_quit (written t).
Proof.
  intros d err s C. unfold sendCommandPtr, sendCommandPtr_with, bind at 1, getc.
  assert (R : once (cstr d) (sendRaw2_with cleanup d err)).
  { unfold sendRaw2_with. apply once_bind; [apply once_send|]. intros r. repeat quit1. }
  assert (T : raw_command (s_c s) = false -> exists ev t, s_t (snd (sendCommandTLS_with cleanup d err s)) = s_t s ++ ev :: t /\
    writes (cstr d) ev /\ only_quit (written t)).
  { intros N. destruct C as [C|C]; [congruence|]. unfold sendCommandTLS_with, bind at 1, getc. destruct (c_bio (s_c s)) as [b|]; [|congruence].
    match goal with |- context [bind ?m ?k s] => apply (once_bind (cstr d) m k (once_puts b (cstr d))) end. intros r. repeat quit1. }
  unfold raw_command in T. destruct (c_rawptr (s_c s)); [apply R|]. destruct (c_kind (s_c s)); [apply R|apply T; reflexivity|apply T; reflexivity].
Qed.

(** ** Texts with QUIT lines put in *)

Lemma with_quits_refl : forall l, with_quits l l.
Proof. induction l; constructor; assumption. Qed.
Lemma with_quits_app : forall a a' b b', with_quits a a' -> with_quits b b' -> with_quits (a ++ b) (a' ++ b').
Proof. intros a a' b b' H K. induction H; cbn [app]; [exact K|constructor; assumption|constructor; assumption]. Qed.
Lemma with_quits_only : forall q, only_quit q -> with_quits [] q.
Proof. induction 1 as [|x q <- H IH]; constructor; exact IH. Qed.

Lemma fields_l : forall a b, fields_written (a ++ b) -> fields_written a.
Proof. intros a b H ev E. apply H, in_or_app. left. exact E. Qed.
Lemma fields_r : forall a b, fields_written (a ++ b) -> fields_written b.
Proof. intros a b H ev E. apply H, in_or_app. right. exact E. Qed.

(** From [s], [m] writes some of the first lines of [L], in order and each
    once; all of them if it returns with [ok], unless the client cannot write
    any more. *)
Definition weave {A} (L : list str) (ok : A -> bool) (m : M A) (s : st) : Prop :=
  forall o s', m s = (o, s') -> exists t texts q,
    s_t s' = s_t s ++ t /\ with_quits texts (written t) /\ (exists l, L = texts ++ l) /\
    (fields_written t -> written t = texts ++ q /\ only_quit q) /\
    (forall a, o = Done a -> ok a = true -> (fields_written t -> q = []) /\ (texts = L \/ dead (s_c s'))).

Lemma weave_bind : forall {A C} L1 L2 ok1 ok2 (m : M A) (k : A -> M C) s, weave L1 ok1 m s ->
  (forall a s1, m s = (Done a, s1) -> ok1 a = true -> weave L2 ok2 (k a) s1 /\ (dead (s_c s1) -> mute (k a))) ->
  (forall a, ok1 a = false -> exists b, k a = ret b /\ ok2 b = false) ->
  weave (L1 ++ L2) ok2 (bind m k) s.
Proof.
  intros A C L1 L2 ok1 ok2 m k s H1 H2 H3 o s' H. unfold bind in H. destruct (m s) as [x s1] eqn:E.
  destruct (H1 _ _ E) as (t & texts & q & T & W & (l & P) & F & K).
  assert (Stop : s' = s1 -> (forall a, o = Done a -> ok2 a = false) -> exists t texts q,
    s_t s' = s_t s ++ t /\ with_quits texts (written t) /\ (exists l, L1 ++ L2 = texts ++ l) /\
    (fields_written t -> written t = texts ++ q /\ only_quit q) /\
    (forall a, o = Done a -> ok2 a = true -> (fields_written t -> q = []) /\ (texts = L1 ++ L2 \/ dead (s_c s')))).
  { intros -> N. exists t, texts, q. split; [exact T|]. split; [exact W|]. split; [exists (l ++ L2); rewrite P, app_assoc; reflexivity|].
    split; [exact F|]. intros a Ea Ok. rewrite (N a Ea) in Ok. discriminate Ok. }
  destruct x as [a| | | | |]; [|inversion H; subst; apply Stop; [reflexivity|intros; discriminate] ..].
  destruct (ok1 a) eqn:Ok.
  2:{ destruct (H3 a Ok) as (b & Eb & Nb). rewrite Eb in H. inversion H; subst. apply Stop; [reflexivity|]. intros a0 X. inversion X; subst. exact Nb. }
  destruct (K a eq_refl Ok) as [Kq Kd]. destruct (H2 a s1 eq_refl Ok) as [Hw Hm]. destruct Kd as [-> |D].
  - destruct (Hw _ _ H) as (t2 & texts2 & q2 & T2 & W2 & (l2 & P2) & F2 & K2).
    exists (t ++ t2), (L1 ++ texts2), q2. split; [rewrite T2, T, app_assoc; reflexivity|]. rewrite written_app.
    split; [apply with_quits_app; assumption|]. split; [exists l2; rewrite P2, app_assoc; reflexivity|]. split.
    + intros Fw. destruct (F (fields_l _ _ Fw)) as [Ew _]. rewrite (Kq (fields_l _ _ Fw)), app_nil_r in Ew.
      destruct (F2 (fields_r _ _ Fw)) as [Ew2 Q2]. rewrite Ew, Ew2, app_assoc. auto.
    + intros b Eb Okb. destruct (K2 b Eb Okb) as [Kq2 Kd2]. split; [intros Fw; apply Kq2, (fields_r _ _ Fw)|].
      destruct Kd2 as [-> |D]; [left; reflexivity|right; exact D].
  - destruct (Hm D s1 D _ _ H) as (t2 & T2 & W2 & D2). exists (t ++ t2), texts, q.
    split; [rewrite T2, T, app_assoc; reflexivity|]. rewrite written_app, W2, app_nil_r. split; [exact W|].
    split; [exists (l ++ L2); rewrite P, app_assoc; reflexivity|]. split; [intros Fw; apply F, (fields_l _ _ Fw)|].
    intros b Eb Okb. split; [intros Fw; apply Kq, (fields_l _ _ Fw)|right; exact D2].
Qed.
Lemma weave_log : forall {A} L ok i (k : M A) s, (forall s1, weave L ok k s1) -> weave L ok (logc i;; k) s.
Proof.
  intros A L ok i k s Hk o s' H. unfold bind at 1 in H. destruct (logc i s) as [x s1] eqn:E.
  assert (T : s_t s1 = s_t s).
  { destruct x as [[]| | | | |].
    1:{ apply logc_core in E as (_ & _ & T & _). exact T. }
    all: unfold logc, addLog, bind, getc in E; destruct (c_log (s_c s)); [|inversion E; subst; auto]; cbv zeta in E;
      repeat match type of E with (if ?b then _ else _) _ = _ => destruct b end; inversion E; subst; auto. }
  destruct x; [apply Hk in H; destruct H as (t & X); exists t; rewrite <- T; exact X|inversion H; subst ..].
  all: exists [], [], []; rewrite app_nil_r; split; [exact T|]; split; [constructor|]; split; [exists L; reflexivity|]; split;
    [intros _; split; [reflexivity|constructor]|intros; discriminate].
Qed.
Lemma weave_cmd : forall d err s, err <> 0 -> weave [cstr d] (fun c => c =? 0) (sendCommandPtr d err) s.
Proof.
  intros d err s N o s' H. destruct (dead_or_channel (s_c s)) as [D|C].
  - destruct (mute_cmd d err s D _ _ H) as (t & T & W & D'). exists t, [], []. rewrite W. split; [exact T|].
    split; [constructor|]. split; [eexists; reflexivity|]. split; [intros _; split; [reflexivity|constructor]|]. auto.
  - destruct (once_cmd d err s C) as (ev & t & T & W & Q). rewrite H in T. cbn [snd] in T.
    assert (E : written (ev :: t) = cstr d :: written t).
    { change (ev :: t) with ([ev] ++ t). rewrite written_app, (written_write _ _ W). reflexivity. }
    exists (ev :: t), [cstr d], (written t). rewrite E. split; [exact T|].
    split; [apply (wq_text (cstr d) []), with_quits_only, Q|]. split; [exists []; reflexivity|]. split; [auto|].
    intros a -> Ok. split; [|left; reflexivity]. apply Z.eqb_eq in Ok. subst a. intros _.
    destruct (cmd_done _ _ _ _ _ H N) as [(_ & _ & R)|[X _]]; [|congruence]. destruct R as (_ & t' & T' & K).
    rewrite T in T'. apply app_inv_head in T'. subst t'. apply talk_exchanges in K.
    assert (X : written (ev :: t) = [cstr d]) by (unfold written; rewrite K; reflexivity). congruence.
Qed.

(** ** Headers and body *)

Lemma weave_ret : forall {A} (ok : A -> bool) a s, weave [] ok (ret a) s.
Proof.
  intros A ok a s o s' H. inversion H; subst. exists [], [], []. rewrite app_nil_r. split; [reflexivity|]. split; [constructor|].
  split; [exists []; reflexivity|]. split; [intros _; split; [reflexivity|constructor]|]. auto.
Qed.
Lemma weave_stop : forall {A} L (ok : A -> bool) a s, ok a = false -> weave L ok (ret a) s.
Proof.
  intros A L ok a s N o s' H. inversion H; subst. exists [], [], []. rewrite app_nil_r. split; [reflexivity|]. split; [constructor|].
  split; [exists L; reflexivity|]. split; [intros _; split; [reflexivity|constructor]|].
  intros b E. inversion E; subst. congruence.
Qed.
Definition any {A} (a : A) : bool := true.
Definition zero (c : Z) : bool := c =? 0.

(** A To or Cc line: its failure is ignored. *)
Lemma mute_address : forall f a, mute (address_header f a).
Proof.
  intros f a. unfold address_header. destruct a as [[|n]|[|x l]].
  - apply mute_ret.
  - apply mute_here. intros s o s' H. inversion H; subst. auto.
  - apply mute_ret.
  - apply mute_bind; [|intros; apply mute_ret]. unfold addMailHeader. apply mute_bind; [apply mute_log|intros _; apply mute_cmd].
Qed.
Lemma weave_address : forall f a s, f = B "To" \/ f = B "Cc" -> weave (map cstr (address_lines f a)) any (address_header f a) s.
Proof.
  intros f a s Fd. destruct a as [[|n]|[|x l]]; try apply weave_ret.
  { intros o s' H. inversion H; subst. exists [], [], []. rewrite app_nil_r. split; [reflexivity|]. split; [constructor|].
    split; [eexists; reflexivity|]. split; [intros _; split; [reflexivity|constructor]|]. intros; discriminate. }
  cbn [address_lines listed map address_header].
  set (d := header_line f (generateHeaderAddressValues (x :: l))).
  assert (X : recipient_field (cstr d)).
  { unfold d, header_line. destruct Fd as [-> | ->]; [left|right]; exists (cstr (generateHeaderAddressValues (x :: l) ++ CRLF)); reflexivity. }
  intros o s' H. unfold addMailHeader in H. rewrite bind_assoc in H. fold d in H. revert o s' H. apply weave_log. clear s. intros s o s' H.
  unfold bind in H. destruct (sendCommandPtr d CLIENT_SENDMAIL_HEADERTOANDCC_ERROR s) as [q s1] eqn:E.
  assert (N : CLIENT_SENDMAIL_HEADERTOANDCC_ERROR <> 0) by discriminate.
  destruct (weave_cmd d _ s N _ _ E) as (t & texts & qs & T & W & P & F & K).
  destruct q as [c| | | | |]; [|inversion H; subst; exists t, texts, qs; do 4 (split; [assumption|]); intros; discriminate ..].
  inversion H; subst o s1. exists t, texts, qs. do 4 (split; [assumption|]). intros u _ _.
  destruct (cmd_done _ _ _ _ _ E N) as [(-> & _)|[-> Bad]]; [exact (K 0 eq_refl eq_refl)|].
  destruct (dead_or_channel (s_c s)) as [D|C].
  - destruct (mute_cmd d _ s D _ _ E) as (t' & T' & W' & D'). rewrite T in T'. apply app_inv_head in T'. subst t'.
    split; [|right; exact D']. intros Fw. destruct (F Fw) as [Ew _]. rewrite W' in Ew. symmetry in Ew. apply app_eq_nil in Ew. apply Ew.
  - assert (Wr : written t = cstr d :: tl (written t)).
    { destruct (once_cmd d CLIENT_SENDMAIL_HEADERTOANDCC_ERROR s C) as (ev & t' & T' & Wv & _). rewrite E in T'. cbn [snd] in T'.
      rewrite T in T'. apply app_inv_head in T'. subst t. change (ev :: t') with ([ev] ++ t'). rewrite written_app, (written_write _ _ Wv). reflexivity. }
    assert (Nf : fields_written t -> False).
    { intros Fw. destruct (Bad C) as (t' & T' & Fd'). rewrite T in T'. apply app_inv_head in T'. subst t'.
      apply (succeed_failed t Fw). destruct Fd' as (ev & I & Fv). exists ev. split; [exact I|].
      destruct ev; try exact Fv; destruct r; try exact Fv; rewrite <- Fv; exact X. }
    split; [intros Fw; destruct (Nf Fw)|]. left. destruct P as [l' P].
    destruct texts as [|y ys]; [|inversion P; subst; destruct ys; [reflexivity|discriminate]].
    exfalso. rewrite Wr in W. inversion W; subst.
    destruct X as [[r X]|[r X]]; rewrite X in *; discriminate.
Qed.

Lemma cmd_alive : forall d err s s', sendCommandPtr d err s = (Done 0, s') -> err <> 0 -> ~ dead (s_c s').
Proof.
  intros d err s s' H N D. destruct (cmd_done _ _ _ _ _ H N) as [(_ & C & R)|[X _]]; [|congruence].
  destruct R as (Ec & _). apply (dead_core _ _ (eq_sym Ec)) in D. destruct D as [D1 D2]. destruct C; congruence.
Qed.
(** A command whose failure ends the function. *)
Lemma weave_then : forall d err L (k : M Z) s, err <> 0 -> (forall s1, weave L zero k s1) ->
  weave (cstr d :: L) zero (c <- sendCommandPtr d err;; if negb (c =? 0) then ret c else k) s.
Proof.
  intros d err L k s N Hk. apply (weave_bind [cstr d] L zero zero); [apply weave_cmd, N| |].
  - intros a s1 E Ok. unfold zero in Ok. rewrite Ok. cbn [negb]. split; [apply Hk|]. apply Z.eqb_eq in Ok. subst a.
    intros D. destruct (cmd_alive _ _ _ _ E N D).
  - intros a Ok. exists a. unfold zero in *. rewrite Ok. split; reflexivity.
Qed.
(** [setMailHeaders] after DATA. *)
Definition headers_tail (m : message) : M Z :=
  f <- addMailHeader (B "From") (address_str (m_from m)) CLIENT_SENDMAIL_HEADERFROM_ERROR;;
  if negb (f =? 0) then ret f else
  address_header (B "To") (m_to m);;
  address_header (B "Cc") (m_cc m);;
  logc (header_line (B "Subject") (m_subject m));;
  s <- sendCommandPtr (header_line (B "Subject") (m_subject m)) CLIENT_SENDMAIL_HEADERSUBJECT_ERROR;;
  if negb (s =? 0) then ret s else
  logc CONTENT_TYPE_LINE;;
  t <- sendCommandPtr CONTENT_TYPE_LINE CLIENT_SENDMAIL_HEADERCONTENTTYPE_ERROR;;
  if negb (t =? 0) then ret t else ret 0.
Definition body_tail (m : message) : M Z :=
  b <- setMailBody m;;
  if negb (b =? 0) then ret b else
  c <- getc;;
  (if c_batch c then ret tt else cleanup);;
  ret 0.

Lemma weave_headers : forall m s, weave (map cstr (data_headers m)) zero (headers_tail m) s.
Proof.
  intros m s. unfold headers_tail, data_headers. rewrite !map_app. cbn [map app].
  assert (Subject : forall s, weave [cstr (header_line (B "Subject") (m_subject m)); cstr CONTENT_TYPE_LINE] zero
    (logc (header_line (B "Subject") (m_subject m));;
     (s <- sendCommandPtr (header_line (B "Subject") (m_subject m)) CLIENT_SENDMAIL_HEADERSUBJECT_ERROR;;
     if negb (s =? 0) then ret s else
     logc CONTENT_TYPE_LINE;;
     (t <- sendCommandPtr CONTENT_TYPE_LINE CLIENT_SENDMAIL_HEADERCONTENTTYPE_ERROR;;
     if negb (t =? 0) then ret t else ret 0))) s).
  { intros s1. apply weave_log. clear s1. intros s1. apply weave_then; [discriminate|]. clear s1. intros s1. apply weave_log. clear s1. intros s1.
    apply weave_then; [discriminate|]. intros s2. apply weave_ret. }
  assert (MS : mute (logc (header_line (B "Subject") (m_subject m));;
     (s <- sendCommandPtr (header_line (B "Subject") (m_subject m)) CLIENT_SENDMAIL_HEADERSUBJECT_ERROR;;
     if negb (s =? 0) then ret s else
     logc CONTENT_TYPE_LINE;;
     (t <- sendCommandPtr CONTENT_TYPE_LINE CLIENT_SENDMAIL_HEADERCONTENTTYPE_ERROR;;
     if negb (t =? 0) then ret t else ret 0)))).
  { apply mute_bind; [apply mute_log|intros _]. apply mute_bind; [apply mute_cmd|intros a]. destruct (negb _); [apply mute_ret|].
    apply mute_bind; [apply mute_log|intros _]. apply mute_bind; [apply mute_cmd|intros b]. destruct (negb _); apply mute_ret. }
  intros o s' H. unfold addMailHeader in H. rewrite bind_assoc in H. revert o s' H. apply weave_log. clear s. intros s.
  apply weave_then; [discriminate|]. clear s. intros s.
  apply (weave_bind _ _ any zero); [apply weave_address; left; reflexivity| |intros; discriminate].
  intros [] s1 _ _. split; [|intros _; apply mute_bind; [apply mute_address|intros _; exact MS]].
  apply (weave_bind _ _ any zero); [apply weave_address; right; reflexivity| |intros; discriminate].
  intros [] s2 _ _. split; [apply Subject|intros _; exact MS].
Qed.
Lemma headers_tail_alive : forall m s s', headers_tail m s = (Done 0, s') -> ~ dead (s_c s').
Proof.
  intros m s s' H. unfold headers_tail in H.
  apply bind_done in H as (f & s1 & _ & H). destruct (f =? 0) eqn:Ef; cbn [negb] in H.
  2:{ apply ret_done in H as [X _]. subst f. discriminate Ef. }
  apply bind_done in H as (u2 & s2 & _ & H). apply bind_done in H as (u3 & s3 & _ & H). apply bind_done in H as (u4 & s4 & _ & H).
  apply bind_done in H as (c & s5 & _ & H). destruct (c =? 0) eqn:Ec; cbn [negb] in H.
  2:{ apply ret_done in H as [X _]. subst c. discriminate Ec. }
  apply bind_done in H as (u6 & s6 & _ & H). apply bind_done in H as (e & s7 & E7 & H). destruct (e =? 0) eqn:Ee; cbn [negb] in H.
  2:{ apply ret_done in H as [X _]. subst e. discriminate Ee. }
  apply Z.eqb_eq in Ee. subst e. apply ret_done in H as [_ ->]. apply (cmd_alive _ _ _ _ E7). discriminate.
Qed.

Lemma once_weave : forall {A} d (m : M A) s, once d m -> weave [d] (fun _ => false) m s.
Proof.
  intros A d m s H o s' E. destruct (H s) as (ev & t & T & W & Q). rewrite E in T. cbn [snd] in T.
  assert (X : written (ev :: t) = d :: written t).
  { change (ev :: t) with ([ev] ++ t). rewrite written_app, (written_write _ _ W). reflexivity. }
  exists (ev :: t), [d], (written t). rewrite X. split; [exact T|]. split; [apply (wq_text d []), with_quits_only, Q|].
  split; [exists []; reflexivity|]. split; [auto|]. intros; discriminate.
Qed.
Lemma weave_weaken : forall {A} L (ok ok' : A -> bool) m s, (forall a, ok' a = true -> ok a = true) -> weave L ok m s -> weave L ok' m s.
Proof.
  intros A L ok ok' m s H W o s' E. destruct (W _ _ E) as (t & x & q & A1 & A2 & A3 & A4 & A5). exists t, x, q. do 4 (split; [assumption|]).
  intros a Ea Ok. apply (A5 a Ea (H a Ok)).
Qed.
Definition never {A} (a : A) : bool := false.
Lemma weave_quits : forall {A C} L ok (m : M A) (k : A -> M C) s, weave L ok m s -> (forall a, quits (k a)) -> weave L never (bind m k) s.
Proof.
  intros A C L ok m k s W Q o s' H. unfold bind in H. destruct (m s) as [x s1] eqn:E.
  destruct (W _ _ E) as (t & texts & q & T & Ww & P & F & K).
  destruct x as [a| | | | |]; [|inversion H; subst; exists t, texts, q; do 4 (split; [assumption|]); intros; discriminate ..].
  destruct (Q a s1) as (t2 & T2 & Q2). rewrite H in T2. cbn [snd] in T2. exists (t ++ t2), texts, (q ++ written t2).
  split; [rewrite T2, T, app_assoc; reflexivity|]. rewrite written_app.
  split; [rewrite <- (app_nil_r texts); apply with_quits_app; [exact Ww|apply with_quits_only, Q2]|]. split; [exact P|].
  split; [|intros; discriminate]. intros Fw. destruct (F (fields_l _ _ Fw)) as [Ew Qe]. rewrite Ew, app_assoc.
  split; [reflexivity|]. apply Forall_app. split; assumption.
Qed.

Lemma weave_chunks : forall l err s, err <> 0 -> weave (map cstr l) zero (send_chunks l err) s.
Proof.
  intros l err s N. revert s. induction l as [|x l IH]; intros s; [apply weave_ret|]. cbn [send_chunks map].
  apply weave_then; [exact N|exact IH].
Qed.
Lemma chunks_alive : forall l err s s', err <> 0 -> l <> [] -> send_chunks l err s = (Done 0, s') -> ~ dead (s_c s').
Proof.
  intros l err s s' N. revert s. induction l as [|x l IH]; intros s X H; [congruence|]. cbn [send_chunks] in H.
  apply bind_done in H as (c & s1 & H1 & H). destruct (c =? 0) eqn:Ec; cbn [negb] in H.
  2:{ apply ret_done in H as [Y _]. subst c. discriminate Ec. }
  apply Z.eqb_eq in Ec. subst c. destruct l as [|y l]; [|apply (IH s1); [discriminate|exact H]].
  apply ret_done in H as [_ ->]. exact (cmd_alive _ _ _ _ H1 N).
Qed.

Lemma quits_log : forall i, quits (logc i).
Proof.
  intros i s. exists []. rewrite app_nil_r. split; [|constructor]. destruct (logc i s) as [x s1] eqn:E. cbn [snd].
  destruct x as [[]| | | | |].
  1:{ apply logc_core in E as (_ & _ & T & _). exact T. }
  all: unfold logc, addLog, bind, getc in E; destruct (c_log (s_c s)); [|inversion E; subst; auto]; cbv zeta in E;
    repeat match type of E with (if ?b then _ else _) _ = _ => destruct b end; inversion E; subst; auto.
Qed.
Lemma quits_getc : forall {A} (k : client -> M A), (forall c, quits (k c)) -> quits (c <- getc;; k c).
Proof. intros A k H s. unfold bind at 1, getc. apply H. Qed.
Lemma quits_quit : quits sendQuitCommand.
Proof.
  apply quits_walk. intros s. unfold sendQuitCommand, sendQuit_with. apply walk_bind; [|intros u s1 _ _].
  - apply (wlogc quit_label qbase).
  - apply (wcmd quit_label qbase); [intros []|split; reflexivity|intros _; split; reflexivity].
Qed.

Lemma weave_body : forall m s, weave (map cstr (body_chunks (body_text (e_fs (s_e s)) m)) ++ [END_line]) never (body_tail m) s.
Proof.
  intros m s. unfold body_tail.
  apply (weave_quits _ never).
  2:{ intros b. destruct (negb _); [apply quits_ret|]. apply quits_getc. intros c. apply quits_bind; [|intros; apply quits_ret].
      destruct (c_batch c); [apply quits_ret|apply quits_cleanup]. }
  unfold setMailBody. intros o s' H. unfold bind at 1 in H. destruct (logc (body_text_part m) s) as [x s1] eqn:E.
  assert (T : s_t s1 = s_t s /\ s_e s1 = s_e s).
  { destruct x as [[]| | | | |].
    1:{ apply logc_core in E as (_ & Ee & T & _). auto. }
    all: unfold logc, addLog, bind, getc in E; destruct (c_log (s_c s)); [|inversion E; subst; auto]; cbv zeta in E;
      repeat match type of E with (if ?b then _ else _) _ = _ => destruct b end; inversion E; subst; auto. }
  destruct T as [T Te]. set (L := map cstr _ ++ _).
  assert (Stop : forall o, (forall a, o <> Done a) -> (o, s1) = (o, s1) -> exists t texts q,
     s_t s1 = s_t s ++ t /\ with_quits texts (written t) /\ (exists l, L = texts ++ l) /\
     (fields_written t -> written t = texts ++ q /\ only_quit q) /\
     (forall a, o = Done a -> @never Z a = true -> (fields_written t -> q = []) /\ (texts = L \/ dead (s_c s1)))).
  { intros o0 N _. exists [], [], []. rewrite app_nil_r. split; [exact T|]. split; [constructor|]. split; [exists L; reflexivity|].
    split; [intros _; split; [reflexivity|constructor]|intros; discriminate]. }
  destruct x; [|inversion H; subst; apply Stop; [intros; discriminate|reflexivity] ..].
  unfold bind at 1, gete in H. rewrite Te in H. destruct (body_real (e_fs (s_e s)) m) as [body| | | | |] eqn:Eb; unfold lift at 1, bind at 1 in H.
  2-6: inversion H; subst; apply Stop; [intros; discriminate|reflexivity].
  apply body_real_eq in Eb. subst body. rewrite <- T. clear Stop. revert o s' H. unfold L. clear L.
  assert (Ne : (if (512 <? length (body_text (e_fs (s_e s)) m))%nat then CLIENT_SENDMAIL_BODYPART_ERROR else CLIENT_SENDMAIL_BODY_ERROR) <> 0)
    by (destruct (_ <? _)%nat; discriminate).
  apply (weave_bind _ _ zero never); [apply weave_chunks, Ne| |].
  - intros r s2 H2 Ok. unfold zero in Ok. rewrite Ok. cbn [negb]. apply Z.eqb_eq in Ok. subst r. split.
    + apply weave_log. intros s3. apply (once_weave END_line). change END_line with (cstr END_OF_DATA). apply once_bind; [apply once_fb|].
      intros d. destruct (negb _); [apply quits_ret|]. apply quits_getc. intros c. destruct (c_batch c); [apply quits_ret|].
      apply quits_bind; [apply quits_quit|intros q]. destruct (negb _); apply quits_ret.
    + intros D. exfalso. apply (chunks_alive _ _ _ _ Ne) in H2; [exact (H2 D)|]. destruct (body_chunks_spec (body_text (e_fs (s_e s)) m)) as (Cc & _).
      intros X. rewrite X in Cc. discriminate Cc.
  - intros r Ok. unfold zero in Ok. rewrite Ok. exists r. split; reflexivity.
Qed.

(** ** The whole mail *)

Lemma first_data : forall (a b x y : list (str * str)) r r', ~ In DATA_line (map fst a) -> ~ In DATA_line (map fst x) ->
  a ++ (DATA_line, r) :: b = x ++ (DATA_line, r') :: y -> r = r' /\ b = y.
Proof.
  induction a as [|p a IH]; intros b [|z x] y r r' Na Nx E; cbn [app] in E.
  - inversion E; auto.
  - inversion E; subst. destruct Nx. left. reflexivity.
  - inversion E; subst. destruct Na. left. reflexivity.
  - inversion E; subst. apply (IH b x y); [intros H; apply Na; right; exact H|intros H; apply Nx; right; exact H|assumption].
Qed.

(** What was written after DATA, in [l]; [r] is the answer to DATA. *)
Definition data_written (fs : filesystem) (m : message) (t : list event) (r : str) (l : list str) : Prop :=
  exists texts q, with_quits texts l /\ (fields_written t -> l = texts ++ q /\ only_quit q) /\
  ((exists x, map cstr (data_headers m) ++ map cstr (body_chunks (body_text fs m)) ++ [END_line] = texts ++ x) \/
   (~ standard_reply r /\ exists x, map cstr (body_chunks (body_text fs m)) ++ [END_line] = texts ++ x)).

Lemma zero_not_standard : forall h x, code_of h 0 -> ~ standard_reply (h ++ x).
Proof.
  intros h x C S. apply (code_of_app _ x) in C. destruct C as (a & b & E & C). rewrite E in S. apply standard_code in S. lia.
Qed.
Lemma code_of_354 : CLIENT_SENDMAIL_DATA_ERROR <> 354 /\ CLIENT_SENDMAIL_DATA_TIMEOUT <> 354 /\
  CLIENT_SENDMAIL_DATA_ERROR <> 0 /\ CLIENT_SENDMAIL_DATA_TIMEOUT <> 0.
Proof. repeat split; discriminate. Qed.

Lemma heard_app : forall a b, exists y, fst (dialogue (a ++ b)) = fst (dialogue a) ++ y.
Proof.
  induction a as [|ev a IH]; intros b; [eexists; reflexivity|]. destruct (IH b) as [y E].
  destruct ev; cbn [dialogue app]; try (exists y; exact E); try destruct r;
    try (destruct (dialogue (a ++ b)), (dialogue a); cbn [fst] in *; subst; exists y; try reflexivity; rewrite app_assoc; reflexivity);
    try (exists y; exact E); destruct (dialogue (a ++ b)), (dialogue a); exists []; reflexivity.
Qed.
Lemma fb_fs : forall d err tmo s x s', sendFeedbackPtr d err tmo s = (x, s') -> e_fs (s_e s') = e_fs (s_e s).
Proof.
  intros d err tmo s x s' H. assert (W : walk most (sendFeedbackPtr d err tmo) s).
  { apply wfb; [apply most_base|apply most_conn|apply most_write|apply most_quit]. }
  destruct W as [W _]. rewrite H in W. exact (steps_fs _ _ _ W).
Qed.
Lemma headers_tail_fs : forall m s x s', headers_tail m s = (x, s') -> e_fs (s_e s') = e_fs (s_e s).
Proof.
  intros m s x s' H. assert (W : walk most (headers_tail m) s).
  { unfold headers_tail. apply walk_bind; [unfold addMailHeader; apply walk_bind; [apply (wlogc most most_base)|intros; apply (wcmd most most_base most_conn); [apply most_write|apply most_quit]]|].
    intros f s1 _ _. destruct (negb _); [apply walk_ret|]. 
    apply walk_bind; [apply (waddress_header most most_base most_conn); [intros; apply most_write|intros; exact I|apply most_quit]|intros _ s2 _ _].
    apply walk_bind; [apply (waddress_header most most_base most_conn); [intros; apply most_write|intros; exact I|apply most_quit]|intros _ s3 _ _].
    apply walk_bind; [apply (wlogc most most_base)|intros _ s4 _ _].
    apply walk_bind; [apply (wcmd most most_base most_conn); [apply most_write|apply most_quit]|intros c s5 _ _]. destruct (negb _); [apply walk_ret|].
    apply walk_bind; [apply (wlogc most most_base)|intros _ s6 _ _].
    apply walk_bind; [apply (wcmd most most_base most_conn); [apply most_write|apply most_quit]|intros e s7 _ _]. destruct (negb _); apply walk_ret. }
  destruct W as [W _]. rewrite H in W. exact (steps_fs _ _ _ W).
Qed.

Lemma transaction_written : forall m s x s' t, mail_transaction m s = (x, s') -> s_t s' = s_t s ++ t ->
  forall before r after, exchanges t = before ++ (DATA_line, r) :: after -> ~ In DATA_line (map fst before) ->
  data_written (e_fs (s_e s)) m t r (map fst after).
Proof.
  intros m s x s' t H T before r after E Nb. unfold mail_transaction in H.
  unfold bind at 1 in H. destruct (setMailRecipients m s) as [o s1] eqn:H1.
  destruct (recipients_no_data _ _ _ _ H1) as (t1 & T1 & D1).
  assert (A : s' = s1 -> False).
  { intros ->. rewrite T in T1. apply app_inv_head in T1. subst t1. apply D1. unfold written. rewrite E, map_app.
    apply in_or_app. right. left. reflexivity. }
  destruct o as [c| | | | |]; try (inversion H; subst; destruct (A eq_refl)).
  destruct (c =? 0) eqn:Eq; cbn [negb] in H; [|inversion H; subst; destruct (A eq_refl)].
  assert (F1 := recipients_fs _ _ _ _ H1). rewrite <- F1. set (fs := e_fs (s_e s1)).
  unfold setMailHeaders in H. rewrite !bind_assoc in H. unfold bind at 1 in H.
  destruct (logc (B "DATA" ++ CRLF) s1) as [u s2] eqn:H2.
  assert (Tl : s_t s2 = s_t s1).
  { destruct (quits_log (B "DATA" ++ CRLF) s1) as (t' & T' & _). rewrite H2 in T'. cbn [snd] in T'.
    destruct u as [[]| | | | |].
    1:{ apply logc_core in H2 as (_ & _ & Y & _). exact Y. }
    all: unfold logc, addLog, bind, getc in H2; destruct (c_log (s_c s1)); [|inversion H2; subst; auto]; cbv zeta in H2;
      repeat match type of H2 with (if ?b then _ else _) _ = _ => destruct b end; inversion H2; subst; auto. }
  assert (A2 : s' = s2 -> False).
  { intros ->. rewrite T1 in Tl. rewrite T in Tl. apply app_inv_head in Tl. subst t1. apply D1. unfold written. rewrite E, map_app.
    apply in_or_app. right. left. reflexivity. }
  destruct u as [[]| | | | |]; try (inversion H; subst; destruct (A2 eq_refl)).
  assert (Fs2 : e_fs (s_e s2) = fs).
  { apply logc_core in H2 as (_ & Y & _). rewrite Y. reflexivity. }
  rewrite bind_assoc in H. unfold bind at 1 in H. destruct (sendFeedbackPtr (B "DATA" ++ CRLF) CLIENT_SENDMAIL_DATA_ERROR CLIENT_SENDMAIL_DATA_TIMEOUT s2) as [d s3] eqn:H3.
  destruct (once_fb (B "DATA" ++ CRLF) CLIENT_SENDMAIL_DATA_ERROR CLIENT_SENDMAIL_DATA_TIMEOUT s2) as (ev & td & Td & Wd & Qd).
  rewrite H3 in Td. cbn [snd] in Td. change (cstr (B "DATA" ++ CRLF)) with DATA_line in Wd.
  (* after the events of DATA come the events [tt] *)
  assert (Whole : forall tt, s_t s' = s_t s3 ++ tt ->
    t = t1 ++ (ev :: td) ++ tt /\ (exists y, r = fst (dialogue td) ++ y) /\ map fst after = written td ++ written tt).
  { intros tt Tt. assert (Et : t = t1 ++ ev :: td ++ tt).
    { rewrite Tt, Td, Tl, T1, <- !app_assoc in T. apply app_inv_head in T. symmetry. exact T. }
    split; [exact Et|]. rewrite Et in E.
    assert (K : talk (ev :: td ++ tt) ((DATA_line, fst (dialogue (td ++ tt))) :: exchanges (td ++ tt))).
    { unfold talk, exchanges. destruct Wd as [(fd & q & ->)|(b & q & ->)]; cbn [dialogue]; destruct (dialogue (td ++ tt)); reflexivity. }
    rewrite (exchanges_app t1 _ _ K) in E. symmetry in E. apply first_data in E as [-> ->]; [|exact Nb|exact D1].
    split; [apply heard_app|]. rewrite <- written_app. reflexivity. }
  assert (Nothing : s' = s3 -> data_written fs m t r (map fst after)).
  { intros ->. destruct (Whole [] ltac:(symmetry; apply app_nil_r)) as (_ & _ & Ea). exists [], (map fst after).
    change (written []) with (@nil str) in Ea. rewrite app_nil_r in Ea. rewrite Ea. split; [apply with_quits_only, Qd|]. split; [auto|].
    left. eexists. reflexivity. }
  destruct d as [d| | | | |]; [|inversion H; subst; apply Nothing; reflexivity ..].
  assert (Fs3 : e_fs (s_e s3) = fs).
  { rewrite <- Fs2. exact (fb_fs _ _ _ _ _ _ H3). }
  assert (Heard : d = 354 \/ d = 0 -> written td = [] /\ code_of (fst (dialogue td)) d).
  { intros Dv. destruct (fb_reach _ _ _ _ _ _ H3) as (h & (_ & t' & T' & K) & C); [discriminate| | |].
    1-2: destruct Dv as [-> | ->]; discriminate.
    rewrite Td in T'. apply app_inv_head in T'. subst t'. change (cstr (B "DATA" ++ CRLF)) with DATA_line in K. unfold talk in K.
    assert (Dd : dialogue td = (h, [])).
    { destruct Wd as [(fd & q & ->)|(b & q & ->)]; cbn [dialogue] in K; destruct (dialogue td); inversion K; reflexivity. }
    split; [unfold written, exchanges; rewrite Dd; reflexivity|rewrite Dd; exact C]. }
  destruct (d =? STATUS_CODE_START_MAIL_INPUT) eqn:Ed; cbn [negb] in H.
  - apply Z.eqb_eq in Ed. destruct (Heard (or_introl Ed)) as [Wt _].
    assert (W : weave (map cstr (data_headers m) ++ map cstr (body_chunks (body_text fs m)) ++ [END_line]) never
      (h <- headers_tail m;; if negb (h =? 0) then ret h else body_tail m) s3).
    { apply (weave_bind _ _ zero never); [apply weave_headers| |].
      - intros h s4 H4 Ok. unfold zero in Ok. rewrite Ok. cbn [negb]. apply Z.eqb_eq in Ok. subst h. split.
        + rewrite <- Fs3, <- (headers_tail_fs _ _ _ _ H4). apply weave_body.
        + intros D. destruct (headers_tail_alive _ _ _ H4 D).
      - intros h Ok. unfold zero in Ok. rewrite Ok. exists h. split; reflexivity. }
    destruct (W x s' H) as (tt & texts & q & Tt & Q & P & F & _). destruct (Whole tt Tt) as (Et & _ & Ea).
    rewrite Wt in Ea. cbn [app] in Ea. exists texts, q. rewrite Ea. split; [exact Q|]. split; [|left; exact P].
    intros Fw. apply F. rewrite Et in Fw. exact (fields_r _ _ (fields_r _ _ Fw)).
  - unfold bind at 1, ret at 1 in H. destruct (d =? 0) eqn:E0; cbn [negb] in H; [|inversion H; subst; apply Nothing; reflexivity].
    apply Z.eqb_eq in E0. destruct (Heard (or_intror E0)) as [Wt C]. subst d.
    destruct (weave_body m s3 x s' H) as (tt & texts & q & Tt & Q & P & F & _). destruct (Whole tt Tt) as (Et & (y & Er) & Ea).
    rewrite Wt in Ea. cbn [app] in Ea. rewrite Fs3 in P. exists texts, q. rewrite Ea. split; [exact Q|]. split.
    + intros Fw. apply F. rewrite Et in Fw. exact (fields_r _ _ (fields_r _ _ Fw)).
    + right. split; [rewrite Er; apply zero_not_standard, C|exact P].
Qed.

Lemma no_bcc_text : forall fs m, mail_text fs (without_bcc m) = mail_text fs m /\ body_text fs (without_bcc m) = body_text fs m.
Proof. intros. split; reflexivity. Qed.
Lemma starts_concat : forall (a b : list str) x, a = b ++ x -> starts_with (concat b) (concat a).
Proof. intros a b x ->. exists (concat x). apply concat_app. Qed.

Definition data_texts (fs : filesystem) (m : message) (t : list event) (mail : list (str * str)) : Prop :=
  forall before r after, mail = before ++ (DATA_line, r) :: after -> ~ In DATA_line (map fst before) ->
  exists texts, with_quits texts (map fst after) /\
    (fields_written t -> exists quits, map fst after = texts ++ quits /\ Forall (eq QUIT_line) quits) /\
    (starts_with (concat texts) (mail_text fs (without_bcc m) ++ END_line) \/
     (~ standard_reply r /\ starts_with (concat texts) (body_text fs (without_bcc m) ++ END_line))).

Lemma data_written_texts : forall fs m t r l, text_ok m -> data_written fs m t r l ->
  exists texts, with_quits texts l /\
    (fields_written t -> exists quits, l = texts ++ quits /\ Forall (eq QUIT_line) quits) /\
    (starts_with (concat texts) (mail_text fs (without_bcc m) ++ END_line) \/
     (~ standard_reply r /\ starts_with (concat texts) (body_text fs (without_bcc m) ++ END_line))).
Proof.
  intros fs m t r l K (texts & q & W & F & P). destruct (no_bcc_text fs m) as [-> ->]. exists texts. split; [exact W|].
  split; [intros Fw; exists q; exact (F Fw)|].
  destruct (body_chunks_spec (body_text fs m)) as (Cc & _).
  assert (Hb : map cstr (body_chunks (body_text fs m)) = body_chunks (body_text fs m)).
  { apply nn_concat. rewrite Cc. apply nn_body, K. }
  assert (Hh : map cstr (data_headers m) = data_headers m).
  { apply nn_concat. rewrite header_concat. apply nn_header, K. }
  rewrite Hb, Hh in P. destruct P as [[x P]|[N [x P]]]; apply starts_concat in P; rewrite !concat_app, ?header_concat, Cc in P; cbn [concat] in P.
  - left. unfold mail_text. rewrite <- app_assoc. exact P.
  - right. split; [exact N|exact P].
Qed.

Lemma send_data_texts : forall m s x s' t, sendMail m s = (x, s') -> s_t s' = s_t s ++ t -> text_ok m ->
  exists conn mail, phases (c_conn (s_c s)) t conn mail /\ data_texts (e_fs (s_e s)) m t mail.
Proof.
  intros m s x s' t H T K. destruct (send_phases _ _ _ _ _ H T) as (conn & mail & s1 & t2 & P & E & [[-> N]|(C1 & Cf & Fs & Kq & H2 & (t1 & T1 & Et) & T2 & Q)]).
  - exists conn, []. split; [exact P|]. intros [|] r after X; discriminate X.
  - subst mail. exists conn, (exchanges t2). split; [exact P|]. rewrite <- Fs. intros before r after Ex Nb.
    destruct (transaction_written _ _ _ _ _ H2 T2 _ _ _ Ex Nb) as (texts & q & W & F & D).
    apply data_written_texts; [exact K|]. exists texts, q. split; [exact W|]. split; [|exact D]. intros Fw. apply F.
    rewrite Et in Fw. exact (fields_r _ _ Fw).
Qed.

Lemma world_data_texts : forall i c m w w' t, get_client w i = Some c -> w_trace w' = w_trace w ++ t ->
  forall x, step (OSend i m) w = (x, w') -> text_ok m ->
  exists conn mail, phases (c_conn c) t conn mail /\ data_texts (e_fs (w_env w)) m t mail.
Proof.
  intros i c m w w' t G T x S K. destruct (step_mail _ _ _ _ _ _ _ G S T) as (s & s' & E & <- & <- & Ts & _).
  exact (send_data_texts _ _ _ _ _ E Ts K).
Qed.

Lemma starts_comparable : forall a b s : str, starts_with a s -> starts_with b s -> starts_with a b \/ starts_with b a.
Proof.
  intros a b s [x ->] [y E]. revert b E. induction a as [|c a IH]; intros b E; [left; exists b; reflexivity|].
  destruct b as [|d b]; [right; eexists; reflexivity|]. cbn [app] in E. inversion E; subst.
  destruct (IH b H1) as [[z ->]|[z ->]]; [left|right]; exists z; reflexivity.
Qed.
Lemma world_bcc_any : forall i c m w w' t j d m2 u u' t2 x y,
  get_client w i = Some c -> w_trace w' = w_trace w ++ t -> step (OSend i m) w = (x, w') -> text_ok m ->
  get_client u j = Some d -> w_trace u' = w_trace u ++ t2 -> step (OSend j m2) u = (y, u') -> text_ok m2 ->
  without_bcc m2 = without_bcc m -> e_fs (w_env u) = e_fs (w_env w) ->
  exists conn mail conn2 mail2, phases (c_conn c) t conn mail /\ phases (c_conn d) t2 conn2 mail2 /\
  forall before r after before2 r2 after2,
    mail = before ++ (DATA_line, r) :: after -> ~ In DATA_line (map fst before) -> standard_reply r ->
    mail2 = before2 ++ (DATA_line, r2) :: after2 -> ~ In DATA_line (map fst before2) -> standard_reply r2 ->
  exists texts texts2, with_quits texts (map fst after) /\ with_quits texts2 (map fst after2) /\
    (starts_with (concat texts) (concat texts2) \/ starts_with (concat texts2) (concat texts)).
Proof.
  intros i c m w w' t j d m2 u u' t2 x y G T S K G2 T2 S2 K2 Em Ef.
  destruct (world_data_texts _ _ _ _ _ _ G T _ S K) as (conn & mail & P & D).
  destruct (world_data_texts _ _ _ _ _ _ G2 T2 _ S2 K2) as (conn2 & mail2 & P2 & D2).
  exists conn, mail, conn2, mail2. split; [exact P|]. split; [exact P2|].
  intros before r after before2 r2 after2 E N R E2 N2 R2.
  destruct (D _ _ _ E N) as (texts & W & _ & [X|[Y _]]); [|destruct (Y R)].
  destruct (D2 _ _ _ E2 N2) as (texts2 & W2 & _ & [X2|[Y _]]); [|destruct (Y R2)].
  exists texts, texts2. split; [exact W|]. split; [exact W2|]. rewrite Em, Ef in X2. exact (starts_comparable _ _ _ X X2).
Qed.
