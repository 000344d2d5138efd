(** The sender formats, Bcc, header fields, unreadable attachments, short writes. *)

From Coq Require Import Ascii String List NArith ZArith Bool Lia ZifyBool ZifyNat ZifyN.
From Verif Require Import Base Lib ModelUtil ModelBase64 ModelAddress ModelAttachment
  ModelErrors ModelReply ModelMessage ModelState ModelClient ModelWorld
  ProofSteps ProofWalk ProofPhases ProofEstablish ProofLog ProofSend ProofWorld
  SpecAddress SpecText SpecReply SpecMime SpecBase64 SpecTls SpecDialogue ProofReply ProofAddress ProofBase64 ProofMime
  ProofTls ProofTls2 ProofDialogue ProofMail ProofMail2 ProofMail3.
Import ListNotations.
Open Scope Z_scope.

(** ** One write, then at most QUITs *)
Definition quit_label (l : label) : Prop :=
  match l with LConn => False | LSend d | LPuts d => d = QUIT | LUpgrade => False | _ => True end.
Definition only_quit (l : list str) : Prop := Forall (eq QUIT_line) l.
Definition quits {A} (m : M A) : Prop := forall s, exists t, s_t (snd (m s)) = s_t s ++ t /\ only_quit (written t).
Definition once {A} (d : str) (m : M A) : Prop := forall s,
  exists ev t, s_t (snd (m s)) = s_t s ++ ev :: t /\ writes d ev /\ only_quit (written t).

Lemma only_quit_app : forall a b, only_quit (written a) -> only_quit (written b) -> only_quit (written (a ++ b)).
Proof. intros a b H1 H2. unfold only_quit. rewrite written_app. apply Forall_app. auto. Qed.
Lemma quits_walk : forall {A} (m : M A), (forall s, walk quit_label m s) -> quits m.
Proof.
  intros A m H s. destruct (H s) as [W _]. destruct (steps_written _ _ _ W) as (t & T & Q). exists t. split; [exact T|].
  apply Forall_forall. intros d Hd. destruct (Q d Hd) as [X|[X|[_ X]]]; [symmetry; exact X|symmetry; exact X|destruct X].
Qed.
Lemma quits_bind : forall {A C} (m : M A) (k : A -> M C), quits m -> (forall a, quits (k a)) -> quits (bind m k).
Proof.
  intros A C m k H1 H2 s. unfold bind. destruct (H1 s) as (t & T & Q). destruct (m s) as [o s1]. cbn in T.
  destruct o as [a| | | | |]; try (exists t; split; [exact T|exact Q]).
  destruct (H2 a s1) as (t2 & T2 & Q2). exists (t ++ t2). split; [rewrite T2, T, app_assoc; reflexivity|apply only_quit_app; assumption].
Qed.
Lemma once_bind : forall {A C} d (m : M A) (k : A -> M C), once d m -> (forall a, quits (k a)) -> once d (bind m k).
Proof.
  intros A C d m k H1 H2 s. unfold bind. destruct (H1 s) as (ev & t & T & W & Q). destruct (m s) as [o s1]. cbn in T.
  destruct o as [a| | | | |]; try (exists ev, t; split; [exact T|auto]).
  destruct (H2 a s1) as (t2 & T2 & Q2). exists ev, (t ++ t2).
  split; [rewrite T2, T, <- app_assoc; reflexivity|]. split; [exact W|apply only_quit_app; assumption].
Qed.
Lemma quits_ret : forall {A} (a : A), quits (ret a).
Proof. intros A a s. exists []. rewrite app_nil_r. split; [reflexivity|constructor]. Qed.
Lemma quits_killed : forall {A}, quits (@killed A).
Proof. intros A s. exists []. rewrite app_nil_r. split; [reflexivity|constructor]. Qed.
Lemma qbase : forall l, base l -> quit_label l.
Proof. intros [] H; try exact I; destruct H. Qed.
Lemma quits_cleanup : quits cleanup.
Proof. apply quits_walk. intros s. apply (wcleanup quit_label qbase). intros _. split; reflexivity. Qed.
Lemma quits_reply : quits getServerReply.
Proof. apply quits_walk. intros s. apply (wreply quit_label qbase). Qed.
Lemma quits_raw_reply : quits getRawCommandReply.
Proof. apply quits_walk. intros s. apply (wraw_reply quit_label qbase). Qed.
Lemma quits_errno : forall e, quits (setLastSocketErrNo e).
Proof. intros e s. exists []. rewrite app_nil_r. split; [reflexivity|constructor]. Qed.
Lemma once_send : forall d, once d (sys_send d).
Proof.
  intros d s. unfold sys_send, bind, getc, gete, emit, ret, upde. destruct (e_send (s_e s));
  (eexists _, []; split; [reflexivity|]; split; [left; eexists _, _; reflexivity|constructor]).
Qed.
Lemma once_puts : forall b d, once d (sys_puts b d).
Proof.
  intros b d s. unfold sys_puts, bind, getc, gete, emit, ret, upde. destruct (e_bputs (s_e s));
  (eexists _, []; split; [reflexivity|]; split; [right; eexists _, _; reflexivity|constructor]).
Qed.
Ltac quit1 :=
  lazymatch goal with
  | |- quits (bind _ _) => apply quits_bind; [|intros ?]
  | |- quits (ret _) => apply quits_ret
  | |- quits killed => apply quits_killed
  | |- quits cleanup => apply quits_cleanup
  | |- quits getServerReply => apply quits_reply
  | |- quits getRawCommandReply => apply quits_raw_reply
  | |- quits (setLastSocketErrNo _) => apply quits_errno
  | |- quits (if ?b then _ else _) => destruct b
  | |- quits (match ?x with _ => _ end) => destruct x
  end.
Lemma once_raw3 : forall d err tmo, once (cstr d) (sendRaw3 d err tmo).
Proof.
  intros d err tmo. unfold sendRaw3. apply once_bind; [|intros r; repeat quit1].
  unfold sendRaw2, sendRaw2_with. apply once_bind; [apply once_send|]. intros r. repeat quit1.
Qed.
Lemma once_fb : forall d err tmo, once (cstr d) (sendFeedbackPtr d err tmo).
Proof.
  intros d err tmo s. unfold sendFeedbackPtr, bind at 1, getc. destruct (c_rawptr (s_c s)); [apply once_raw3|].
  unfold sendFeedback, bind at 1, getc.
  assert (T : exists ev t, s_t (snd (sendFeedbackTLS d err tmo s)) = s_t s ++ ev :: t /\ writes (cstr d) ev /\ only_quit (written t)).
  { unfold sendFeedbackTLS, bind at 1, getc. destruct (c_bio (s_c s)) as [b|]; [|apply once_raw3].
    match goal with |- context [bind ?m ?k s] => apply (once_bind (cstr d) m k (once_puts b (cstr d))) end.
    intros r. repeat quit1. }
  destruct (c_kind (s_c s)); [apply once_raw3|exact T|exact T].
Qed.

Lemma once_exchanges : forall d ev t, writes d ev -> only_quit (written t) ->
  exists h rest, talk (ev :: t) ((d, h) :: rest) /\ only_quit (map fst rest).
Proof.
  intros d ev t W Q. unfold talk. destruct (dialogue t) as [h l] eqn:E. exists h, l.
  unfold written, exchanges in Q. rewrite E in Q. split; [|exact Q].
  destruct W as [(fd & r & ->)|(b & r & ->)]; cbn [dialogue]; rewrite E; reflexivity.
Qed.

(** ** Sender formats *)

Lemma code_of_digits : forall h code, code_of h code -> 100 <= code -> code_digits code h.
Proof.
  intros h code (x & y & -> & E) L. symmetry in E. destruct (extract_big _ _ E L) as (c1 & c2 & c3 & v1 & v2 & v3 & r & -> & R).
  exists c1, c2, c3, v1, v2, v3, (r ++ y). split; [reflexivity|exact R].
Qed.

Lemma mail_from_sequence : forall fmts last s code s', mail_from_loop fmts last s = (Done code, s') -> fmts <> [] ->
  exists t refused line reply rest more, s_t s' = s_t s ++ t /\ talk t (refused ++ (line, reply) :: rest) /\
    map cstr fmts = map fst refused ++ line :: more /\ Forall (answered "501") refused /\ only_quit (map fst rest) /\
    (code = 250 -> answered "250" (line, reply) /\ rest = []) /\ (code = 501 -> more = []) /\ (100 <= code -> code_digits code reply).
Proof.
  induction fmts as [|f fmts IH]; intros last s code s' H G; [congruence|]. clear G. cbn [mail_from_loop] in H.
  apply bind_done in H as (u & s1 & H1 & H). apply bind_done in H as (c & s2 & H2 & H).
  destruct u. apply logc_core in H1 as (_ & _ & T1 & _).
  assert (F := fb_reach _ _ _ _ _ _ H2 ltac:(discriminate)).
  assert (One : exists t h rest, s_t s2 = s_t s ++ t /\ talk t ((cstr f, h) :: rest) /\ only_quit (map fst rest) /\ (100 <= c -> code_of h c) /\ (100 <= c -> rest = [])).
  { destruct (once_fb f CLIENT_SENDMAIL_MAILFROM_ERROR CLIENT_SENDMAIL_MAILFROM_TIMEOUT s1) as (ev & t & T & W & Q).
    rewrite H2 in T. cbn [snd] in T. destruct (once_exchanges _ _ _ W Q) as (h & rest & K & Q').
    exists (ev :: t), h, rest. split; [rewrite T, T1; reflexivity|]. split; [exact K|]. split; [exact Q'|].
    enough (X : 100 <= c -> code_of h c /\ rest = []) by (split; intros L; apply X; exact L).
    intros L. destruct (F ltac:(intros X; subst; vm_compute in L; congruence) ltac:(intros X; subst; vm_compute in L; congruence)) as (h' & (_ & t' & T' & K') & Hc).
    rewrite T in T'. apply app_inv_head in T'. subst t'. unfold talk in *. rewrite K in K'. inversion K'; subst. split; [exact Hc|reflexivity]. }
  destruct One as (t & h & rest & T & K & Q & Hc & Hr).
  assert (Stop : code = c -> s' = s2 -> (c = 501 -> fmts = []) ->
    exists t refused line reply rest more, s_t s' = s_t s ++ t /\ talk t (refused ++ (line, reply) :: rest) /\
    map cstr (f :: fmts) = map fst refused ++ line :: more /\ Forall (answered "501") refused /\ only_quit (map fst rest) /\
    (code = 250 -> answered "250" (line, reply) /\ rest = []) /\ (code = 501 -> more = []) /\ (100 <= code -> code_digits code reply)).
  { intros -> -> E. exists t, [], (cstr f), h, rest, (map cstr fmts).
    split; [exact T|]. split; [exact K|]. split; [reflexivity|]. split; [constructor|]. split; [exact Q|].
    split; [intros ->; split; [apply code_250, Hc; lia|apply Hr; lia]|]. split; [intros X; rewrite (E X); reflexivity|]. intros L. apply code_of_digits; auto. }
  destruct (c =? 250) eqn:E1.
  { apply ret_done in H as [-> ->]. apply Stop; [reflexivity|reflexivity|lia]. }
  destruct (c =? 501) eqn:E2; cbn [negb] in H; [|apply ret_done in H as [-> ->]; apply Stop; [reflexivity|reflexivity|lia]].
  apply Z.eqb_eq in E2. subst c. clear Stop.
  destruct (F ltac:(discriminate) ltac:(discriminate)) as (h' & (_ & t' & T' & K') & Hc').
  assert (t' = t) by (rewrite T, T1 in T'; apply app_inv_head in T'; auto). subst t'. unfold talk in K, K'. rewrite K in K'. inversion K'; subst.
  destruct fmts as [|g fmts].
  { cbn [mail_from_loop] in H. apply ret_done in H as [-> ->].
    exists t, [], (cstr f), h', [], []. split; [exact T|]. split; [exact K|]. split; [reflexivity|]. split; [constructor|]. split; [constructor|].
    split; [discriminate|]. split; [reflexivity|]. intros L. apply code_of_digits; assumption. }
  destruct (IH _ _ _ _ H ltac:(discriminate)) as (t2 & refused & line & reply & rest & more & T2 & K2 & M & A & R).
  exists (t ++ t2), ((cstr f, h') :: refused), line, reply, rest, more.
  split; [rewrite T2, T, app_assoc; reflexivity|]. split; [exact (talk_app _ _ _ _ K K2)|].
  split; [change (cstr f :: map cstr (g :: fmts) = cstr f :: (map fst refused ++ line :: more)); rewrite M; reflexivity|]. split; [constructor; [apply code_501, Hc'|exact A]|]. exact R.
Qed.

Lemma dialogue_more : forall t1 t2 h1 l d h, dialogue t1 = (h1, l ++ [(d, h)]) ->
  dialogue (t1 ++ t2) = (h1, l ++ (d, h ++ fst (dialogue t2)) :: snd (dialogue t2)).
Proof.
  induction t1 as [|ev t1 IH]; intros t2 h1 l d h H; [destruct l; discriminate H|]. cbn [app].
  assert (W : forall d0, (let '(heard, l0) := dialogue t1 in ([], (d0, heard) :: l0)) = (h1, l ++ [(d, h)]) ->
    (let '(heard, l0) := dialogue (t1 ++ t2) in ([], (d0, heard) :: l0)) = (h1, l ++ (d, h ++ fst (dialogue t2)) :: snd (dialogue t2))).
  { intros d0 X. destruct (dialogue t1) as [h0 l0] eqn:E. destruct l as [|x l]; inversion X; subst.
    - assert (Ro : snd (dialogue t1) = []) by (rewrite E; reflexivity).
      assert (Y : dialogue (t1 ++ t2) = (h ++ fst (dialogue t2), snd (dialogue t2))).
      { clear -E. revert h E. induction t1 as [|ev t1 IH]; intros h E; [cbn [app]; cbn in E; inversion E; subst; destruct (dialogue t2); reflexivity|]. cbn [app].
        destruct ev; try (match goal with r : recv_res |- _ => destruct r end); cbn [dialogue] in *; try (apply IH; exact E);
          destruct (dialogue t1) as [h2 l2]; try discriminate E; apply pair_equal_spec in E as [<- ->]; rewrite (IH _ eq_refl), app_assoc; reflexivity. }
      rewrite Y. reflexivity.
    - rewrite (IH t2 _ _ _ _ eq_refl). reflexivity. }
  destruct ev; try (match goal with r : recv_res |- _ => destruct r end); cbn [dialogue] in *; try (apply IH; exact H); try (apply W; exact H).
  all: destruct (dialogue t1) as [h0 l0]; apply pair_equal_spec in H as [<- ->]; rewrite (IH t2 _ _ _ _ eq_refl); reflexivity.
Qed.

(** What the sender lines of a finished transaction look like. *)
Definition sender_tried (from : list str) (r : Z) (mail : list (str * str)) : Prop :=
  exists refused line reply rest more,
    mail = refused ++ (line, reply) :: rest /\ from = map fst refused ++ line :: more /\
    Forall (answered "501") refused /\
    (answered "250" (line, reply) \/
     (only_quit (map fst rest) /\ (r = 501 -> more = []) /\ (100 <= r -> code_digits r reply))).

Lemma transaction_sender : forall m s r s' t, mail_transaction m s = (Done r, s') -> s_t s' = s_t s ++ t -> standard t ->
  sender_tried (map cstr (mail_formats (m_from m))) r (exchanges t).
Proof.
  intros m s r s' t H T S. unfold mail_transaction, setMailRecipients in H. rewrite bind_assoc in H.
  unfold bind at 1 in H.
  destruct (mail_from_loop (mail_formats (m_from m)) 0 s) as [o s1] eqn:H1. destruct o as [code| | | | |]; try discriminate H.
  destruct (mail_from_sequence _ _ _ _ _ H1 ltac:(discriminate)) as (t1 & refused & line & reply & rest & more & T1 & K & M & A & Q & Q1 & Q2 & Q3).
  destruct (mail_from_done _ _ _ _ _ H1 ltac:(left; discriminate)) as [_ Z].
  destruct (code =? 250) eqn:E1; cbn [negb] in H.
  - apply Z.eqb_eq in E1. subst code. destruct (Q1 eq_refl) as [A250 ->].
    assert (G : ext s1 s').
    { match type of H with ?f s1 = _ => assert (G : grows f) end.
      { apply grows_bind; [apply grows_recipients_loop|]. intros x. destruct (negb _); [apply grows_ret|].
        apply grows_bind; [apply grows_headers|intros h; apply grows_mail_rest]. }
      specialize (G s1). rewrite H in G. exact G. }
    destruct G as [t2 T2]. rewrite T2, T1, <- app_assoc in T. apply app_inv_head in T. subst t.
    unfold exchanges. unfold talk in K. rewrite (dialogue_more _ t2 _ _ _ _ K).
    exists refused, line, (reply ++ fst (dialogue t2)), (snd (dialogue t2)), more.
    split; [reflexivity|]. split; [exact M|]. split; [exact A|]. left. apply starts_app, A250.
  - assert (N : code <> 0).
    { intros ->. destruct (Z eq_refl) as (tb & Tb & Bd).
      assert (G : ext s1 s').
      { match type of H with ?f s1 = _ => assert (G : grows f) end.
        { apply grows_bind; [apply grows_ret|]. intros x. destruct (negb _); [apply grows_ret|].
          apply grows_bind; [apply grows_headers|intros h; apply grows_mail_rest]. }
        specialize (G s1). rewrite H in G. exact G. }
      destruct G as [t2 T2]. rewrite T2, Tb, <- app_assoc in T. apply app_inv_head in T. subst t.
      exact (standard_nonstandard _ S (nonstandard_l _ _ Bd)). }
    unfold bind at 1, ret at 1 in H. replace (code =? 0) with false in H by lia. cbn [negb] in H. apply ret_done in H as [-> ->].
    rewrite T1 in T. apply app_inv_head in T. subst t. rewrite (talk_exchanges _ _ K).
    exists refused, line, reply, rest, more. split; [reflexivity|]. split; [exact M|]. split; [exact A|]. right. auto.
Qed.

Lemma send_sender : forall m s r s' t, text_ok m -> sendMail m s = (Done r, s') -> s_t s' = s_t s ++ t -> standard t ->
  exists conn mail, phases (c_conn (s_c s)) t conn mail /\ (mail = [] \/ sender_tried (sender_lines (m_from m)) r mail).
Proof.
  intros m s r s' t Tk H T S. destruct (send_phases _ _ _ _ _ H T) as (conn & mail & s1 & t2 & P & E & [[-> N]|(C1 & Cf & Fs & K & H2 & (t1 & T1 & Et) & T2 & Q)]).
  - exists conn, []. auto.
  - subst mail. exists conn, (exchanges t2). split; [exact P|]. right. rewrite <- (sender_text _ (to_from _ Tk)).
    apply (transaction_sender _ _ _ _ _ H2 T2). subst t. intros d h Hd. apply (S d h). apply exchanges_in_r. exact Hd.
Qed.

(** ** Recipients before DATA *)

Lemma headers_data : forall m s s', setMailHeaders m s = (Done 0, s') ->
  bad nonstandard s s' \/
  exists t h r rest, s_t s' = s_t s ++ t /\ dialogue t = (h, (DATA_line, r) :: rest) /\ h = [] /\ answered "354" (DATA_line, r).
Proof.
  intros m s s' H. unfold setMailHeaders in H.
  apply bind_done in H as (u & s1 & H1 & H). apply bind_done in H as (d & s2 & H2 & H).
  assert (F := fb_reach _ _ _ _ _ _ H2 ltac:(discriminate)).
  destruct (d =? STATUS_CODE_START_MAIL_INPUT) eqn:E; cbn [negb] in H.
  2:{ apply ret_done in H as [<- ->]. destruct (F ltac:(discriminate) ltac:(discriminate)) as (h & R & C). left.
      exact (reach_zero _ _ _ _ (reach_log_then _ _ _ _ _ _ H1 R) C). }
  apply Z.eqb_eq in E. subst d. destruct (F ltac:(discriminate) ltac:(discriminate)) as (h & R & C).
  assert (R2 := reach_log_then _ _ _ _ _ _ H1 R). clear F R. right.
  assert (X : ext s2 s').
  { match type of H with ?f s2 = _ => assert (G : grows f) end.
    { unfold addMailHeader. grow; apply grows_address_header. }
    specialize (G s2). rewrite H in G. exact G. }
  destruct X as [t2 T2], R2 as (_ & t1 & T1 & K). exists (t1 ++ t2), [], (h ++ fst (dialogue t2)), (snd (dialogue t2)).
  split; [rewrite T2, T1, app_assoc; reflexivity|]. split; [|split; [reflexivity|apply starts_app, code_354 with (d := []), C]].
  exact (dialogue_more _ t2 _ [] _ _ K).
Qed.

Lemma transaction_announced : forall m s s' t, text_ok m -> mail_transaction m s = (Done 0, s') -> s_t s' = s_t s ++ t ->
  standard t -> announced_mail m (exchanges t).
Proof.
  intros m s s' t Tk H T S. unfold mail_transaction in H.
  apply bind_done in H as (r & s1 & H1 & H).
  destruct (r =? 0) eqn:Er; cbn [negb] in H; [|apply ret_done in H as [<- _]; discriminate Er]. apply Z.eqb_eq in Er. subst r.
  apply bind_done in H as (h & s2 & H2 & H).
  destruct (h =? 0) eqn:Eh; cbn [negb] in H; [|apply ret_done in H as [<- _]; discriminate Eh]. apply Z.eqb_eq in Eh. subst h.
  assert (X : ext s2 s').
  { assert (G := grows_mail_rest m 0 s2). cbn [negb Z.eqb] in G. rewrite H in G. exact G. }
  assert (X1 := recipients_ext _ _ _ _ H1). assert (X2 := headers_ext _ _ _ _ H2).
  assert (No : bad nonstandard s s' -> False).
  { intros (t' & T' & O). rewrite T in T'. apply app_inv_head in T'. subst t'. exact (standard_nonstandard _ S O). }
  destruct (setMailRecipients_done _ _ _ H1) as [B1|(refused & line & reply & more & l & R1 & M1 & A1 & A2 & M2 & A3)].
  { exfalso. apply No. exact (bad_l _ _ _ _ closed_nonstandard B1 (ext_trans _ _ _ X2 X)). }
  destruct (headers_data _ _ _ H2) as [B2|(t2 & h2 & r1 & rest & T2 & D2 & -> & A4)].
  { exfalso. apply No. exact (bad_r _ _ _ _ closed_nonstandard X1 (bad_l _ _ _ _ closed_nonstandard B2 X)). }
  destruct R1 as (_ & t1 & T1 & K1), X as [t3 T3].
  assert (Et : t = (t1 ++ t2) ++ t3).
  { rewrite T3, T2, T1, <- !app_assoc in T. apply app_inv_head in T. rewrite <- T, app_assoc. reflexivity. }
  assert (R : exists r1' rest', exchanges t = (refused ++ (line, reply) :: l) ++ (DATA_line, r1') :: rest' /\ answered "354" (DATA_line, r1')).
  { assert (E12 : dialogue (t1 ++ t2) = ([], (refused ++ (line, reply) :: l) ++ (DATA_line, r1) :: rest)) by (apply talk_app; [exact K1|exact D2]).
    destruct (exists_last (l := (DATA_line, r1) :: rest)) as (init & [d0 h0] & El); [discriminate|].
    rewrite El, app_assoc in E12.
    exists (match init with [] => r1 ++ fst (dialogue t3) | _ => r1 end).
    exists (match init with [] => snd (dialogue t3) | _ :: i => i ++ (d0, h0 ++ fst (dialogue t3)) :: snd (dialogue t3) end).
    unfold exchanges. rewrite Et, (dialogue_more _ t3 _ _ _ _ E12). cbn [snd]. rewrite <- app_assoc.
    destruct init as [|y init]; cbn [app] in El |- *; inversion El; subst; split; try reflexivity; [apply starts_app, A4|exact A4]. }
  destruct R as (r1' & rest' & -> & A4'). exists (refused ++ [(line, reply)]), l, r1', rest'.
  split; [rewrite <- !app_assoc; reflexivity|]. split; [|split; [|exact A4']].
  - exists refused, line, reply, more. rewrite <- (sender_text _ (to_from _ Tk)). auto.
  - split; [|exact A3]. rewrite M2. apply map_ext_in. intros a Ha. apply rcpt_text.
    assert (F := to_rcpt _ Tk). rewrite Forall_forall in F. apply (F a Ha).
Qed.

Lemma send_announced : forall m s s' t, text_ok m -> sendMail m s = (Done 0, s') -> s_t s' = s_t s ++ t -> standard t ->
  exists conn mail, phases (c_conn (s_c s)) t conn mail /\ announced_mail m mail.
Proof.
  intros m s s' t Tk H T S. destruct (send_phases _ _ _ _ _ H T) as (conn & mail & s1 & t2 & P & E & [[-> N]|(C1 & Cf & Fs & K & H2 & (t1 & T1 & Et) & T2 & Q)]); [congruence|].
  subst mail. exists conn, (exchanges t2). split; [exact P|].
  apply (transaction_announced _ _ _ _ Tk H2 T2). subst t. intros d h Hd. apply (S d h). apply exchanges_in_r. exact Hd.
Qed.

(** ** Bcc *)
Lemma headers_no_bcc : forall m, setMailHeaders m = setMailHeaders (without_bcc m).
Proof. reflexivity. Qed.
Lemma body_no_bcc : forall m, setMailBody m = setMailBody (without_bcc m).
Proof. reflexivity. Qed.

Definition data_label (fs : filesystem) (m : message) (l : label) : Prop :=
  match l with
  | LConn => False
  | LSend d | LPuts d => exists x, clear_line fs m x /\ d = cstr x
  | LUpgrade => False
  | _ => True
  end.
Lemma data_base : forall fs m l, base l -> data_label fs m l.
Proof. intros fs m [] H; try exact I; destruct H. Qed.
Lemma data_conn : forall fs m, ~ data_label fs m LConn.
Proof. intros fs m []. Qed.
Lemma data_write : forall fs m x, clear_line fs m x -> may_write (data_label fs m) (cstr x).
Proof. intros fs m x H. split; exists x; auto. Qed.
Lemma data_quit : forall fs m s, quit_ok (data_label fs m) s.
Proof. intros fs m s _. exact (data_write fs m _ (cl_quit fs m)). Qed.

Lemma transaction_data : forall m s x s' t, mail_transaction m s = (x, s') -> s_t s' = s_t s ++ t ->
  forall before r after, exchanges t = before ++ (DATA_line, r) :: after -> ~ In DATA_line (map fst before) ->
  forall d h, In (d, h) after -> exists line, clear_line (e_fs (s_e s)) (without_bcc m) line /\ d = cstr line.
Proof.
  intros m s x s' t H T before r after E Nb d h Hd. unfold mail_transaction in H.
  unfold bind at 1 in H. destruct (setMailRecipients m s) as [o s1] eqn:H1.
  destruct (recipients_no_data _ _ _ _ H1) as (t1 & T1 & D1).
  assert (A : s' = s1 -> False).
  { intros ->. rewrite T in T1. apply app_inv_head in T1. subst t1. apply D1. unfold written. rewrite E, map_app.
    apply in_or_app. right. left. reflexivity. }
  destruct o as [q| | | | |]; try (inversion H; subst; destruct (A eq_refl)).
  destruct (q =? 0) eqn:Eq; cbn [negb] in H; [|inversion H; subst; destruct (A eq_refl)]. clear A.
  assert (F1 := recipients_fs _ _ _ _ H1).
  rewrite headers_no_bcc, body_no_bcc in H. set (m' := without_bcc m) in *. rewrite <- F1. set (fs := e_fs (s_e s1)) in *.
  assert (W : walk (data_label fs m') (h <- setMailHeaders m';; if negb (h =? 0) then ret h else
          (b <- setMailBody m';; if negb (b =? 0) then ret b else c <- getc;; (if c_batch c then ret tt else cleanup);; ret 0)) s1).
  { assert (Hw : forall y, tx_line fs m' y -> may_write (data_label fs m') (cstr y)) by (intros; apply data_write, bare_line; assumption).
    apply walk_bind.
    { apply (wset_headers _ (data_base fs m') (data_conn fs m') m' fs Hw (fun _ _ => I)). apply data_quit. }
    intros a s2 _ S2. destruct (negb _); [apply walk_ret|]. apply walk_bind.
    { apply (wset_body _ (data_base fs m') (data_conn fs m') m' fs Hw (fun _ _ => I)); [|apply data_quit].
      exact (steps_fs _ _ _ S2). }
    intros b s3 _ S3. destruct (negb _); [apply walk_ret|]. apply walk_getc. apply walk_bind; [|intros; apply walk_ret].
    destruct (c_batch (s_c s3)); [apply walk_ret|]. apply (wcleanup _ (data_base fs m')). apply data_quit. }
  destruct W as [W _]. rewrite H in W. cbn [snd] in W. destruct (steps_written _ _ _ W) as (t2 & T2 & Hw).
  rewrite T2, T1, <- app_assoc in T. apply app_inv_head in T. subst t.
  assert (Ew : written t1 ++ written t2 = map fst before ++ DATA_line :: map fst after).
  { rewrite <- written_app. unfold written. rewrite E, map_app. reflexivity. }
  assert (Hin : In d (written t2)).
  { apply (in_map fst) in Hd. cbn [fst] in Hd. clear -Ew Nb D1 Hd. revert Ew Nb D1 Hd. generalize (map fst before) (map fst after) (written t1).
    intros l l0 l1. revert l. induction l1 as [|y l1 IH]; intros l Ew Nb D1 Hd; cbn [app] in Ew.
    - rewrite Ew. apply in_or_app. right. right. exact Hd.
    - destruct l as [|z l]; inversion Ew; subst; [destruct D1; left; reflexivity|].
      apply (IH l); auto; [intros X; apply Nb; right; exact X|intros X; apply D1; right; exact X]. }
  destruct (Hw _ Hin) as [X|[X|[_ X]]]; [exact X|exact X|destruct X].
Qed.

Lemma send_data_lines : forall m s x s' t, sendMail m s = (x, s') -> s_t s' = s_t s ++ t ->
  exists conn mail, phases (c_conn (s_c s)) t conn mail /\
  forall before r after, mail = before ++ (DATA_line, r) :: after -> ~ In DATA_line (map fst before) ->
  forall d h, In (d, h) after -> exists line, clear_line (e_fs (s_e s)) (without_bcc m) line /\ d = cstr line.
Proof.
  intros m s x s' t H T. destruct (send_phases _ _ _ _ _ H T) as (conn & mail & s1 & t2 & P & E & [[-> N]|(C1 & Cf & Fs & K & H2 & (t1 & T1 & Et) & T2 & Q)]).
  - exists conn, []. split; [exact P|]. intros [|] r after X; discriminate X.
  - subst mail. exists conn, (exchanges t2). split; [exact P|]. rewrite <- Fs. exact (transaction_data _ _ _ _ _ H2 T2).
Qed.

(** ** Header fields *)
Lemma single_app : forall a b, single_line a -> single_line b -> (forall r, b <> LF :: r) -> single_line (a ++ b).
Proof.
  intros a b Ha Hb Hl x y E. revert a Ha E. induction x as [|c x IH]; intros a Ha E.
  - cbn [app] in E. destruct a as [|c a]; [exact (Hb [] _ E)|]. destruct a as [|d a].
    + unfold CRLF in E. inversion E. exact (Hl _ H1).
    + unfold CRLF in E. inversion E; subst. exact (Ha [] a eq_refl).
  - destruct a as [|c' a]; [cbn [app] in E; exact (Hb (c :: x) y E)|]. cbn [app] in E. inversion E; subst.
    apply (IH a); [|assumption]. intros p q X. apply (Ha (c :: p) q). cbn [app]. rewrite X. reflexivity.
Qed.
Lemma single_clean : forall s, ~ In CR s -> single_line s.
Proof. intros s H a b ->. apply H. apply in_or_app. right. left. reflexivity. Qed.
Lemma valid_no_break : forall e, valid_address e -> ~ In CR e /\ ~ In LF e.
Proof.
  intros e (l & d & c & t & -> & (_ & _ & _ & Wl & _) & (_ & _ & _ & Wd & _) & Nc & _ & Ft).
  assert (A : Forall not_linebreak (l ++ "@"%char :: d ++ c :: t)).
  { apply Forall_app. split; [exact Wl|]. constructor; [split; discriminate|]. apply Forall_app. split; [exact Wd|].
    constructor; [exact Nc|]. eapply Forall_impl; [|exact Ft]. intros x Hx.
    assert (Z : forallb (fun x => negb (Ascii.eqb x CR) && negb (Ascii.eqb x LF)) letters = true) by reflexivity.
    rewrite forallb_forall in Z. specialize (Z x Hx). apply andb_prop in Z as [Z1 Z2].
    split; intros ->; [rewrite Ascii.eqb_refl in Z1; discriminate Z1|rewrite Ascii.eqb_refl in Z2; discriminate Z2]. }
  rewrite Forall_forall in A. split; intros X; destruct (A _ X); congruence.
Qed.
Lemma no_lead : forall s, ~ In LF s -> forall r, s <> LF :: r.
Proof. intros s H r ->. apply H. left. reflexivity. Qed.
Ltac lit := intros X; repeat (destruct X as [X|X]; [discriminate X|]); destruct X.
Lemma single_show : forall a, address_line_ok a -> single_line (show_address a) /\ (a_name a = [] -> forall r, show_address a <> LF :: r).
Proof.
  intros a [Hn He]. destruct (valid_no_break _ He) as [C L]. unfold show_address. destruct (a_name a) as [|c n].
  - split; [apply single_clean, C|]. intros _. apply no_lead, L.
  - split; [|discriminate]. apply single_app; [exact Hn| |intros r; discriminate]. apply single_clean. intros X.
    apply in_app_or in X as [X|X]; [revert X; lit|]. apply in_app_or in X as [X|X]; [exact (C X)|revert X; lit].
Qed.
(** A text that starts after a blank: no straddling line break. *)
Lemma single_blank : forall p s, single_line p -> single_line s -> ~ In CR p -> single_line (p ++ s).
Proof.
  intros p s _ Hs Hp. induction p as [|c p IH]; [exact Hs|]. cbn [app]. intros a b E. destruct a as [|x a].
  - unfold CRLF in E. inversion E; subst. apply Hp. left. reflexivity.
  - cbn [app] in E. inversion E; subst. apply (IH (fun X => Hp (or_intror X)) a b). assumption.
Qed.
Lemma single_prefix : forall p s, ~ In CR p -> single_line s -> single_line (p ++ s).
Proof. intros p s Hp Hs. apply single_blank; [apply single_clean, Hp|exact Hs|exact Hp]. Qed.
Lemma single_join : forall l, Forall single_line l -> single_line (join (B ", ") l).
Proof.
  intros l H. induction H as [|x l Hx Hl IH]; [intros [|] b X; discriminate X|]. destruct l as [|y l]; [exact Hx|].
  cbn [join]. apply single_app; [exact Hx| |intros r; discriminate]. apply (single_prefix (B ", ")); [lit|exact IH].
Qed.
Lemma fields_single : forall m, header_ok m -> Forall single_line (header_fields m).
Proof.
  intros m (Hs & Hf & Ht & Hc). unfold header_fields.
  assert (A : forall name l, ~ In CR name -> Forall address_line_ok l -> Forall single_line (address_field name l)).
  { intros name l Hn Hl. destruct l as [|y l]; [constructor|]. cbn [address_field]. constructor; [|constructor].
    apply single_prefix; [exact Hn|]. apply single_prefix; [lit|]. apply single_join. apply Forall_forall.
    intros x Hx. apply in_map_iff in Hx as (a & <- & Ha). rewrite Forall_forall in Hl. apply single_show, Hl, Ha. }
  apply Forall_app. split; [constructor; [|constructor]; apply (single_prefix (B "From: ")); [lit|apply single_show, Hf]|].
  apply Forall_app. split; [apply A; [lit|exact Ht]|]. apply Forall_app. split; [apply A; [lit|exact Hc]|].
  constructor; [apply (single_prefix (B "Subject: ")); [lit|exact Hs]|]. constructor; [apply single_clean; lit|constructor].
Qed.
Lemma fields_named : forall m h, In h (header_fields m) -> h <> [].
Proof.
  intros m h H. unfold header_fields in H.
  assert (A : forall name l, name <> [] -> In h (address_field name l) -> h <> []).
  { intros name l Hn Hl. destruct l as [|y l]; [destruct Hl|]. destruct Hl as [<-|[]]. destruct name; [congruence|discriminate]. }
  apply in_app_or in H as [[<-|[]]|H]; [discriminate|]. apply in_app_or in H as [H|H]; [apply (A (B "To") _ ltac:(discriminate) H)|].
  apply in_app_or in H as [H|[<-|[<-|[]]]]; [apply (A (B "Cc") _ ltac:(discriminate) H)|discriminate|discriminate].
Qed.
Lemma head_app : forall l r, (forall h, In h l -> h <> []) -> head_lines (l ++ [] :: r) = l.
Proof.
  induction l as [|h l IH]; intros r H; [reflexivity|]. cbn [app head_lines].
  destruct h as [|c h]; [destruct (H [] (or_introl eq_refl) eq_refl)|]. rewrite IH; [reflexivity|]. intros x Hx. apply H. right. exact Hx.
Qed.
Lemma header_section : forall fs m, header_ok m -> head_lines (lines (mail_text fs m)) = header_fields m.
Proof.
  intros fs m H. unfold mail_text, header_text. rewrite <- app_assoc.
  assert (L : forall l x, Forall single_line l -> lines (concat (map (fun l => l ++ CRLF) l) ++ CRLF ++ x) = l ++ [] :: lines x).
  { induction l as [|h l IH]; intros x Hl; [exact (lines_app [] x)|]. inversion Hl; subst. cbn [map concat app].
    rewrite <- !app_assoc, lines_app, (lines_single h), IH; [reflexivity|assumption|assumption]. }
  rewrite L by (apply fields_single, H). apply head_app, fields_named.
Qed.

(** ** Unreadable attachments *)
Lemma unreadable_text : forall fs fs' m,
  (forall f, fs f = None -> fs' f = Some [] \/ fs' f = None) -> (forall f x, fs f = Some x -> fs' f = Some x) ->
  body_text fs' m = body_text fs m.
Proof.
  intros fs fs' m H1 H2. unfold body_text, body_lines.
  assert (A : forall l, flat_map (attachment_lines fs') l = flat_map (attachment_lines fs) l).
  { induction l as [|a l IH]; [reflexivity|]. cbn [flat_map]. rewrite IH. f_equal. unfold attachment_lines.
    assert (E : file_text fs' a = file_text fs a); [|rewrite E; reflexivity].
    unfold file_text, getBase64EncodedFile. destruct (fs (at_file a)) as [x|] eqn:E; [rewrite (H2 _ _ E); reflexivity|].
    destruct (H1 _ E) as [-> | ->]; reflexivity. }
  destruct (listed (m_atts m)); [reflexivity|]. rewrite A. reflexivity.
Qed.

(** ** Short writes *)
Lemma full_transmitted : forall t, full_writes t -> transmitted t = concat (written t).
Proof.
  intros t H. unfold written, exchanges, transmitted. induction t as [|ev t IH]; [reflexivity|].
  assert (H' : full_writes t) by (intros e He; apply H; right; exact He).
  specialize (IH H'). specialize (H ev (or_introl eq_refl)). destruct (dialogue t) as [h l] eqn:E.
  destruct ev; cbn [map concat accepted_bytes dialogue] in *; rewrite ?E; try exact IH; try (subst; cbn [snd map fst concat]; cbn [snd] in IH; rewrite IH; reflexivity);
    match goal with r : recv_res |- _ => destruct r; rewrite ?E; exact IH end.
Qed.
