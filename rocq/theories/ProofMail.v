(** What a successful mail transaction says and hears. *)

From Coq Require Import Ascii String List NArith ZArith Bool Lia ZifyBool ZifyNat ZifyN.
From Verif Require Import Base Lib ModelUtil ModelBase64 ModelAddress ModelAttachment
  ModelErrors ModelReply ModelMessage ModelState ModelClient ModelWorld
  ProofSteps ProofWalk ProofPhases ProofEstablish ProofLog ProofSend ProofWorld
  SpecAddress SpecText SpecReply SpecMime SpecDialogue ProofReply ProofAddress ProofMime ProofTls ProofTls2 ProofDialogue.
Import ListNotations.
Open Scope Z_scope.

Definition ext (s s' : st) : Prop := exists t, s_t s' = s_t s ++ t.
Lemma ext_refl : forall s, ext s s.
Proof. intros s. exists []. symmetry. apply app_nil_r. Qed.
Lemma ext_trans : forall a b c, ext a b -> ext b c -> ext a c.
Proof. intros a b c [t1 E1] [t2 E2]. exists (t1 ++ t2). rewrite E2, E1, app_assoc. reflexivity. Qed.
Lemma walk_ext : forall {A} (P : label -> Prop) (m : M A) s a s', walk P m s -> m s = (Done a, s') -> ext s s'.
Proof. intros A P m s a s' [H _] E. rewrite E in H. exact (steps_trace _ _ _ H). Qed.

(** A reply read as code 0. *)
Definition nonstandard (t : list event) : Prop := exists cmd h, In (cmd, h) (exchanges t) /\ code_of h 0.

Lemma exchanges_in_r : forall t0 t1 x, In x (exchanges t1) -> In x (exchanges (t0 ++ t1)).
Proof.
  unfold exchanges. induction t0 as [|ev t0 IH]; intros t1 x H; [exact H|]. specialize (IH t1 x H).
  destruct ev; cbn [dialogue app]; try exact IH; try destruct r;
    try (destruct (dialogue (t0 ++ t1)); cbn in *; auto; fail); exact IH.
Qed.
Lemma exchanges_in_l : forall t0 t1 d h, In (d, h) (exchanges t0) -> exists m, In (d, h ++ m) (exchanges (t0 ++ t1)).
Proof.
  unfold exchanges. intros t0 t1 d h.
  enough (G : (In (d, h) (snd (dialogue t0)) -> exists m, In (d, h ++ m) (snd (dialogue (t0 ++ t1)))) /\
    exists m, fst (dialogue (t0 ++ t1)) = fst (dialogue t0) ++ m) by exact (proj1 G).
  induction t0 as [|ev t0 [IH1 [m0 IH2]]]; [split; [intros []|eexists; reflexivity]|].
  assert (K : forall d0, (In (d, h) (snd (let '(heard, l) := dialogue t0 in ([] : str, (d0, heard) :: l))) ->
     exists m, In (d, h ++ m) (snd (let '(heard, l) := dialogue (t0 ++ t1) in ([] : str, (d0, heard) :: l)))) /\
     exists m, fst (let '(heard, l) := dialogue (t0 ++ t1) in ([] : str, (d0, heard) :: l)) = fst (let '(heard, l) := dialogue t0 in ([] : str, (d0, heard) :: l)) ++ m).
  { intros d0. destruct (dialogue (t0 ++ t1)) as [h1 l1], (dialogue t0) as [h2 l2]. cbn [fst snd] in *. split; [|exists []; reflexivity].
    intros [E|Hin]; [inversion E; subst; exists m0; left; reflexivity|]. destruct (IH1 Hin) as [m1 Hm]. exists m1. right. exact Hm. }
  assert (K2 : forall d0, (In (d, h) (snd (let '(heard, l) := dialogue t0 in (cstr (firstn 1024 d0) ++ heard, l))) ->
     exists m, In (d, h ++ m) (snd (let '(heard, l) := dialogue (t0 ++ t1) in (cstr (firstn 1024 d0) ++ heard, l)))) /\
     exists m, fst (let '(heard, l) := dialogue (t0 ++ t1) in (cstr (firstn 1024 d0) ++ heard, l)) = fst (let '(heard, l) := dialogue t0 in (cstr (firstn 1024 d0) ++ heard, l)) ++ m).
  { intros d0. destruct (dialogue (t0 ++ t1)) as [h1 l1], (dialogue t0) as [h2 l2]. cbn [fst snd] in *. split; [exact IH1|].
    exists m0. rewrite IH2, app_assoc. reflexivity. }
  destruct ev; cbn [dialogue app]; try (split; [exact IH1|exists m0; exact IH2]); try apply K;
    destruct r; try apply K2; try apply K; split; [exact IH1|exists m0; exact IH2|exact IH1|exists m0; exact IH2].
Qed.

Lemma code_of_app : forall h m c, code_of h c -> code_of (h ++ m) c.
Proof. intros h m c (x & y & -> & E). exists x, (y ++ m). rewrite app_assoc. auto. Qed.
Lemma nonstandard_l : forall a b, nonstandard a -> nonstandard (a ++ b).
Proof. intros a b (d & h & H & C). destruct (exchanges_in_l a b d h H) as [m Hm]. exists d, (h ++ m). split; [exact Hm|apply code_of_app, C]. Qed.
Lemma nonstandard_r : forall a b, nonstandard b -> nonstandard (a ++ b).
Proof. intros a b (d & h & H & C). exists d, h. split; [apply exchanges_in_r, H|exact C]. Qed.
Lemma standard_nonstandard : forall t, standard t -> nonstandard t -> False.
Proof.
  intros t S (d & h & H & x & y & -> & C). specialize (S _ _ H). apply standard_code in S. lia.
Qed.

Definition odd (t : list event) : Prop := nonstandard t \/ failed_write t.
Lemma odd_l : forall a b, odd a -> odd (a ++ b).
Proof. intros a b [H|H]; [left; apply nonstandard_l, H|right; apply failed_write_l, H]. Qed.
Lemma odd_r : forall a b, odd b -> odd (a ++ b).
Proof. intros a b [H|H]; [left; apply nonstandard_r, H|right; apply failed_write_r, H]. Qed.
Lemma not_odd : forall t, standard t -> fields_written t -> odd t -> False.
Proof. intros t S W [H|H]; [eapply standard_nonstandard|eapply succeed_failed]; eauto. Qed.

Definition bad (P : list event -> Prop) (s s' : st) : Prop := exists t, s_t s' = s_t s ++ t /\ P t.
Definition closed (P : list event -> Prop) : Prop := (forall a b, P a -> P (a ++ b)) /\ (forall a b, P b -> P (a ++ b)).
Lemma closed_odd : closed odd.
Proof. split; [apply odd_l|apply odd_r]. Qed.
Lemma closed_nonstandard : closed nonstandard.
Proof. split; [apply nonstandard_l|apply nonstandard_r]. Qed.
Lemma bad_l : forall P a b c, closed P -> bad P a b -> ext b c -> bad P a c.
Proof. intros P a b c K (t1 & E1 & H) [t2 E2]. exists (t1 ++ t2). rewrite E2, E1, app_assoc. split; [reflexivity|apply (proj1 K), H]. Qed.
Lemma bad_r : forall P a b c, closed P -> ext a b -> bad P b c -> bad P a c.
Proof. intros P a b c K [t1 E1] (t2 & E2 & H). exists (t1 ++ t2). rewrite E2, E1, app_assoc. split; [reflexivity|apply (proj2 K), H]. Qed.
Lemma bad_weaken : forall (P Q : list event -> Prop) a b, (forall t, P t -> Q t) -> bad P a b -> bad Q a b.
Proof. intros P Q a b H (t & E & X). exists t. auto. Qed.

(** From [s] to [s'] exactly the exchanges [l] took place and nothing but the
    log, the last response and the last error changed in the client. *)
Definition reach (s s' : st) (l : list (str * str)) : Prop :=
  core (s_c s') = core (s_c s) /\ exists t, s_t s' = s_t s ++ t /\ talk t l.
Lemma reach_ext : forall a b l, reach a b l -> ext a b.
Proof. intros a b l (_ & t & E & _). exists t. exact E. Qed.
Lemma reach_trans : forall a b c l1 l2, reach a b l1 -> reach b c l2 -> reach a c (l1 ++ l2).
Proof.
  intros a b c l1 l2 (C1 & t1 & E1 & T1) (C2 & t2 & E2 & T2). split; [rewrite C2; exact C1|].
  exists (t1 ++ t2). split; [rewrite E2, E1, app_assoc; reflexivity|apply talk_app; assumption].
Qed.
Lemma reach_log : forall i s u s', logc i s = (Done u, s') -> reach s s' [].
Proof.
  intros i s u s' H. destruct u. apply logc_core in H as (C & _ & T & _). split; [exact C|].
  exists []. rewrite app_nil_r. split; [exact T|reflexivity].
Qed.
Lemma reach_log_then : forall i s u s1 s' l, logc i s = (Done u, s1) -> reach s1 s' l -> reach s s' l.
Proof. intros i s u s1 s' l H R. exact (reach_trans _ _ _ [] l (reach_log _ _ _ _ H) R). Qed.

Lemma fb_reach : forall d err tmo s code s', sendFeedbackPtr d err tmo s = (Done code, s') -> err <> 0 ->
  code <> err -> code <> tmo -> exists h, reach s s' [(cstr d, h)] /\ code_of h code.
Proof.
  intros d err tmo s code s' H N N1 N2. destruct (fb_done _ _ _ _ _ _ H N) as [E|[E|(C & t & h & T & X & Hc)]]; [congruence|congruence|].
  exists h. split; [|exact Hc]. split; [exact C|]. exists t. split; [exact T|apply exchange_talk, X].
Qed.
Lemma reach_zero : forall s s' d h, reach s s' [(d, h)] -> code_of h 0 -> bad nonstandard s s'.
Proof.
  intros s s' d h (_ & t & E & T) C. exists t. split; [exact E|]. exists d, h. split; [|exact C].
  rewrite (talk_exchanges _ _ T). left. reflexivity.
Qed.
Lemma code_250 : forall d h, code_of h 250 -> answered "250" (d, h).
Proof. intros d h (x & y & -> & E). apply starts_app, extract_250. symmetry. exact E. Qed.
Lemma code_501 : forall d h, code_of h 501 -> answered "501" (d, h).
Proof. intros d h (x & y & -> & E). apply starts_app, extract_501. symmetry. exact E. Qed.
Lemma code_354 : forall d h, code_of h 354 -> answered "354" (d, h).
Proof. intros d h (x & y & -> & E). apply starts_app, extract_354. symmetry. exact E. Qed.

(** ** Sender and recipients *)

Lemma mail_from_done : forall fmts last s code s', mail_from_loop fmts last s = (Done code, s') ->
  (fmts <> [] \/ last = 501) ->
  (code = 250 -> exists refused line reply more, reach s s' (refused ++ [(line, reply)]) /\
     map cstr fmts = map fst refused ++ line :: more /\ Forall (answered "501") refused /\ answered "250" (line, reply)) /\
  (code = 0 -> bad nonstandard s s').
Proof.
  induction fmts as [|f fmts IH]; intros last s code s' H G; cbn [mail_from_loop] in H.
  { apply ret_done in H as [-> ->]. destruct G as [G | ->]; [congruence|]. split; discriminate. }
  apply bind_done in H as (u & s1 & H1 & H). apply bind_done in H as (c & s2 & H2 & H).
  assert (F := fb_reach _ _ _ _ _ _ H2 ltac:(discriminate)).
  destruct (c =? 250) eqn:E1.
  { apply Z.eqb_eq in E1. apply ret_done in H as [-> ->]. destruct (F ltac:(subst; discriminate) ltac:(subst; discriminate)) as (h & R & C). subst c.
    split; [|discriminate]. intros _. exists [], (cstr f), h, (map cstr fmts).
    split; [exact (reach_log_then _ _ _ _ _ _ H1 R)|]. split; [reflexivity|]. split; [constructor|apply code_250, C]. }
  apply Z.eqb_neq in E1. destruct (c =? 501) eqn:E2; cbn [negb] in H.
  - apply Z.eqb_eq in E2. destruct (F ltac:(subst; discriminate) ltac:(subst; discriminate)) as (h & R & C). subst c.
    assert (R1 := reach_log_then _ _ _ _ _ _ H1 R).
    destruct (IH _ _ _ _ H (or_intror eq_refl)) as [I1 I2]. split.
    + intros Hc. destruct (I1 Hc) as (refused & line & reply & more & R2 & M & F1 & F2).
      exists ((cstr f, h) :: refused), line, reply, more. split; [exact (reach_trans _ _ _ _ _ R1 R2)|].
      split; [cbn; rewrite M; reflexivity|]. split; [constructor; [apply code_501, C|exact F1]|exact F2].
    + intros Hc. exact (bad_r _ _ _ _ closed_nonstandard (reach_ext _ _ _ R1) (I2 Hc)).
  - apply ret_done in H as [-> ->]. split; [intros; congruence|]. intros ->.
    destruct (F ltac:(discriminate) ltac:(discriminate)) as (h & R & C).
    exact (reach_zero _ _ _ _ (reach_log_then _ _ _ _ _ _ H1 R) C).
Qed.

Definition most (l : label) : Prop := match l with LConn => False | _ => True end.
Lemma most_base : forall l, base l -> most l.
Proof. intros []; simpl; tauto. Qed.
Lemma most_conn : ~ most LConn.
Proof. intros []. Qed.
Lemma most_write : forall d, may_write most d.
Proof. intros. split; exact I. Qed.
Lemma most_quit : forall s, quit_ok most s.
Proof. intros s _. apply most_write. Qed.
Lemma fb_ext : forall d err tmo s code s', sendFeedbackPtr d err tmo s = (Done code, s') -> ext s s'.
Proof.
  intros d err tmo s code s' H. eapply (walk_ext most); [|exact H].
  apply wfb; [apply most_base|apply most_conn|apply most_write|apply most_quit].
Qed.
Lemma log_ext : forall i s u s', logc i s = (Done u, s') -> ext s s'.
Proof. intros i s u s' H. eapply reach_ext, reach_log, H. Qed.
Lemma cleanup_ext : forall s u s', cleanup s = (Done u, s') -> ext s s'.
Proof. intros s u s' H. eapply (walk_ext most); [|exact H]. apply wcleanup; [apply most_base|apply most_quit]. Qed.

Lemma rcpt_ext : forall l result s code s', addMailRecipients l result s = (Done code, s') -> ext s s'.
Proof.
  intros l result s code s' H. eapply (walk_ext most); [|exact H].
  apply wrcpt; [apply most_base|apply most_conn|intros; apply most_write|apply most_quit].
Qed.

Lemma rcpt_done : forall l result s code s', addMailRecipients l result s = (Done code, s') ->
  (code = 250 -> result = 250 /\ exists ls, reach s s' ls /\ map fst ls = map (fun a => cstr (rcpt_command a)) l /\
     Forall (answered "250") ls) /\
  (code = 0 -> result <> 0 -> bad nonstandard s s').
Proof.
  induction l as [|a l IH]; intros result s code s' H; cbn [addMailRecipients] in H.
  { apply ret_done in H as [-> ->]. split; [|congruence]. intros E. split; [exact E|]. exists []. split; [|split; [reflexivity|constructor]].
    split; [reflexivity|]. exists []. rewrite app_nil_r. split; reflexivity. }
  apply bind_done in H as (u & s1 & H1 & H). apply bind_done in H as (c & s2 & H2 & H).
  assert (F := fb_reach _ _ _ _ _ _ H2 ltac:(discriminate)). destruct (IH _ _ _ _ H) as [I1 I2].
  assert (X2 : ext s s2) by (eapply ext_trans; [eapply log_ext, H1|eapply fb_ext, H2]).
  assert (X3 := rcpt_ext _ _ _ _ _ H).
  destruct (c =? 250) eqn:E1.
  - apply Z.eqb_eq in E1. destruct (F ltac:(subst; discriminate) ltac:(subst; discriminate)) as (h & R & C). subst c.
    assert (R1 := reach_log_then _ _ _ _ _ _ H1 R). split.
    + intros Hc. destruct (I1 Hc) as (Hr & ls & R2 & M & A). split; [exact Hr|].
      exists ((cstr (rcpt_command a), h) :: ls). split; [exact (reach_trans _ _ _ _ _ R1 R2)|].
      split; [cbn; rewrite M; reflexivity|]. constructor; [apply code_250, C|exact A].
    + intros Hc Hr. exact (bad_r _ _ _ _ closed_nonstandard X2 (I2 Hc Hr)).
  - apply Z.eqb_neq in E1. split; [intros Hc; destruct (I1 Hc) as [Hr _]; congruence|].
    intros Hc _. destruct (Z.eq_dec c 0) as [-> | N0].
    + destruct (F ltac:(discriminate) ltac:(discriminate)) as (h & R & C).
      exact (bad_l _ _ _ _ closed_nonstandard (reach_zero _ _ _ _ (reach_log_then _ _ _ _ _ _ H1 R) C) X3).
    + exact (bad_r _ _ _ _ closed_nonstandard X2 (I2 Hc N0)).
Qed.

Lemma recipients_done : forall ls s s', recipients_loop ls s = (Done 0, s') ->
  bad nonstandard s s' \/
  exists l, reach s s' l /\ map fst l = map (fun a => cstr (rcpt_command a)) (flat_map listed ls) /\ Forall (answered "250") l.
Proof.
  induction ls as [|[n|l] ls IH]; intros s s' H; cbn [recipients_loop] in H.
  - apply ret_done in H as [_ ->]. right. exists []. split; [|split; [reflexivity|constructor]].
    split; [reflexivity|]. exists []. rewrite app_nil_r. split; reflexivity.
  - apply IH, H.
  - apply bind_done in H as (c & s1 & H1 & H). destruct (rcpt_done _ _ _ _ _ H1) as [I1 I2].
    destruct (c =? 250) eqn:E; cbn [negb] in H.
    + apply Z.eqb_eq in E. destruct (I1 E) as (_ & l1 & R1 & M1 & A1).
      destruct (IH _ _ H) as [B|(l2 & R2 & M2 & A2)]; [left; exact (bad_r _ _ _ _ closed_nonstandard (reach_ext _ _ _ R1) B)|].
      right. exists (l1 ++ l2). split; [exact (reach_trans _ _ _ _ _ R1 R2)|].
      split; [cbn [flat_map listed]; rewrite !map_app, M1, M2; reflexivity|apply Forall_app; auto].
    + apply ret_done in H as [<- ->]. left. apply I2; [reflexivity|discriminate].
Qed.

Lemma setMailRecipients_done : forall m s s', setMailRecipients m s = (Done 0, s') ->
  bad nonstandard s s' \/
  exists refused line reply more l, reach s s' (refused ++ (line, reply) :: l) /\
    map cstr (mail_formats (m_from m)) = map fst refused ++ line :: more /\ Forall (answered "501") refused /\
    answered "250" (line, reply) /\
    map fst l = map (fun a => cstr (rcpt_command a)) (recipients m) /\ Forall (answered "250") l.
Proof.
  intros m s s' H. unfold setMailRecipients in H. apply bind_done in H as (c & s1 & H1 & H).
  destruct (mail_from_done _ _ _ _ _ H1) as [I1 I2]; [left; discriminate|].
  destruct (c =? 250) eqn:E; cbn [negb] in H.
  - apply Z.eqb_eq in E. destruct (I1 E) as (refused & line & reply & more & R1 & M1 & F1 & F2).
    destruct (recipients_done _ _ _ H) as [B|(l & R2 & M2 & A2)]; [left; exact (bad_r _ _ _ _ closed_nonstandard (reach_ext _ _ _ R1) B)|].
    right. exists refused, line, reply, more, l. split; [|auto].
    + assert (R := reach_trans _ _ _ _ _ R1 R2). rewrite <- app_assoc in R. exact R.
    + cbn [flat_map] in M2. rewrite app_nil_r in M2. repeat split; try assumption.
  - apply ret_done in H as [<- ->]. left. apply I2. reflexivity.
Qed.

(** ** Headers and body *)

Lemma write_reach : forall s s' d ev, core (s_c s') = core (s_c s) -> s_t s' = s_t s ++ [ev] -> write_of d ev -> reach s s' [(d, [])].
Proof. intros s s' d ev C T W. split; [exact C|]. exists [ev]. split; [exact T|]. apply write_talk; [exact W|reflexivity]. Qed.

Lemma cmd_done : forall d err s code s', sendCommandPtr d err s = (Done code, s') -> err <> 0 ->
  (code = 0 /\ channel (s_c s) /\ reach s s' [(cstr d, [])]) \/
  (code = err /\ (channel (s_c s) -> bad (failed_text (eq (cstr d))) s s')).
Proof.
  intros d err s code s' H N. unfold sendCommandPtr, sendCommandPtr_with, bind at 1, getc in H.
  assert (Raw : raw_command (s_c s) = true -> sendRaw2_with cleanup d err s = (Done code, s') ->
    (code = 0 /\ channel (s_c s) /\ reach s s' [(cstr d, [])]) \/ (code = err /\ (channel (s_c s) -> bad (failed_text (eq (cstr d))) s s'))).
  { clear H. intros R H. assert (H0 := H). unfold sendRaw2_with in H. apply bind_done in H as (r & s1 & H1 & H).
    apply send_core in H1 as [C T].
    assert (OK : (r = WFull \/ exists n, r = WPart n) -> (Done 0, s1) = (Done code, s') ->
      (code = 0 /\ channel (s_c s) /\ reach s s' [(cstr d, [])]) \/ (code = err /\ (channel (s_c s) -> bad (failed_text (eq (cstr d))) s s'))).
    { clear H. intros W H. inversion H; subst. left. split; [reflexivity|]. split; [left; exact R|].
      eapply write_reach; [rewrite C; reflexivity|exact T|]. left. eexists _, _. split; [reflexivity|exact W]. }
    destruct r; [apply OK; [left; reflexivity|exact H]|apply OK; [right; eexists; reflexivity|exact H]| |discriminate H].
    apply bind_done in H as (u & s2 & H2 & H). apply bind_done in H as (u3 & s3 & H3 & H). apply ret_done in H as [-> ->].
    right. split; [reflexivity|]. intros _. apply cleanup_ext in H3 as [t3 T3]. inversion H2; subst. cbn in T3.
    eexists. split; [rewrite T3, T, <- app_assoc; reflexivity|]. apply failed_text_l. eexists. split; [left; reflexivity|reflexivity]. }
  assert (Tls : raw_command (s_c s) = false -> sendCommandTLS_with cleanup d err s = (Done code, s') ->
    (code = 0 /\ channel (s_c s) /\ reach s s' [(cstr d, [])]) \/ (code = err /\ (channel (s_c s) -> bad (failed_text (eq (cstr d))) s s'))).
  { clear H Raw. intros R H. unfold sendCommandTLS_with, bind at 1, getc in H. destruct (c_bio (s_c s)) as [b|] eqn:Eb.
    2:{ apply bind_done in H as (u & s2 & H2 & H). apply bind_done in H as (u3 & s3 & H3 & H). apply ret_done in H as [-> ->].
        right. split; [reflexivity|]. intros [X|X]; congruence. }
    apply bind_done in H as (r & s1 & H1 & H). apply puts_core in H1 as [C T].
    assert (OK : (r = WFull \/ exists n, r = WPart n) -> (Done 0, s1) = (Done code, s') ->
      (code = 0 /\ channel (s_c s) /\ reach s s' [(cstr d, [])]) \/ (code = err /\ (channel (s_c s) -> bad (failed_text (eq (cstr d))) s s'))).
    { clear H. intros W H. inversion H; subst. left. split; [reflexivity|]. split; [right; congruence|].
      eapply write_reach; [rewrite C; reflexivity|exact T|]. right. eexists _, _. split; [reflexivity|exact W]. }
    destruct r; [apply OK; [left; reflexivity|exact H]|apply OK; [right; eexists; reflexivity|exact H]| |discriminate H].
    apply bind_done in H as (u & s2 & H2 & H). apply bind_done in H as (u3 & s3 & H3 & H). apply ret_done in H as [-> ->].
    right. split; [reflexivity|]. intros _. apply cleanup_ext in H3 as [t3 T3]. inversion H2; subst. cbn in T3.
    eexists. split; [rewrite T3, T, <- app_assoc; reflexivity|]. apply failed_text_l. eexists. split; [left; reflexivity|reflexivity]. }
  unfold raw_command in Raw, Tls. destruct (c_rawptr (s_c s)); cbn [orb] in *; [apply Raw; auto|].
  destruct (c_kind (s_c s)); [apply Raw; auto|apply Tls; auto|apply Tls; auto].
Qed.

Lemma closed_failed : forall D, closed (failed_text D).
Proof. intros D. split; [apply failed_text_l|apply failed_text_r]. Qed.
Lemma cmd_ext : forall d err s code s', sendCommandPtr d err s = (Done code, s') -> ext s s'.
Proof.
  intros d err s code s' H. eapply (walk_ext most); [|exact H].
  apply (wcmd most most_base most_conn); [apply most_write|apply most_quit].
Qed.
Lemma silent_app : forall a b, silent (a ++ b) = silent a ++ silent b.
Proof. intros. apply map_app. Qed.
Lemma reach_nil : forall s, reach s s [].
Proof. intros s. split; [reflexivity|]. exists []. rewrite app_nil_r. split; reflexivity. Qed.

Lemma log_cmd_done : forall i d err s code s', (logc i;; sendCommandPtr d err) s = (Done code, s') -> err <> 0 ->
  (code = 0 /\ channel (s_c s) /\ reach s s' [(cstr d, [])]) \/ (code = err /\ (channel (s_c s) -> bad (failed_text (eq (cstr d))) s s')).
Proof.
  intros i d err s code s' H N. apply bind_done in H as (u & s1 & H1 & H). assert (R1 := reach_log _ _ _ _ H1).
  destruct (cmd_done _ _ _ _ _ H N) as [(E & Ch & R)|(E & K)].
  - left. split; [exact E|]. split; [eapply channel_core; [symmetry; exact (proj1 R1)|exact Ch]|exact (reach_trans _ _ _ [] _ R1 R)].
  - right. split; [exact E|]. intros Ch. exact (bad_r _ _ _ _ (closed_failed _) (reach_ext _ _ _ R1) (K (channel_core _ _ (proj1 R1) Ch))).
Qed.

Definition address_lines (field : str) (a : arr address) : list str :=
  match listed a with [] => [] | l => [header_line field (generateHeaderAddressValues l)] end.

Lemma address_header_done : forall field a s u s', (field = B "To" \/ field = B "Cc") ->
  address_header field a s = (Done u, s') -> channel (s_c s) ->
  bad failed_write s s' \/ reach s s' (silent (map cstr (address_lines field a))).
Proof.
  intros field a s u s' Fd H Ch. destruct a as [[|n]|[|x l]]; cbn [address_header] in H; try discriminate H;
    try (apply ret_done in H as [_ ->]; right; apply reach_nil).
  apply bind_done in H as (c & s1 & H1 & H). apply ret_done in H as [_ ->]. unfold addMailHeader in H1.
  destruct (log_cmd_done _ _ _ _ _ _ H1 ltac:(discriminate)) as [(_ & _ & R)|(_ & K)]; [right; exact R|left].
  eapply bad_weaken; [|exact (K Ch)]. intros t (ev & Hin & F). exists ev. split; [exact Hin|].
  assert (X : recipient_field (cstr (header_line field (generateHeaderAddressValues (x :: l))))).
  { unfold header_line. destruct Fd as [-> | ->]; [left|right]; exists (cstr (generateHeaderAddressValues (x :: l) ++ CRLF)); reflexivity. }
  destruct ev; try exact F; destruct r; try exact F; rewrite <- F; exact X.
Qed.

Definition data_headers (m : message) : list str :=
  [header_line (B "From") (address_str (m_from m))] ++ address_lines (B "To") (m_to m) ++ address_lines (B "Cc") (m_cc m) ++
  [header_line (B "Subject") (m_subject m); CONTENT_TYPE_LINE].

Lemma headers_ext : forall m s c s', setMailHeaders m s = (Done c, s') -> ext s s'.
Proof.
  intros m s c s' H. eapply (walk_ext most); [|exact H].
  eapply (wset_headers most most_base most_conn m (fun _ => None)); [intros; apply most_write|intros; exact I|apply most_quit].
Qed.
Lemma address_header_ext : forall f a s c s', address_header f a s = (Done c, s') -> ext s s'.
Proof.
  intros f a s c s' H. eapply (walk_ext most); [|exact H].
  eapply (waddress_header most most_base most_conn); [intros; apply most_write|intros; exact I|apply most_quit].
Qed.

Lemma headers_done : forall m s s', setMailHeaders m s = (Done 0, s') ->
  bad odd s s' \/
  exists r, reach s s' ((DATA_line, r) :: silent (map cstr (data_headers m))) /\ answered "354" (DATA_line, r) /\ channel (s_c s').
Proof.
  intros m s s' H. assert (X := headers_ext _ _ _ _ H). unfold setMailHeaders in H.
  apply bind_done in H as (u & s1 & H1 & H). apply bind_done in H as (d & s2 & H2 & H).
  assert (F := fb_reach _ _ _ _ _ _ H2 ltac:(discriminate)).
  destruct (d =? STATUS_CODE_START_MAIL_INPUT) eqn:E; cbn [negb] in H.
  2:{ apply ret_done in H as [<- ->]. destruct (F ltac:(discriminate) ltac:(discriminate)) as (h & R & C). left.
      eapply bad_weaken; [intros t Ht; left; exact Ht|]. exact (reach_zero _ _ _ _ (reach_log_then _ _ _ _ _ _ H1 R) C). }
  apply Z.eqb_eq in E. subst d. destruct (F ltac:(discriminate) ltac:(discriminate)) as (h & R & C).
  assert (R2 := reach_log_then _ _ _ _ _ _ H1 R). clear F R.
  apply bind_done in H as (f & s3 & H3 & H). unfold addMailHeader in H3.
  destruct (log_cmd_done _ _ _ _ _ _ H3 ltac:(discriminate)) as [(-> & Ch & R3)|(-> & _)];
    [|apply ret_done in H as [H _]; discriminate H]. cbn [negb Z.eqb] in H.
  assert (Ch3 := channel_core _ _ (proj1 R3) Ch).
  assert (R23 := reach_trans _ _ _ _ _ R2 R3).
  assert (Fw : forall t, failed_write t -> odd t) by (intros t Ht; right; exact Ht).
  apply bind_done in H as (u4 & s4 & H4 & H).
  apply bind_done in H as (u5 & s5 & H5 & H).
  assert (X4 := address_header_ext _ _ _ _ _ H4). assert (X5 := address_header_ext _ _ _ _ _ H5).
  assert (X45 : ext s5 s').
  { apply bind_done in H as (u6 & s6 & H6 & H). apply log_ext in H6. apply bind_done in H as (u7 & s7 & H7 & H). apply cmd_ext in H7.
    eapply ext_trans; [exact H6|]. eapply ext_trans; [exact H7|]. destruct (negb _); [apply ret_done in H as [_ ->]; apply ext_refl|].
    apply bind_done in H as (u8 & s8 & H8 & H). apply log_ext in H8. apply bind_done in H as (u9 & s9 & H9 & H). apply cmd_ext in H9.
    eapply ext_trans; [exact H8|]. eapply ext_trans; [exact H9|]. destruct (negb _); apply ret_done in H as [_ ->]; apply ext_refl. }
  destruct (address_header_done _ _ _ _ _ (or_introl eq_refl) H4 Ch3) as [B4|R4].
  { left. apply (bad_weaken _ _ _ _ Fw) in B4. apply (bad_r _ _ _ _ closed_odd (reach_ext _ _ _ R23)).
    apply (bad_l _ _ _ _ closed_odd B4). eapply ext_trans; eassumption. }
  assert (Ch4 := channel_core _ _ (proj1 R4) Ch3). assert (R24 := reach_trans _ _ _ _ _ R23 R4).
  destruct (address_header_done _ _ _ _ _ (or_intror eq_refl) H5 Ch4) as [B5|R5].
  { left. apply (bad_weaken _ _ _ _ Fw) in B5. apply (bad_r _ _ _ _ closed_odd (reach_ext _ _ _ R24)).
    apply (bad_l _ _ _ _ closed_odd B5). exact X45. }
  assert (R25 := reach_trans _ _ _ _ _ R24 R5).
  apply bind_done in H as (u6 & s6 & H6 & H). apply bind_done in H as (c7 & s7 & H7 & H).
  destruct (cmd_done _ _ _ _ _ H7 ltac:(discriminate)) as [(-> & Ch6 & R7)|(-> & _)];
    [|apply ret_done in H as [H _]; discriminate H]. cbn [negb Z.eqb] in H.
  assert (R27 := reach_trans _ _ _ _ _ R25 (reach_log_then _ _ _ _ _ _ H6 R7)).
  apply bind_done in H as (u8 & s8 & H8 & H). apply bind_done in H as (c9 & s9 & H9 & H).
  destruct (cmd_done _ _ _ _ _ H9 ltac:(discriminate)) as [(-> & Ch8 & R9)|(-> & _)];
    [|apply ret_done in H as [H _]; discriminate H]. cbn [negb Z.eqb] in H. apply ret_done in H as [_ ->].
  assert (R29 := reach_trans _ _ _ _ _ R27 (reach_log_then _ _ _ _ _ _ H8 R9)).
  right. exists h. split; [|split; [apply code_354, C|eapply channel_core; [exact (proj1 R9)|exact Ch8]]].
  unfold data_headers. rewrite !map_app, !silent_app. rewrite <- !app_assoc in R29. exact R29.
Qed.

Lemma chunks_done : forall l err s s', send_chunks l err s = (Done 0, s') -> err <> 0 -> reach s s' (silent (map cstr l)).
Proof.
  induction l as [|x l IH]; intros err s s' H N; cbn [send_chunks] in H; [apply ret_done in H as [_ ->]; apply reach_nil|].
  apply bind_done in H as (c & s1 & H1 & H). destruct (cmd_done _ _ _ _ _ H1 N) as [(-> & _ & R)|(-> & _)].
  - cbn [negb Z.eqb] in H. exact (reach_trans _ _ _ [(cstr x, [])] _ R (IH _ _ _ H N)).
  - destruct (err =? 0) eqn:E; [apply Z.eqb_eq in E; congruence|]. cbn [negb] in H. apply ret_done in H as [H _]. congruence.
Qed.

Lemma body_done : forall m s s', setMailBody m s = (Done 0, s') ->
  bad nonstandard s s' \/
  exists r body, body_real (e_fs (s_e s)) m = Done body /\ answered "250" (END_line, r) /\
    reach s s' (silent (map cstr (body_chunks body)) ++ (END_line, r) :: (if c_batch (s_c s) then [] else [(QUIT_line, [])])).
Proof.
  intros m s s' H. unfold setMailBody in H. apply bind_done in H as (u & s1 & H1 & H). assert (R1 := reach_log _ _ _ _ H1).
  assert (E1 : s_e s1 = s_e s) by (destruct u; apply logc_core in H1; tauto).
  unfold bind at 1, gete in H. apply bind_done in H as (body & s1' & Hb & H). unfold lift in Hb. injection Hb as Hb <-. rewrite E1 in Hb.
  apply bind_done in H as (r & s2 & H2 & H).
  destruct (r =? 0) eqn:Er; cbn [negb] in H; [|apply ret_done in H as [<- _]; discriminate Er].
  apply Z.eqb_eq in Er. subst r. apply chunks_done in H2; [|destruct (512 <? _)%nat; discriminate].
  assert (R2 := reach_trans _ _ _ _ _ R1 H2).
  apply bind_done in H as (u3 & s3 & H3 & H). apply bind_done in H as (d & s4 & H4 & H).
  assert (F := fb_reach _ _ _ _ _ _ H4 ltac:(discriminate)).
  destruct (d =? STATUS_CODE_REQUESTED_MAIL_ACTION_OK_OR_COMPLETED) eqn:E; cbn [negb] in H.
  2:{ apply ret_done in H as [<- ->]. destruct (F ltac:(discriminate) ltac:(discriminate)) as (h & R & C). left.
      apply (bad_r _ _ _ _ closed_nonstandard (reach_ext _ _ _ R2)). exact (reach_zero _ _ _ _ (reach_log_then _ _ _ _ _ _ H3 R) C). }
  apply Z.eqb_eq in E. subst d. destruct (F ltac:(discriminate) ltac:(discriminate)) as (h & R & C).
  assert (R4 := reach_trans _ _ _ _ _ R2 (reach_log_then _ _ _ _ _ _ H3 R)).
  right. exists h, body. split; [exact Hb|]. split; [apply code_250, C|].
  unfold bind at 1, getc in H. assert (CR := proj1 R4). core_facts CR. rewrite CFbatch in H. destruct (c_batch (s_c s)).
  { apply ret_done in H as [_ ->]. exact R4. }
  apply bind_done in H as (q & s5 & H5 & H). unfold sendQuitCommand, sendQuit_with in H5.
  destruct (log_cmd_done _ _ _ _ _ _ H5 ltac:(discriminate)) as [(-> & _ & R5)|(-> & _)];
    [|apply ret_done in H as [H _]; discriminate H]. apply ret_done in H as [_ ->].
  assert (R6 := reach_trans _ _ _ _ _ R4 R5). cbn [app] in R6. rewrite <- app_assoc in R6. exact R6.
Qed.

(** ** The transaction *)

Lemma recipients_ext : forall m s c s', setMailRecipients m s = (Done c, s') -> ext s s'.
Proof.
  intros m s c s' H. eapply (walk_ext most); [|exact H].
  eapply (wset_recipients most most_base most_conn m (fun _ => None)); [intros; apply most_write|apply most_quit].
Qed.
Lemma body_ext : forall m s c s', setMailBody m s = (Done c, s') -> ext s s'.
Proof.
  intros m s c s' H. eapply (walk_ext most); [|exact H].
  eapply (wset_body most most_base most_conn m (e_fs (s_e s))); [intros; apply most_write|intros; exact I|reflexivity|apply most_quit].
Qed.
Lemma headers_fs : forall m s c s', setMailHeaders m s = (Done c, s') -> e_fs (s_e s') = e_fs (s_e s).
Proof.
  intros m s c s' H. assert (W : walk most (setMailHeaders m) s).
  { eapply (wset_headers most most_base most_conn m (fun _ => None)); [intros; apply most_write|intros; exact I|apply most_quit]. }
  destruct W as [W _]. rewrite H in W. exact (steps_fs _ _ _ W).
Qed.
Lemma recipients_fs : forall m s c s', setMailRecipients m s = (Done c, s') -> e_fs (s_e s') = e_fs (s_e s).
Proof.
  intros m s c s' H. assert (W : walk most (setMailRecipients m) s).
  { eapply (wset_recipients most most_base most_conn m (fun _ => None)); [intros; apply most_write|apply most_quit]. }
  destruct W as [W _]. rewrite H in W. exact (steps_fs _ _ _ W).
Qed.

Lemma cleanup_plain : forall s, c_batch (s_c s) && c_conn (s_c s) = false -> cleanup s = (Done tt, teardown s).
Proof.
  intros s H. unfold cleanup, cleanup_fuel. cbn [cleanup_f]. unfold bind at 1, getc. rewrite H.
  exact (cleanup_tail_eq s).
Qed.

Definition said_all (m : message) (batch : bool) (body : str) (refused : list (str * str)) (line reply : str)
  (l : list (str * str)) (r1 r2 : str) : list (str * str) :=
  refused ++ (line, reply) :: l ++ (DATA_line, r1) :: silent (map cstr (data_headers m)) ++
  silent (map cstr (body_chunks body)) ++ (END_line, r2) :: (if batch then [] else [(QUIT_line, [])]).

Definition success (m : message) (fs : filesystem) (batch : bool) (dlg : list (str * str)) : Prop :=
  exists refused line reply more l r1 body r2,
    dlg = said_all m batch body refused line reply l r1 r2 /\
    map cstr (mail_formats (m_from m)) = map fst refused ++ line :: more /\ Forall (answered "501") refused /\
    answered "250" (line, reply) /\
    map fst l = map (fun a => cstr (rcpt_command a)) (recipients m) /\ Forall (answered "250") l /\
    answered "354" (DATA_line, r1) /\ body_real fs m = Done body /\ answered "250" (END_line, r2).

(** Steps on an open connection. *)
Definition stay (l : label) : Prop :=
  match l with LConn | LSocket | LNet | LTls | LKeep | LAuth | LNewLog | LUpgrade => False | _ => True end.
Lemma stay_base : forall l, base l -> stay l.
Proof. intros [] H; try exact I; destruct H. Qed.
Lemma stay_conn : ~ stay LConn.
Proof. intros []. Qed.
Lemma stay_write : forall d, may_write stay d.
Proof. intros d. split; exact I. Qed.
Lemma stay_transaction : forall m s, walk stay (mail_transaction m) s.
Proof.
  intros m s. apply wtransaction with (fs := e_fs (s_e s)); try reflexivity.
  - apply stay_base.
  - apply stay_conn.
  - intros d _. apply stay_write.
Qed.
Lemma stay_recipients : forall m s, walk stay (setMailRecipients m) s.
Proof.
  intros m s. eapply (wset_recipients stay stay_base stay_conn m (fun _ => None)); [intros; apply stay_write|intros _; apply stay_write].
Qed.
Lemma stay_headers : forall m s, walk stay (setMailHeaders m) s.
Proof.
  intros m s. eapply (wset_headers stay stay_base stay_conn m (fun _ => None)); [intros; apply stay_write|intros; exact I|intros _; apply stay_write].
Qed.
Lemma stay_body : forall m s, walk stay (setMailBody m) s.
Proof.
  intros m s. eapply (wset_body stay stay_base stay_conn m (e_fs (s_e s))); [intros; apply stay_write|intros; exact I|reflexivity|intros _; apply stay_write].
Qed.
Lemma stay_done : forall {A} (m : M A) s a s', walk stay m s -> m s = (Done a, s') -> steps stay s s'.
Proof. intros A m s a s' [W _] H. rewrite H in W. exact W. Qed.

Lemma transaction_done : forall m s s', mail_transaction m s = (Done 0, s') ->
  bad odd s s' \/
  exists dlg s1, success m (e_fs (s_e s)) (c_batch (s_c s)) dlg /\ reach s s1 dlg /\ steps stay s s1 /\
    s' = if c_batch (s_c s) then s1 else teardown s1.
Proof.
  intros m s s' H. unfold mail_transaction in H.
  assert (Ns : forall t, nonstandard t -> odd t) by (intros t Ht; left; exact Ht).
  apply bind_done in H as (r & s1 & H1 & H).
  destruct (r =? 0) eqn:Er; cbn [negb] in H; [|apply ret_done in H as [<- _]; discriminate Er]. apply Z.eqb_eq in Er. subst r.
  apply bind_done in H as (h & s2 & H2 & H).
  destruct (h =? 0) eqn:Eh; cbn [negb] in H; [|apply ret_done in H as [<- _]; discriminate Eh]. apply Z.eqb_eq in Eh. subst h.
  apply bind_done in H as (b & s3 & H3 & H).
  destruct (b =? 0) eqn:Eb; cbn [negb] in H; [|apply ret_done in H as [<- _]; discriminate Eb]. apply Z.eqb_eq in Eb. subst b.
  unfold bind at 1, getc in H. apply bind_done in H as (u & s4 & H4 & H). apply ret_done in H as [_ ->].
  assert (X1 := recipients_ext _ _ _ _ H1). assert (X2 := headers_ext _ _ _ _ H2). assert (X3 := body_ext _ _ _ _ H3).
  assert (X4 : ext s3 s4) by (destruct (c_batch (s_c s3)); [apply ret_done in H4 as [_ ->]; apply ext_refl|eapply cleanup_ext, H4]).
  assert (F2 := headers_fs _ _ _ _ H2). assert (F1 := recipients_fs _ _ _ _ H1).
  destruct (setMailRecipients_done _ _ _ H1) as [B1|(refused & line & reply & more & l & R1 & M1 & A1 & A2 & M2 & A3)].
  { left. apply (bad_weaken _ _ _ _ Ns) in B1. apply (bad_l _ _ _ _ closed_odd B1). eauto using ext_trans. }
  destruct (headers_done _ _ _ H2) as [B2|(r1 & R2 & A4 & Ch)].
  { left. apply (bad_r _ _ _ _ closed_odd X1). apply (bad_l _ _ _ _ closed_odd B2). eauto using ext_trans. }
  destruct (body_done _ _ _ H3) as [B3|(r2 & body & Hb & A5 & R3)].
  { left. apply (bad_weaken _ _ _ _ Ns) in B3. apply (bad_r _ _ _ _ closed_odd X1). apply (bad_r _ _ _ _ closed_odd X2).
    apply (bad_l _ _ _ _ closed_odd B3). exact X4. }
  right.
  assert (R := reach_trans _ _ _ _ _ R1 (reach_trans _ _ _ _ _ R2 R3)).
  assert (C12 := reach_trans _ _ _ _ _ R1 R2). assert (CR := proj1 C12). core_facts CR.
  assert (CR3 := proj1 R).
  exists (said_all m (c_batch (s_c s)) body refused line reply l r1 r2), s3. split; [|split; [|split]].
  - exists refused, line, reply, more, l, r1, body, r2. rewrite <- F1, <- F2. repeat split; try assumption.
  - rewrite CFbatch in R. unfold said_all. rewrite <- !app_assoc in R. cbn [app] in R. rewrite <- ?app_assoc in R. exact R.
  - eapply steps_trans; [exact (stay_done _ _ _ _ (stay_recipients _ _) H1)|].
    eapply steps_trans; [exact (stay_done _ _ _ _ (stay_headers _ _) H2)|exact (stay_done _ _ _ _ (stay_body _ _) H3)].
  - assert (Bt : c_batch (s_c s3) = c_batch (s_c s)) by (clear -CR3; core_facts CR3; assumption). rewrite Bt in H4.
    destruct (c_batch (s_c s)) eqn:Eb.
    + apply ret_done in H4 as [_ ->]. reflexivity.
    + rewrite cleanup_plain in H4 by (rewrite Bt; reflexivity). inversion H4. reflexivity.
Qed.

(** ** Openings: the first event of a command is its write *)

Definition grows {A} (m : M A) : Prop := forall s, ext s (snd (m s)).
Lemma grows_bind : forall {A C} (m : M A) (k : A -> M C), grows m -> (forall a, grows (k a)) -> grows (bind m k).
Proof.
  intros A C m k H1 H2 s. unfold bind. specialize (H1 s). destruct (m s) as [o s1] eqn:E. cbn in H1.
  destruct o; try exact H1. eapply ext_trans; [exact H1|apply H2].
Qed.
Lemma grows_ret : forall {A} (a : A), grows (ret a).
Proof. intros A a s. apply ext_refl. Qed.
Lemma grows_getc : forall {A} (k : client -> M A), (forall c, grows (k c)) -> grows (bind getc k).
Proof. intros A k H s. unfold bind, getc. apply H. Qed.
Lemma grows_gete : forall {A} (k : env -> M A), (forall c, grows (k c)) -> grows (bind gete k).
Proof. intros A k H s. unfold bind, gete. apply H. Qed.
Lemma grows_walk : forall {A} (m : M A), (forall s, walk most m s) -> grows m.
Proof. intros A m H s. destruct (H s) as [W _]. exact (steps_trace _ _ _ W). Qed.
Lemma grows_updc : forall f, grows (updc f).
Proof. intros f s. exists []. symmetry. apply app_nil_r. Qed.
Lemma grows_lift : forall {A} (o : outcome A), grows (lift o).
Proof. intros A o s. apply ext_refl. Qed.
Lemma grows_logc : forall i, grows (logc i).
Proof. intros i. apply grows_walk. intros. apply wlogc, most_base. Qed.
Lemma grows_cleanup : grows cleanup.
Proof. apply grows_walk. intros. apply wcleanup; [apply most_base|apply most_quit]. Qed.
Lemma grows_reply : grows getServerReply.
Proof. apply grows_walk. intros. apply wreply, most_base. Qed.
Lemma grows_raw_reply : grows getRawCommandReply.
Proof. apply grows_walk. intros. apply wraw_reply, most_base. Qed.
Lemma grows_fb : forall d err tmo, grows (sendFeedbackPtr d err tmo).
Proof. intros. apply grows_walk. intros. apply wfb; [apply most_base|apply most_conn|apply most_write|apply most_quit]. Qed.
Lemma grows_cmd : forall d err, grows (sendCommandPtr d err).
Proof. intros. apply grows_walk. intros. apply (wcmd most most_base most_conn); [apply most_write|apply most_quit]. Qed.
Lemma grows_recipients : forall m, grows (setMailRecipients m).
Proof.
  intros m. apply grows_walk. intros.
  eapply (wset_recipients most most_base most_conn m (fun _ => None)); [intros; apply most_write|apply most_quit].
Qed.
Lemma grows_headers : forall m, grows (setMailHeaders m).
Proof.
  intros m. apply grows_walk. intros.
  eapply (wset_headers most most_base most_conn m (fun _ => None)); [intros; apply most_write|intros; exact I|apply most_quit].
Qed.
Lemma grows_body : forall m, grows (setMailBody m).
Proof.
  intros m. apply grows_walk. intros.
  eapply (wset_body most most_base most_conn m (e_fs (s_e s))); [intros; apply most_write|intros; exact I|reflexivity|apply most_quit].
Qed.

(** [m] started in [s] has no event, or its first event is a write of [d]. *)
Definition opens {A} (d : str) (m : M A) : Prop := forall s,
  exists t, s_t (snd (m s)) = s_t s ++ t /\ (t = [] \/ exists ev r, t = ev :: r /\ writes d ev).
Definition opens1 {A} (d : str) (m : M A) : Prop := forall s,
  exists ev r, s_t (snd (m s)) = s_t s ++ ev :: r /\ writes d ev.
Lemma opens1_opens : forall {A} d (m : M A), opens1 d m -> opens d m.
Proof. intros A d m H s. destruct (H s) as (ev & r & E & W). exists (ev :: r). split; [exact E|right; eauto]. Qed.
Lemma opens1_bind : forall {A C} d (m : M A) (k : A -> M C), opens1 d m -> (forall a, grows (k a)) -> opens1 d (bind m k).
Proof.
  intros A C d m k H1 H2 s. unfold bind. destruct (H1 s) as (ev & r & E & W). destruct (m s) as [o s1]. cbn in E.
  destruct o as [a| | | | |]; try (exists ev, r; split; [exact E|exact W]).
  destruct (H2 a s1) as [t T]. exists ev, (r ++ t). split; [rewrite T, E, <- app_assoc; reflexivity|exact W].
Qed.
Lemma opens_log : forall {A} d i (m : M A), opens d m -> opens d (logc i;; m).
Proof.
  intros A d i m H s. unfold bind. destruct (logc i s) as [o s1] eqn:E.
  assert (T : s_t s1 = s_t s).
  { destruct o as [[]| | | | |]; try (apply logc_core in E; tauto);
    unfold logc, addLog, bind, getc in E; destruct (c_log (s_c s)); try (inversion E; reflexivity);
    cbv zeta in E; repeat match type of E with (if ?b then _ else _) _ = _ => destruct b end; inversion E; reflexivity. }
  destruct o; try (exists []; rewrite app_nil_r; split; [exact T|left; reflexivity]).
  destruct (H s1) as (t & Et & W). exists t. split; [rewrite Et, T; reflexivity|exact W].
Qed.
Lemma opens_bind : forall {A C} d (m : M A) (k : A -> M C), opens d m -> (forall a, grows (k a)) ->
  (forall s a s1, m s = (Done a, s1) -> s_t s1 <> s_t s) -> opens d (bind m k).
Proof.
  intros A C d m k H1 H2 H3 s. unfold bind. destruct (H1 s) as (t & E & W). specialize (H3 s). destruct (m s) as [o s1]. cbn in E.
  destruct o as [a| | | | |]; try (exists t; split; [exact E|exact W]).
  destruct (H2 a s1) as [t2 T]. destruct W as [->|(ev & r & -> & W)].
  - rewrite app_nil_r in E. exfalso. exact (H3 a s1 eq_refl E).
  - exists (ev :: r ++ t2). split; [rewrite T, E, <- app_assoc; reflexivity|right; eauto].
Qed.

Lemma opens1_send : forall d, opens1 d (sys_send d).
Proof.
  intros d s. unfold sys_send, bind, getc, gete, emit, ret, upde. destruct (e_send (s_e s));
  (eexists _, []; split; [reflexivity|left; eexists _, _; reflexivity]).
Qed.
Lemma opens1_puts : forall b d, opens1 d (sys_puts b d).
Proof.
  intros b d s. unfold sys_puts, bind, getc, gete, emit, ret, upde. destruct (e_bputs (s_e s));
  (eexists _, []; split; [reflexivity|right; eexists _, _; reflexivity]).
Qed.
Lemma grows_address_header : forall f a, grows (address_header f a).
Proof.
  intros f l. apply grows_walk. intros.
  apply (waddress_header most most_base most_conn); [intros; apply most_write|intros; exact I|apply most_quit].
Qed.
Lemma grows_recipients_loop : forall ls, grows (recipients_loop ls).
Proof. intros ls. apply grows_walk. intros. apply (wrecipients most most_base most_conn); [intros; apply most_write|apply most_quit]. Qed.
Ltac grow1 :=
  lazymatch goal with
  | |- grows (ret _) => apply grows_ret
  | |- grows killed => intros ?; apply ext_refl
  | |- grows (updc _) => apply grows_updc
  | |- grows (setLastSocketErrNo _) => apply grows_updc
  | |- grows (lift _) => apply grows_lift
  | |- grows cleanup => apply grows_cleanup
  | |- grows getServerReply => apply grows_reply
  | |- grows getRawCommandReply => apply grows_raw_reply
  | |- grows (logc _) => apply grows_logc
  | |- grows (sendCommandPtr _ _) => apply grows_cmd
  | |- grows (sendFeedbackPtr _ _ _) => apply grows_fb
  | |- grows (address_header _ _) => apply grows_address_header
  | |- grows (recipients_loop _) => apply grows_recipients_loop
  | |- grows (setMailHeaders _) => apply grows_headers
  | |- grows (setMailBody _) => apply grows_body
  | |- grows (bind getc _) => apply grows_getc; intros ?
  | |- grows (bind gete _) => apply grows_gete; intros ?
  | |- grows (bind _ _) => apply grows_bind; [|intros ?]
  | |- grows (if ?b then _ else _) => destruct b
  end.
Ltac grow := repeat grow1.
Lemma opens1_raw3 : forall d err tmo, opens1 (cstr d) (sendRaw3 d err tmo).
Proof.
  intros d err tmo. unfold sendRaw3. apply opens1_bind.
  - unfold sendRaw2, sendRaw2_with. apply opens1_bind; [apply opens1_send|]. intros []; unfold setLastSocketErrNo; grow.
  - intros a. grow.
Qed.
Lemma opens1_fb : forall d err tmo, opens1 (cstr d) (sendFeedbackPtr d err tmo).
Proof.
  intros d err tmo s. unfold sendFeedbackPtr, bind at 1, getc. destruct (c_rawptr (s_c s)); [apply opens1_raw3|].
  unfold sendFeedback, bind at 1, getc.
  assert (T : exists ev r, s_t (snd (sendFeedbackTLS d err tmo s)) = s_t s ++ ev :: r /\ writes (cstr d) ev).
  { unfold sendFeedbackTLS, bind at 1, getc. destruct (c_bio (s_c s)) as [b|]; [|apply opens1_raw3].
    match goal with |- context [bind ?m ?k s] => apply (opens1_bind (cstr d) m k (opens1_puts b (cstr d))) end.
    intros []; unfold setLastSocketErrNo; grow. }
  destruct (c_kind (s_c s)); [apply opens1_raw3|exact T|exact T].
Qed.
Lemma opens_headers : forall m, opens DATA_line (setMailHeaders m).
Proof.
  intros m. unfold setMailHeaders. apply opens_log, opens1_opens, opens1_bind; [exact (opens1_fb (B "DATA" ++ CRLF) _ _)|].
  intros a. destruct (negb _); [grow|]. unfold addMailHeader.
  grow.
Qed.
Lemma opens_recipients : forall m, exists d, opens d (setMailRecipients m).
Proof.
  intros m. eexists. unfold setMailRecipients. unfold mail_formats. cbn [mail_from_loop].
  intros s. rewrite bind_assoc. revert s. apply opens_log.
  apply opens1_opens. intros s. rewrite bind_assoc. revert s. apply opens1_bind; [apply opens1_fb|].
  intros c. 
  grow.
Qed.
