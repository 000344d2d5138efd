(** What a client with a credential does when no mechanism applies. *)

From Coq Require Import Ascii String List NArith ZArith Bool Lia ZifyBool ZifyNat ZifyN.
From Verif Require Import Base Lib ModelUtil ModelBase64 ModelAddress ModelAttachment ModelMessage ModelReply ModelErrors ModelState ModelClient ModelWorld
  SpecDialogue SpecReply SpecLife SpecDead SpecAuth ProofSteps ProofWalk ProofPhases ProofEstablish ProofLog ProofSend ProofLife ProofDialogue ProofMail ProofMail2
  ProofCode ProofStage ProofTls ProofTls2 ProofWorld ProofReply ProofAuth ProofAuth2 ProofAuth3.
Import ListNotations.
Open Scope Z_scope.

(** ** The lines written before the authentication *)
Definition mute (l : label) : Prop :=
  match l with LConn | LNull | LSend _ | LPuts _ | LUpgrade => False | _ => True end.
Lemma mute_base : forall l, base l -> mute l.
Proof. intros []; cbn; tauto. Qed.
Lemma mute_quit : forall s, c_conn (s_c s) = false -> quit_ok mute s.
Proof. intros s H E. rewrite H, andb_false_r in E. discriminate E. Qed.
Lemma mute_conn : ~ mute LConn.
Proof. exact (fun x => x). Qed.

(** The lines [l] are written, all of them when [m] returns. *)
Definition full {A} (l : list str) (m : M A) : Prop := forall s, c_conn (s_c s) = false ->
  exists t n, s_t (snd (m s)) = s_t s ++ t /\ written t = firstn n l /\ c_conn (s_c (snd (m s))) = false /\
    (forall r, fst (m s) = Done r -> written t = l).
Lemma full_mute : forall {A} (m : M A), (forall s, c_conn (s_c s) = false -> walk mute m s) -> full [] m.
Proof.
  intros A m H s C. destruct (H s C) as [S _]. destruct (steps_written _ _ _ S) as (t & T & W).
  assert (E : written t = []). { destruct (written t) as [|d l]; [reflexivity|]. destruct (W d (or_introl eq_refl)) as [X|[X|[_ X]]]; destruct X. }
  exists t, 0%nat. split; [exact T|]. split; [exact E|]. split; [exact (ProofTls.steps_conn_off mute _ _ mute_conn S C)|]. intros _ _. exact E.
Qed.
Lemma full_one : forall {A} d (m : M A), one_write d m -> full [d] m.
Proof. intros A d m H s C. destruct (H s C) as (t & T & W & C'). exists t, 1%nat. auto. Qed.
Lemma firstn_pre : forall {A} n (a b : list A), exists k, firstn k (a ++ b) = firstn n a.
Proof.
  intros A n a b. destruct (Nat.le_ge_cases n (length a)) as [L|L].
  - exists n. rewrite firstn_app. replace (n - length a)%nat with 0%nat by lia. apply app_nil_r.
  - exists (length a). rewrite firstn_app, firstn_all, Nat.sub_diag, (firstn_all2 a L). apply app_nil_r.
Qed.
Lemma full_next : forall {A C} l1 l2 (m : M A) (k : A -> M C) s, c_conn (s_c s) = false -> full l1 m ->
  (forall a s1, m s = (Done a, s1) -> c_conn (s_c s1) = false -> exists t n, s_t (snd (k a s1)) = s_t s1 ++ t /\ written t = firstn n l2 /\
     c_conn (s_c (snd (k a s1))) = false /\ (forall r, fst (k a s1) = Done r -> written t = l2)) ->
  exists t n, s_t (snd (bind m k s)) = s_t s ++ t /\ written t = firstn n (l1 ++ l2) /\ c_conn (s_c (snd (bind m k s))) = false /\
    (forall r, fst (bind m k s) = Done r -> written t = l1 ++ l2).
Proof.
  intros A C l1 l2 m k s Cn H K. destruct (H s Cn) as (t & n & T & W & C1 & D). unfold bind. destruct (m s) as [o s1]. cbn [fst snd] in *.
  destruct o as [a| | | | |]; try (destruct (firstn_pre n l1 l2) as [j J]; exists t, j; rewrite J; split; [exact T|]; split; [exact W|]; split; [exact C1|]; intros r X; discriminate X).
  specialize (D a eq_refl). destruct (K a s1 eq_refl C1) as (t2 & n2 & T2 & W2 & C2 & D2). exists (t ++ t2), (length l1 + n2)%nat.
  split; [rewrite T2, T, app_assoc; reflexivity|]. split.
  { rewrite written_app, D, W2, firstn_app, (firstn_all2 (n := (length l1 + n2)%nat) l1) by lia. f_equal. f_equal. lia. }
  split; [exact C2|]. intros r X. rewrite written_app, D, (D2 r X). reflexivity.
Qed.
Lemma full_bind : forall {A C} l1 l2 (m : M A) (k : A -> M C), full l1 m -> (forall a, full l2 (k a)) -> full (l1 ++ l2) (bind m k).
Proof. intros A C l1 l2 m k H K s Cn. apply full_next; [exact Cn|exact H|]. intros a s1 _ C1. exact (K a s1 C1). Qed.
Lemma full_log : forall i, full [] (logc i).
Proof. intros i. apply full_mute. intros s _. apply walk_logc. exact I. Qed.

Lemma one_write_feedback : forall d err tmo, one_write (cstr d) (sendFeedback d err tmo).
Proof.
  intros d err tmo s Cn.
  assert (Q : sendFeedback d err tmo s = match c_kind (s_c s) with KPlain => sendRaw3 d err tmo s | _ => sendFeedbackTLS d err tmo s end)
    by (unfold sendFeedback, bind, getc; destruct (c_kind (s_c s)); reflexivity).
  rewrite Q. destruct (c_kind (s_c s)); [apply one_write_raw3, Cn|apply one_write_tls, Cn|apply one_write_tls, Cn].
Qed.
Lemma full_at : forall {A} (m : M A) s, c_conn (s_c s) = false -> walk mute m s ->
  exists t n, s_t (snd (m s)) = s_t s ++ t /\ written t = firstn n [] /\ c_conn (s_c (snd (m s))) = false /\ (forall r, fst (m s) = Done r -> written t = []).
Proof.
  intros A m s C [S _]. destruct (steps_written _ _ _ S) as (t & T & W).
  assert (E : written t = []). { destruct (written t) as [|d l]; [reflexivity|]. destruct (W d (or_introl eq_refl)) as [X|[X|[_ X]]]; destruct X. }
  exists t, 0%nat. split; [exact T|]. split; [exact E|]. split; [exact (ProofTls.steps_conn_off mute _ _ mute_conn S C)|]. intros _ _. exact E.
Qed.
Lemma full_ehlo : forall err tmo, err <> 250 -> tmo <> 250 -> err <> 0 -> full [EHLO_line] (ehlo_with err tmo).
Proof.
  intros err tmo N1 N2 N3. unfold ehlo_with. apply (full_bind [] [EHLO_line]); [apply full_log|]. intros _ s C.
  apply (full_next [EHLO_line] []); [exact C|apply full_one; exact (one_write_feedback EHLO err tmo)|]. intros code s2 E2 C2.
  apply full_at; [exact C2|]. destruct (code =? 250) eqn:K; cbn [negb]; [|apply walk_ret].
  apply feedback_reply in E2 as [_ E2]; try lia. apply walk_getc. destruct (c_resp (s_c s2)); [|congruence].
  apply walk_gete. apply wehlo_loop; [exact mute_base|exact I].
Qed.
Lemma full_identify : full [EHLO_line] sendServerIdentification.
Proof. apply full_ehlo; discriminate. Qed.
Lemma full_identify_tls : full [EHLO_line] getServerSecureIdentification.
Proof. unfold getServerSecureIdentification. apply (full_bind [] [EHLO_line]); [apply full_log|]. intros _. apply full_ehlo; discriminate. Qed.
Lemma full_upgrade : full [STARTTLS] upgradeToSecureConnection.
Proof. unfold upgradeToSecureConnection. apply (full_bind [] [STARTTLS]); [apply full_log|]. intros _. apply full_one. exact (one_write_raw3 STARTTLS _ _). Qed.

(** ** The connection *)
Definition far (s0 : st) (l : list str) (s : st) : Prop :=
  steps pre_label s0 s /\ (exists t, s_t s = s_t s0 ++ t /\ written t = l) /\ c_conn (s_c s) = false.
Definition cut (s0 : st) (l : list str) (s : st) : Prop := exists n, far s0 (firstn n l) s.
Lemma cut_le : forall s0 l l2 s, cut s0 l s -> cut s0 (l ++ l2) s.
Proof. intros s0 l l2 s [n H]. destruct (firstn_pre n l l2) as [k K]. exists k. rewrite K. exact H. Qed.
Lemma far_bind : forall {A C} s0 l d (m : M A) (K : A -> M C) s x s', far s0 l s -> full d m -> walk pre_label m s -> bind m K s = (x, s') ->
  (cut s0 (l ++ d) s' /\ forall r, x <> Done r) \/ exists a s1, m s = (Done a, s1) /\ far s0 (l ++ d) s1 /\ K a s1 = (x, s').
Proof.
  intros A C s0 l d m K s x s' (S0 & (t0 & T0 & W0) & C0) F [W _] H. destruct (F s C0) as (t & n & T & Wt & C1 & D). unfold bind in H.
  destruct (m s) as [o s1] eqn:E. cbn [fst snd] in *.
  assert (S1 : steps pre_label s0 s1) by (eapply steps_trans; eassumption).
  assert (X : cut s0 (l ++ d) s1).
  { exists (length l + n)%nat. split; [exact S1|]. split; [|exact C1]. exists (t0 ++ t). split; [rewrite T, T0, app_assoc; reflexivity|].
    rewrite written_app, W0, Wt, firstn_app, (firstn_all2 (n := (length l + n)%nat) l) by lia. f_equal. f_equal. lia. }
  destruct o as [a| | | | |]; try (inversion H; subst; left; split; [exact X|discriminate]).
  right. exists a, s1. split; [reflexivity|]. split; [|exact H]. split; [exact S1|]. split; [|exact C1]. exists (t0 ++ t). split; [rewrite T, T0, app_assoc; reflexivity|].
  rewrite written_app, W0, (D a eq_refl). reflexivity.
Qed.
(** The codes of the last EHLO. *)
Definition final_codes : list Z :=
  [SOCKET_INIT_CLIENT_SEND_EHLO_ERROR; SOCKET_INIT_CLIENT_SEND_EHLO_TIMEOUT; SSL_CLIENT_INITSECURECLIENT_ERROR; SSL_CLIENT_INITSECURECLIENT_TIMEOUT].
Definition ended (l : list str) (s0 : st) (x : outcome Z) (s' : st) : Prop :=
  cut s0 l s' /\ forall r, x = Done r -> r <> 250 /\ (In r final_codes \/ bad (spoken r) s0 s').
Lemma far_phase : forall s0 l d (m : M Z) c K s x s', far s0 l s -> full d m -> walk pre_label m s ->
  bind m (fun a => if negb (a =? c) then ret a else K) s = (x, s') ->
  cut s0 (l ++ d) s' \/ exists s1, m s = (Done c, s1) /\ far s0 (l ++ d) s1 /\ K s1 = (x, s').
Proof.
  intros s0 l d m c K s x s' S0 F W H. apply (far_bind s0 l d) in H; [|assumption|assumption|assumption].
  destruct H as [[H _]|(a & s1 & E & S1 & H)]; [left; exact H|]. destruct (Z.eqb_spec a c) as [->|N]; cbn [negb] in H.
  - right. eauto.
  - inversion H; subst. left. exists (length (l ++ d)). rewrite firstn_all. exact S1.
Qed.
Lemma far_last : forall s0 l codes (m : M Z) K s x s', far s0 l s -> full [EHLO_line] m -> walk pre_label m s -> staged codes m ->
  (forall q q', m q <> (Done (-1), q')) -> (forall r, In r codes -> r <> -1 -> r <> 250 -> In r final_codes) ->
  bind m (fun a => if negb (a =? 250) then ret a else K) s = (x, s') ->
  ended (l ++ [EHLO_line]) s0 x s' \/ exists s1, m s = (Done 250, s1) /\ far s0 (l ++ [EHLO_line]) s1 /\ K s1 = (x, s').
Proof.
  intros s0 l codes m K s x s' S0 F W G Nm L H. apply (far_bind s0 l [EHLO_line]) in H; [|assumption|assumption|assumption].
  destruct H as [[H N]|(a & s1 & E & S1 & H)]; [left; split; [exact H|]; intros r X; exfalso; exact (N r X)|].
  destruct (Z.eqb_spec a 250) as [->|N]; cbn [negb] in H; [right; eauto|]. inversion H; subst. left. split.
  { exists (length (l ++ [EHLO_line])). rewrite firstn_all. exact S1. }
  intros r X. inversion X; subst r. split; [exact N|]. destruct (G _ _ _ E) as [I0|I0].
  - left. apply L; [exact I0|intros ->; exact (Nm _ _ E)|exact N].
  - right. refine (bad_r _ _ _ _ (closed_spoken a) _ I0). destruct S0 as (S0 & _). exact (steps_trace _ _ _ S0).
Qed.
Definition nm (m : M Z) : Prop := forall q q', m q <> (Done (-1), q').
Lemma nm_bind : forall {A} (m : M A) k, (forall a, nm (k a)) -> nm (bind m k).
Proof. intros A m k H q q' E. apply bind_done in E as (a & q1 & _ & E). exact (H a _ _ E). Qed.
Lemma nm_ret : forall r, r <> -1 -> nm (ret r).
Proof. intros r H q q' E. apply ret_done in E as [E _]. congruence. Qed.
Lemma nm_getc : forall (k : client -> M Z), (forall c, nm (k c)) -> nm (bind getc k).
Proof. intros k H. apply nm_bind, H. Qed.
Lemma nm_fail : forall u, nm (fail_ub u).
Proof. intros u q q' X. discriminate X. Qed.
Lemma nm_loop : forall n tmo opts, tmo <> -1 -> nm (ehlo_loop n tmo opts).
Proof.
  induction n as [|n IH]; intros tmo opts N; cbn [ehlo_loop]; (destruct (containsAllOptions opts); [apply nm_bind; intros _; apply nm_ret; discriminate|]).
  - intros q q' X. discriminate X.
  - apply nm_bind. intros code. destruct (Z.eqb_spec code (-1)) as [->|Nc]; [apply nm_ret, N|]. destruct (negb _); [apply nm_ret, Nc|].
    apply nm_getc. intros c. destruct (c_resp c); [apply IH, N|apply nm_fail].
Qed.
Lemma nm_after : forall r tmo, tmo <> -1 -> nm (if negb (r =? -1) then ret r else cleanup;; ret tmo).
Proof. intros r tmo N. destruct (Z.eqb_spec r (-1)); cbn [negb]; [apply nm_bind; intros _; apply nm_ret, N|apply nm_ret; assumption]. Qed.
Lemma nm_raw3 : forall d err tmo, err <> -1 -> tmo <> -1 -> err <> 0 -> nm (sendRaw3 d err tmo).
Proof.
  intros d err tmo N1 N2 N3. unfold sendRaw3. intros q q' E. apply bind_done in E as (a & q1 & E1 & E).
  revert E. destruct (Z.eqb_spec a 0) as [->|Na]; cbn [negb].
  - revert q1 q' E1. intros q1 q' _. apply (nm_bind getRawCommandReply). intros r. apply nm_after, N2.
  - apply nm_ret. unfold sendRaw2, sendRaw2_with in E1. apply bind_done in E1 as (r & q2 & _ & E1).
    intros ->. destruct r.
    all: try discriminate E1.
    all: try (apply ret_done in E1 as [E1 _]; congruence).
    all: repeat (apply bind_done in E1 as (? & ? & _ & E1)); apply ret_done in E1 as [E1 _]; congruence.
Qed.
Lemma nm_feedback : forall d err tmo, err <> -1 -> tmo <> -1 -> err <> 0 -> nm (sendFeedback d err tmo).
Proof.
  intros d err tmo N1 N2 N3. unfold sendFeedback. apply nm_getc. intros c.
  assert (T : nm (sendFeedbackTLS d err tmo)).
  { unfold sendFeedbackTLS. apply nm_getc. intros c1. destruct (c_bio c1); [|apply nm_raw3; assumption]. apply nm_bind. intros r. destruct r.
    4: { intros q q' X. discriminate X. }
    3: { apply nm_bind. intros _. apply nm_bind. intros _. apply nm_ret, N1. }
    all: apply nm_bind; intros r; apply nm_after, N2. }
  destruct (c_kind c); [apply nm_raw3; assumption|exact T|exact T].
Qed.
Lemma nm_ehlo : forall err tmo, err <> -1 -> tmo <> -1 -> err <> 0 -> nm (ehlo_with err tmo).
Proof.
  intros err tmo N1 N2 N3. unfold ehlo_with. apply nm_bind. intros _ q q' E. apply bind_done in E as (a & q1 & E1 & E). revert E.
  destruct (Z.eqb_spec a 250) as [->|Na]; cbn [negb].
  - refine ((_ : nm _) q1 q'). apply nm_getc. intros c. destruct (c_resp c); [|apply nm_fail]. apply nm_bind. intros e. apply nm_loop, N2.
  - apply nm_ret. intros ->. exact (nm_feedback EHLO err tmo N1 N2 N3 _ _ E1).
Qed.
Lemma nm_identify : nm sendServerIdentification.
Proof. apply nm_ehlo; discriminate. Qed.
Lemma nm_identify_tls : nm getServerSecureIdentification.
Proof. unfold getServerSecureIdentification. apply nm_bind. intros _. apply nm_ehlo; discriminate. Qed.

Definition opening_lines (k : clientkind) : list str :=
  match k with KOpp => [EHLO_line; STARTTLS; EHLO_line] | _ => [EHLO_line] end.
Lemma far_written : forall s l q, far s l q -> (forall d, In d l -> d = EHLO_line \/ d = STARTTLS) ->
  exists t, s_t q = s_t s ++ t /\ forall d, In d (written t) -> d = EHLO_line \/ d = STARTTLS.
Proof. intros s l q (_ & (t & T & W) & _) H. exists t. split; [exact T|]. rewrite W. exact H. Qed.
Lemma establish_detail : forall s x s', c_conn (s_c s) = false -> establish s = (x, s') ->
  cut s (removelast (opening_lines (c_kind (s_c s)))) s' \/ ended (opening_lines (c_kind (s_c s))) s x s' \/
  exists s2, far s (opening_lines (c_kind (s_c s))) s2 /\ greeted s s2 /\ authenticate_if_needed s2 = (x, s').
Proof.
  intros s x s' C H. unfold establish, bind at 1, getc in H.
  assert (NC : ~ pre_label LConn) by exact (fun x => x).
  assert (I0 : forall q, walk pre_label initializeSession q) by (intros q; apply winitialize; try exact pre_base; exact I).
  assert (G0 : forall q, walk pre_label checkServerGreetings q) by (intros q; apply wgreetings; exact pre_base).
  assert (G1 : forall q, walk pre_label checkServerGreetingsTLS q) by (intros q; apply wgreetings_tls; exact pre_base).
  assert (Cf : forall l q, far s l q -> c_conn (s_c q) = false) by (intros l q (_ & _ & X); exact X).
  assert (Sf : forall l q, far s l q -> steps pre_label s q) by (intros l q (X & _); exact X).
  assert (E0 : forall l q, far s l q -> walk pre_label sendServerIdentification q).
  { intros l q Sq. apply wident; try exact pre_base; try exact NC; try exact I; try (intros; reflexivity). apply pre_quit, (Cf _ _ Sq). }
  assert (E1 : forall l q, far s l q -> walk pre_label getServerSecureIdentification q).
  { intros l q Sq. apply wsecure_ident; try exact pre_base; try exact NC; try exact I; try (intros; reflexivity). apply pre_quit, (Cf _ _ Sq). }
  assert (T0 : forall l q, far s l q -> walk pre_label startTLSNegotiation q).
  { intros l q Sq. apply wtls; try exact pre_base; try exact NC; try exact I. apply pre_quit, (Cf _ _ Sq). }
  assert (L0 : forall i q, walk pre_label (logc i) q) by (intros i q; apply walk_logc; exact I).
  assert (FI : full [] initializeSession) by (apply full_mute; intros q _; apply winitialize; try exact mute_base; exact I).
  assert (FG : full [] checkServerGreetings) by (apply full_mute; intros q _; apply wgreetings; exact mute_base).
  assert (FH : full [] checkServerGreetingsTLS) by (apply full_mute; intros q _; apply wgreetings_tls; exact mute_base).
  assert (FT : full [] startTLSNegotiation).
  { apply full_mute. intros q Cq. apply wtls; try exact mute_base; try exact mute_conn; try exact I. apply mute_quit, Cq. }
  assert (F0 : far s [] s).
  { split; [apply st_refl|]. split; [|exact C]. exists []. rewrite app_nil_r. auto. }
  assert (Ac : forall a b q, far s (a ++ b) q -> cut s (a ++ b) q) by (intros a b q X; exists (length (a ++ b)); rewrite firstn_all; exact X).
  destruct (c_kind (s_c s)) eqn:Ki; cbn [opening_lines removelast].
  - unfold establishPlain in H.
    apply (far_phase s [] []) in H; [|exact F0|exact FI|apply I0]. destruct H as [H|(s1 & _ & S1 & H)]; [left; exact H|].
    apply (far_phase s [] []) in H; [|exact S1|exact FG|apply G0]. destruct H as [H|(s2 & _ & S2 & H)]; [left; exact H|].
    apply (far_last s [] ehlo_codes) in H; [|exact S2|exact full_identify|apply (E0 _ _ S2)|exact staged_identify|exact nm_identify|cbv; intuition congruence].
    right. destruct H as [H|(s3 & H3 & S3 & H)]; [left; exact H|right]. exists s3. split; [exact S3|]. split; [|exact H].
    eapply greeted_after; [apply (far_written _ _ _ S2); intros d []|]. apply identify_pieces, H3.
  - unfold establishOpp in H.
    apply (far_phase s [] []) in H; [|exact F0|exact FI|apply I0]. destruct H as [H|(s1 & _ & S1 & H)]; [left; apply (cut_le s [] [EHLO_line; STARTTLS]); exact H|].
    apply (far_phase s [] []) in H; [|exact S1|exact FG|apply G0]. destruct H as [H|(s2 & _ & S2 & H)]; [left; apply (cut_le s [] [EHLO_line; STARTTLS]); exact H|].
    apply (far_phase s [] [EHLO_line]) in H; [|exact S2|exact full_identify|apply (E0 _ _ S2)].
    destruct H as [H|(s3 & H3 & S3 & H)]; [left; apply (cut_le s [EHLO_line] [STARTTLS]); exact H|]. cbn [app] in S3.
    unfold bind at 1, getc in H.
    assert (W : forall P, walk P (lift (isStartTLSSupported (c_resp (s_c s3)))) s3).
    { intros P. apply walk_lift. intros u Hu. destruct (starttls_undef _ _ Hu) as [-> [r' Hr]].
      exists r'. split; [assumption|]. rewrite Hr in Hu. exact Hu. }
    assert (FL : forall o : outcome bool, full [] (lift o)).
    { intros o q Cq. exists [], 0%nat. cbn [lift snd fst]. rewrite app_nil_r. auto. }
    apply (far_bind s [EHLO_line] []) in H; [|exact S3|apply FL|apply W]. cbn [app] in H.
    destruct H as [[H _]|(tls & s3' & H3' & S3' & H)]; [left; apply (cut_le s [EHLO_line] [STARTTLS]); exact H|].
    assert (Ks : c_kind (s_c s3') = KOpp).
    { pose proof (steps_config _ _ _ (Sf _ _ S3')) as Cg. unfold config in Cg. inversion Cg. congruence. }
    destruct tls.
    + apply (far_bind s [EHLO_line] []) in H; [|exact S3'|apply full_log|apply L0]. cbn [app] in H.
      destruct H as [[H _]|(u & s4 & H4 & S4 & H)]; [left; apply (cut_le s [EHLO_line] [STARTTLS]); exact H|]. destruct u. apply logc_core in H4 as (C4 & _). core_facts C4.
      assert (U : walk pre_label upgradeToSecureConnection s4).
      { apply wupgrade; try exact pre_base; try exact NC; try exact I; [congruence|]. apply pre_quit, (Cf _ _ S4). }
      apply (far_phase s [EHLO_line] [STARTTLS]) in H; [|exact S4|exact full_upgrade|exact U]. destruct H as [H|(s5 & _ & S5 & H)]; [left; exact H|].
      apply (far_phase s [EHLO_line; STARTTLS] []) in H; [|exact S5|exact FT|apply (T0 _ _ S5)]. destruct H as [H|(s6 & _ & S6 & H)]; [left; exact H|].
      apply (far_last s [EHLO_line; STARTTLS] secure_ehlo_codes) in H; [|exact S6|exact full_identify_tls|apply (E1 _ _ S6)|exact staged_identify_tls|exact nm_identify_tls|cbv; intuition congruence].
      right. destruct H as [H|(s7 & H7 & S7 & H)]; [left; exact H|right]. exists s7. split; [exact S7|]. split; [|exact H].
      eapply greeted_after; [apply (far_written _ _ _ S6); intros d [X|[X|[]]]; auto|]. apply identify_tls_pieces, H7.
    + apply (far_bind s [EHLO_line] []) in H; [|exact S3'|apply full_log|apply L0]. cbn [app] in H.
      destruct H as [[H _]|(u & s4 & H4 & S4 & H)]; [left; apply (cut_le s [EHLO_line] [STARTTLS]); exact H|].
      unfold bind, updc in H. inversion H; subst. left. exists 1%nat. destruct S4 as (S4 & (t & T & Wt) & C4). split.
      { eapply steps_trans; [exact S4|]. eapply steps_one; [apply es_keep|exact I]. }
      split; [exists t; split; [exact T|exact Wt]|exact C4].
  - unfold establishForced in H.
    apply (far_phase s [] []) in H; [|exact F0|exact FI|apply I0]. destruct H as [H|(s1 & _ & S1 & H)]; [left; exact H|].
    apply (far_phase s [] []) in H; [|exact S1|exact FT|apply (T0 _ _ S1)]. destruct H as [H|(s2 & _ & S2 & H)]; [left; exact H|].
    apply (far_phase s [] []) in H; [|exact S2|exact FH|apply G1]. destruct H as [H|(s3 & _ & S3 & H)]; [left; exact H|].
    apply (far_last s [] secure_ehlo_codes) in H; [|exact S3|exact full_identify_tls|apply (E1 _ _ S3)|exact staged_identify_tls|exact nm_identify_tls|cbv; intuition congruence].
    right. destruct H as [H|(s4 & H4 & S4 & H)]; [left; exact H|right]. exists s4. split; [exact S4|]. split; [|exact H].
    eapply greeted_after; [apply (far_written _ _ _ S3); intros d []|]. apply identify_tls_pieces, H4.
Qed.

(** ** One mail *)
Definition mail_or_end (t : list event) : Prop := t = [] \/ exists ev r d, t = ev :: r /\ writes d ev /\ mail_command d.
Inductive chronicle (c : client) : list event -> outcome Z -> Prop :=
| ch_short : forall te tm x n, written te = firstn n (removelast (opening_lines (c_kind c))) -> mail_or_end tm -> chronicle c (te ++ tm) x
| ch_ended : forall te x n, written te = firstn n (opening_lines (c_kind c)) ->
    (forall r, x = Done r -> r <> 250 /\ (In r final_codes \/ spoken r te)) -> chronicle c te x
| ch_odd : forall te tm x, spoken 0 te -> chronicle c (te ++ tm) x
| ch_auth : forall te reads ta tm y x, written te = opening_lines (c_kind c) -> after_ehlo te reads -> auth_part (c_cred c) (seen reads) ta y ->
    (y <> Done 0 /\ x = y /\ tm = [] \/ y = Done 0 /\ mail_or_end tm) -> chronicle c (te ++ ta ++ tm) x.
Lemma sendMail_chronicle : forall m s x s', c_conn (s_c s) = false -> sendMail m s = (x, s') -> exists t, s_t s' = s_t s ++ t /\ chronicle (s_c s) t x.
Proof.
  intros m s x s' C H. rewrite sendMail_new in H by assumption. unfold bind in H. destruct (establish s) as [y s1] eqn:E.
  assert (F : (y <> Done 0 /\ x = y /\ s' = s1) \/ (y = Done 0 /\ exists tm, s_t s' = s_t s1 ++ tm /\ mail_or_end tm)).
  { destruct y as [r| | | | |]; try (inversion H; left; split; [discriminate|]; auto). unfold finish in H. destruct (Z.eqb_spec r 0) as [->|Nr]; cbn [negb] in H.
    - right. split; [reflexivity|]. unfold bind, updc in H. apply transaction_part in H as (t & T & (P & _)). exists t. split; [exact T|exact P].
    - left. inversion H; subst. split; [congruence|auto]. }
  clear H. destruct (establish_detail _ _ _ C E) as [(n & _ & (t & T & W) & _)|[((n & _ & (t & T & W) & _) & Cd)|(s2 & (S2 & (t & T & W) & C2) & G & A)]].
  - destruct F as [(N0 & -> & ->)|(-> & tm & Tm & P)].
    + exists (t ++ []). split; [rewrite app_nil_r; exact T|]. eapply ch_short; [exact W|left; reflexivity].
    + exists (t ++ tm). split; [rewrite Tm, T, app_assoc; reflexivity|]. eapply ch_short; [exact W|exact P].
  - assert (Bs : forall r, bad (spoken r) s s1 -> spoken r t).
    { intros r (t' & T' & X). rewrite T in T'. apply app_inv_head in T'. subst t'. exact X. }
    destruct F as [(N0 & -> & ->)|(-> & tm & Tm & P)].
    + exists t. split; [exact T|]. eapply ch_ended; [exact W|]. intros r X. destruct (Cd r X) as [N [Y|Y]]; auto.
    + exists (t ++ tm). split; [rewrite Tm, T, app_assoc; reflexivity|]. apply ch_odd. destruct (Cd 0 eq_refl) as [_ [Y|Y]]; [cbv in Y; intuition discriminate|auto].
  - destruct G as (u & e & reads & T2 & We & R & Ea & _).
    assert (t = u ++ e :: reads) by (rewrite T in T2; apply app_inv_head in T2; exact T2). subst t.
    assert (G : after_ehlo (u ++ e :: reads) reads).
    { exists u, e. split; [reflexivity|]. split; [exact We|]. intros ev I0 (d & [(fd & q & ->)|(b & q & ->)]); exact (R _ I0). }
    assert (Cr : c_cred (s_c s2) = c_cred (s_c s)).
    { pose proof (steps_config _ _ _ S2) as Cf. unfold config in Cf. inversion Cf. reflexivity. }
    destruct (authenticate_part s2 _ _ _ C2 Ea A) as (ta & Ta & Pa). rewrite Cr in Pa.
    destruct F as [(N0 & -> & ->)|(-> & tm & Tm & P)].
    + exists ((u ++ e :: reads) ++ ta ++ []). split; [rewrite Ta, T, !app_nil_r, <- !app_assoc; reflexivity|]. eapply ch_auth; [exact W|exact G|exact Pa|left; auto].
    + exists ((u ++ e :: reads) ++ ta ++ tm). split; [rewrite Tm, Ta, T, <- !app_assoc; reflexivity|]. eapply ch_auth; [exact W|exact G|exact Pa|right; auto].
Qed.

(** ** Where the answer to the last EHLO ends *)
Lemma reach : forall k w r n, w ++ r = firstn n (opening_lines k) -> (exists u, w = u ++ [EHLO_line]) -> (k = KOpp -> In STARTTLS w) ->
  w = opening_lines k /\ r = [].
Proof.
  intros k w r n E [u ->] S.
  assert (L : (length u + 1 + length r = length (firstn n (opening_lines k)))%nat) by (rewrite <- E, !app_length; cbn; lia).
  rewrite firstn_length in L. destruct k; cbn [opening_lines length] in *.
  - destruct u; [|cbn in L; lia]. destruct r; [|cbn in L; lia]. auto.
  - destruct u as [|a [|b [|]]]; cbn [length] in L; try lia.
    + destruct (S eq_refl) as [X|[]]. discriminate X.
    + exfalso. rewrite <- app_assoc in E. destruct n as [|[|[|n]]]; cbn in E; discriminate E.
    + destruct r; [|cbn [length] in L; lia]. rewrite app_nil_r in E. destruct n as [|[|[|n]]]; cbn in E; try discriminate E. split; [|reflexivity].
      destruct n; exact E.
  - destruct u; [|cbn in L; lia]. destruct r; [|cbn in L; lia]. auto.
Qed.
Lemma written_none : forall t, no_writes t -> written t = [].
Proof.
  induction t as [|ev t IH]; intros N; [reflexivity|]. change (ev :: t) with ([ev] ++ t). rewrite written_app.
  rewrite (IH (fun e H => N e (or_intror H))), app_nil_r. destruct (written [ev]) as [|d l] eqn:W; [reflexivity|exfalso].
  apply (N ev); [left; reflexivity|]. destruct ev; cbn in W; try discriminate W; try (destruct r; discriminate W); eexists; [left|right]; eauto.
Qed.
Lemma ehlo_last : forall t reads, after_ehlo t reads -> exists u, written t = u ++ [EHLO_line].
Proof.
  intros t reads (u & e & -> & W & N). exists (written u). rewrite written_app, (written_cons _ _ _ W), (written_none _ N). reflexivity.
Qed.
Lemma ehlo_same : forall t r1 r2, after_ehlo t r1 -> after_ehlo t r2 -> r1 = r2.
Proof.
  intros t r1 r2 (u & e & -> & W & N) (u' & e' & E & W' & N').
  apply split_at in E as [(r & -> & ->)|(r & -> & E)].
  - exfalso. apply (N' e); [apply in_or_app; right; left; reflexivity|eauto].
  - destruct r as [|q r]; inversion E; subst; [reflexivity|]. exfalso. apply (N e'); [apply in_or_app; right; left; reflexivity|eauto].
Qed.
Lemma no_line_feed : forall text, ~ In NUL text -> single_line text -> extractAuthenticationOptions (Some text) = None.
Proof.
  intros text N S. unfold extractAuthenticationOptions. rewrite cstr_nonul by exact N.
  rewrite (extract_loop_spec [] text _ None (Forall_nil _) S); [destruct text; reflexivity|cbn; lia|intros l []].
Qed.
Lemma ehlo_not_scripted : forall k cr n, ~ In EHLO_line (map cstr (firstn n (script k cr))).
Proof.
  intros k cr n H. apply in_map_iff in H as (y & Ey & Y).
  assert (Is : In y (script k cr)) by (rewrite <- (firstn_skipn n); apply in_or_app; left; exact Y).
  assert (Sp : In " "%char (cstr y)) by (rewrite Ey; do 4 right; left; reflexivity).
  rewrite (script_nonul k cr) in Ey by exact Is. destruct k; cbn in Is.
  - destruct Is as [<-|[]]. discriminate Ey.
  - destruct Is as [<-|[<-|[<-|[]]]]; [discriminate Ey|exact (encode_no_space _ Sp)|exact (encode_no_space _ Sp)].
  - destruct Is as [<-|[]]. discriminate Ey.
Qed.
Definition starts_writing (t : list event) : Prop := t = [] \/ exists ev r d, t = ev :: r /\ writes d ev.
Lemma writing_silent : forall t r, starts_writing (t ++ r) -> written t = [] -> t = [].
Proof.
  intros [|ev t] r H W; [reflexivity|exfalso]. destruct H as [H|(e & q & d & E & X)]; [discriminate H|]. cbn in E. inversion E; subst.
  rewrite (written_cons _ _ _ X) in W. discriminate W.
Qed.
Lemma mail_first : forall te r q t2, mail_or_end (r ++ t2) -> r <> [] -> before_mail ((te ++ q) ++ r) -> False.
Proof.
  intros te r q t2 [H|(ev & r' & d & E & W & M)] N Bm; destruct r as [|e r]; try contradiction; [discriminate H|]. inversion E; subst.
  apply (Bm d); [apply written_in, W|exact M].
Qed.
Lemma chronicle_none : forall c t x t1 t2 reads cr line, chronicle c t x -> orderly t -> t = t1 ++ t2 -> after_ehlo t1 reads ->
  (c_kind c = KOpp -> In STARTTLS (written t1)) -> starts_writing t2 -> before_mail t1 -> c_cred c = Some cr ->
  announced (seen reads) line -> (forall k, compatible (cr_method cr) k -> ~ is_word (keyword k) line) ->
  t2 = [] /\ forall code, x = Done code -> code = CLIENT_AUTHENTICATION_METHOD_NOTSUPPORTED \/ In code final_codes \/ (1 <= code /\ code <> 250).
Proof.
  intros c t x t1 t2 reads cr line Ch Or E Ae St Sw Bm Cr An Nk. pose proof (ehlo_last _ _ Ae) as La.
  inversion Ch as [te tm x0 n W M|te x0 n W Cd|te tm x0 Sp|te rd ta tm y x0 W Ar Ap Tl]; subst.
  - exfalso. apply app_eq_app in H as (r & [[-> ->]|[-> ->]]).
    + rewrite written_app in W.
      assert (W' : written t1 ++ written r = firstn (Nat.min n (length (removelast (opening_lines (c_kind c))))) (opening_lines (c_kind c))).
      { rewrite W. clear. destruct (c_kind c); destruct n as [|[|[|]]]; reflexivity. }
      destruct (reach _ _ _ _ W' La St) as [X Y]. rewrite X, Y, app_nil_r in W. apply (f_equal (@length str)) in W. rewrite firstn_length in W.
      clear -W. destruct (c_kind c); cbn in W; lia.
    + destruct r as [|e r].
      * rewrite app_nil_r in *.
        assert (W' : written te ++ [] = firstn (Nat.min n (length (removelast (opening_lines (c_kind c))))) (opening_lines (c_kind c))).
        { rewrite W. clear. destruct (c_kind c); destruct n as [|[|[|]]]; reflexivity. }
        destruct (reach _ _ _ _ W' La St) as [X _]. rewrite X in W. apply (f_equal (@length str)) in W. rewrite firstn_length in W.
        clear -W. destruct (c_kind c); cbn in W; lia.
      * apply (mail_first te (e :: r) [] t2 M); [discriminate|]. rewrite app_nil_r. exact Bm.
  - rewrite written_app in W. destruct (reach _ _ _ _ W La St) as [_ Y].
    assert (Z0 : t2 = []) by (apply (writing_silent t2 []); [rewrite app_nil_r; exact Sw|exact Y]). split; [exact Z0|].
    intros code X. destruct (Cd _ X) as [N [F|F]]; [auto|]. right. right. split; [exact (orderly_spoken _ _ Or F)|exact N].
  - exfalso. assert (O : orderly te) by (intros ev q d I0; apply Or; rewrite <- H; apply in_or_app; left; exact I0).
    pose proof (orderly_spoken _ _ O Sp). lia.
  - rewrite Cr in Ap.
    assert (Same : te = t1 -> t2 = ta ++ tm -> t2 = [] /\
      forall code, x = Done code -> code = CLIENT_AUTHENTICATION_METHOD_NOTSUPPORTED \/ In code final_codes \/ (1 <= code /\ code <> 250)).
    { intros -> E2. assert (rd = reads) by exact (ehlo_same _ _ _ Ar Ae). subst rd. unfold auth_part in Ap.
      destruct (find_sub CRLF (seen reads)) as [k|] eqn:F.
      - destruct (find_sub_some _ _ _ F) as (a & b & Es & _).
        destruct (announced_extract (seen reads) line (seen_nonul reads) An (ex_intro _ a (ex_intro _ b Es))) as (o & Eo & Op).
        destruct (extractAuthenticationOptions (Some (seen reads))) as [o'|] eqn:Eq; pose proof (eq_trans (eq_sym Eq) Eo) as Eqo; [|discriminate Eqo]. inversion Eqo; subst o'.
        destruct (choice o (cr_method cr)) as [q|] eqn:Cq; [destruct (choice_some _ _ _ _ Cq Op) as (K1 & K2 & _); exfalso; exact (Nk _ K1 K2)|].
        destruct Ap as [-> ->]. destruct Tl as [(_ & -> & ->)|[X _]]; [|discriminate X]. split; [exact E2|]. intros code X. inversion X. auto.
      - pose proof (no_line_feed _ (seen_nonul reads) (proj1 (find_sub_none _ _) F)) as Eo.
        destruct (extractAuthenticationOptions (Some (seen reads))) as [o'|] eqn:Eq; [discriminate (eq_trans (eq_sym Eq) Eo)|]. destruct Ap as [-> ->].
        destruct Tl as [(_ & -> & ->)|[X _]]; [|discriminate X]. split; [exact E2|]. intros code X. discriminate X. }
    apply app_eq_app in H as (r & [[E1 E2]|[E1 E2]]).
    + subst te. rewrite written_app in W.
      assert (W' : written t1 ++ written r = firstn (length (opening_lines (c_kind c))) (opening_lines (c_kind c))) by (rewrite firstn_all; exact W).
      destruct (reach _ _ _ _ W' La St) as [_ Y]. rewrite E2 in Sw. assert (r = []) by exact (writing_silent _ _ Sw Y). subst r. rewrite app_nil_r in *. exact (Same eq_refl E2).
    + destruct r as [|e r]; [rewrite app_nil_r in E1; exact (Same (eq_sym E1) (eq_sym E2))|]. exfalso.
      assert (Hm : mail_or_end tm) by (destruct Tl as [(_ & _ & ->)|[_ X]]; [left; reflexivity|exact X]).
      destruct Ae as (u & e0 & Eu & We & Nr). rewrite E1 in Eu, Bm.
      (* the write of EHLO comes after the connection *)
      assert (In_r : exists a, e :: r = a ++ e0 :: reads).
      { apply split_at in Eu as [(q & -> & Eq)|(q & -> & Eq)]; [exfalso|eauto].
        assert (Wr : exists d, writes d e).
        { unfold auth_part in Ap. assert (Mt : ta = [] -> exists d, writes d e).
          { intros ->. cbn [app] in E2. destruct Hm as [->|(ev & tl & d & -> & Wm & _)]; [discriminate E2|]. inversion E2; subst. eauto. }
          destruct (extractAuthenticationOptions _); [|destruct Ap; auto]. destruct (choice _ _); [|destruct Ap; auto].
          destruct Ap as ([X|(ev & tl & X & Wm)] & _); [auto|]. rewrite X in E2. inversion E2; subst. eauto. }
        destruct Wr as [d Wr]. apply (Nr e); [rewrite Eq; apply in_or_app; right; left; reflexivity|eauto]. }
      destruct In_r as [a Ea]. rewrite Ea in E2. rewrite <- app_assoc in E2. cbn [app] in E2.
      apply split_at in E2 as [(q & Et & _)|(q & Et & E2)].
      * unfold auth_part in Ap. destruct (extractAuthenticationOptions _); [|destruct Ap as [Ap _]; rewrite Ap in Et; destruct a; discriminate Et].
        destruct (choice _ _); [|destruct Ap as [Ap _]; rewrite Ap in Et; destruct a; discriminate Et].
        destruct Ap as (_ & (n & Wn & _) & _). apply (ehlo_not_scripted m cr n). rewrite <- Wn, Et. apply written_in, We.
      * rewrite Ea, Et in Bm. destruct Hm as [->|(ev & tl & d & -> & Wm & Md)]; [destruct q; discriminate E2|].
        apply (Bm d); [|exact Md]. rewrite <- !app_assoc. apply written_in_r. apply written_in_r.
        destruct q as [|z q]; inversion E2; subst; [apply (written_in _ []), Wm|]. apply (written_in _ [] _ _ Wm).
Qed.
Lemma world_chronicle : forall i c m w x w' t, get_client w i = Some c -> c_conn c = false -> step (OSend i m) w = (x, w') -> w_trace w' = w_trace w ++ t ->
  chronicle c t x.
Proof.
  intros i c m w x w' t G C S T. destruct (step_send _ _ _ _ _ _ G S) as (X & _ & T' & _).
  destruct (sendMail m _) as [o s'] eqn:H. cbn [fst snd] in *. subst o. destruct (sendMail_chronicle _ _ _ _ (C : c_conn (s_c (mkSt c (w_env w) (w_trace w))) = false) H) as (t' & T2 & St). cbn [s_t s_c] in *.
  rewrite T, T2 in T'. apply app_inv_head in T'. subst t'. exact St.
Qed.
Lemma world_none_supported : forall i c cr m w x w' t1 t2 reads line, get_client w i = Some c -> c_conn c = false -> c_cred c = Some cr ->
  step (OSend i m) w = (x, w') -> w_trace w' = w_trace w ++ t1 ++ t2 -> orderly (t1 ++ t2) -> before_mail t1 -> after_ehlo t1 reads ->
  (c_kind c = KOpp -> In STARTTLS (written t1)) -> (t2 = [] \/ exists ev r d, t2 = ev :: r /\ writes d ev) ->
  announced (seen reads) line -> (forall k, compatible (cr_method cr) k -> ~ is_word (keyword k) line) ->
  t2 = [] /\ forall code, x = Done code -> code = CLIENT_AUTHENTICATION_METHOD_NOTSUPPORTED \/
    In code [SOCKET_INIT_CLIENT_SEND_EHLO_ERROR; SOCKET_INIT_CLIENT_SEND_EHLO_TIMEOUT; SSL_CLIENT_INITSECURECLIENT_ERROR; SSL_CLIENT_INITSECURECLIENT_TIMEOUT] \/
    (1 <= code /\ code <> 250).
Proof.
  intros i c cr m w x w' t1 t2 reads line G C Cr S T Or Bm Ae St Sw An Nk. pose proof (world_chronicle _ _ _ _ _ _ _ G C S T) as Ch.
  exact (chronicle_none _ _ _ _ _ _ _ _ Ch Or eq_refl Ae St Sw Bm Cr An Nk).
Qed.
