(** The string API does what the C API does. *)

From Coq Require Import Ascii String List NArith ZArith Bool Arith Lia.
From Verif Require Import Base Lib ModelUtil ModelBase64 ModelAddress ModelAttachment
  ModelErrors ModelReply ModelMessage ModelState ModelClient ModelWorld ModelCpp SpecCpp
  ProofErrors ProofText ProofSteps ProofWalk ProofPhases ProofEstablish ProofLog ProofSend ProofWorld.
Import ListNotations.

(** ** Constructing anew from what the getters return *)

Lemma address_new_done : forall e n a, address_new e n = Done a ->
  exists x y, e = Some x /\ n = Some y /\ a = mkAddr (cstr x) (cstr y).
Proof.
  intros [x | ] n a E; [ | discriminate ]. cbn [address_new] in E.
  destruct (match cstr x with [] => Done true | _ => _ end) as [[] | | | | | ]; try discriminate. cbn [obind] in E.
  destruct (negb _); [ discriminate | ]. destruct n as [y | ]; [ | discriminate ]. injection E as <-. now exists x, y.
Qed.
Lemma address_again : forall e n a, address_new e n = Done a -> toStdMessageAddress a = Done a.
Proof.
  intros e n a E. destruct (address_new_done _ _ _ E) as (x & y & -> & -> & ->). unfold toStdMessageAddress.
  cbn [address_new a_email a_name] in *. rewrite !cstr_cstr. exact E.
Qed.

Lemma attachment_new_done : forall f n c a, attachment_new f n c = Done a ->
  exists x y z, f = Some x /\ n = Some y /\ c = Some z /\ a = mkAtt (cstr y) (cstr x) (cstr z).
Proof.
  intros [x | ] n c a E; [ | discriminate ]. cbn [attachment_new] in E.
  destruct (match cstr x with [] => Done true | _ => _ end) as [[] | | | | | ]; try discriminate. cbn [obind] in E.
  destruct n as [y | ]; [ | discriminate ]. destruct c as [z | ]; [ | discriminate ]. injection E as <-. now exists x, y, z.
Qed.
Lemma attachment_again : forall f n c a, attachment_new f n c = Done a -> toStdAttachment a = Done a.
Proof.
  intros f n c a E. destruct (attachment_new_done _ _ _ _ E) as (x & y & z & -> & -> & -> & ->). unfold toStdAttachment.
  cbn [attachment_new at_name at_file at_cid] in *. rewrite !cstr_cstr. exact E.
Qed.

Lemma credential_new_done : forall u p c, credential_new u p = Done c ->
  exists x y, u = Some x /\ p = Some y /\ c = mkCred (cstr x) (cstr y) kImplicit.
Proof.
  intros u p c E. unfold credential_new in E. destruct u as [x | ]; [ | discriminate ].
  destruct (null_or_blank (Some x)) as [[] | | | | | ]; try discriminate. cbn [obind] in E.
  destruct p as [y | ]; [ | discriminate ]. destruct (cstr y) eqn:Ey; [ discriminate | ]. injection E as <-. exists x, y. now rewrite Ey.
Qed.
Lemma credential_new_again : forall u p c, credential_new u p = Done c ->
  credential_new (Some (cr_user c)) (Some (cr_pass c)) = Done c.
Proof.
  intros u p c E. destruct (credential_new_done _ _ _ E) as (x & y & -> & -> & ->). unfold credential_new, null_or_blank in *.
  cbn [cr_user cr_pass]. rewrite !cstr_cstr. exact E.
Qed.
Lemma credential_again : forall k u p m c, cpp_cred u p m = Done c ->
  k <> KPlain \/ m = None \/ m = Some kImplicit -> toStdCredential k c = Done c.
Proof.
  intros k u p m c E H. unfold cpp_cred, cpp_credential_new3, cpp_credential_new, c_str in E.
  assert (X : exists d, credential_new (Some u) (Some p) = Done d /\ cr_user c = cr_user d /\ cr_pass c = cr_pass d /\
    c = mkCred (cr_user d) (cr_pass d) (match m with None => kImplicit | Some v => v end)).
  { destruct m as [v | ].
    - destruct (credential_new (Some u) (Some p)) as [d | | | | | ]; try discriminate. cbn in E. injection E as <-. now exists d.
    - exists c. destruct (credential_new_done _ _ _ E) as (x & y & _ & _ & ->). auto. }
  destruct X as (d & Ed & U & P & ->). pose proof (credential_new_again _ _ _ Ed) as A.
  destruct (credential_new_done _ _ _ Ed) as (x & y & _ & _ & ->). cbn [cr_user cr_pass] in *.
  unfold toStdCredential, credential_new3, c_str. cbn [cr_user cr_pass cr_method].
  destruct k; [ | rewrite A; reflexivity | rewrite A; reflexivity ].
  rewrite A. destruct H as [N | [-> | ->]]; [ now destruct N | reflexivity | reflexivity ].
Qed.
Lemma cred_same : forall u p m, cpp_cred u p m = c_credential u p m.
Proof. intros u p [m | ]; reflexivity. Qed.

Lemma transform_again : forall A C (f : A -> outcome C) g l q, transform f l = Done q ->
  (forall a c, f a = Done c -> g c = Done c) -> transform g q = Done q.
Proof.
  intros A C f g l. induction l as [ | a r IH]; intros q E G; cbn in E.
  - injection E as <-. reflexivity.
  - destruct (f a) as [c | | | | | ] eqn:Ea; try discriminate. cbn in E. destruct (transform f r) as [q' | | | | | ] eqn:Er; try discriminate.
    cbn in E. injection E as <-. cbn. rewrite (G _ _ Ea). cbn. now rewrite (IH q' eq_refl G).
Qed.
Lemma transform_all : forall A C (f g : A -> outcome C) l, (forall a, f a = g a) -> transform f l = all g l.
Proof. intros A C f g l H. induction l as [ | a r IH]; [ reflexivity | ]. cbn. now rewrite H, IH. Qed.
Lemma transform_length : forall A C (f : A -> outcome C) l q, transform f l = Done q -> length q = length l.
Proof.
  intros A C f l. induction l as [ | a r IH]; intros q E; cbn in E; [ now injection E as <- | ].
  destruct (f a); try discriminate. cbn in E. destruct (transform f r) eqn:Er; try discriminate. injection E as <-. cbn. now rewrite (IH _ eq_refl).
Qed.

(** ** Messages that are sent alike *)

Inductive alike_arr {A} : arr A -> arr A -> Prop :=
| al_null : alike_arr (ANull 0) (AArr [])
| al_same : forall l, alike_arr (AArr l) (AArr l).

Record alike (m m' : message) : Prop := mkAlike {
  k_kind : m_kind m = m_kind m'; k_from : m_from m = m_from m'; k_to : alike_arr (m_to m) (m_to m');
  k_cc : alike_arr (m_cc m) (m_cc m'); k_bcc : alike_arr (m_bcc m) (m_bcc m');
  k_subject : m_subject m = m_subject m'; k_body : m_body m = m_body m'; k_atts : alike_arr (m_atts m) (m_atts m') }.

Lemma recipients_alike : forall a b r, alike_arr a b -> recipients_loop (a :: r) = recipients_loop (b :: r).
Proof. intros a b r [ | l]; reflexivity. Qed.
Lemma recipients_rest : forall a r r', recipients_loop r = recipients_loop r' -> recipients_loop (a :: r) = recipients_loop (a :: r').
Proof. intros [n | l] r r' E; cbn [recipients_loop]; now rewrite E. Qed.
Lemma header_alike : forall f a b, alike_arr a b -> address_header f a = address_header f b.
Proof. intros f a b [ | l]; reflexivity. Qed.
Lemma body_alike : forall fs m m', alike m m' -> body_real fs m = body_real fs m'.
Proof.
  intros fs m m' []. unfold body_real, body_text_part. rewrite k_kind0, k_body0. destruct k_atts0; reflexivity.
Qed.

Lemma sendMail_alike : forall m m' s, alike m m' -> sendMail m s = sendMail m' s.
Proof.
  intros m m' s0 A. pose proof (fun fs => body_alike fs m m' A) as Bd. destruct A.
  assert (R : setMailRecipients m = setMailRecipients m').
  { unfold setMailRecipients. rewrite k_from0. rewrite (recipients_alike _ _ _ k_to0).
    rewrite (recipients_rest (m_to m') [m_cc m; m_bcc m] [m_cc m'; m_bcc m']); [ reflexivity | ].
    rewrite (recipients_alike _ _ _ k_cc0). apply recipients_rest. now apply recipients_alike. }
  assert (H : setMailHeaders m = setMailHeaders m').
  { unfold setMailHeaders. now rewrite k_from0, k_subject0, (header_alike _ _ _ k_to0), (header_alike _ _ _ k_cc0). }
  assert (Bt : body_text_part m = body_text_part m') by (unfold body_text_part; now rewrite k_kind0, k_body0).
  assert (D : forall s, setMailBody m s = setMailBody m' s).
  { intros s. unfold setMailBody. rewrite Bt. unfold bind, gete. destruct (logc (body_text_part m') s) as [[] s1]; try reflexivity.
    now rewrite Bd. }
  assert (T : forall s, mail_transaction m s = mail_transaction m' s).
  { intros s. unfold mail_transaction. rewrite R, H. unfold bind. destruct (setMailRecipients m' s) as [[r | | | | | ] s1]; try reflexivity.
    destruct (negb (r =? 0)%Z); [ reflexivity | ]. destruct (setMailHeaders m' s1) as [[h | | | | | ] s2]; try reflexivity.
    destruct (negb (h =? 0)%Z); [ reflexivity | ]. now rewrite D. }
  unfold sendMail, bind. destruct (getc s0) as [[c | | | | | ] s1]; try reflexivity.
  destruct ((if c_conn c then ret 0%Z else establish) s1) as [[r | | | | | ] s2]; try reflexivity.
  destruct (negb (r =? 0)%Z); [ reflexivity | ]. destruct (updc (set_conn true) s2) as [[] s3]; try reflexivity. apply T.
Qed.

Lemma arr_new_alike : forall A im (l : list A), alike_arr (arr_new (vec_data im l) (length l)) (arr_new (Some l) (length l)).
Proof.
  intros A im [ | a r]; cbn [vec_data arr_new].
  - destruct (empty_null im); constructor.
  - constructor.
Qed.
Lemma arr_copy_alike : forall A (a b c : arr A), alike_arr a b -> arr_copy a = Done c -> alike_arr c b.
Proof. intros A a b c [ | [ | x l]] E; cbn in E; injection E as <-; constructor. Qed.
Lemma arr_copy_done : forall A (a b : arr A), alike_arr a b -> exists c, arr_copy a = Done c.
Proof. intros A a b [ | [ | x l]]; cbn; eauto. Qed.
Lemma copy_alike : forall m m', alike m m' -> exists c, message_copy m = Done c /\ alike c m'.
Proof.
  intros m m' []. unfold message_copy.
  destruct (arr_copy_done _ _ _ k_to0) as (t & Et), (arr_copy_done _ _ _ k_cc0) as (c & Ec),
    (arr_copy_done _ _ _ k_bcc0) as (b & Eb), (arr_copy_done _ _ _ k_atts0) as (a & Ea).
  rewrite Et, Ec, Eb, Ea. cbn [obind]. eexists. split; [ reflexivity | ].
  constructor; cbn [m_kind m_from m_to m_cc m_bcc m_subject m_body m_atts]; try assumption; eapply arr_copy_alike; eassumption.
Qed.

(** A converted message is sent like the message a C program builds. *)
Lemma addresses_same : forall l, cpp_addresses l = c_addresses l.
Proof. intros l. now apply transform_all. Qed.
Lemma attachments_same : forall l, cpp_attachments l = c_attachments l.
Proof. intros l. now apply transform_all. Qed.

Lemma built_alike : forall im t, x_to t <> [] ->
  match c_message t with
  | Done m => exists m', obind (cpp_build t) (toStdMessage im) = Done m' /\ alike m' m
  | Throw => obind (cpp_build t) (toStdMessage im) = Throw
  | Undef u => obind (cpp_build t) (toStdMessage im) = Undef u
  | Blocked => obind (cpp_build t) (toStdMessage im) = Blocked
  | Killed => obind (cpp_build t) (toStdMessage im) = Killed
  | Diverge => obind (cpp_build t) (toStdMessage im) = Diverge
  end.
Proof.
  intros im t Nt. unfold c_message, cpp_build, cpp_address_new, c_str. change cpp_addresses with c_addresses. change cpp_attachments with c_attachments.
  destruct (address_new _ _) as [from | | | | | ] eqn:Ef; try reflexivity. cbn [obind].
  destruct (c_addresses (x_to t)) as [to | | | | | ] eqn:Et; try reflexivity. cbn [obind].
  destruct (c_addresses (x_cc t)) as [cc | | | | | ] eqn:Ec; try reflexivity. cbn [obind].
  destruct (c_addresses (x_bcc t)) as [bcc | | | | | ] eqn:Eb; try reflexivity. cbn [obind].
  destruct (c_attachments (x_atts t)) as [att | | | | | ] eqn:Ea; try reflexivity. cbn [obind].
  change c_addresses with cpp_addresses in Et, Ec, Eb. change c_attachments with cpp_attachments in Ea.
  assert (Lt : to <> []). { apply transform_length in Et. destruct to; [ | discriminate ]. destruct (x_to t); [ now destruct Nt | discriminate ]. }
  unfold cpp_message_new. destruct to as [ | a0 r0] eqn:Eto; [ now destruct Lt | ]. rewrite <- Eto in *. cbn [obind].
  unfold toStdMessage. cbn [q_kind q_from q_to q_subject q_body q_cc q_bcc q_atts].
  assert (G : forall x y, cpp_address_new (fst x) (snd x) = Done y -> toStdMessageAddress y = Done y) by (intros x y E; eapply address_again; exact E).
  assert (G2 : forall x y, cpp_attachment_new (fst (fst x)) (snd (fst x)) (snd x) = Done y -> toStdAttachment y = Done y) by (intros x y E; eapply attachment_again; exact E).
  unfold getStdMessageAddressVec, getStdAttachmentVec.
  assert (Tt : transform toStdMessageAddress to = Done to) by (eapply transform_again; [ exact Et | exact G ]).
  assert (Tc : transform toStdMessageAddress cc = Done cc) by (eapply transform_again; [ exact Ec | exact G ]).
  assert (Tb : transform toStdMessageAddress bcc = Done bcc) by (eapply transform_again; [ exact Eb | exact G ]).
  assert (Ta : transform toStdAttachment att = Done att) by (eapply transform_again; [ exact Ea | exact G2 ]).
  rewrite Tt. cbn [obind]. rewrite Tc. cbn [obind]. rewrite Tb. cbn [obind]. rewrite Ta. cbn [obind].
  rewrite (address_again _ _ _ Ef). cbn [obind].
  match goal with |- exists m', (if _ then Done ?a else _) = _ /\ alike _ ?b => assert (Al : alike a b) end.
  { constructor; cbn [m_kind m_from m_to m_cc m_bcc m_subject m_body m_atts message_new]; auto using arr_new_alike. }
  destruct (elides im); [ eauto | ]. exact (copy_alike _ _ Al).
Qed.

(** ** Programs *)

Lemma run_on_same : forall A i (m m' : M A) f w, (forall s, m s = m' s) -> run_on i m f w = run_on i m' f w.
Proof. intros A i m m' f w E. unfold run_on. destruct (get_client w i); [ | reflexivity ]. now rewrite E. Qed.

Definition no_plain (w : world) : Prop := forall i c, get_client w i = Some c -> c_kind c <> KPlain.

Lemma cpp_step_same : forall im o w, addressed o -> no_plain w \/ no_method o -> cpp_step im o w = c_step o w.
Proof.
  intros im [k sv port | i t | i sv | i u p m | o] w Ad Pl; try reflexivity.
  - cbn [cpp_step c_step]. pose proof (built_alike im t Ad) as X. destruct (c_message t) as [m | | | | | ]; try (now rewrite X).
    destruct X as (m' & -> & Al). cbn [given step]. apply run_on_same. intros s. now apply sendMail_alike.
  - cbn [cpp_step c_step]. destruct (get_client w i) as [c | ] eqn:Ei; [ | reflexivity ].
    change (c_credential u p m) with (cpp_cred u p m). destruct (cpp_cred u p m) as [cr | | | | | ] eqn:Ec; try reflexivity. cbn [obind].
    rewrite (credential_again _ _ _ _ _ Ec); [ reflexivity | ].
    destruct Pl as [Pl | Pl]; [ left; exact (Pl _ _ Ei) | right; cbn in Pl; destruct m; [ subst; auto | auto ] ].
Qed.

Lemma step_no_plain : forall o w x w', step o w = (x, w') -> (forall k s p, o = ONew k s p -> k <> KPlain) -> no_plain w -> no_plain w'.
Proof.
  intros o w x w' E N Np i c G. pose proof (step_origin _ _ _ _ _ _ E G) as O. destruct O; try (cbn [client_move client_moved client_move_assign set_port set_batch set_timeout set_cred set_keep set_selfsigned c_kind]; now eapply Np; eassumption).
  - subst. unfold client_new in H0. destruct (check_server_name p); try discriminate. injection H0 as <-. cbn. eapply N. reflexivity.
  - unfold client_copy in H1. destruct (c_server c); [ | discriminate ]. injection H1 as <-. cbn. eapply Np; eassumption.
  - unfold client_assign in H4. destruct (c_server c); [ | discriminate ]. injection H4 as <-. cbn. eapply Np; eassumption.
  - assert (W := proj1 (sendMail_walk m (mkSt c (w_env w) (w_trace w)))). apply steps_kind in W. cbn [s_c] in W. rewrite W. eapply Np; eassumption.
  - unfold client_setServerName in H1. destruct (check_server_name p); try discriminate. injection H1 as <-. cbn. eapply Np; eassumption.
Qed.

Lemma c_step_no_plain : forall o w x w', c_step o w = (x, w') -> secure o -> no_plain w -> no_plain w'.
Proof.
  intros [k sv port | i t | i sv | i u p m | o] w x w' E Se Np; cbn [c_step] in E.
  - eapply step_no_plain; [ exact E | | exact Np ]. intros k' s' p' E'. injection E' as <- _ _. exact Se.
  - unfold given in E. destruct (c_message t); try (injection E as <- <-; exact Np). eapply step_no_plain; [ exact E | discriminate | exact Np ].
  - eapply step_no_plain; [ exact E | discriminate | exact Np ].
  - destruct (get_client w i); [ | injection E as <- <-; exact Np ]. unfold given in E.
    destruct (c_credential u p m); try (injection E as <- <-; exact Np). eapply step_no_plain; [ exact E | discriminate | exact Np ].
  - eapply step_no_plain; [ exact E | | exact Np ]. intros k s p ->. exact Se.
Qed.

Lemma cpp_run_same : forall im ops w, Forall addressed ops -> (no_plain w /\ Forall secure ops) \/ Forall no_method ops ->
  cpp_run im ops w = c_run ops w.
Proof.
  intros im ops. induction ops as [ | o r IH]; intros w Ad H; [ reflexivity | ]. cbn [cpp_run c_run].
  rewrite cpp_step_same; [ | exact (Forall_inv Ad) | destruct H as [(H & _) | H]; [ now left | right; exact (Forall_inv H) ] ].
  destruct (c_step o w) as [x w'] eqn:E. destruct (continues x); [ | reflexivity ].
  rewrite IH; [ reflexivity | exact (Forall_inv_tail Ad) | ].
  destruct H as [(H & S) | H]; [ left | right; exact (Forall_inv_tail H) ].
  split; [ | exact (Forall_inv_tail S) ]. eapply c_step_no_plain; [ exact E | exact (Forall_inv S) | exact H ].
Qed.

Lemma cpp_same_secure : forall im e ops, Forall addressed ops -> Forall secure ops ->
  cpp_run im ops (initial_world e) = c_run ops (initial_world e).
Proof.
  intros im e ops Ad Se. apply cpp_run_same; [ exact Ad | left; split; [ | exact Se ] ]. intros i c G. now destruct i.
Qed.
Lemma cpp_same_plain : forall im e ops, Forall addressed ops -> Forall no_method ops ->
  cpp_run im ops (initial_world e) = c_run ops (initial_world e).
Proof. intros im e ops Ad Nm. apply cpp_run_same; auto. Qed.

(** ** The texts *)

Lemma address_text : forall e n a, ~ In NUL e -> ~ In NUL n -> cpp_address_new e n = Done a ->
  cpp_getEmailAddress a = e /\ cpp_getDisplayName a = n /\ toStdMessageAddress a = Done a.
Proof.
  intros e n a Ne Nn E. pose proof (address_again _ _ _ E) as Ag. destruct (address_new_done _ _ _ E) as (x & y & [= <-] & [= <-] & ->).
  split; [ now apply cstr_nonul | ]. split; [ now apply cstr_nonul | exact Ag ].
Qed.
Lemma attachment_text_kept : forall f n c a, ~ In NUL f -> ~ In NUL n -> ~ In NUL c -> cpp_attachment_new f n c = Done a ->
  cpp_getFilename a = f /\ cpp_getName a = n /\ cpp_getContentId a = c /\ toStdAttachment a = Done a.
Proof.
  intros f n c a Nf Nn Nc E. pose proof (attachment_again _ _ _ _ E) as Ag.
  destruct (attachment_new_done _ _ _ _ E) as (x & y & z & [= <-] & [= <-] & [= <-] & ->).
  split; [ now apply cstr_nonul | ]. split; [ now apply cstr_nonul | ]. split; [ now apply cstr_nonul | exact Ag ].
Qed.
Lemma credential_text : forall u p m c, ~ In NUL u -> ~ In NUL p -> cpp_credential_new3 u p m = Done c ->
  cpp_getUsername c = u /\ cpp_getPassword c = p /\ cr_method c = m.
Proof.
  intros u p m c Nu Np E. unfold cpp_credential_new3, cpp_credential_new, c_str in E.
  match type of E with obind ?t _ = _ => destruct t as [d | | | | | ] eqn:Ed end; try discriminate. cbn in E. injection E as <-.
  destruct (credential_new_done _ _ _ Ed) as (x & y & [= <-] & [= <-] & ->).
  split; [ now apply cstr_nonul | ]. split; [ now apply cstr_nonul | reflexivity ].
Qed.

(** ** Whole messages *)

Lemma addresses_text : forall l q, Forall (fun x => ~ In NUL (fst x) /\ ~ In NUL (snd x)) l -> cpp_addresses l = Done q ->
  map (fun a => (a_email a, a_name a)) q = l.
Proof.
  intros l. induction l as [ | [e n] r IH]; intros q F E; unfold cpp_addresses, cpp_attachments in E; cbn [transform] in E; [ now injection E as <- | ].
  destruct (Forall_inv F) as (Ne & Nn). pose proof (Forall_inv_tail F) as Fr. cbn [fst snd] in *.
  destruct (cpp_address_new e n) as [a | | | | | ] eqn:Ea; try discriminate. cbn [obind] in E.
  match type of E with obind ?t _ = _ => destruct t as [q' | | | | | ] eqn:Er end; try discriminate. cbn [obind] in E. injection E as <-. cbn [map].
  destruct (address_text _ _ _ Ne Nn Ea) as (Xe & Xn & _). unfold cpp_getEmailAddress, cpp_getDisplayName in *. rewrite Xe, Xn. f_equal.
  now apply IH.
Qed.
Lemma attachments_text : forall l q, Forall (fun x => ~ In NUL (fst (fst x)) /\ ~ In NUL (snd (fst x)) /\ ~ In NUL (snd x)) l ->
  cpp_attachments l = Done q -> map (fun a => (at_file a, at_name a, at_cid a)) q = l.
Proof.
  intros l. induction l as [ | [[f n] c] r IH]; intros q F E; unfold cpp_addresses, cpp_attachments in E; cbn [transform] in E; [ now injection E as <- | ].
  destruct (Forall_inv F) as (Nf & Nn & Nc). pose proof (Forall_inv_tail F) as Fr. cbn [fst snd] in *.
  destruct (cpp_attachment_new f n c) as [a | | | | | ] eqn:Ea; try discriminate. cbn [obind] in E.
  match type of E with obind ?t _ = _ => destruct t as [q' | | | | | ] eqn:Er end; try discriminate. cbn [obind] in E. injection E as <-. cbn [map].
  destruct (attachment_text_kept _ _ _ _ Nf Nn Nc Ea) as (Xf & Xn & Xc & _). unfold cpp_getFilename, cpp_getName, cpp_getContentId in *.
  rewrite Xf, Xn, Xc. f_equal. now apply IH.
Qed.

Lemma c_message_text : forall t m, c_message t = Done m -> plain_texts t -> carries_texts t m.
Proof.
  intros t m E (N1 & N2 & N3 & N4 & N5 & N6 & N7 & N8). unfold c_message in E.
  destruct (address_new _ _) as [from | | | | | ] eqn:Ef; try discriminate. cbn [obind] in E.
  destruct (c_addresses (x_to t)) as [to | | | | | ] eqn:Et; try discriminate. cbn [obind] in E.
  destruct (c_addresses (x_cc t)) as [cc | | | | | ] eqn:Ec; try discriminate. cbn [obind] in E.
  destruct (c_addresses (x_bcc t)) as [bcc | | | | | ] eqn:Eb; try discriminate. cbn [obind] in E.
  destruct (c_attachments (x_atts t)) as [att | | | | | ] eqn:Ea; try discriminate. cbn [obind] in E. injection E as <-.
  destruct (address_text _ _ _ N1 N2 Ef) as (Xe & Xn & _). unfold cpp_getEmailAddress, cpp_getDisplayName in *.
  unfold carries_texts, message_new, arr_new. cbn [m_kind m_from m_to m_cc m_bcc m_subject m_body m_atts elements]. rewrite !firstn_all.
  split; [ reflexivity | ]. split; [ rewrite Xe, Xn; now destruct (x_from t) | ].
  split; [ exact (addresses_text _ _ N3 Et) | ]. split; [ exact (addresses_text _ _ N4 Ec) | ]. split; [ exact (addresses_text _ _ N5 Eb) | ].
  split; [ now apply cstr_nonul | ]. split; [ now apply cstr_nonul | ]. exact (attachments_text _ _ N8 Ea).
Qed.

Lemma alike_elements : forall A (a b : arr A), alike_arr a b -> elements a = elements b.
Proof. intros A a b [ | l]; reflexivity. Qed.
Lemma alike_texts : forall t m m', alike m m' -> carries_texts t m' -> carries_texts t m.
Proof.
  intros t m m' []. unfold carries_texts.
  now rewrite k_kind0, k_from0, k_subject0, k_body0, (alike_elements _ _ _ k_to0), (alike_elements _ _ _ k_cc0),
    (alike_elements _ _ _ k_bcc0), (alike_elements _ _ _ k_atts0).
Qed.

Lemma converted_text : forall im t q, plain_texts t -> cpp_build t = Done q ->
  exists m, toStdMessage im q = Done m /\ carries_texts t m.
Proof.
  intros im t q N E.
  assert (Nt : x_to t <> []).
  { intros Z. unfold cpp_build in E. rewrite Z in E. change (cpp_addresses []) with (Done (@nil address)) in E. cbn [cpp_message_new] in E.
    repeat match type of E with obind ?t _ = _ => destruct t; try discriminate E; cbn [obind] in E end; discriminate. }
  pose proof (built_alike im t Nt) as X. rewrite E in X. cbn [obind] in X.
  destruct (c_message t) as [m | | | | | ] eqn:Em.
  1:{ destruct X as (m' & Em' & Al). exists m'. split; [ exact Em' | ]. eapply alike_texts; [ exact Al | ]. now apply c_message_text. }
  all: exfalso; unfold cpp_build, c_message, cpp_address_new, c_str in E, Em;
    change cpp_addresses with c_addresses in E; change cpp_attachments with c_attachments in E;
    repeat match type of E with
      | obind ?t _ = _ => let Z := fresh in destruct t eqn:Z; try discriminate E; cbn [obind] in E, Em
      end; discriminate.
Qed.

Lemma cpp_error_message : forall code junk, slen junk = 1024%N ->
  cpp_getErrorMessage_r code junk = Done (0%Z, cpp_getErrorMessage code).
Proof.
  intros code junk L. unfold cpp_getErrorMessage_r, getErrorMessage_r, cpp_getErrorMessage, getErrorMessage.
  pose proof (error_message_length code) as Lm. pose proof (error_message_nonul code) as Nm.
  change (1024 =? 0)%N with false. cbv iota. change (1024 - 1)%N with 1023%N.
  destruct (N.ltb_spec 1023 (slen (error_message code))) as [X | _]; [ lia | ].
  unfold write_buf. destruct (Nat.leb_spec (length (error_message code ++ [NUL])) (length junk)) as [_ | X].
  2:{ rewrite app_length in X. cbn in X. unfold slen in *. lia. }
  cbn [obind fst snd]. rewrite <- app_assoc. cbn [app]. rewrite cstr_app_nonul by exact Nm. cbn. now rewrite app_nil_r.
Qed.

(** SmtpClient drops the recommended method: with a recommendation for
    XOAUTH2 the string API logs in with LOGIN. *)
From Verif Require Import Samples.
Definition sample_text : mail_text :=
  mkText Html (B "joe@example.com", B "Joe") [(B "jane@example.com", B ""); (B "ann@example.org", B "Ann")] (B "Hi") (B "hello")
    [] [(B "bob@example.org", B "Bob")] [(B "/a.png", B "a.png", B "id1")].
Definition recommending (k : clientkind) : list cop :=
  [PNew k (B "smtp.example.com") 25; PSetCred 0 (B "joe") (B "secret") (Some kXOauth2); PSend 0 sample_text; POther (ODestroy 0)].
Definition chooses_env : env :=
  wire (told "220 ready" ++ [RData (B "250-AUTH LOGIN XOAUTH2" ++ CRLF ++ B "250 ok" ++ CRLF); RErr 11]).

Lemma plain_client_drops : exists im e ops, Forall addressed ops /\
  w_trace (snd (cpp_run im ops (initial_world e))) <> w_trace (snd (c_run ops (initial_world e))).
Proof.
  exists (mkImpl true true), chooses_env, (recommending KPlain). split; [ repeat constructor; discriminate | ].
  vm_compute. discriminate.
Qed.
