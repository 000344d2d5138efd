(** The text of a mail, and everything a client writes. *)

From Coq Require Import Ascii String List NArith ZArith Bool Lia.
From Verif Require Import Base ModelUtil ModelBase64 ModelAddress ModelAttachment
  ModelErrors ModelReply ModelMessage ModelState ModelClient ModelWorld
  SpecAddress SpecReply SpecText SpecMime SpecTls SpecDialogue SpecAttachment SpecWire
  Lib ProofBase64 ProofMime ProofAttachment ProofSteps ProofWalk ProofEstablish ProofWorld ProofTls ProofTls2 ProofMail4 ProofMail5 ProofBcc ProofWire.
Import ListNotations.
Open Scope Z_scope.

(** ** Lines of the text *)

Lemma lines_fields ls x : lines (concat (map (fun l => l ++ CRLF) ls) ++ x) = flat_map lines ls ++ lines x.
Proof.
  induction ls as [|l ls IH]; [reflexivity|]. cbn [map concat flat_map]. rewrite <- !app_assoc, lines_app, IH. reflexivity.
Qed.
Lemma body_lines_some fs m : body_lines fs m <> [].
Proof. discriminate. Qed.
Lemma mail_lines fs m : lines (mail_text fs m) = flat_map lines (header_fields m) ++ [[]] ++ flat_map lines (body_lines fs m).
Proof.
  unfold mail_text, header_text. rewrite <- app_assoc, lines_fields. f_equal.
  change (CRLF ++ body_text fs m) with ([] ++ CRLF ++ body_text fs m). rewrite lines_app. change (lines []) with [@nil ascii]. f_equal. apply lines_join, body_lines_some.
Qed.
Lemma end_lines x : lines (x ++ END_line) = lines x ++ [B "."; []].
Proof. exact (eq_trans (lines_app x (B "." ++ CRLF ++ [])) (f_equal (app (lines x)) (lines_app (B ".") []))). Qed.

Section Each.
Variable Q : str -> Prop.
Hypothesis Q0 : Q [].
Hypothesis Qsep : Q (B "--sep").
Hypothesis Qend : Q (B "--sep--").
Hypothesis Qtype : forall m, Forall Q (flat_map lines (text_headers m)).
Lemma each_attachment fs a : Forall Q (flat_map lines (attachment_lines fs a)) <->
  Forall Q (flat_map lines (attachment_headers a)) /\ Forall Q (lines (file_text fs a)).
Proof.
  unfold attachment_lines. rewrite !flat_map_app, !Forall_app. cbn [flat_map]. rewrite !Forall_app.
  change (lines (B "--sep")) with [B "--sep"]. change (lines []) with [@nil ascii]. rewrite ?app_nil_r.
  split; [intuition|]. intros [A C]. repeat split; auto.
Qed.
Lemma each_body_line fs m : Forall Q (flat_map lines (body_lines fs m)) <->
  Forall Q (lines (m_body m)) /\
  Forall (fun a => Forall Q (flat_map lines (attachment_headers a)) /\ Forall Q (lines (file_text fs a))) (listed (m_atts m)).
Proof.
  unfold body_lines, text_lines. rewrite !flat_map_app, !Forall_app. cbn [flat_map]. rewrite !Forall_app.
  change (lines (B "--sep")) with [B "--sep"]. change (lines []) with [@nil ascii].
  assert (A : forall l, Forall Q (flat_map lines (flat_map (attachment_lines fs) l)) <->
    Forall (fun a => Forall Q (flat_map lines (attachment_headers a)) /\ Forall Q (lines (file_text fs a))) l).
  { induction l as [|a l IH]; [split; intros; apply Forall_nil|]. cbn [flat_map]. rewrite flat_map_app, Forall_app, each_attachment, IH, Forall_cons_iff. reflexivity. }
  assert (C : Forall Q (flat_map lines (match listed (m_atts m) with [] => [] | l => flat_map (attachment_lines fs) l ++ [B "--sep--"] end)) <->
    Forall (fun a => Forall Q (flat_map lines (attachment_headers a)) /\ Forall Q (lines (file_text fs a))) (listed (m_atts m))).
  { destruct (listed (m_atts m)) as [|a l] eqn:E; [split; intros; apply Forall_nil|].
    rewrite flat_map_app, Forall_app, A. split; [intros [X _]; exact X|]. intros X. split; [exact X|]. repeat apply Forall_cons; auto. }
  rewrite C. split; [intuition|]. intros [X Y]. repeat split; auto.
Qed.
Lemma each_line fs m : Forall Q (lines (mail_text fs m)) <->
  Forall Q (flat_map lines (header_fields m)) /\ Forall Q (lines (m_body m)) /\
  Forall (fun a => Forall Q (flat_map lines (attachment_headers a)) /\ Forall Q (lines (file_text fs a))) (listed (m_atts m)).
Proof.
  rewrite mail_lines, !Forall_app, each_body_line. split; [intuition|]. intros (A & C & D). repeat split; auto.
Qed.
End Each.

(** ** Lengths *)

Lemma text_header_fits m : Forall fits (flat_map lines (text_headers m)).
Proof. unfold text_headers. destruct (m_kind m); apply Forall_cons; try apply Forall_nil; vm_compute; discriminate. Qed.
Lemma file_encoded fs a : file_up_to 4294967295 fs a -> file_text fs a = match fs (at_file a) with Some c => Encode c | None => [] end.
Proof.
  unfold file_up_to, file_text, getBase64EncodedFile. destruct (fs (at_file a)) as [c|]; [|reflexivity]. intros H. specialize (H c eq_refl). f_equal.
  assert (U : u32 (slen c) = slen c) by (unfold u32; apply N.mod_small; lia). rewrite U. unfold slen. rewrite Nnat.Nat2N.id. apply firstn_all.
Qed.
Lemma file_fits fs a : file_up_to 4294967295 fs a -> (Forall fits (lines (file_text fs a)) <-> file_up_to 747 fs a).
Proof.
  intros H. rewrite (file_encoded _ _ H). unfold file_up_to. destruct (fs (at_file a)) as [c|].
  - rewrite encode_fits. split; [intros X y E; now injection E as <-|auto].
  - split; [discriminate|]. intros _. apply Forall_cons; [vm_compute; discriminate|apply Forall_nil].
Qed.
Lemma text_fits fs m : Forall (file_up_to 4294967295 fs) (listed (m_atts m)) ->
  (Forall fits (lines (mail_text fs m)) <-> short_texts m /\ Forall (file_up_to 747 fs) (listed (m_atts m))).
Proof.
  intros H. rewrite each_line by first [apply text_header_fits|vm_compute; discriminate]. unfold short_texts. split.
  - intros (A & C & D). repeat split; auto.
    + eapply Forall_impl; [|exact D]. now intros a [X _].
    + rewrite Forall_forall in *. intros a I. apply file_fits; [auto|]. apply (D a I).
  - intros ((A & C & D) & E). repeat split; auto. rewrite Forall_forall in *. intros a I. split; [auto|]. apply file_fits; auto.
Qed.
Lemma small_files fs l : Forall (file_up_to 747 fs) l -> Forall (file_up_to 4294967295 fs) l.
Proof. apply Forall_impl. intros a H c E. specialize (H c E). lia. Qed.

(** Whatever the files: no line of an attachment is longer than 65536. *)
Lemma file_lines fs a : Forall code_line (lines (file_text fs a)).
Proof.
  unfold file_text, getBase64EncodedFile. destruct (fs (at_file a)); [apply encode_lines|]. apply Forall_cons; [|apply Forall_nil].
  split; [apply Forall_nil|vm_compute; discriminate].
Qed.

(** ** Beginnings of a text *)

Lemma completed_from p : forall cur r, exists rest, lines_from cur (p ++ r) = removelast (lines_from cur p) ++ rest.
Proof.
  induction p as [ |c|c d p IH1 IH2] using two_ind; intros cur r; [now eexists|now eexists|].
  cbn [app]. rewrite !lines_from_step. destruct (_ && _).
  - destruct (IH1 [] r) as [rest ->]. exists rest. pose proof (lines_nonempty p) as N. unfold lines in N. cbn [removelast]. destruct (lines_from [] p); [congruence|reflexivity].
  - apply IH2.
Qed.
Lemma completed_prefix p s : starts_with p s -> incl (completed p) (lines s).
Proof.
  intros [r ->] l I. destruct (completed_from p [] r) as [rest E]. unfold lines. rewrite E. apply in_or_app. now left.
Qed.
Lemma completed_data (Q : str -> Prop) fs m p r : Forall Q (lines (mail_text fs m)) -> Forall Q (flat_map lines (body_lines fs m)) -> Q (B ".") -> Q [] ->
  starts_with p (mail_text fs m ++ END_line) \/ (~ standard_reply r /\ starts_with p (body_text fs m ++ END_line)) ->
  Forall Q (completed p).
Proof.
  intros A C D E H. apply Forall_forall. intros l I.
  destruct H as [H|[_ H]]; apply completed_prefix in H; apply H in I; rewrite end_lines in I; apply in_app_or in I as [I|[<-|[<-|[]]]]; auto.
  - rewrite Forall_forall in A. auto.
  - unfold body_text in I. rewrite lines_join in I by apply body_lines_some. rewrite Forall_forall in C. auto.
Qed.

Section Run.
Variables (i : nat) (c : client) (m : message) (w : world) (x : outcome Z) (w' : world) (t : list event).
Hypothesis G : get_client w i = Some c.
Hypothesis T : w_trace w' = w_trace w ++ t.
Hypothesis S : step (OSend i m) w = (x, w').
Hypothesis O : text_ok m.
Lemma data_each (Q : str -> Prop) : Forall Q (lines (mail_text (e_fs (w_env w)) (without_bcc m))) -> Q (B ".") -> Q [] ->
  exists conn mail, phases (c_conn c) t conn mail /\
  forall before r after, mail = before ++ (DATA_line, r) :: after -> ~ In DATA_line (map fst before) ->
  exists texts, with_quits texts (map fst after) /\ Forall Q (completed (concat texts)).
Proof.
  intros A D E. destruct (world_data_texts i c m w w' t G T x S O) as (conn & mail & P & H). exists conn, mail. split; [exact P|].
  intros before r after X N. destruct (H before r after X N) as (texts & Y & _ & Z). exists texts. split; [exact Y|].
  eapply completed_data; eauto. rewrite mail_lines in A. apply Forall_app in A as [_ A]. now apply Forall_app in A as [_ A].
Qed.
End Run.

(** ** The bytes of the header fields *)

Definition printable (c : ascii) : bool := (32 <=? code c)%N && (code c <? 127)%N.
Section Chars.
Variable C : ascii -> Prop.
Hypothesis HC : forall c, printable c = true -> C c.
Lemma const_chars l : forallb printable l = true -> Forall C l.
Proof. rewrite forallb_forall, Forall_forall. auto. Qed.
Lemma chars_app a b : Forall C a -> Forall C b -> Forall C (a ++ b).
Proof. intros. apply Forall_app. auto. Qed.
Lemma show_chars a : Forall (Forall C) (address_texts a) -> Forall C (show_address a).
Proof.
  intros H. pose proof (Forall_inv H) as E. pose proof (Forall_inv (Forall_inv_tail H)) as N. unfold show_address.
  destruct (a_name a); [exact E|]. repeat apply chars_app; try assumption; apply const_chars; reflexivity.
Qed.
Lemma join_chars l : Forall (Forall C) l -> Forall C (join (B ", ") l).
Proof.
  induction l as [|x l IH]; intros H; [apply Forall_nil|]. destruct l as [|y l]; [exact (Forall_inv H)|].
  change (join (B ", ") (x :: y :: l)) with (x ++ B ", " ++ join (B ", ") (y :: l)).
  repeat apply chars_app; [exact (Forall_inv H)|apply const_chars; reflexivity|apply IH; exact (Forall_inv_tail H)].
Qed.
Lemma field_chars name l : forallb printable name = true -> Forall (Forall C) (flat_map address_texts l) -> Forall (Forall C) (address_field name l).
Proof.
  intros N H. unfold address_field. destruct l as [|a l]; [apply Forall_nil|]. apply Forall_cons; [|apply Forall_nil].
  repeat apply chars_app; try (apply const_chars; try assumption; reflexivity). apply join_chars.
  revert H. generalize (a :: l). clear a l. induction l as [|a l IH]; intros H; [apply Forall_nil|]. cbn [flat_map map] in *.
  apply Forall_app in H as [H1 H2]. apply Forall_cons; [apply show_chars; exact H1|auto].
Qed.
Lemma header_chars m : Forall (Forall C) (header_texts m) -> Forall (Forall C) (header_fields m).
Proof.
  unfold header_texts. rewrite !Forall_app. change (flat_map address_texts (m_from m :: listed (m_to m) ++ listed (m_cc m))) with
    (address_texts (m_from m) ++ flat_map address_texts (listed (m_to m) ++ listed (m_cc m))).
  rewrite flat_map_app, !Forall_app. intros ((F & T & D) & S & _). unfold header_fields. rewrite !Forall_app. split; [|split; [|split]].
  - apply Forall_cons; [|apply Forall_nil]. apply chars_app; [apply const_chars; reflexivity|now apply show_chars].
  - apply field_chars; [reflexivity|exact T].
  - apply field_chars; [reflexivity|exact D].
  - apply Forall_cons; [|apply Forall_cons; [|apply Forall_nil]].
    + apply chars_app; [apply const_chars; reflexivity|exact (Forall_inv S)].
    + apply const_chars. reflexivity.
Qed.
Lemma mime_printable a : forallb printable (getMimeType a) = true.
Proof.
  rewrite getMimeType_assoc.
  assert (A : Forall (fun kv => forallb printable (snd kv) = true) mime_table) by (unfold mime_table; repeat (apply Forall_cons; [vm_compute; reflexivity|]); apply Forall_nil).
  destruct (in_dec (list_eq_dec ascii_dec) (extension (at_file a)) (map fst mime_table)) as [H|H].
  - apply in_map_iff in H as ([k v] & E & H). simpl in E. subst. rewrite (assoc_in _ _ _ table_nodup H). rewrite Forall_forall in A. apply (A _ H).
  - rewrite assoc_notin by assumption. reflexivity.
Qed.
Lemma attachment_chars a : Forall C (at_name a) -> Forall C (at_cid a) -> Forall (Forall C) (attachment_headers a).
Proof.
  intros N D. unfold attachment_headers. pose proof (mime_printable a) as M.
  destruct (at_cid a) as [|x y]; [|remember (x :: y) as z]; cbn [app];
    repeat (apply Forall_cons; [repeat first [assumption | apply const_chars; first [assumption|reflexivity] | apply chars_app]|]); apply Forall_nil.
Qed.
Lemma listed_attachments m a : Forall (Forall C) (header_texts m) -> In a (listed (m_atts m)) -> Forall C (at_name a) /\ Forall C (at_cid a).
Proof.
  intros H I. unfold header_texts in H. rewrite !Forall_app in H. destruct H as (_ & _ & H). rewrite Forall_forall in H.
  split; apply H; apply in_flat_map; exists a; (split; [exact I|]); [left|right; left]; reflexivity.
Qed.
End Chars.

(** ** Line breaks *)

Definition unbreaking (c : ascii) : Prop := c <> CR /\ c <> LF.
Lemma unbroken_chars l : unbroken l <-> Forall unbreaking l.
Proof.
  unfold unbroken, unbreaking. rewrite Forall_forall. split.
  - intros [A D] c I. split; intros ->; auto.
  - intros H. split; intros I; destruct (H _ I); congruence.
Qed.
Lemma printable_unbreaking c : printable c = true -> unbreaking c.
Proof. intros H. split; intros ->; discriminate H. Qed.
Lemma unbroken_lines l : unbroken l -> lines l = [l].
Proof. intros [A _]. apply lines_single. intros a b ->. apply A. apply in_or_app. right. now left. Qed.
Lemma unbroken_all l : Forall unbroken l -> Forall unbroken (flat_map lines l).
Proof. induction 1 as [|x l H _ IH]; [apply Forall_nil|]. cbn [flat_map]. rewrite unbroken_lines by exact H. now apply Forall_cons. Qed.
Lemma unbroken_chars_all l : Forall unbroken l <-> Forall (Forall unbreaking) l.
Proof. split; apply Forall_impl; intros; now apply unbroken_chars. Qed.
Lemma code_unbroken l : code_line l -> unbroken l.
Proof. intros [H _]. now apply letters_unbroken. Qed.
Lemma even_lines fs m : even_message m -> Forall unbroken (lines (mail_text fs m)).
Proof.
  intros [H D]. apply unbroken_chars_all in H. apply each_line.
  - split; intros [].
  - apply unbroken_chars, const_chars; [exact printable_unbreaking|reflexivity].
  - apply unbroken_chars, const_chars; [exact printable_unbreaking|reflexivity].
  - intros m0. apply unbroken_all. unfold text_headers. apply Forall_cons; [|apply Forall_nil].
    destruct (m_kind m0); apply unbroken_chars, const_chars; try exact printable_unbreaking; reflexivity.
  - split; [|split; [exact D|]].
    + apply unbroken_all, unbroken_chars_all, header_chars; [exact printable_unbreaking|exact H].
    + rewrite Forall_forall. intros a I. destruct (listed_attachments _ _ _ H I) as [N E]. split.
      * apply unbroken_all, unbroken_chars_all, attachment_chars; auto using printable_unbreaking.
      * eapply Forall_impl; [exact code_unbroken|]. apply file_lines.
Qed.

(** ** Seven bits *)

Lemma printable_seven c : printable c = true -> ascii7 c.
Proof. unfold printable, ascii7. rewrite andb_true_iff, N.ltb_lt. lia. Qed.
Lemma seven_const l : forallb (fun c => (code c <? 128)%N) l = true -> seven_bit l.
Proof. unfold seven_bit, ascii7. rewrite forallb_forall, Forall_forall. intros H c I. apply N.ltb_lt. auto. Qed.
Lemma seven_app a b : seven_bit a -> seven_bit b -> seven_bit (a ++ b).
Proof. apply chars_app. Qed.
Lemma seven_join l : Forall seven_bit l -> seven_bit (join CRLF l).
Proof.
  induction l as [|x l IH]; intros H; [apply Forall_nil|]. destruct l as [|y l]; [exact (Forall_inv H)|].
  change (join CRLF (x :: y :: l)) with (x ++ CRLF ++ join CRLF (y :: l)).
  repeat apply seven_app; [exact (Forall_inv H)|apply seven_const; reflexivity|apply IH; exact (Forall_inv_tail H)].
Qed.
Lemma seven_cstr s : seven_bit s -> seven_bit (cstr s).
Proof. intros H. destruct (cstr_prefix s) as [y E]. unfold seven_bit in *. rewrite E in H. now apply Forall_app in H as [H _]. Qed.
Lemma seven_file fs a : seven_bit (file_text fs a).
Proof. unfold file_text, getBase64EncodedFile. destruct (fs (at_file a)); [apply encode_seven|apply Forall_nil]. Qed.

Section Seven.
Variables (fs : filesystem) (m : message).
Hypothesis PM : plain_message m.
Lemma pm_texts : seven_bit (m_body m) /\ Forall (Forall ascii7) (header_texts m) /\ Forall seven_bit (flat_map address_texts (listed (m_bcc m))).
Proof. unfold plain_message, message_texts in PM. pose proof (Forall_inv PM). pose proof (Forall_inv_tail PM) as X. apply Forall_app in X as []. auto. Qed.
Lemma seven_body : seven_bit (body_text fs m).
Proof.
  destruct pm_texts as (D & H & _). unfold body_text. apply seven_join. unfold body_lines, text_lines. rewrite !Forall_app. split; [split; [|split]|].
  - apply Forall_cons; [apply seven_const; reflexivity|apply Forall_nil].
  - unfold text_headers. apply Forall_cons; [|apply Forall_nil]. destruct (m_kind m); apply seven_const; reflexivity.
  - apply Forall_cons; [apply Forall_nil|]. apply Forall_cons; [exact D|]. apply Forall_cons; apply Forall_nil.
  - assert (A : Forall seven_bit (flat_map (attachment_lines fs) (listed (m_atts m)))).
    { apply Forall_forall. intros l I. apply in_flat_map in I as (a & I & J). destruct (listed_attachments _ _ _ H I) as [N E].
      revert J. revert l. apply Forall_forall. unfold attachment_lines. rewrite !Forall_app. split; [|split].
      - apply Forall_cons; [apply seven_const; reflexivity|apply Forall_nil].
      - apply attachment_chars; auto using printable_seven.
      - apply Forall_cons; [apply Forall_nil|]. apply Forall_cons; [apply seven_file|apply Forall_nil]. }
    destruct (listed (m_atts m)); [apply Forall_nil|]. apply Forall_app. split; [exact A|].
    apply Forall_cons; [apply seven_const; reflexivity|apply Forall_nil].
Qed.
Lemma seven_address a : In a (m_from m :: listed (m_to m) ++ listed (m_cc m) ++ listed (m_bcc m)) -> seven_bit (a_email a) /\ seven_bit (a_name a).
Proof.
  destruct pm_texts as (_ & H & X). unfold header_texts in H. rewrite !Forall_app in H. destruct H as [H _]. rewrite Forall_forall in H, X.
  intros I. assert (A : forall y, In y (address_texts a) -> seven_bit y).
  { intros y J. cbn [In] in I. rewrite app_assoc, in_app_iff in I. destruct I as [I|[I|I]].
    - apply H. apply in_flat_map. exists a. split; [now left|exact J].
    - apply H. apply in_flat_map. exists a. split; [now right|exact J].
    - apply X. apply in_flat_map. now exists a. }
  split; apply A; [left|right; left]; reflexivity.
Qed.
Lemma seven_line x : clear_line fs m x -> seven_bit x.
Proof.
  assert (F : seven_bit (a_email (m_from m)) /\ seven_bit (a_name (m_from m))) by (apply seven_address; now left). destruct F as [F1 F2].
  assert (HF : Forall seven_bit (header_fields m)) by (apply header_chars; [exact printable_seven|apply pm_texts]). rewrite Forall_forall in HF.
  assert (K : forall s, forallb (fun c => (code c <? 128)%N) s = true -> seven_bit s) by exact seven_const.
  intros H. destruct H; try (apply K; reflexivity); try (repeat apply seven_app; auto; fail).
  - destruct (seven_address a) as [E _]; [now right|]. repeat apply seven_app; auto.
  - pose proof seven_body as Y. unfold seven_bit in *. rewrite H, !Forall_app in Y. apply Y.
Qed.
End Seven.

Lemma seven_auth cr d : In d (auth_lines cr) -> seven_bit d.
Proof.
  assert (K : forall s, forallb (fun c => (code c <? 128)%N) s = true -> seven_bit s) by exact seven_const.
  intros [<-|[<-|[<-|[<-|[<-|[]]]]]]; unfold plain_command, xoauth2_command; repeat first [apply encode_seven | apply K; reflexivity | apply seven_app].
Qed.

Definition seven_label (l : label) : Prop := match l with LSend d | LPuts d => seven_bit d | _ => True end.
Definition seven_nc (l : label) : Prop := seven_label l /\ l <> LConn.
Lemma seven_base l : base l -> seven_nc l.
Proof. intros H. split; destruct l; simpl in *; try tauto; discriminate. Qed.
Lemma seven_conn : ~ seven_nc LConn.
Proof. intros [_ H]. now apply H. Qed.
Lemma seven_finish m r s : plain_message m -> walk seven_label (finish m r) s.
Proof.
  intros H. eapply walk_mono; [apply clear_finish|].
  assert (K : forall d, d = EHLO \/ (exists x, tx_line (e_fs (s_e s)) m x /\ d = cstr x) -> seven_bit d).
  { intros d [->|(x & X & ->)]; [apply seven_const; reflexivity|]. apply seven_cstr. apply (seven_line (e_fs (s_e s)) m H), bare_line, X. }
  intros l [->|X]; [exact Logic.I|]. unfold clear_nc in X. destruct l; try exact Logic.I; cbn [base] in X;
    repeat (destruct X as [X|X]; [first [discriminate X|destruct X; discriminate|destruct X]|]);
    destruct X as (y & [Y|Y] & Z); inversion Y; subst; apply K; exact Z.
Qed.
Lemma seven_send m s : plain_message m -> walk seven_label (sendMail m) s.
Proof.
  intros H. unfold walk. destruct (c_conn (s_c s)) eqn:C0.
  - rewrite sendMail_old by assumption. exact (seven_finish m 0 s H).
  - rewrite sendMail_new by assumption. change (walk seven_label (r <- establish;; finish m r) s). apply walk_bind.
    + apply walk_mono with (P := seven_nc); [|intros l [X _]; exact X].
      apply westablish; try exact seven_base; try apply seven_conn; try assumption.
      all: try (split; [exact Logic.I|discriminate]).
      * split; [apply seven_const; reflexivity|discriminate].
      * split; [apply seven_const; reflexivity|discriminate].
      * intros cr d _ I. split; intros; (split; [apply seven_cstr; eapply seven_auth; eauto|discriminate]).
    + intros r s1 _ _. now apply seven_finish.
Qed.
Lemma seven_destroy s : walk seven_label destroy s.
Proof.
  unfold destroy. apply walk_bind; [|intros; apply walk_ret].
  apply walk_mono with (P := seven_nc); [|intros l [H _]; exact H].
  apply wcleanup; [apply seven_base|]. intros _. split; (split; [apply seven_const; reflexivity|discriminate]).
Qed.
Definition seven_event (ev : event) : Prop := forall d, writes d ev -> seven_bit d.
Lemma seven_events s s' : steps seven_label s s' -> exists t, s_t s' = s_t s ++ t /\ Forall seven_event t.
Proof.
  intros H. induction H as [s|l s1 s2 s3 H Pl S (t2 & T2 & W2)].
  - exists []. split; [symmetry; apply app_nil_r|apply Forall_nil].
  - assert (E : exists t, s_t s2 = s_t s1 ++ t /\ Forall seven_event t).
    { destruct l; try (destruct (estep_silent _ _ _ H) as (t & T & W); [exact (fun x => x)|]; exists t; split; [exact T|];
        apply Forall_forall; intros ev Hev d [(fd & r & ->)|(b & r & ->)]; destruct (W _ Hev)).
      all: inversion H; subst; eexists; (split; [reflexivity|]); (apply Forall_cons; [|apply Forall_nil]);
        intros y [(fd & q & Y)|(b' & q & Y)]; inversion Y; subst; try exact Pl; apply seven_const; reflexivity. }
    destruct E as (t1 & E1 & W1). exists (t1 ++ t2). rewrite T2, E1, <- app_assoc. split; [reflexivity|]. apply Forall_app. auto.
Qed.
Lemma seven_step o w x w' : (forall i m, o = OSend i m -> plain_message m) -> step o w = (x, w') ->
  exists t, w_trace w' = w_trace w ++ t /\ Forall seven_event t.
Proof.
  intros H S. apply step_effect in S as [[E _]|[(j & m & c & -> & _ & _ & _ & E)|(j & c & -> & _ & _ & _ & E)]].
  - exists []. split; [rewrite app_nil_r; exact E|apply Forall_nil].
  - rewrite E. apply (seven_events (mkSt c (w_env w) (w_trace w))). apply seven_send. eauto.
  - rewrite E. apply (seven_events (mkSt c (w_env w) (w_trace w))). apply seven_destroy.
Qed.
Lemma seven_run ops : forall w, (forall i m, In (OSend i m) ops -> plain_message m) -> Forall seven_event (w_trace w) ->
  Forall seven_event (w_trace (snd (run ops w))).
Proof.
  induction ops as [|o ops IH]; intros w H F; [exact F|]. cbn [run]. destruct (step o w) as [x w'] eqn:S.
  assert (F' : Forall seven_event (w_trace w')).
  { destruct (seven_step o w x w') as (t & -> & T); [|exact S|apply Forall_app; auto]. intros i m ->. apply (H i). now left. }
  destruct (continues x); [|exact F']. specialize (IH w' (fun i m X => H i m (or_intror X)) F'). destruct (run ops w'). exact IH.
Qed.
Lemma everything_seven ops e : (forall i m, In (OSend i m) ops -> plain_message m) ->
  forall ev d, In ev (w_trace (snd (run ops (initial_world e)))) -> writes d ev -> seven_bit d.
Proof.
  intros H ev d I W. assert (F := seven_run ops (initial_world e) H (Forall_nil _)). rewrite Forall_forall in F. exact (F ev I d W).
Qed.

(** ** Lines of at most 64 KiB, whatever the files *)

Lemma fits_64k l : fits l -> (slen l <= 65536)%N.
Proof. unfold fits. lia. Qed.
Lemma text_64k fs m : short_texts m -> Forall (fun l => (slen l <= 65536)%N) (lines (mail_text fs m)).
Proof.
  intros (A & C & D). apply each_line; try (vm_compute; discriminate).
  - intros m0. eapply Forall_impl; [exact fits_64k|]. apply text_header_fits.
  - split; [eapply Forall_impl; [exact fits_64k|exact A]|]. split; [eapply Forall_impl; [exact fits_64k|exact C]|].
    rewrite Forall_forall in *. intros a I. split; [eapply Forall_impl; [exact fits_64k|exact (D a I)]|].
    eapply Forall_impl; [|apply file_lines]. now intros l [_ H].
Qed.
Lemma run_short i c m w x w' t : get_client w i = Some c -> w_trace w' = w_trace w ++ t -> step (OSend i m) w = (x, w') -> text_ok m ->
  short_texts m ->
  exists conn mail, phases (c_conn c) t conn mail /\
  forall before r after, mail = before ++ (DATA_line, r) :: after -> ~ In DATA_line (map fst before) ->
  exists texts, with_quits texts (map fst after) /\
    Forall (fun l => (slen l <= 65536)%N) (completed (concat texts)) /\
    (Forall (file_up_to 747 (e_fs (w_env w))) (listed (m_atts m)) -> Forall fits (completed (concat texts))).
Proof.
  intros G T S O H.
  destruct (data_each i c m w x w' t G T S O (fun l => (slen l <= 65536)%N /\
    (Forall (file_up_to 747 (e_fs (w_env w))) (listed (m_atts m)) -> fits l))) as (conn & mail & P & D).
  - pose proof (text_64k (e_fs (w_env w)) (without_bcc m) H) as A. rewrite Forall_forall in *. intros l I. split; [auto|].
    intros F. assert (E := proj2 (text_fits (e_fs (w_env w)) (without_bcc m) (small_files _ _ F)) (conj H F)). rewrite Forall_forall in E. auto.
  - split; [|intros _]; vm_compute; discriminate.
  - split; [|intros _]; vm_compute; discriminate.
  - exists conn, mail. split; [exact P|]. intros before r after E N. destruct (D before r after E N) as (texts & Q & F).
    exists texts. split; [exact Q|]. split; [eapply Forall_impl; [|exact F]; now intros l []|].
    intros X. eapply Forall_impl; [|exact F]. intros l [_ Y]. auto.
Qed.
Lemma run_even i c m w x w' t : get_client w i = Some c -> w_trace w' = w_trace w ++ t -> step (OSend i m) w = (x, w') -> text_ok m ->
  even_message m ->
  exists conn mail, phases (c_conn c) t conn mail /\
  forall before r after, mail = before ++ (DATA_line, r) :: after -> ~ In DATA_line (map fst before) ->
  exists texts, with_quits texts (map fst after) /\ Forall unbroken (completed (concat texts)).
Proof.
  intros G T S O H. apply (data_each i c m w x w' t G T S O unbroken).
  - now apply (even_lines _ (without_bcc m)).
  - split; intros [X|[]]; discriminate X.
  - split; intros [].
Qed.
