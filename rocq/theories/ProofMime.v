(** Proofs about the text of a mail. *)

From Coq Require Import Ascii String List NArith ZArith Bool Lia ZifyBool ZifyNat ZifyN.
From Verif Require Import Base Lib ModelUtil ModelBase64 ModelAddress ModelAttachment ModelMessage ModelClient
  SpecText SpecBase64 SpecAddress SpecReply SpecAttachment SpecMime Samples ProofBase64 ProofAddress ProofReply ProofAttachment.
Import ListNotations.

(** ** Chunks *)

Lemma chunk_loop_spec : forall fuel body i, (length body - i < fuel)%nat ->
  concat (chunk_loop fuel body i) = skipn i body /\
  Forall (fun x => (1 <= length x <= 512)%nat) (chunk_loop fuel body i).
Proof.
  induction fuel as [|f IH]; intros body i H; [lia|]. cbn [chunk_loop].
  destruct (Nat.ltb_spec i (length body)) as [L|L].
  - assert (Hlen : length (skipn i body) = (length body - i)%nat) by apply skipn_length.
    assert (Hf : (length body - (i + 512) < f)%nat) by lia.
    destruct (Nat.ltb_spec (length body - 1) (i + 512)) as [E|E].
    + assert (E2 : substr body i (length body - i) = skipn i body).
      { unfold substr. rewrite <- Hlen. apply firstn_all. }
      destruct (IH body (i + 512)%nat Hf) as [IH1 IH2].
      split.
      * cbn [concat]. rewrite E2, IH1. rewrite (@skipn_all2 _ (i + 512) body) by lia. apply app_nil_r.
      * constructor; [rewrite E2, Hlen; lia|assumption].
    + destruct (IH body (i + 512)%nat Hf) as [IH1 IH2]. split.
      * cbn [concat]. rewrite IH1. unfold substr.
        rewrite <- (skipn_skipn 512 i). apply firstn_skipn.
      * constructor; [|assumption]. unfold substr. rewrite firstn_length, Hlen. lia.
  - split; [|constructor]. simpl. symmetry. apply skipn_all2. lia.
Qed.

Lemma body_chunks_spec : forall body, concat (body_chunks body) = body /\
  (body <> [] -> Forall (fun x => (1 <= length x <= 512)%nat) (body_chunks body)) /\
  ((length body <= 512)%nat -> body_chunks body = [body]).
Proof.
  intros body. unfold body_chunks. destruct (Nat.ltb_spec 512 (length body)) as [L|L].
  - destruct (chunk_loop_spec (S (length body)) body 0 ltac:(lia)) as [H1 H2].
    split; [exact H1|]. split; [auto|lia].
  - split; [apply app_nil_r|]. split; [|reflexivity]. intros N. constructor; [|constructor].
    destruct body; [congruence|]. simpl in *. lia.
Qed.

(** ** Lines *)

Lemma two_ind : forall (P : list ascii -> Prop), P [] -> (forall c, P [c]) ->
  (forall c d r, P r -> P (d :: r) -> P (c :: d :: r)) -> forall l : list ascii, P l.
Proof.
  intros P H0 H1 H2 l. enough (P l /\ forall c, P (c :: l)) by tauto.
  induction l as [|d l [IH1 IH2]]; [auto|]. split; auto.
Qed.

Lemma lines_from_step : forall cur c d r, lines_from cur (c :: d :: r) =
  if Ascii.eqb c CR && Ascii.eqb d LF then cur :: lines_from [] r else lines_from (cur ++ [c]) (d :: r).
Proof. reflexivity. Qed.

Lemma lines_from_app : forall a cur b, lines_from cur (a ++ CRLF ++ b) = lines_from cur a ++ lines_from [] b.
Proof.
  intros a. induction a as [|c|c d a IH1 IH2] using two_ind; intros cur b.
  - reflexivity.
  - change ([c] ++ CRLF ++ b) with (c :: CR :: LF :: b).
    rewrite lines_from_step. destruct (Ascii.eqb c CR && Ascii.eqb CR LF) eqn:E.
    + apply andb_true_iff in E as [_ E]. discriminate.
    + reflexivity.
  - change ((c :: d :: a) ++ CRLF ++ b) with (c :: d :: (a ++ CRLF ++ b)).
    rewrite !lines_from_step. destruct (Ascii.eqb c CR && Ascii.eqb d LF).
    + rewrite IH1. reflexivity.
    + change (d :: a ++ CRLF ++ b) with ((d :: a) ++ CRLF ++ b). rewrite IH2. reflexivity.
Qed.

Lemma lines_app : forall a b, lines (a ++ CRLF ++ b) = lines a ++ lines b.
Proof. intros. apply lines_from_app. Qed.

Lemma lines_from_single : forall s cur, single_line s -> lines_from cur s = [cur ++ s].
Proof.
  induction s as [|c s IH]; intros cur H.
  - cbn. rewrite app_nil_r. reflexivity.
  - destruct s as [|d s]; [reflexivity|]. rewrite lines_from_step.
    destruct (Ascii.eqb c CR && Ascii.eqb d LF) eqn:E.
    + apply andb_true_iff in E as [E1 E2]. apply Ascii.eqb_eq in E1, E2. subst. exfalso.
      apply (H [] s). reflexivity.
    + rewrite IH by (eapply single_line_cons; eauto). rewrite <- app_assoc. reflexivity.
Qed.
Lemma lines_single : forall s, single_line s -> lines s = [s].
Proof. intros. apply lines_from_single. assumption. Qed.

Lemma lines_join : forall ls, ls <> [] -> lines (join CRLF ls) = flat_map lines ls.
Proof.
  induction ls as [|x ls IH]; intros H; [congruence|].
  destruct ls as [|y ls].
  - simpl. symmetry. apply app_nil_r.
  - change (join CRLF (x :: y :: ls)) with (x ++ CRLF ++ join CRLF (y :: ls)).
    rewrite lines_app, IH by discriminate. reflexivity.
Qed.

Lemma lines_nonempty : forall s, lines s <> [].
Proof.
  intros s. unfold lines. generalize (@nil ascii).
  induction s as [|c|c d s IH1 IH2] using two_ind; intros cur; try discriminate.
  rewrite lines_from_step. destruct (Ascii.eqb c CR && Ascii.eqb d LF); [discriminate|].
  apply IH2.
Qed.

Lemma join_lines_from : forall s cur, join CRLF (lines_from cur s) = cur ++ s.
Proof.
  intros s. induction s as [|c|c d s IH1 IH2] using two_ind; intros cur.
  - simpl. symmetry. apply app_nil_r.
  - reflexivity.
  - rewrite lines_from_step. destruct (Ascii.eqb c CR && Ascii.eqb d LF) eqn:E.
    + apply andb_true_iff in E as [E1 E2]. apply Ascii.eqb_eq in E1, E2. subst.
      assert (N := lines_nonempty s). unfold lines in N.
      specialize (IH1 []). destruct (lines_from [] s) as [|l ls]; [congruence|].
      change (join CRLF (cur :: l :: ls)) with (cur ++ CRLF ++ join CRLF (l :: ls)).
      rewrite IH1. reflexivity.
    + rewrite IH2. rewrite <- app_assoc. reflexivity.
Qed.
Lemma join_lines : forall s, join CRLF (lines s) = s.
Proof. intros. apply join_lines_from. Qed.

Lemma join_app : forall sep a b, a <> [] -> b <> [] -> join sep (a ++ b) = join sep a ++ sep ++ join sep b.
Proof.
  intros sep a b Ha Hb. induction a as [|x a IH]; [congruence|].
  destruct a as [|y a].
  - destruct b; [congruence|]. reflexivity.
  - change ((x :: y :: a) ++ b) with (x :: (y :: a) ++ b).
    assert (E := IH ltac:(discriminate)). simpl app in *.
    change (join sep (x :: y :: a ++ b)) with (x ++ sep ++ join sep (y :: a ++ b)).
    change (join sep (x :: y :: a)) with (x ++ sep ++ join sep (y :: a)).
    rewrite E, <- !app_assoc. reflexivity.
Qed.

(** ** The body is the described text *)

Lemma encode_no_nul : forall s, cstr (Encode s) = Encode s.
Proof.
  intros s. apply cstr_nonul. intros H. assert (C := encode_charset s). rewrite Forall_forall in C.
  apply C in H. destruct H as [H|[H|[H|H]]]; try discriminate. vm_compute in H. intuition discriminate.
Qed.

Lemma file_text_cstr : forall fs a,
  match getBase64EncodedFile fs a with None => [] | Some b64 => cstr b64 end = file_text fs a.
Proof.
  intros fs a. unfold file_text, getBase64EncodedFile. destruct (fs (at_file a)); [apply encode_no_nul|reflexivity].
Qed.

Lemma attachment_text_eq : forall fs a, attachment_text fs a = CRLF ++ join CRLF (attachment_lines fs a).
Proof.
  intros fs a. unfold attachment_text. rewrite file_text_cstr.
  unfold attachment_lines, attachment_headers. destruct (at_cid a) as [|c cid];
  [|generalize (c :: cid); intros id]; cbn [app join]; rewrite <- ?app_assoc; reflexivity.
Qed.

Lemma attachments_loop_eq : forall fs l, attachments_loop fs l =
  CRLF ++ join CRLF (flat_map (attachment_lines fs) l ++ [B "--sep--"]).
Proof.
  intros fs l. induction l as [|a l IH]; [reflexivity|].
  cbn [attachments_loop flat_map]. rewrite IH, attachment_text_eq, <- !app_assoc.
  rewrite (join_app CRLF (attachment_lines fs a)); [reflexivity|unfold attachment_lines; discriminate|].
  destruct (flat_map (attachment_lines fs) l); discriminate.
Qed.

Lemma body_text_part_eq : forall m, body_text_part m = join CRLF (text_lines m).
Proof.
  intros m. unfold body_text_part, text_lines, text_headers, msg_mime.
  destruct (m_kind m); cbn [app join]; rewrite <- ?app_assoc; reflexivity.
Qed.

Lemma Done_inj : forall (A : Type) (x y : A), Done x = Done y -> x = y.
Proof. congruence. Qed.

Lemma body_real_eq : forall fs m b, body_real fs m = Done b -> b = body_text fs m.
Proof.
  intros fs m b H. unfold body_real in H. unfold body_text, body_lines.
  destruct (m_atts m) as [[|n]|[|a l]]; try discriminate H; apply Done_inj in H; subst b; cbn [listed];
    rewrite ?app_nil_r, ?body_text_part_eq; try reflexivity.
  rewrite join_app; [|unfold text_lines; discriminate|discriminate].
  unfold createAttachmentsText. rewrite attachments_loop_eq. reflexivity.
Qed.
Lemma body_real_defined : forall fs m, well_formed (m_atts m) -> body_real fs m = Done (body_text fs m).
Proof.
  intros fs m W. assert (H : exists b, body_real fs m = Done b).
  { unfold body_real. destruct (m_atts m) as [[|n]|[|a l]]; eauto.
    destruct (W ltac:(discriminate)) as [l E]. discriminate. }
  destruct H as [b H]. rewrite H. f_equal. eapply body_real_eq; eauto.
Qed.

(** ** Multipart parsing *)

Definition not_delim (l : str) : Prop := prefixb (B "--sep") l = false.

Lemma not_delim_close : forall l, not_delim l -> prefixb (B "--sep--") l = false.
Proof.
  intros l H. destruct (prefixb (B "--sep--") l) eqn:E; [|reflexivity].
  apply prefixb_spec in E as [r ->]. discriminate H.
Qed.

Lemma parts_from_plain : forall ls cur r, Forall not_delim ls ->
  parts_from (Some cur) (ls ++ r) = parts_from (Some (cur ++ ls)) r.
Proof.
  induction ls as [|l ls IH]; intros cur r H.
  - rewrite app_nil_r. reflexivity.
  - inversion H; subst. cbn [app parts_from].
    rewrite (not_delim_close l), H2 by assumption. cbn [option_map].
    rewrite IH by assumption. rewrite <- app_assoc. reflexivity.
Qed.

Lemma parts_from_delim : forall cur r, parts_from cur (B "--sep" :: r) =
  option_map (app (match cur with Some p => [p] | None => [] end)) (parts_from (Some []) r).
Proof. reflexivity. Qed.

Lemma single_line_literal : forall s, find_sub CRLF s = None -> single_line s.
Proof. intros s H. exact (proj1 (find_sub_none CRLF s) H). Qed.

Lemma single_line_prefix : forall p s, ~ In CR p -> single_line s -> single_line (p ++ s).
Proof.
  induction p as [|c p IH]; intros s Hp Hs; [assumption|].
  intros a b E. destruct a as [|x a].
  - inversion E; subst. apply Hp. left. reflexivity.
  - inversion E; subst. apply (IH s (fun h => Hp (or_intror h)) Hs a b). assumption.
Qed.
Lemma single_line_suffix : forall s p, ~ In LF p -> single_line s -> single_line (s ++ p).
Proof.
  intros s p Hp Hs a b E.
  assert (X : In LF p \/ exists b', b = b' ++ p).
  { clear Hs. revert s E. revert b.
    induction a as [|x a IH]; intros b s E.
    - destruct s as [|c [|d s]].
      + simpl in E. left. rewrite E. right. left. reflexivity.
      + inversion E; subst. left. left. reflexivity.
      + inversion E; subst. right. exists s. reflexivity.
    - destruct s as [|c s].
      + left. change ([] ++ p) with p in E. rewrite E. apply in_or_app. right. right. left. reflexivity.
      + inversion E; subst. apply (IH b s). assumption. }
  destruct X as [X|[b' ->]]; [contradiction|].
  apply (Hs a b'). rewrite !app_assoc in E. apply app_inv_tail in E. rewrite E, <- app_assoc. reflexivity.
Qed.

(** Characters of base64 text other than '-' at the start of a line. *)
Lemma lines_no_char : forall c s cur, ~ In c s -> ~ In c cur -> Forall (fun l => ~ In c l) (lines_from cur s).
Proof.
  intros ch s. induction s as [|c|c d s IH1 IH2] using two_ind; intros cur Hs Hc.
  - constructor; [assumption|constructor].
  - constructor; [|constructor]. rewrite in_app_iff. simpl in *. tauto.
  - rewrite lines_from_step. destruct (Ascii.eqb c CR && Ascii.eqb d LF).
    + constructor; [assumption|]. apply IH1; [|intros []]. intros H. apply Hs. right. right. assumption.
    + apply IH2; [intros H; apply Hs; right; assumption|].
      rewrite in_app_iff. simpl. intros [H|[H|[]]]; [contradiction|]. apply Hs. left. assumption.
Qed.

Lemma not_delim_no_dash : forall l, ~ In "-"%char l -> not_delim l.
Proof.
  intros l H. unfold not_delim. destruct (prefixb (B "--sep") l) eqn:E; [|reflexivity].
  apply prefixb_spec in E as [r ->]. exfalso. apply H. left. reflexivity.
Qed.

Lemma file_text_no_dash : forall fs a, ~ In "-"%char (file_text fs a).
Proof.
  intros fs a. unfold file_text, getBase64EncodedFile. destruct (fs (at_file a)) as [x|]; [|intros []].
  intros H. assert (C := encode_charset (firstn (N.to_nat (u32 (slen x))) x)). rewrite Forall_forall in C.
  apply C in H. destruct H as [H|[H|[H|H]]]; try discriminate. vm_compute in H. intuition discriminate.
Qed.

(** An attachment whose name and content id are single lines. *)
Definition tidy (a : attachment) : Prop := single_line (at_name a) /\ single_line (at_cid a).

Lemma not_cr_list : forall p, find_sub [CR] p = None -> ~ In CR p.
Proof.
  intros p H Hin. apply in_split in Hin as (x & y & E). apply (proj1 (find_sub_none [CR] p) H x y). exact E.
Qed.
Lemma not_lf_list : forall p, find_sub [LF] p = None -> ~ In LF p.
Proof.
  intros p H Hin. apply in_split in Hin as (x & y & E). apply (proj1 (find_sub_none [LF] p) H x y). exact E.
Qed.

Lemma mime_types_clean : Forall (fun kv => find_sub [CR] (snd kv) = None) mime_table.
Proof. repeat constructor. Qed.
Lemma getMimeType_clean : forall a, ~ In CR (getMimeType a).
Proof.
  intros a. apply not_cr_list. rewrite getMimeType_assoc.
  destruct (in_dec (list_eq_dec ascii_dec) (extension (at_file a)) (map fst mime_table)) as [H|H].
  - apply in_map_iff in H as ([k v] & E & H). simpl in E. subst.
    rewrite (assoc_in _ _ _ table_nodup H). 
    assert (C := mime_types_clean). rewrite Forall_forall in C. apply (C _ H).
  - rewrite assoc_notin by assumption. reflexivity.
Qed.

Ltac line_tac := repeat first
  [ apply single_line_prefix; [apply not_cr_list; reflexivity|]
  | apply single_line_prefix; [apply getMimeType_clean|]
  | apply single_line_suffix; [apply not_lf_list; reflexivity|]
  | assumption ].

Lemma attachment_headers_clean : forall a, tidy a ->
  Forall (fun h => single_line h /\ not_delim h /\ h <> []) (attachment_headers a).
Proof.
  intros a [Hn Hc]. unfold attachment_headers.
  assert (E : forall p s, find_sub [CR] p = None -> prefixb (B "--sep") (firstn 5 p) = false -> (5 <= length p)%nat ->
     single_line s -> single_line (p ++ s) /\ not_delim (p ++ s) /\ p ++ s <> []).
  { intros p s H1 H2 H3 H4. split; [apply single_line_prefix; [apply not_cr_list; assumption|assumption]|].
    split; [|destruct p; [simpl in H3; lia|discriminate]].
    unfold not_delim. destruct (prefixb (B "--sep") (p ++ s)) eqn:P; [|reflexivity].
    apply prefixb_spec in P as [r P]. assert (F : firstn 5 p = B "--sep").
    { assert (X : firstn 5 (p ++ s) = B "--sep") by (rewrite P; reflexivity).
      rewrite firstn_app in X. replace (5 - length p)%nat with 0%nat in X by lia. rewrite app_nil_r in X. exact X. }
    rewrite F in H2. discriminate. }
  assert (Q : single_line (at_name a ++ B """")) by line_tac.
  apply Forall_app. split; [constructor; [|constructor]|apply Forall_app; split].
  - apply E; try reflexivity; [simpl; lia|]. line_tac.
  - destruct (at_cid a) as [|c cid].
    + constructor; [|constructor]. apply E; try reflexivity; [simpl; lia|]. line_tac.
    + constructor; [|constructor; [|constructor; [|constructor]]]; (apply E; try reflexivity; [simpl; lia|]); line_tac.
  - constructor; [|constructor]. split; [apply single_line_literal; reflexivity|]. split; [reflexivity|discriminate].
Qed.

Lemma flat_map_lines_single : forall ls, Forall single_line ls -> flat_map lines ls = ls.
Proof.
  induction 1 as [|l ls H _ IH]; [reflexivity|]. simpl. rewrite lines_single, IH by assumption. reflexivity.
Qed.

Lemma flat_map_flat_map : forall {A C D} (f : A -> list C) (g : C -> list D) l,
  flat_map g (flat_map f l) = flat_map (fun x => flat_map g (f x)) l.
Proof. intros. induction l; [reflexivity|]. simpl. rewrite flat_map_app, IHl. reflexivity. Qed.

Lemma attachment_lines_lines : forall fs a, tidy a -> flat_map lines (attachment_lines fs a) =
  B "--sep" :: attachment_headers a ++ [] :: lines (file_text fs a).
Proof.
  intros fs a T. unfold attachment_lines. rewrite !flat_map_app. cbn [flat_map].
  rewrite (flat_map_lines_single (attachment_headers a)).
  - rewrite !app_nil_r. reflexivity.
  - eapply Forall_impl; [|apply attachment_headers_clean; exact T]. intros h (H1 & H2 & H3); assumption.
Qed.

Lemma split_part_headers : forall hs content, Forall (fun h => h <> []) hs ->
  split_part (hs ++ [] :: content) = Some (hs, join CRLF content).
Proof.
  induction 1 as [|h hs H _ IH]; [reflexivity|]. cbn [app split_part].
  destruct h; [congruence|]. rewrite IH. reflexivity.
Qed.

Lemma attachments_parts : forall fs l cur, Forall tidy l ->
  parts_from (Some cur) (flat_map lines (flat_map (attachment_lines fs) l ++ [B "--sep--"])) =
  Some (cur :: map (fun a => attachment_headers a ++ [] :: lines (file_text fs a)) l).
Proof.
  intros fs l cur H. revert cur. induction H as [|a l T _ IH]; intros cur; [reflexivity|].
  cbn [flat_map map]. rewrite <- app_assoc, flat_map_app, attachment_lines_lines by assumption.
  change ((B "--sep" :: attachment_headers a ++ [] :: lines (file_text fs a)) ++ ?x)
    with (B "--sep" :: (attachment_headers a ++ [] :: lines (file_text fs a)) ++ x).
  rewrite parts_from_delim. rewrite parts_from_plain.
  - rewrite app_nil_l, IH. reflexivity.
  - apply Forall_app. split.
    + eapply Forall_impl; [|apply attachment_headers_clean; exact T]. intros h (H1 & H2 & H3); assumption.
    + constructor; [reflexivity|]. eapply Forall_impl; [|apply (lines_no_char "-"%char); [apply file_text_no_dash|intros []]].
      apply not_delim_no_dash.
Qed.

Lemma all_some_map : forall {A C} (f : A -> option C) g l, (forall x, In x l -> f x = Some (g x)) ->
  all_some (map f l) = Some (map g l).
Proof.
  intros A C f g l H. induction l as [|x l IH]; [reflexivity|]. simpl.
  rewrite H by (left; reflexivity). rewrite IH; [reflexivity|]. intros y Hy. apply H. right. assumption.
Qed.

Lemma multipart_parsed : forall fs m atts, m_atts m = AArr atts -> atts <> [] -> Forall tidy atts ->
  Forall not_delim (lines (m_body m)) ->
  parse_multipart (body_text fs m) =
  Some ((text_headers m, m_body m ++ CRLF) :: map (fun a => (attachment_headers a, file_text fs a)) atts).
Proof.
  intros fs m atts Ha Hne Ht Hb. unfold parse_multipart, body_text. 
  rewrite lines_join by (unfold body_lines, text_lines; discriminate).
  unfold body_lines. rewrite Ha. cbn [listed].
  rewrite flat_map_app. unfold text_lines. rewrite !flat_map_app.
  assert (HT : flat_map lines (text_headers m) = text_headers m).
  { apply flat_map_lines_single. unfold text_headers. constructor; [|constructor].
    apply single_line_literal. destruct (m_kind m); reflexivity. }
  rewrite HT. cbn [flat_map]. change (lines []) with [@nil ascii]. change (lines (B "--sep")) with [B "--sep"].
  rewrite app_nil_r. cbn [app].
  rewrite parts_from_delim, <- ?app_assoc. cbn [app].
  match goal with |- context [parts_from (Some []) ?x] =>
    replace x with ((text_headers m ++ [] :: lines (m_body m) ++ [[]]) ++
      flat_map lines (flat_map (attachment_lines fs) atts ++ [B "--sep--"]))
  end.
  2:{ rewrite <- !app_assoc. cbn [app]. rewrite <- !app_assoc. cbn [app].
      destruct atts; [congruence|]. reflexivity. }
  rewrite parts_from_plain.
  - rewrite app_nil_l, attachments_parts by assumption. cbn [option_map app map].
    cbn [all_some].
    assert (S1 : split_part (text_headers m ++ [] :: lines (m_body m) ++ [[]]) = Some (text_headers m, m_body m ++ CRLF)).
    { rewrite split_part_headers by (constructor; [discriminate|constructor]).
      rewrite join_app by (apply lines_nonempty || discriminate). rewrite join_lines.
      cbn [join]. rewrite app_nil_r. reflexivity. }
    rewrite S1. rewrite map_map. 
    rewrite (all_some_map _ (fun a => (attachment_headers a, file_text fs a))); [reflexivity|].
    intros a Hin. rewrite Forall_forall in Ht. rewrite split_part_headers.
    + rewrite join_lines. reflexivity.
    + eapply Forall_impl; [|apply attachment_headers_clean; apply Ht; exact Hin]. intros h (H1 & H2 & H3); assumption.
  - apply Forall_app. split.
    + unfold text_headers. constructor; [|constructor]. unfold not_delim. reflexivity.
    + constructor; [reflexivity|]. apply Forall_app. split; [assumption|constructor; [reflexivity|constructor]].
Qed.

(** ** Transparency *)

Definition dotted (l : str) : bool := prefixb (B ".") l.

Lemma receive_lines_plain : forall ls r, Forall (fun l => dotted l = false) ls ->
  receive_lines (ls ++ B "." :: r) = Some (ls, r).
Proof.
  induction 1 as [|l ls H _ IH]; [reflexivity|]. cbn [app receive_lines].
  destruct (str_eqb l (B ".")) eqn:E; [apply str_eqb_eq in E; subst; discriminate H|].
  rewrite IH. cbn [option_map fst snd]. f_equal. f_equal. f_equal.
  destruct l as [|c l]; [reflexivity|]. cbn [unstuff].
  destruct (Ascii.eqb c "."%char) eqn:D; [|reflexivity].
  apply Ascii.eqb_eq in D. subst. discriminate H.
Qed.

Lemma receive_lines_dotted : forall ls r m x, receive_lines (ls ++ B "." :: r) = Some (m, x) ->
  m = ls -> Forall (fun l => dotted l = false) ls.
Proof.
  induction ls as [|l ls IH]; intros r m x H E; [constructor|].
  cbn [app receive_lines] in H. destruct (str_eqb l (B ".")).
  - subst m. discriminate H.
  - destruct (receive_lines (ls ++ B "." :: r)) as [[m' x']|] eqn:R; [|discriminate].
    cbn [option_map fst snd] in H. subst m. injection H as E1 E2 E3.
    constructor; [|eapply IH; eauto].
    destruct l as [|c l]; [reflexivity|]. cbn [unstuff] in E1.
    destruct (dotted (c :: l)) eqn:D; [|reflexivity]. exfalso.
    unfold dotted in D. apply prefixb_spec in D as [y D]. inversion D; subst.
    change (Ascii.eqb "." ".") with true in E1. cbv iota in E1.
    assert (L := f_equal (@length ascii) E1). simpl in L. lia.
Qed.

Lemma transparency_iff : forall text after,
  receive_data (text ++ CRLF ++ B "." ++ CRLF ++ after) = Some (lines text, lines after) <->
  Forall (fun l => ~ starts_with (B ".") l) (lines text).
Proof.
  intros text after. unfold receive_data. rewrite !lines_app.
  change (lines (B ".")) with [B "."]. cbn [app].
  assert (D : forall l, dotted l = false <-> ~ starts_with (B ".") l).
  { intros l. unfold dotted, starts_with. split.
    - intros H [r ->]. discriminate.
    - intros H. destruct (prefixb (B ".") l) eqn:E; [|reflexivity]. apply prefixb_spec in E. contradiction. }
  split.
  - intros H. eapply Forall_impl; [intros l; apply D|]. eapply receive_lines_dotted; eauto.
  - intros H. apply receive_lines_plain. eapply Forall_impl; [intros l; apply D|assumption].
Qed.

(** ** Statements for the properties file *)

Lemma starts_delim : forall l, ~ starts_with (B "--sep") l -> not_delim l.
Proof.
  intros l H. unfold not_delim. destruct (prefixb (B "--sep") l) eqn:E; [|reflexivity].
  apply prefixb_spec in E. contradiction.
Qed.

Lemma multipart_recovered : forall fs m atts text, m_atts m = AArr atts -> atts <> [] ->
  Forall (fun a => single_line (at_name a) /\ single_line (at_cid a)) atts ->
  Forall (fun l => ~ starts_with (B "--sep") l) (lines (m_body m)) ->
  body_real fs m = Done text ->
  exists parts, parse_multipart text = Some ((text_headers m, m_body m ++ CRLF) :: parts) /\
    Forall2 (fun a p => fst p = attachment_headers a /\
      forall contents, fs (at_file a) = Some contents -> (slen contents < 4294967296)%N ->
        mime_decode (snd p) = Some contents) atts parts.
Proof.
  intros fs m atts text Ha Hn Ht Hb H. apply body_real_eq in H. subst text.
  exists (map (fun a => (attachment_headers a, file_text fs a)) atts). split.
  - apply multipart_parsed; try assumption. eapply Forall_impl; [|exact Hb]. intros l. apply starts_delim.
  - clear Ha Hn Ht Hb. induction atts as [|a l IH]; [constructor|].
    constructor; [|exact IH]. split; [reflexivity|]. intros contents Hf Hl. simpl.
    destruct (getBase64_complete fs a contents Hf Hl) as (t & E & D).
    unfold file_text. rewrite E. exact D.
Qed.

Lemma no_close_delimiter : forall fs m text, listed (m_atts m) = [] ->
  Forall (fun l => ~ starts_with (B "--sep") l) (lines (m_body m)) ->
  body_real fs m = Done text -> parse_multipart text = None.
Proof.
  intros fs m text Ha Hb H. apply body_real_eq in H. subst text. unfold parse_multipart, body_text.
  rewrite lines_join by (unfold body_lines, text_lines; discriminate).
  unfold body_lines. rewrite Ha, app_nil_r. unfold text_lines. rewrite !flat_map_app.
  assert (HT : flat_map lines (text_headers m) = text_headers m).
  { apply flat_map_lines_single. unfold text_headers. constructor; [|constructor].
    apply single_line_literal. destruct (m_kind m); reflexivity. }
  rewrite HT. cbn [flat_map]. change (lines []) with [@nil ascii]. change (lines (B "--sep")) with [B "--sep"].
  rewrite ?app_nil_r. cbn [app]. rewrite parts_from_delim.
  assert (E := parts_from_plain (text_headers m ++ [] :: lines (m_body m) ++ [[]]) [] []).
  rewrite app_nil_r in E. cbn [app] in *.
  match type of E with _ -> ?x = _ =>
    match goal with |- context [option_map _ ?y] => change y with x end end.
  rewrite E; [reflexivity|].
  apply Forall_app. split; [repeat constructor|].
  constructor; [reflexivity|]. apply Forall_app. split; [|repeat constructor].
  eapply Forall_impl; [|exact Hb]. intros l. apply starts_delim.
Qed.

Lemma delimiter_in_text : exists body att text parts,
  body_real files (letter body (AArr [att])) = Done text /\ parse_multipart text = Some parts /\
  length parts <> 2%nat.
Proof.
  exists (B "a" ++ CRLF ++ B "--sep" ++ CRLF ++ CRLF ++ B "b"), (mkAtt (B "pic") (B "/a.png") []).
  do 2 eexists. split; [reflexivity|]. split; [reflexivity|]. discriminate.
Qed.

Lemma dot_line_ends_mail : exists body,
  exists before commands,
  receive_data (mail_text files (letter body (ANull 0)) ++ CRLF ++ B "." ++ CRLF) = Some (before, commands) /\
  In (B "MAIL FROM:<mallory@example.com>") commands /\
  ~ In (B "bye") before.
Proof.
  exists (B "hello" ++ CRLF ++ B "." ++ CRLF ++ B "MAIL FROM:<mallory@example.com>" ++ CRLF ++ B "bye").
  do 2 eexists. split; [vm_compute; reflexivity|]. split.
  - left. reflexivity.
  - vm_compute. intuition discriminate.
Qed.
