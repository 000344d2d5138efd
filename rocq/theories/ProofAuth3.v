(** Proofs about the authentication: the mail operations of a program. *)

From Coq Require Import Ascii String List NArith ZArith Bool Lia ZifyBool ZifyNat ZifyN.
From Verif Require Import Base Lib ModelUtil ModelBase64 ModelAddress ModelAttachment ModelMessage ModelReply ModelErrors ModelState ModelClient ModelWorld
  SpecBase64 SpecDialogue SpecReply SpecLife SpecDead SpecAuth ProofBase64 ProofSteps ProofWalk ProofLife ProofDialogue ProofMail ProofMail2
  ProofTls2 ProofWorld ProofReply ProofAuth ProofAuth2.
Import ListNotations.
Open Scope Z_scope.

Lemma split_at : forall {A} (a b c : list A) x d, a ++ b = c ++ x :: d ->
  (exists r, a = c ++ x :: r /\ d = r ++ b) \/ (exists r, c = a ++ r /\ b = r ++ x :: d).
Proof.
  intros A. induction a as [|y a IH]; intros b c x d H; [right; exists c; auto|].
  destruct c as [|z c]; cbn in H.
  - inversion H; subst. left. exists a. auto.
  - inversion H; subst. destruct (IH _ _ _ _ H2) as [(r & -> & ->)|(r & -> & ->)]; [left|right]; exists r; auto.
Qed.
Lemma written_cons : forall d ev t, writes d ev -> written (ev :: t) = d :: written t.
Proof. intros d ev t W. change (ev :: t) with ([ev] ++ t). rewrite written_app, (written_write _ _ W). reflexivity. Qed.
Lemma writes_same : forall d d' ev, writes d ev -> writes d' ev -> d = d'.
Proof. intros d d' ev [(fd & r & ->)|(b & r & ->)] [(fd' & r' & E)|(b' & r' & E)]; inversion E; reflexivity. Qed.

(** ** The lines *)
Lemma auth_not_mail : forall k d, begins_auth k d -> ~ mail_command d.
Proof. intros [] d [r ->] [r' E]; discriminate E. Qed.
Lemma auth_not_early : forall k d, begins_auth k d -> d <> EHLO_line /\ d <> STARTTLS.
Proof. intros [] d [r ->]; split; discriminate. Qed.
Lemma auth_same : forall k k' d, begins_auth k d -> begins_auth k' d -> k = k'.
Proof. intros [] [] d [r ->] [r' E]; try reflexivity; discriminate E. Qed.
Lemma encode_nonul : forall s, ~ In NUL (Encode s).
Proof.
  intros s H. pose proof (encode_charset s) as C. rewrite Forall_forall in C. destruct (C _ H) as [X|[X|[X|X]]]; try discriminate X.
  vm_compute in X. intuition discriminate.
Qed.
Lemma crlf_nonul : ~ In NUL CRLF.
Proof. intros [X|[X|[]]]; discriminate X. Qed.
Lemma nonul_app : forall a b : str, ~ In NUL a -> ~ In NUL b -> ~ In NUL (a ++ b).
Proof. intros a b H1 H2 X. apply in_app_or in X as [X|X]; contradiction. Qed.
Lemma nonul_text : forall s, forallb (fun c => negb (Ascii.eqb c NUL)) s = true -> ~ In NUL s.
Proof. intros s H X. rewrite forallb_forall in H. specialize (H _ X). discriminate H. Qed.
Lemma script_nonul : forall k cr d, In d (script k cr) -> cstr d = d.
Proof.
  assert (L : forall p x, forallb (fun c => negb (Ascii.eqb c NUL)) p = true -> cstr (p ++ Encode x ++ CRLF) = p ++ Encode x ++ CRLF).
  { intros p x P. apply cstr_nonul. apply nonul_app; [apply nonul_text, P|]. apply nonul_app; [apply encode_nonul|apply crlf_nonul]. }
  intros [] cr d H; cbn [script In] in H.
  - destruct H as [<-|[]]. apply L. reflexivity.
  - destruct H as [<-|[<-|[<-|[]]]]; [reflexivity|apply (L []); reflexivity|apply (L []); reflexivity].
  - destruct H as [<-|[]]. apply L. reflexivity.
Qed.
Lemma script_begins : forall k cr, begins_auth k (cstr (hd [] (script k cr))).
Proof.
  intros k cr. rewrite (script_nonul k cr) by (destruct k; left; reflexivity). destruct k; cbn [script hd]; [|exists []; reflexivity|];
  unfold plain_command, xoauth2_command, begins_auth, opening, starts_with; eexists; reflexivity.
Qed.
Lemma script_later : forall k cr d, In d (map cstr (tl (script k cr))) -> forall k', ~ begins_auth k' d.
Proof.
  intros [] cr d H k' [r E]; cbn in H; try contradiction.
  assert (S : In " "%char d) by (rewrite E; destruct k'; right; right; right; right; left; reflexivity).
  destruct H as [<-|[<-|[]]]; exact (encode_no_space _ S).
Qed.
Lemma encode_line : forall p s, base64_line p s (p ++ Encode s ++ CRLF).
Proof.
  intros p s. exists (Encode s). split; [reflexivity|]. split; [apply mime_decode_encode|]. split.
  - intros L. rewrite encode_one_line by exact L. apply rfc_no_linebreak.
  - rewrite encode_length. zify. Z.to_euclidean_division_equations. lia.
Qed.

Lemma lines_ok : forall (l : list (str * str)) n rest, (rest = [] \/ (n >= length l)%nat /\ exists q r, rest = q :: r /\ mail_command q) ->
  credential_lines l (firstn n (map (fun ps => fst ps ++ Encode (snd ps) ++ CRLF) l) ++ rest).
Proof.
  induction l as [|[p s] l IH]; intros n rest H.
  - cbn [map]. rewrite firstn_nil. cbn [app]. destruct H as [->|[_ (q & r & -> & M)]]; [exact I|exact M].
  - destruct n as [|n].
    + destruct H as [->|[L _]]; [exact I|cbn in L; lia].
    + cbn [map firstn app fst snd credential_lines]. split; [apply encode_line|]. apply IH. destruct H as [->|[L M]]; [left; reflexivity|right]. split; [cbn in L; lia|exact M].
Qed.

(** ** Where the authentication begins *)
Definition authenticates (c : client) (t1 : list event) (k : mechanism) (d : str) (rest : list event) : Prop :=
  exists cr reads o, c_cred c = Some cr /\ after_ehlo t1 reads /\ extractAuthenticationOptions (Some (seen reads)) = Some o /\
    choice o (cr_method cr) = Some k /\ exists xa ta tm xm, rest = ta ++ tm /\ tried k cr ta xa /\ ta <> [] /\ d = cstr (hd [] (script k cr)) /\
    (tm = [] \/ (xa = Done 0 /\ mail_part tm xm)).
Lemma mail_no_auth : forall t x t1 ev t2 d k, mail_part t x -> t = t1 ++ ev :: t2 -> writes d ev -> begins_auth k d -> before_mail t1 -> False.
Proof.
  intros t x t1 ev t2 d k ([->|(e & r & d0 & -> & W & M)] & _) E We Ba Bm; [destruct t1; discriminate E|].
  destruct t1 as [|e1 t1]; inversion E; subst.
  - rewrite <- (writes_same _ _ _ We W) in M. exact (auth_not_mail _ _ Ba M).
  - apply (Bm d0); [|exact M]. rewrite (written_cons _ _ _ W). left. reflexivity.
Qed.
Lemma early_no_auth : forall t t1 ev t2 d k, early t -> t = t1 ++ ev :: t2 -> writes d ev -> begins_auth k d -> False.
Proof.
  intros t t1 ev t2 d k E -> W Ba. destruct (auth_not_early _ _ Ba) as [N1 N2]. destruct (E d (written_in _ _ _ _ W)); contradiction.
Qed.
Lemma before_mail_app : forall a b, before_mail (a ++ b) -> before_mail b.
Proof. intros a b H d Hd. apply H, written_in_r, Hd. Qed.
Lemma tried_first : forall k' cr x t t1 ev t2 d k, tried k' cr t x -> t = t1 ++ ev :: t2 -> writes d ev -> begins_auth k d ->
  t1 = [] /\ k = k' /\ d = cstr (hd [] (script k' cr)).
Proof.
  intros k' cr x t t1 ev t2 d k (O & (n & W & _) & _) E We Ba. destruct O as [->|(e & r & -> & Wr)]; [destruct t1; discriminate E|].
  destruct t1 as [|e1 t1]; inversion E; subst.
  - rewrite (writes_same _ _ _ We Wr) in *. split; [reflexivity|]. split; [|reflexivity]. exact (auth_same _ _ _ Ba (script_begins k' cr)).
  - exfalso. apply (script_later k' cr d) in Ba; [exact Ba|].
    rewrite (written_cons _ _ _ Wr) in W. destruct n as [|n]; [discriminate W|]. assert (Hs : script k' cr = hd [] (script k' cr) :: tl (script k' cr)) by (destruct k'; reflexivity).
    rewrite Hs in W. cbn [firstn map hd tl] in W. apply (f_equal (@tl str)) in W. cbn [tl] in W.
    assert (In d (written (t1 ++ ev :: t2))) by (apply written_in; exact We). rewrite W in H. apply in_map_iff in H as (y & <- & Y). apply in_map.
    rewrite <- (firstn_skipn n). apply in_or_app. left. exact Y.
Qed.
Lemma auth_tried : forall cr text t x t1 ev t2 d k, auth_part cr text t x -> t = t1 ++ ev :: t2 -> writes d ev -> begins_auth k d ->
  exists c o, cr = Some c /\ extractAuthenticationOptions (Some text) = Some o /\ choice o (cr_method c) = Some k /\ tried k c t x /\
    t1 = [] /\ d = cstr (hd [] (script k c)).
Proof.
  intros cr text t x t1 ev t2 d k A E We Ba. unfold auth_part in A. destruct cr as [c|]; [|destruct A as [-> _]; destruct t1; discriminate E].
  destruct (extractAuthenticationOptions (Some text)) as [o|]; [|destruct A as [-> _]; destruct t1; discriminate E].
  destruct (choice o (cr_method c)) as [k'|] eqn:Ch; [|destruct A as [-> _]; destruct t1; discriminate E].
  destruct (tried_first _ _ _ _ _ _ _ _ _ A E We Ba) as (-> & <- & ->). exists c, o. auto 7.
Qed.
Lemma story_auth : forall c t x t1 ev t2 d k, story c t x -> t = t1 ++ ev :: t2 -> writes d ev -> begins_auth k d -> before_mail t1 ->
  authenticates c t1 k d (ev :: t2).
Proof.
  intros c t x t1 ev t2 d k S E We Ba Bm. destruct S as [t x Cn P|t x Cn Ea Nu Nc|t tm x Cn Ea P K|t text ta x Cn Ea G A N0|t text ta tm x Cn Ea G A P].
  - exfalso. exact (mail_no_auth _ _ _ _ _ _ _ P E We Ba Bm).
  - exfalso. exact (early_no_auth _ _ _ _ _ _ Ea E We Ba).
  - exfalso. apply split_at in E as [(r & E & _)|(r & -> & E)]; [exact (early_no_auth _ _ _ _ _ _ Ea E We Ba)|].
    exact (mail_no_auth _ _ _ _ _ _ _ P E We Ba (before_mail_app _ _ Bm)).
  - apply split_at in E as [(r & E & _)|(r & -> & E)]; [exfalso; exact (early_no_auth _ _ _ _ _ _ Ea E We Ba)|].
    destruct (auth_tried _ _ _ _ _ _ _ _ _ A E We Ba) as (cr & o & C & Eo & Ch & Tr & -> & D). destruct G as (reads & Ae & ->).
    rewrite app_nil_r. exists cr, reads, o. repeat (split; [assumption|]). exists x, ta, [], x. rewrite app_nil_r. split; [symmetry; exact E|]. split; [exact Tr|].
    split; [rewrite E; discriminate|]. auto.
  - apply split_at in E as [(r & E & _)|(r & -> & E)]; [exfalso; exact (early_no_auth _ _ _ _ _ _ Ea E We Ba)|].
    apply split_at in E as [(r' & E & ->)|(r' & -> & E)].
    2: { exfalso. exact (mail_no_auth _ _ _ _ _ _ _ P E We Ba (before_mail_app _ _ (before_mail_app _ _ Bm))). }
    destruct (auth_tried _ _ _ _ _ _ _ _ _ A E We Ba) as (cr & o & C & Eo & Ch & Tr & -> & D). destruct G as (reads & Ae & ->).
    rewrite app_nil_r. exists cr, reads, o. repeat (split; [assumption|]). exists (Done 0), ta, tm, x. split; [rewrite E; reflexivity|]. split; [exact Tr|].
    split; [rewrite E; discriminate|]. auto.
Qed.
Lemma world_story : forall i c m w x w' t, get_client w i = Some c -> step (OSend i m) w = (x, w') -> w_trace w' = w_trace w ++ t -> story c t x.
Proof.
  intros i c m w x w' t G S T. destruct (step_send _ _ _ _ _ _ G S) as (X & _ & T' & _).
  destruct (sendMail m _) as [o s'] eqn:H. cbn [fst snd] in *. subst o. destruct (sendMail_story _ _ _ _ H) as (t' & T2 & St). cbn [s_t s_c] in *.
  rewrite T, T2 in T'. apply app_inv_head in T'. subst t'. exact St.
Qed.

Lemma world_auth_used : forall i c m w x w' t t1 ev t2 d k, get_client w i = Some c -> step (OSend i m) w = (x, w') ->
  w_trace w' = w_trace w ++ t -> t = t1 ++ ev :: t2 -> writes d ev -> begins_auth k d -> before_mail t1 ->
  exists cr reads line, c_cred c = Some cr /\ after_ehlo t1 reads /\ announced (seen reads) line /\
    compatible (cr_method cr) k /\ is_word (keyword k) line /\
    (forall k', before k' k -> compatible (cr_method cr) k' -> ~ is_word (keyword k') line).
Proof.
  intros i c m w x w' t t1 ev t2 d k G S T E We Ba Bm. pose proof (world_story _ _ _ _ _ _ _ G S T) as St.
  destruct (story_auth _ _ _ _ _ _ _ _ St E We Ba Bm) as (cr & reads & o & C & Ae & Eo & Ch & _).
  destruct (extract_announced _ _ (seen_nonul reads) Eo) as (line & An & Op). exists cr, reads, line. split; [exact C|]. split; [exact Ae|]. split; [exact An|].
  exact (choice_some _ _ _ _ Ch Op).
Qed.
Lemma world_not_supported : forall i c m w w' t, get_client w i = Some c ->
  step (OSend i m) w = (Done CLIENT_AUTHENTICATION_METHOD_NOTSUPPORTED, w') -> w_trace w' = w_trace w ++ t -> orderly t ->
  exists cr reads line, c_cred c = Some cr /\ after_ehlo t reads /\ announced (seen reads) line /\
    (forall k, compatible (cr_method cr) k -> ~ is_word (keyword k) line) /\ forall d k, In d (written t) -> ~ begins_auth k d.
Proof.
  intros i c m w w' t G S T Or. pose proof (world_story _ _ _ _ _ _ _ G S T) as St.
  assert (Ol : forall a b, orderly (a ++ b) -> orderly a) by (intros a b H ev q d I0; apply H, in_or_app; auto).
  assert (Orr : forall a b, orderly (a ++ b) -> orderly b) by (intros a b H ev q d I0; apply H, in_or_app; auto).
  inversion St as [t0 x0 Cn P|t0 x0 Cn Ea Nu Nc|t0 tm x0 Cn Ea P K|t0 text ta x0 Cn Ea Gr A N0|t0 text ta tm x0 Cn Ea Gr A P]; subst.
  - exfalso. destruct P as (_ & _ & P). exact (P _ eq_refl Or eq_refl).
  - exfalso. exact (Nc _ eq_refl Or eq_refl).
  - exfalso. destruct P as (_ & _ & P). exact (P _ eq_refl (Orr _ _ Or) eq_refl).
  - unfold auth_part in A. destruct (c_cred c) as [cr|] eqn:C; [|destruct A as [_ A]; discriminate A].
    destruct Gr as (reads & Ae & ->). destruct (extractAuthenticationOptions (Some (seen reads))) as [o|] eqn:Eo; [|destruct A as [_ A]; discriminate A].
    destruct (choice o (cr_method cr)) as [k|] eqn:Ch.
    { exfalso. destruct A as (_ & _ & A & _). exact (A _ eq_refl (Orr _ _ Or) eq_refl). }
    destruct A as [-> _]. rewrite app_nil_r in *. destruct (extract_announced _ _ (seen_nonul reads) Eo) as (line & An & Op).
    exists cr, reads, line. split; [reflexivity|]. split; [exact Ae|]. split; [exact An|]. split; [exact (choice_none _ _ _ Ch Op)|].
    intros d k Hd Ba. destruct (auth_not_early _ _ Ba). destruct (Ea d Hd); contradiction.
  - exfalso. destruct P as (_ & _ & P). exact (P _ eq_refl (Orr _ _ (Orr _ _ Or)) eq_refl).
Qed.
(** The undefined behaviour of a server without AUTH. *)
Lemma world_no_auth : forall i c m w w' t, get_client w i = Some c ->
  step (OSend i m) w = (Undef (UB_NullDeref PAuth), w') -> w_trace w' = w_trace w ++ t ->
  c_cred c <> None /\ exists reads, after_ehlo t reads /\ (single_line (seen reads) \/ forall line, ~ announced (seen reads) line).
Proof.
  intros i c m w w' t G S T. pose proof (world_story _ _ _ _ _ _ _ G S T) as St.
  inversion St as [t0 x0 Cn P|t0 x0 Cn Ea Nu Nc|t0 tm x0 Cn Ea P K|t0 text ta x0 Cn Ea Gr A N0|t0 text ta tm x0 Cn Ea Gr A P]; subst;
    try (exfalso; destruct P as (_ & P & _); exact (P eq_refl)); [exfalso; exact (Nu eq_refl)|].
  unfold auth_part in A. destruct (c_cred c) as [cr|] eqn:C; [|destruct A as [_ A]; discriminate A].
  destruct Gr as (reads & Ae & ->). destruct (extractAuthenticationOptions (Some (seen reads))) as [o|] eqn:Eo.
  { exfalso. destruct (choice o (cr_method cr)); [|destruct A as [_ A]; discriminate A]. destruct A as (_ & _ & _ & A & _). exact (A eq_refl). }
  destruct A as [-> _]. rewrite app_nil_r. split; [discriminate|]. exists reads. split; [exact Ae|].
  destruct (find_sub CRLF (seen reads)) as [n|] eqn:F; [right|left; exact (proj1 (find_sub_none _ _) F)].
  intros line An. destruct (find_sub_some _ _ _ F) as (a & b & E & _).
  destruct (announced_extract (seen reads) line (seen_nonul reads) An (ex_intro _ a (ex_intro _ b E))) as (o & X & _). discriminate (eq_trans (eq_sym Eo) X).
Qed.
Lemma world_transmits : forall i c m w x w' t t1 ev t2 d k, get_client w i = Some c -> step (OSend i m) w = (x, w') ->
  w_trace w' = w_trace w ++ t -> t = t1 ++ ev :: t2 -> writes d ev -> begins_auth k d -> before_mail t1 ->
  exists cr, c_cred c = Some cr /\ transmits k (cr_user cr) (cr_pass cr) d (written t2).
Proof.
  intros i c m w x w' t t1 ev t2 d k G S T E We Ba Bm. pose proof (world_story _ _ _ _ _ _ _ G S T) as St.
  destruct (story_auth _ _ _ _ _ _ _ _ St E We Ba Bm) as (cr & reads & o & C & _ & _ & _ & xa & ta & tm & xm & Er & Tr & Na & D & Tm).
  exists cr. split; [exact C|]. destruct Tr as (_ & (n & W & _) & _ & _ & Gr).
  assert (Wr : written (ev :: t2) = map cstr (firstn n (script k cr)) ++ written tm) by (rewrite Er, written_app, W; reflexivity).
  assert (Sm : map cstr (firstn n (script k cr)) = firstn n (script k cr)).
  { rewrite <- (map_id (firstn n (script k cr))) at 2. apply map_ext_in. intros y Y. apply (script_nonul k cr). rewrite <- (firstn_skipn n). apply in_or_app. left. exact Y. }
  rewrite Sm in Wr. rewrite (written_cons _ _ _ We) in Wr.
  assert (Cm : written tm = [] \/ (n >= length (script k cr))%nat /\ exists q r, written tm = q :: r /\ mail_command q).
  { destruct Tm as [->|[-> ([->|(e & r & q & -> & Wq & Mq)] & _)]]; [left; reflexivity|left; reflexivity|right]. split.
    - destruct (Gr eq_refl) as (rr & (l & y & h & Tk & M & _) & _). apply talk_exchanges in Tk. unfold written in W. rewrite Tk, M in W. apply (f_equal (@length _)) in W.
      rewrite !map_length, firstn_length in W. lia.
    - exists q, (written r). split; [apply written_cons; exact Wq|exact Mq]. }
  destruct k; unfold transmits; cbn [script] in *.
  - rewrite Wr. exact (lines_ok [(B "AUTH PLAIN ", [NUL] ++ cr_user cr ++ [NUL] ++ cr_pass cr)] n (written tm) Cm).
  - destruct n as [|n]; [exfalso; destruct Cm as [Z0|[L _]]; [rewrite Z0 in Wr; discriminate Wr|cbn in L; lia]|]. cbn [firstn app] in Wr.
    split; [exact (f_equal (hd []) Wr)|]. apply (f_equal (@tl str)) in Wr. cbn [tl] in Wr. rewrite Wr. apply (lines_ok [([], cr_user cr); ([], cr_pass cr)]). destruct Cm as [Cm|[L Cm]]; [left; exact Cm|right; split; [cbn in *; lia|exact Cm]].
  - rewrite Wr.
    exact (lines_ok [(B "AUTH XOAUTH2 ", B "user=" ++ cr_user cr ++ [SOH_char] ++ B "auth=Bearer " ++ cr_pass cr ++ [SOH_char; SOH_char])] n (written tm) Cm).
Qed.

(** The first MAIL command of a client that has to authenticate. *)
Lemma world_authenticated : forall i c m w x w' t t1 ev t2 d, get_client w i = Some c -> step (OSend i m) w = (x, w') ->
  w_trace w' = w_trace w ++ t -> orderly t -> c_kind c <> KOpp -> c_conn c = false -> c_cred c <> None ->
  t = t1 ++ ev :: t2 -> writes d ev -> mail_command d -> before_mail t1 ->
  exists before l, exchanges t1 = before ++ l /\ accepted_auth l.
Proof.
  intros i c m w x w' t t1 ev t2 d G S T Or Nk Nc Cr E We Md Bm. pose proof (world_story _ _ _ _ _ _ _ G S T) as St.
  assert (Ol : forall a b, orderly (a ++ b) -> orderly a) by (intros a b H e q y I0; apply H, in_or_app; auto).
  assert (Orr : forall a b, orderly (a ++ b) -> orderly b) by (intros a b H e q y I0; apply H, in_or_app; auto).
  assert (Ne : d <> EHLO_line /\ d <> STARTTLS) by (destruct Md as [r ->]; split; discriminate).
  assert (Ea' : forall u a b, early u -> u = a ++ ev :: b -> False).
  { intros u a b Ea ->. destruct (Ea d (written_in _ _ _ _ We)); tauto. }
  assert (Na' : forall k cr ta xa a b, tried k cr ta xa -> ta = a ++ ev :: b -> False).
  { intros k cr ta xa a b (_ & (n & W & _) & _) ->. assert (In d (map cstr (firstn n (script k cr)))) by (rewrite <- W; apply written_in; exact We).
    apply in_map_iff in H as (y & Ey & Y). rewrite (script_nonul k cr) in Ey by (rewrite <- (firstn_skipn n); apply in_or_app; left; exact Y). subst y.
    assert (Is : In d (script k cr)) by (rewrite <- (firstn_skipn n); apply in_or_app; left; exact Y).
    destruct Md as [r Md]. destruct k; cbn in Is.
    - destruct Is as [Is|[]]. rewrite Md in Is. discriminate Is.
    - assert (Sp : In " "%char d) by (rewrite Md; do 4 right; left; reflexivity).
      destruct Is as [Is|[Is|[Is|[]]]]; [rewrite Md in Is; discriminate Is| |].
      + exfalso. apply (encode_no_space (cr_user cr)). rewrite (script_nonul Login cr) by (right; left; reflexivity). rewrite Is. exact Sp.
      + exfalso. apply (encode_no_space (cr_pass cr)). rewrite (script_nonul Login cr) by (right; right; left; reflexivity). rewrite Is. exact Sp.
    - destruct Is as [Is|[]]. rewrite Md in Is. discriminate Is. }
  assert (Np : forall cr text ta xa a b, auth_part cr text ta xa -> ta = a ++ ev :: b -> False).
  { intros cr text ta xa a b A Et. unfold auth_part in A. destruct cr as [cr|]; [|destruct A as [-> _]; destruct a; discriminate Et].
    destruct (extractAuthenticationOptions _); [|destruct A as [-> _]; destruct a; discriminate Et].
    destruct (choice _ _); [|destruct A as [-> _]; destruct a; discriminate Et]. exact (Na' _ _ _ _ _ _ A Et). }
  destruct St as [t x Cn P|t x Cn Ea Nu Nc'|t tm x Cn Ea P K|t text ta x Cn Ea Gr A N0|t text ta tm x Cn Ea Gr A P].
  - congruence.
  - exfalso. exact (Ea' _ _ _ Ea E).
  - exfalso. destruct K as [K|K]; [contradiction|]. exact (K (Ol _ _ Or)).
  - exfalso. apply split_at in E as [(r & E & _)|(r & -> & E)]; [exact (Ea' _ _ _ Ea E)|exact (Np _ _ _ _ _ _ A E)].
  - apply split_at in E as [(r & E & _)|(r & -> & E)]; [exfalso; exact (Ea' _ _ _ Ea E)|].
    apply split_at in E as [(r' & E & _)|(r' & -> & E)]; [exfalso; exact (Np _ _ _ _ _ _ A E)|].
    assert (r' = []).
    { destruct P as ([->|(e & q & d0 & -> & W0 & M0)] & _); [destruct r'; discriminate E|]. destruct r' as [|e1 r']; [reflexivity|exfalso]. inversion E; subst.
      apply (before_mail_app _ _ (before_mail_app _ _ Bm) d0); [|exact M0]. rewrite (written_cons _ _ _ W0). left. reflexivity. }
    subst r'. rewrite app_nil_r. unfold auth_part in A. destruct (c_cred c) as [cr|]; [|congruence].
    destruct (extractAuthenticationOptions _) as [o|]; [|destruct A as [_ A]; discriminate A].
    destruct (choice o _) as [k|]; [|destruct A as [_ A]; discriminate A]. destruct A as (_ & _ & _ & _ & A). destruct (A eq_refl) as (rr & (l & y & h & Tk & M & F & Co) & R).
    rewrite (R (Ol _ _ (Orr _ _ Or))) in Co. exists (exchanges t), (l ++ [(y, h)]). split; [apply exchanges_app; exact Tk|].
    unfold accepted_auth. rewrite removelast_last. exists k, (cstr (hd [] (script k cr))), (map cstr (tl (script k cr))), (y, h). split; [rewrite M; destruct k; reflexivity|].
    split; [apply script_begins|]. split; [destruct k; cbn; lia|]. split; [reflexivity|]. split; [exact F|]. apply code_235, Co.
Qed.

(** Checking [orderly] and [before_mail] on a given run. *)
Definition orderly_char (c : ascii) : bool :=
  negb (existsb (Ascii.eqb c) [NUL; " "%char; "+"%char; "-"%char; "0"%char; ascii_of_nat 9; ascii_of_nat 10; ascii_of_nat 11; ascii_of_nat 12; ascii_of_nat 13]).
Definition orderly_check (t : list event) : bool :=
  forallb (fun ev => match ev with EvRecv _ (RData (c :: _)) | EvRead _ (RData (c :: _)) => orderly_char c | _ => true end) t.
Lemma orderly_checked : forall t, orderly_check t = true -> orderly t.
Proof.
  intros t H ev c d I0 E. unfold orderly_check in H. rewrite forallb_forall in H. specialize (H ev I0).
  assert (K : orderly_char c = true) by (destruct E as [[fd ->]|[b ->]]; exact H). clear -K.
  unfold orderly_char in K. apply negb_true_iff in K. split.
  - intros ->. discriminate K.
  - intros O. assert (X : existsb (Ascii.eqb c) [NUL; " "%char; "+"%char; "-"%char; "0"%char; ascii_of_nat 9; ascii_of_nat 10; ascii_of_nat 11; ascii_of_nat 12; ascii_of_nat 13] = true).
    { apply existsb_exists. exists c. split; [right; exact O|apply Ascii.eqb_refl]. }
    congruence.
Qed.
