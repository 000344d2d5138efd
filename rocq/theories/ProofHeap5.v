(** Ownership: constructing messages; clients. *)

From Coq Require Import Ascii String List NArith ZArith Bool Arith Lia Permutation.
From Verif Require Import Base ModelUtil ModelBase64 ModelAddress ModelAttachment ModelMessage ModelReply SpecReply ProofReply ModelHeap SpecHeap
  ProofText ProofHeap ProofHeap2 ProofHeap3 ProofHeap4.
Import ListNotations.
Open Scope nat_scope.

Definition within {T V} (co : T -> V -> Prop) (fo : T -> V -> foot) (P : foot) (o : T) (v : V) : Prop :=
  co o v /\ exists X, Permutation P (fo o v ++ X).


Lemma tri_text_build : forall U E c F o, cin c F o -> o <> None ->
  tri U E F (text_build c) (fun p G => exists s, o = Some s /\ ctext p (Some s) /\ G = F ++ ftext p (Some s)).
Proof.
  intros U E c F o C N. unfold text_build. eapply tri_seq; [ eapply tri_c_read; exact C | perm | ].
  intros x G (-> & ->). destruct o as [s | ]; [ | congruence ].
  eapply tri_last; [ apply tri_dup | perm | ]. intros p G (Cp & ->).
  exists (F ++ ftext p (Some s)). split; [ perm | ]. eauto.
Qed.

(** Permuting the footprint of a triple whose outcome adds blocks to it. *)
Lemma cin_perm : forall c F G o, Permutation F G -> cin c F o -> cin c G o.
Proof.
  intros [ | s | [a | ]] F G o P C; cbn in *; auto.
  destruct C as (s & k & X & -> & Q). exists s, k, X. split; [ reflexivity | ].
  etransitivity; [ symmetry; exact P | exact Q ].
Qed.

Lemma cin_app : forall c F X o, cin c F o -> cin c (F ++ X) o.
Proof.
  intros [ | s | [a | ]] F X o C; cbn in *; auto.
  destruct C as (s & k & G & -> & Q). exists s, k, (G ++ X). split; [ reflexivity | ].
  now apply (Permutation_app_tail X) in Q.
Qed.

Lemma tri_msg_new : forall U E P f vf t c d a cs cb os ob, nulls U ->
  within caddr faddr P f vf ->
  (forall o, In o (members t) -> exists v, within caddr faddr P o v) ->
  (forall o, In o (members c) -> exists v, within caddr faddr P o v) ->
  (forall o, In o (members d) -> exists v, within caddr faddr P o v) ->
  (forall o, In o (members a) -> exists v, within catt fatt P o v) ->
  cin cs P os -> os <> None -> cin cb P ob -> ob <> None ->
  tri U E P (msg_new f t c d cs cb a) (fun m G => exists g, cmsg m g /\ G = P ++ fmsg m g /\
    (g_from g = vf /\ g_subject g = os /\ g_body g = ob /\
     mo_nto m = arr_count t /\ mo_ncc m = arr_count c /\ mo_nbcc m = arr_count d /\ mo_natts m = arr_count a /\
     Forall2 (within caddr faddr P) (members t) (vals (g_to g)) /\
     Forall2 (within caddr faddr P) (members c) (vals (g_cc g)) /\
     Forall2 (within caddr faddr P) (members d) (vals (g_bcc g)) /\
     Forall2 (within catt fatt P) (members a) (vals (g_atts g)))).
Proof.
  intros U E P f vf t c d a cs cb os ob N (Cf & Xf & Pf) At Ac Ad Aa Cs Ns Cb Nb.
  assert (conv : forall T V (co : T -> V -> Prop) (fo : T -> V -> foot) (x : arr T),
    (forall o, In o (members x) -> exists v, within co fo P o v) ->
    forall o, match x with AArr l => In o l | ANull _ => False end -> exists v X, co o v /\ Permutation P (fo o v ++ X)).
  { intros T V co fo [n | l] Ax o Io; [ easy | ]. destruct (Ax o Io) as (v & Cv & X & PX). eauto. }
  unfold msg_new.
  eapply tri_seq; [ apply (tri_addr_copy U _ f vf Cf (or_intror N)) | exact Pf | ].
  intros f' G (Cf' & Wf & ->).
  eapply tri_pre with (G := P ++ faddr f' vf).
  { transitivity ((faddr f vf ++ Xf) ++ faddr f' vf); [ perm | ]. apply Permutation_app_tail. now symmetry. }
  eapply tri_seq; [ apply (tri_text_build U _ cs P os Cs Ns) | perm | ]. intros ps G (s & -> & Cps & ->).
  eapply tri_seq; [ apply (tri_text_build U _ cb P ob Cb Nb) | perm | ]. intros pb G (b & -> & Cpb & ->).
  eapply tri_seq; [ apply (addrs_build U _ P t (conv _ _ _ _ _ At) N) | perm | ]. intros pt G (gt & Ct & -> & Vt).
  eapply tri_seq; [ apply (addrs_build U _ P c (conv _ _ _ _ _ Ac) N) | perm | ]. intros pc G (gc & Cc & -> & Vc).
  eapply tri_seq; [ apply (addrs_build U _ P d (conv _ _ _ _ _ Ad) N) | perm | ]. intros pd G (gd & Cd & -> & Vd).
  eapply tri_seq; [ apply (atts_build U _ P a (conv _ _ _ _ _ Aa) N) | perm | ]. intros pa G (ga & Ca & -> & Va).
  assert (Fa : forall (x : arr addr_obj) (g : gaddrs),
    match x with ANull _ => g = None
    | AArr l => g <> None /\ Forall2 (fun o v => caddr o v /\ exists X, Permutation P (faddr o v ++ X)) l (gvals _ _ g) end ->
    Forall2 (within caddr faddr P) (members x) (vals g)).
  { intros [n | l] g H; [ subst g; constructor | exact (proj2 H) ]. }
  assert (Ft : forall (x : arr att_obj) (g : gatts),
    match x with ANull _ => g = None
    | AArr l => g <> None /\ Forall2 (fun o v => catt o v /\ exists X, Permutation P (fatt o v ++ X)) l (gvals _ _ g) end ->
    Forall2 (within catt fatt P) (members x) (vals g)).
  { intros [n | l] g H; [ subst g; constructor | exact (proj2 H) ]. }
  eapply tri_ret; [ | exists (mkG vf gt gc gd (Some s) (Some b) ga); split; [ | split; [ reflexivity | ] ] ].
  2:{ constructor; cbn; assumption. }
  2:{ cbn [g_from g_subject g_body g_to g_cc g_bcc g_atts mo_nto mo_ncc mo_nbcc mo_natts].
      do 7 (split; [ reflexivity | ]). split; [ now apply Fa | ]. split; [ now apply Fa | ]. split; [ now apply Fa | now apply Ft ]. }
  unfold fmsg, faddrs, fatts. cbn [mo_from mo_to mo_cc mo_bcc mo_subject mo_body mo_atts
    g_from g_to g_cc g_bcc g_subject g_body g_atts]. perm.
Qed.

(** ** Clients *)

(** An owned Credential behind a pointer. *)
Definition gcred := option (cred_obj * vcred).
Definition fcp (p : ptr) (g : gcred) : foot :=
  match p, g with Some a, Some (o, v) => (a, mkB One (CredObj o)) :: fcred o v | _, _ => [] end.
Definition ccp (p : ptr) (g : gcred) : Prop :=
  match p, g with Some _, Some (o, v) => ccred o v | None, None => True | _, _ => False end.

Definition fauth (p : ptr) : foot :=
  match p with Some a => [(a, mkB One AuthObj)] | None => [] end.

Record gbase := mkGB { gb_server : option str; gb_log : option str; gb_resp : option str; gb_cred : gcred }.
Definition fbase (o : base_obj) (g : gbase) : foot :=
  ftext (bo_server o) (gb_server g) ++ ftext (bo_log o) (gb_log g) ++ ftext (bo_resp o) (gb_resp g) ++
  fauth (bo_auth o) ++ fcp (bo_cred o) (gb_cred g).
Record cbase (o : base_obj) (g : gbase) : Prop := mkCbase {
  cb_server : ctext (bo_server o) (gb_server g);
  cb_log : ctext (bo_log o) (gb_log g);
  cb_resp : ctext (bo_resp o) (gb_resp g);
  cb_cred : ccp (bo_cred o) (gb_cred g) }.

Lemma tri_delete_cred : forall U E p g, ccp p g ->
  tri U E (fcp p g) (delete_cred p) (fun _ G => G = []).
Proof.
  intros U E [a | ] [[o v] | ] C; try easy.
  - unfold delete_cred, fcp. cbn in C.
    eapply tri_seq; [ apply (tri_live _ _ a (mkB One (CredObj o))) | perm | ]. intros _ G ->.
    eapply tri_seq; [ apply (get_cred_spec _ _ a o) | perm | ]. intros x G (-> & ->).
    eapply tri_seq; [ apply (tri_cred_destroy _ _ o v C) | perm | ]. intros _ G ->.
    eapply tri_last; [ apply (tri_del _ _ One a (CredObj o)) | perm | ].
    intros _ G ->. exists []. split; [ perm | reflexivity ].
  - cbn. eapply tri_ret; [ perm | reflexivity ].
Qed.

Lemma tri_del_auth : forall U E p, tri U E (fauth p) (h_del One p) (fun _ G => G = []).
Proof. intros U E [a | ]; [ apply tri_del | apply tri_del_null ]. Qed.

Lemma tri_base_new : forall U (E : foot -> Prop) F c o, okU U -> E F -> cin c F o ->
  tri U E F (base_new c) (fun b G => exists s, o = Some s /\ cbase b (mkGB (Some s) None None None) /\
    G = F ++ fbase b (mkGB (Some s) None None None)).
Proof.
  intros U E F c o (N & Is) Ef C. unfold base_new.
  eapply tri_seq; [ eapply tri_c_read; exact C | perm | ]. intros x G (-> & ->). rewrite app_nil_r.
  destruct (plain_null_or_blank o) as [(b & Eb) | [Eb | Eb]]; rewrite Eb.
  - apply tri_lift; try easy. intros b' [= <-]. destruct b; [ now apply tri_throw | ].
    eapply tri_seq; [ eapply tri_c_dup; [ exact C | now right ] | perm | ].
    intros p G (s & -> & Cp & ->).
    eapply tri_ret; [ | exists s; split; [ reflexivity | split; [ | reflexivity ] ] ].
    + unfold fbase. cbn [bo_server bo_log bo_resp bo_auth bo_cred gb_server gb_log gb_resp gb_cred ftext fauth fcp].
      perm.
    + constructor; cbn; auto.
  - apply tri_lift; easy.
  - apply tri_lift; try easy. now intros w [= <-].
Qed.

Lemma tri_base_destroy : forall U E o g, cbase o g ->
  tri U E (fbase o g) (base_destroy o) (fun _ G => G = []).
Proof.
  intros U E o g []. unfold base_destroy, fbase.
  tstep tri_del_text. intros _ G ->. tstep tri_del_text. intros _ G ->. tstep tri_del_text. intros _ G ->.
  eapply tri_seq; [ apply tri_del_auth | perm | ]. intros _ G ->.
  eapply tri_last; [ eapply tri_delete_cred; eauto | perm | ].
  intros _ G ->. exists []. split; [ perm | reflexivity ].
Qed.

Lemma tri_dup_or_null : forall U E p v, ctext p v ->
  tri U E (ftext p v) (dup_or_null p) (fun q G => ctext q v /\ G = ftext p v ++ ftext q v).
Proof.
  intros U E [a | ] [s | ] C; try easy.
  - unfold dup_or_null.
    eapply tri_seq; [ apply (tri_text U _ PArg (Some a) (Some s) C); left; discriminate | perm | ].
    intros x G ([= <-] & ->).
    eapply tri_last; [ apply tri_dup | perm | ]. intros p G (Cp & ->).
    exists (ftext (Some a) (Some s) ++ ftext p (Some s)). split; [ perm | auto ].
  - cbn. eapply tri_ret; [ perm | split; [ exact Logic.I | reflexivity ] ].
Qed.

Lemma tri_auth_or_null : forall U E p,
  tri U E (fauth p) (auth_or_null p) (fun q G => G = fauth p ++ fauth q).
Proof.
  intros U E [a | ].
  - unfold auth_or_null. cbn [fauth]. eapply tri_seq; [ apply (tri_get _ _ _ a (mkB One AuthObj)) | perm | ].
    intros c G (-> & ->). eapply tri_last; [ apply tri_new | perm | ]. intros p G (b & -> & ->).
    exists (fauth (Some a) ++ fauth (Some b)). split; [ cbn; perm | auto ].
  - cbn. eapply tri_ret; [ perm | reflexivity ].
Qed.

Lemma tri_new_cred : forall U E (src : H cred_obj) F Q,
  tri U (fun _ => False) F src Q ->
  (forall o G, Q o G -> exists v X, ccred o v /\ Permutation G (fcred o v ++ X) /\ G = F) ->
  nulls U ->
  tri U E F (new_cred (o <~ src ;; cred_copy o)) (fun p G => exists g, ccp p (Some g) /\
    (exists o v, Q o F /\ ccred o v /\ snd g = v /\ wcred v /\ exists X, Permutation F (fcred o v ++ X)) /\
    G = F ++ fcp p (Some g)).
Proof.
  intros U E src F Q T I N. unfold new_cred. apply tri_assoc.
  eapply tri_seq; [ exact T | perm | ]. intros o G q. destruct (I o G q) as (v & X & C & P & ->).
  eapply tri_seq; [ apply (tri_cred_copy U _ o v C (or_intror N)) | rewrite app_nil_r; exact P | ].
  intros o' G (C' & W & ->).
  eapply tri_last; [ apply tri_new | perm | ]. intros p G (a & -> & ->).
  exists (F ++ fcp (Some a) (Some (o', v))). split.
  - cbn [fcp]. transitivity ((a, mkB One (CredObj o')) :: fcred o' v ++ (fcred o v ++ X)); [ perm | ].
    transitivity ((a, mkB One (CredObj o')) :: fcred o' v ++ F).
    + apply perm_skip, Permutation_app_head. now symmetry.
    + perm.
  - exists (o', v). split; [ exact C' | ]. split; [ | reflexivity ]. exists o, v. eauto 10.
Qed.

Lemma tri_cred_or_null : forall U E p g, ccp p g -> (match g with Some (_, v) => wcred v | None => True end) \/ nulls U ->
  tri U E (fcp p g) (cred_or_null p) (fun q G => exists g', ccp q g' /\
     option_map snd g' = option_map snd g /\ G = fcp p g ++ fcp q g').
Proof.
  intros U E [a | ] [[o v] | ] C W; try easy.
  - unfold cred_or_null. cbn in C, W. cbn [fcp].
    eapply tri_seq; [ apply (get_cred_spec _ _ a o) | perm | ]. intros x G (-> & ->).
    unfold new_cred. eapply tri_seq; [ apply (tri_cred_copy U _ o v C W) | perm | ].
    intros o' G (C' & Wv & ->).
    eapply tri_last; [ apply tri_new | perm | ]. intros p G (b & -> & ->).
    exists (fcp (Some a) (Some (o, v)) ++ fcp (Some b) (Some (o', v))). split; [ cbn [fcp]; perm | ].
    exists (Some (o', v)). cbn. auto.
  - cbn. eapply tri_ret; [ perm | exists None; cbn; auto ].
Qed.

Definition wbase (g : gbase) : Prop :=
  gb_server g <> None /\ match gb_cred g with Some (_, v) => wcred v | None => True end.

(** The same texts and the same credential. *)
Definition same_base (g g' : gbase) : Prop :=
  gb_server g' = gb_server g /\ gb_log g' = gb_log g /\ gb_resp g' = gb_resp g /\
  option_map snd (gb_cred g') = option_map snd (gb_cred g).

Lemma tri_base_copy : forall U E o g, cbase o g -> wbase g \/ nulls U ->
  tri U E (fbase o g) (base_copy o) (fun o' G => exists g', cbase o' g' /\ same_base g g' /\
    G = fbase o g ++ fbase o' g').
Proof.
  intros U E o g [] W. unfold base_copy. unfold fbase at 1.
  eapply tri_seq; [ eapply tri_text; [ exact cb_server0 | destruct W as [(W & _) | W]; auto ] | perm | ].
  intros s G (Es & ->). tstep tri_dup. intros ps G (Cs & ->).
  eapply tri_seq; [ apply (tri_dup_or_null U _ _ _ cb_log0) | perm | ]. intros pl G (Cl & ->).
  eapply tri_seq; [ apply (tri_dup_or_null U _ _ _ cb_resp0) | perm | ]. intros pr G (Cr & ->).
  eapply tri_seq; [ apply (tri_auth_or_null U _ (bo_auth o)) | perm | ]. intros pa G ->.
  eapply tri_seq; [ apply (tri_cred_or_null U _ _ _ cb_cred0); destruct W as [(_ & W) | W]; auto | perm | ].
  intros pc G (gc & Cc & Ec & ->).
  eapply tri_ret; [ | exists (mkGB (gb_server g) (gb_log g) (gb_resp g) gc); split; [ | split; [ now repeat split | reflexivity ] ] ].
  - unfold fbase. cbn [bo_server bo_log bo_resp bo_auth bo_cred gb_server gb_log gb_resp gb_cred].
    rewrite Es. perm.
  - constructor; cbn [bo_server bo_log bo_resp bo_auth bo_cred gb_server gb_log gb_resp gb_cred]; rewrite ?Es; assumption.
Qed.

Lemma tri_base_assign : forall U E o g o2 g2, cbase o g -> cbase o2 g2 -> wbase g2 \/ nulls U ->
  tri U E (fbase o g ++ fbase o2 g2) (base_assign o o2) (fun o' G => exists g', cbase o' g' /\ same_base g2 g' /\
    G = (fbase o' g' ++ ftext (bo_log o) (gb_log g) ++ ftext (bo_resp o) (gb_resp g) ++ fcp (bo_cred o) (gb_cred g))
        ++ fbase o2 g2).
Proof.
  intros U E o g o2 g2 [] [] W. unfold base_assign. unfold fbase at 1 2.
  tstep tri_del_text. intros _ G ->.
  eapply tri_seq; [ eapply tri_text; [ exact cb_server1 | destruct W as [(W & _) | W]; auto ] | perm | ].
  intros s G (Es & ->). tstep tri_dup. intros ps G (Cs & ->).
  eapply tri_seq; [ apply (tri_dup_or_null U _ _ _ cb_log1) | perm | ]. intros pl G (Cl & ->).
  eapply tri_seq; [ apply (tri_dup_or_null U _ _ _ cb_resp1) | perm | ]. intros pr G (Cr & ->).
  eapply tri_seq; [ apply (tri_del_auth U _ (bo_auth o)) | perm | ]. intros _ G ->.
  eapply tri_seq; [ apply (tri_auth_or_null U _ (bo_auth o2)) | perm | ]. intros pa G ->.
  eapply tri_seq; [ apply (tri_cred_or_null U _ _ _ cb_cred1); destruct W as [(_ & W) | W]; auto | perm | ].
  intros pc G (gc & Cc & Ec & ->).
  eapply tri_ret; [ | exists (mkGB (gb_server g2) (gb_log g2) (gb_resp g2) gc); split; [ | split; [ now repeat split | reflexivity ] ] ].
  - unfold fbase. cbn [bo_server bo_log bo_resp bo_auth bo_cred gb_server gb_log gb_resp gb_cred].
    rewrite Es. perm.
  - constructor; cbn [bo_server bo_log bo_resp bo_auth bo_cred gb_server gb_log gb_resp gb_cred]; rewrite ?Es; assumption.
Qed.

Lemma tri_base_move_assign : forall U E o g o2 g2, cbase o g -> cbase o2 g2 ->
  tri U E (fbase o g ++ fbase o2 g2) (base_move_assign o o2)
    (fun oo G => oo = (o2, base_null) /\ G = fbase o2 g2).
Proof.
  intros U E o g o2 g2 [] C2. unfold base_move_assign. unfold fbase at 1.
  tstep tri_del_text. intros _ G ->. tstep tri_del_text. intros _ G ->. tstep tri_del_text. intros _ G ->.
  eapply tri_seq; [ apply (tri_del_auth U _ (bo_auth o)) | perm | ]. intros _ G ->.
  eapply tri_seq; [ eapply tri_delete_cred; exact cb_cred0 | perm | ]. intros _ G ->.
  eapply tri_ret; [ perm | now split ].
Qed.

Definition gbnull : gbase := mkGB None None None None.
Lemma cbase_null : cbase base_null gbnull.
Proof. constructor; cbn; auto. Qed.
Lemma fbase_null : fbase base_null gbnull = [].
Proof. reflexivity. Qed.

(** What remains of a client when the server name is set aside. *)
Definition fbase_rest (o : base_obj) (g : gbase) : foot :=
  ftext (bo_log o) (gb_log g) ++ ftext (bo_resp o) (gb_resp g) ++ fauth (bo_auth o) ++ fcp (bo_cred o) (gb_cred g).

Lemma tri_setServerName : forall U (E : foot -> Prop) o g F c oc, okU U -> cbase o g ->
  cin c (fbase_rest o g ++ F) oc -> E (fbase o g ++ F) ->
  tri U E (fbase o g ++ F) (base_setServerName o c)
    (fun o' G => exists s, oc = Some s /\ bo_cred o' = bo_cred o /\
       cbase o' (mkGB (Some s) (gb_log g) (gb_resp g) (gb_cred g)) /\
       G = fbase o' (mkGB (Some s) (gb_log g) (gb_resp g) (gb_cred g)) ++ F).
Proof.
  intros U E o g F c oc (N & Is) [] C Ef. unfold base_setServerName.
  change (fbase o g) with (ftext (bo_server o) (gb_server g) ++ fbase_rest o g) in *.
  eapply tri_seq with (F := fbase_rest o g ++ F) (X := ftext (bo_server o) (gb_server g));
    [ eapply tri_c_read; exact C | perm | ]. intros x G (-> & ->).
  eapply tri_pre with (G := (ftext (bo_server o) (gb_server g) ++ fbase_rest o g) ++ F); [ perm | ].
  destruct (plain_null_or_blank oc) as [(b & Eb) | [Eb | Eb]]; rewrite Eb.
  - apply tri_lift; try easy. intros b' [= <-]. destruct b; [ now apply tri_throw | ].
    tstep tri_del_text. intros _ G ->.
    eapply tri_seq; [ eapply tri_c_dup; [ exact C | now right ] | perm | ].
    intros q G (s & -> & Cq & ->).
    eapply tri_ret; [ | exists s; split; [ reflexivity | split; [ reflexivity | split; [ | reflexivity ] ] ] ].
    + unfold fbase, fbase_rest. cbn [bo_server bo_log bo_resp bo_auth bo_cred gb_server gb_log gb_resp gb_cred]. perm.
    + constructor; cbn; assumption.
  - apply tri_lift; easy.
  - apply tri_lift; try easy. now intros w [= <-].
Qed.

(** The source of the credential lies outside the client. *)
Lemma tri_base_setCredentials : forall U E o g F src Q, nulls U -> cbase o g ->
  tri U (fun _ => False) F src Q ->
  (forall x G, Q x G -> exists v X, ccred x v /\ Permutation G (fcred x v ++ X) /\ G = F) ->
  tri U E (fbase o g ++ F) (base_setCredentials o src)
    (fun o' G => exists gc, cbase o' (mkGB (gb_server g) (gb_log g) (gb_resp g) (Some gc)) /\
       (exists x v, Q x F /\ ccred x v /\ snd gc = v /\ wcred v /\ exists X, Permutation F (fcred x v ++ X)) /\
       G = fbase o' (mkGB (gb_server g) (gb_log g) (gb_resp g) (Some gc)) ++ F).
Proof.
  intros U E o g F src Q N [] T I. unfold base_setCredentials. unfold fbase at 1.
  eapply tri_seq; [ eapply tri_delete_cred; exact cb_cred0 | perm | ]. intros _ G ->.
  eapply tri_seq; [ apply (tri_new_cred U _ src F Q T I N) | perm | ]. intros p G (gc & Cg & Wg & ->).
  eapply tri_ret; [ | exists gc; split; [ | split; [ exact Wg | reflexivity ] ] ].
  - unfold fbase. cbn [bo_server bo_log bo_resp bo_auth bo_cred gb_server gb_log gb_resp gb_cred]. perm.
  - constructor; assumption.
Qed.

(** The log after an action of the session. *)
Definition talked (t : talk) (g : option str) : option str :=
  match t with TStart => Some [] | TLog _ s => Some s | _ => g end.

(** The options read from the answer to EHLO; [X] are the forgotten ones. *)
Lemma tri_parse_auth : forall U line,
  tri U (fun _ => False) [] (parse_auth line) (fun p G => G = fauth p /\ (p = None <-> ~ auth_line line)).
Proof.
  intros U line. unfold parse_auth. destruct (auth_line_dec line) as [A | A].
  - destruct (parse_auth_some line A) as (o & -> & _).
    eapply tri_post; [ apply tri_new | ]. intros p G (a & -> & ->). exists (fauth (Some a)). split; [ apply Permutation_refl | ].
    split; [ reflexivity | ]. split; [ discriminate | now intros N ].
  - rewrite (parse_auth_none line A). eapply tri_ret; [ apply Permutation_refl | now split ].
Qed.
Definition early (ret : ptr) (text : str) : Prop :=
  ret = None /\ (auth_line text \/ ~ exists a b, text = a ++ CRLF ++ b /\ auth_line b).
Lemma tri_auth_loop : forall U fuel text ret,
  tri U (fun _ => False) (fauth ret) (auth_loop fuel text ret) (fun p G => exists X, G = fauth p ++ X /\ (early ret text -> X = [])).
Proof.
  intros U. induction fuel as [ | f IH]; intros text ret; cbn [auth_loop].
  { eapply tri_ret; [ | exists []; split; [ reflexivity | auto ] ]. perm. }
  destruct (find_sub CRLF text) as [n | ] eqn:Fn; [ | eapply tri_ret; [ | exists []; split; [ reflexivity | auto ] ]; perm ].
  assert (Sp : text = firstn n text ++ CRLF ++ skipn (n + 2) text).
  { destruct (find_sub_some _ _ _ Fn) as (a & b & -> & <-). rewrite firstn_app, Nat.sub_diag, firstn_all, skipn_app, skipn_all2 by lia.
    replace (length a + 2 - length a) with 2 by lia. cbn. now rewrite app_nil_r. }
  set (line := firstn n text) in *. set (rest := skipn (n + 2) text) in *.
  eapply tri_seq; [ apply (tri_parse_auth U line) | perm | ]. intros p G (-> & P). destruct p as [a | ].
  - eapply tri_ret; [ | exists (fauth ret); split; [ reflexivity | ] ]; [ perm | ]. now intros (-> & _).
  - assert (NA : ~ auth_line line) by now apply P.
    assert (T : tri U (fun _ => False) (fauth ret) match rest, ret with _ :: _, None => parse_auth rest | _, _ => hret ret end
      (fun r G => G = fauth r /\ (early ret text -> early r rest))).
    { assert (K : early ret text -> ret = None /\ ~ auth_line rest /\ ~ exists a b, rest = a ++ CRLF ++ b /\ auth_line b).
      { intros (-> & [A | A]); [ destruct NA; rewrite Sp in A; now apply auth_line_first in A | ].
        split; [ reflexivity | ]. split; [ intros N; apply A; now exists line, rest | ].
        intros (a & b & E & N). apply A. exists (line ++ CRLF ++ a), b. split; [ | exact N ]. rewrite Sp, E. now rewrite <- !app_assoc. }
      assert (S0 : forall r, r = ret -> tri U (fun _ => False) (fauth ret) (hret r) (fun r G => G = fauth r /\ (early ret text -> early r rest))).
      { intros r ->. eapply tri_ret; [ apply Permutation_refl | ]. split; [ reflexivity | ]. intros Q. destruct (K Q) as (E & _ & N). split; [ exact E | now right ]. }
      destruct rest as [ | x y] eqn:Er; [ now apply S0 | ]. destruct ret as [r0 | ]; [ now apply S0 | ].
      eapply tri_post; [ apply (tri_parse_auth U (x :: y)) | ]. intros r G (-> & Pr). exists (fauth r). split; [ apply Permutation_refl | ].
      split; [ reflexivity | ]. intros Q. destruct (K Q) as (_ & Nr & N). split; [ now apply Pr | now right ]. }
    eapply tri_seq; [ exact T | cbn [fauth]; perm | ]. intros r G (-> & Q).
    eapply tri_last; [ apply (IH rest r) | perm | ]. intros p G (X & -> & Qx). eexists. split; [ | exists X; split; [ reflexivity | auto ] ]. perm.
Qed.
Definition quiet (t : talk) : Prop := match t with TAuth ehlo => announced_first ehlo | _ => True end.
Lemma tri_extract : forall U ehlo,
  tri U (fun _ => False) [] (auth_extract ehlo) (fun p G => exists X, G = fauth p ++ X /\ (announced_first ehlo -> X = [])).
Proof.
  intros U ehlo. unfold auth_extract. eapply tri_post; [ apply (tri_auth_loop U _ (cstr ehlo) None) | ].
  intros p G (X & -> & Q). eexists. split; [ apply Permutation_refl | ]. exists X. split; [ reflexivity | ]. intros A. now apply Q.
Qed.

Lemma tri_base_talk : forall U E o g t, nulls U -> cbase o g ->
  tri U E (fbase o g) (base_talk o t) (fun o' G => exists g' X, cbase o' g' /\ G = fbase o' g' ++ X /\ gb_server g' = gb_server g /\
    gb_log g' = talked t (gb_log g) /\ gb_cred g' = gb_cred g /\ (quiet t -> X = [])).
Proof.
  intros U E o g t N []. unfold base_talk, fbase at 1. destruct t as [ | grow s | s | ehlo].
  - tstep tri_del_text. intros _ G ->. tstep tri_dup. intros p G (Cp & ->).
    eapply tri_ret; [ | exists (mkGB (gb_server g) (Some []) (gb_resp g) (gb_cred g)), []; split; [ constructor; assumption | rewrite app_nil_r; now repeat split ] ].
    unfold fbase. cbn [bo_server bo_log bo_resp bo_auth bo_cred gb_server gb_log gb_resp gb_cred].
    apply Permutation_app_swap_app.
  - eapply tri_seq; [ eapply tri_text; [ exact cb_log0 | now right ] | perm | ]. intros x G (El & ->).
    rewrite El in *. destruct (bo_log o) as [a | ] eqn:Eo; [ | easy ]. destruct grow.
    + tstep tri_dup. intros p G (Cp & ->).
      eapply tri_seq; [ apply (tri_del_text U _ (Some a) (Some x) cb_log0) | perm | ]. intros _ G ->.
      eapply tri_ret; [ | exists (mkGB (gb_server g) (Some s) (gb_resp g) (gb_cred g)), []; split; [ constructor; assumption | rewrite app_nil_r; now repeat split ] ].
      unfold fbase. cbn [bo_server bo_log bo_resp bo_auth bo_cred gb_server gb_log gb_resp gb_cred]. perm.
    + eapply tri_seq; [ apply (tri_put _ _ PLog a (mkB Many (Text x)) (Text s)) | cbn [ftext]; perm | ]. intros _ G ->.
      eapply tri_ret; [ | exists (mkGB (gb_server g) (Some s) (gb_resp g) (gb_cred g)), []; split; [ | rewrite app_nil_r; now repeat split ] ].
      * unfold fbase. rewrite Eo. cbn [gb_server gb_log gb_resp gb_cred b_alloc ftext]. perm.
      * constructor; cbn; try assumption. now rewrite Eo.
  - tstep tri_del_text. intros _ G ->. tstep tri_dup. intros p G (Cp & ->).
    eapply tri_ret; [ | exists (mkGB (gb_server g) (gb_log g) (Some s) (gb_cred g)), []; split; [ constructor; assumption | rewrite app_nil_r; now repeat split ] ].
    unfold fbase. cbn [bo_server bo_log bo_resp bo_auth bo_cred gb_server gb_log gb_resp gb_cred]. perm.
  - eapply tri_seq; [ apply (tri_extract U ehlo) | perm | ]. intros p G (X & -> & Q).
    eapply tri_seq; [ apply (tri_del_auth U _ (bo_auth o)) | perm | ]. intros _ G ->.
    eapply tri_ret; [ | exists (mkGB (gb_server g) (gb_log g) (gb_resp g) (gb_cred g)), X; split; [ constructor; assumption | now repeat split ] ].
    unfold fbase. cbn [bo_server bo_log bo_resp bo_auth bo_cred gb_server gb_log gb_resp gb_cred]. perm.
Qed.

Lemma tri_read_cp : forall U E p g, ccp p g ->
  tri U E (fcp p g) (match p with
                     | None => hret tt
                     | Some _ => c <~ get_cred p ;; read_cred c ;;~ hret tt
                     end) (fun _ G => G = fcp p g).
Proof.
  intros U E [a | ] [[o v] | ] C; try easy.
  - cbn [fcp]. eapply tri_seq; [ apply (get_cred_spec _ _ a o) | perm | ]. intros x G (-> & ->).
    eapply tri_seq; [ apply (tri_read_cred _ _ o v C) | perm | ]. intros x G (-> & ->).
    eapply tri_ret; [ | reflexivity ]. perm.
  - cbn. eapply tri_ret; [ perm | reflexivity ].
Qed.

Lemma tri_read_base : forall U E o g, cbase o g ->
  tri U E (fbase o g) (read_base o) (fun _ G => G = fbase o g).
Proof.
  intros U E o g []. unfold read_base, fbase.
  eapply tri_seq; [ eapply tri_peek; exact cb_server0 | perm | ]. intros x G (-> & ->).
  eapply tri_seq; [ eapply tri_peek; exact cb_log0 | perm | ]. intros x G (-> & ->).
  eapply tri_last; [ apply (tri_read_cp _ _ _ _ cb_cred0) | perm | ]. intros _ G ->.
  eexists. split; [ | reflexivity ]. perm.
Qed.
