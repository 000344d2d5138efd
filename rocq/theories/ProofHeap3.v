(** Ownership: what each operation on one object does. *)

From Coq Require Import Ascii String List NArith ZArith Bool Arith Lia Permutation.
From Verif Require Import Base ModelUtil ModelBase64 ModelAddress ModelAttachment ModelMessage ModelHeap
  ProofText ProofHeap ProofHeap2.
Import ListNotations.
Open Scope nat_scope.

(** Undefined behaviour that a triple tolerates: null pointers and isspace. *)
Definition okU (U : ub -> Prop) : Prop := nulls U /\ U UB_IsspaceNegative.

Ltac tdone := eapply tri_ret; [ | repeat split; eauto; try reflexivity ].

(** ** MessageAddress *)

Lemma tri_addr_new : forall U (E : foot -> Prop) F e n oe on, okU U -> E F -> cin e F oe -> cin n F on ->
  tri U E F (addr_new e n) (fun o G => exists v, caddr o v /\ waddr v /\ G = F ++ faddr o v /\
    exists x y, oe = Some x /\ on = Some y /\ v = (Some (cstr x), Some (cstr y))).
Proof.
  intros U E F e n oe on (N & Is) Ef Ce Cn. unfold addr_new.
  eapply tri_seq; [ eapply tri_c_read; exact Ce | perm | ]. intros x G (-> & ->). rewrite app_nil_r.
  eapply tri_seq; [ eapply tri_c_read; exact Cn | perm | ]. intros x G (-> & ->). rewrite app_nil_r.
  destruct (address_new_cases oe on) as [(x & y & -> & -> & Ev) | [Ev | [Ev | (_ & Ev)]]]; rewrite Ev.
  - apply tri_lift; try easy. intros a [= <-]. cbn [a_email a_name].
    tstep tri_dup. intros pe G (Cpe & ->). tstep tri_dup. intros pn G (Cpn & ->).
    eapply tri_ret; [ | exists (Some (cstr x), Some (cstr y)); repeat split; eauto; cbn; discriminate ].
    unfold faddr. cbn [ao_email ao_name fst snd]. perm.
  - apply tri_lift; easy.
  - apply tri_lift; try easy. now intros u [= <-].
  - apply tri_lift; try easy. intros u [= <-]. apply N.
Qed.

Lemma tri_addr_assign : forall U E o v o2 v2, caddr o v -> caddr o2 v2 -> waddr v2 \/ nulls U ->
  tri U E (faddr o v ++ faddr o2 v2) (addr_assign o o2)
    (fun o' G => caddr o' v2 /\ waddr v2 /\ G = faddr o2 v2 ++ faddr o' v2).
Proof.
  intros U E o v o2 v2 (C1 & C2) C' W. unfold addr_assign. unfold faddr at 1.
  tstep tri_del_text. intros _ G ->. tstep tri_del_text. intros _ G ->.
  eapply tri_last; [ apply (tri_addr_copy U _ o2 v2 C' W) | perm | ].
  intros o' G (Co & Wv & ->). exists (faddr o2 v2 ++ faddr o' v2). split; [ perm | auto ].
Qed.

Lemma tri_addr_move_assign : forall U E o v o2 v2, caddr o v -> caddr o2 v2 ->
  tri U E (faddr o v ++ faddr o2 v2) (addr_move_assign o o2)
    (fun oo G => oo = (o2, addr_null) /\ G = faddr o2 v2).
Proof.
  intros U E o v o2 v2 (C1 & C2) C'. unfold addr_move_assign. unfold faddr at 1.
  tstep tri_del_text. intros _ G ->. tstep tri_del_text. intros _ G ->.
  eapply tri_ret; [ perm | now split ].
Qed.

Lemma tri_read_addr : forall U E o v, caddr o v ->
  tri U E (faddr o v) (read_addr o) (fun x G => x = v /\ G = faddr o v).
Proof.
  intros U E o [e n] (C1 & C2). unfold read_addr, faddr. cbn [fst snd] in *.
  tstep tri_peek. intros x G (-> & ->). tstep tri_peek. intros x G (-> & ->).
  eapply tri_ret; [ | split; reflexivity ]. perm.
Qed.

(** ** Attachment *)

Definition vatt := (option str * option str * option str)%type.
Definition fatt (o : att_obj) (v : vatt) : foot :=
  ftext (to_name o) (fst (fst v)) ++ ftext (to_file o) (snd (fst v)) ++ ftext (to_cid o) (snd v).
Definition catt (o : att_obj) (v : vatt) : Prop :=
  ctext (to_name o) (fst (fst v)) /\ ctext (to_file o) (snd (fst v)) /\ ctext (to_cid o) (snd v).
Definition watt (v : vatt) : Prop := fst (fst v) <> None /\ snd (fst v) <> None /\ snd v <> None.

Lemma tri_att_new : forall U (E : foot -> Prop) F f n c of on oc, okU U -> E F ->
  cin f F of -> cin n F on -> cin c F oc ->
  tri U E F (att_new f n c) (fun o G => exists v, catt o v /\ watt v /\ G = F ++ fatt o v /\
    exists x y z, of = Some x /\ on = Some y /\ oc = Some z /\ v = (Some (cstr y), Some (cstr x), Some (cstr z))).
Proof.
  intros U E F f n c of on oc (N & Is) Ef Cf Cn Cc. unfold att_new.
  eapply tri_seq; [ eapply tri_c_read; exact Cf | perm | ]. intros x G (-> & ->). rewrite app_nil_r.
  eapply tri_seq; [ eapply tri_c_read; exact Cn | perm | ]. intros x G (-> & ->). rewrite app_nil_r.
  eapply tri_seq; [ eapply tri_c_read; exact Cc | perm | ]. intros x G (-> & ->). rewrite app_nil_r.
  destruct (attachment_new_cases of on oc) as [(x & y & z & -> & -> & -> & Ev) | [Ev | [Ev | (_ & Ev)]]]; rewrite Ev.
  - apply tri_lift; try easy. intros a [= <-]. cbn [at_file at_name at_cid].
    tstep tri_dup. intros pe G (Cpe & ->). tstep tri_dup. intros pn G (Cpn & ->). tstep tri_dup. intros pc G (Cpc & ->).
    eapply tri_ret; [ | exists (Some (cstr y), Some (cstr x), Some (cstr z)); repeat split; eauto 10; cbn; discriminate ].
    unfold fatt. cbn [to_file to_name to_cid fst snd]. perm.
  - apply tri_lift; easy.
  - apply tri_lift; try easy. now intros u [= <-].
  - apply tri_lift; try easy. intros u [= <-]. apply N.
Qed.

Lemma tri_att_destroy : forall U E o v, catt o v ->
  tri U E (fatt o v) (att_destroy o) (fun _ G => G = []).
Proof.
  intros U E o v (C1 & C2 & C3). unfold att_destroy, fatt.
  tstep tri_del_text. intros _ G ->. tstep tri_del_text. intros _ G ->.
  eapply tri_last; [ eapply tri_del_text; eauto | perm | ].
  intros _ G ->. exists []. split; [ perm | reflexivity ].
Qed.

Lemma tri_att_copy : forall U E o v, catt o v -> watt v \/ nulls U ->
  tri U E (fatt o v) (att_copy o) (fun o' G => catt o' v /\ watt v /\ G = fatt o v ++ fatt o' v).
Proof.
  intros U E o [[n f] c] (C1 & C2 & C3) N. unfold att_copy, fatt, watt in *. cbn [fst snd] in *.
  eapply tri_seq; [ eapply tri_text; [ exact C1 | tauto ] | perm | ].
  intros s G (-> & ->). tstep tri_dup. intros pe G (Ce & ->).
  eapply tri_seq; [ eapply tri_text; [ exact C2 | tauto ] | perm | ].
  intros s' G (-> & ->). tstep tri_dup. intros pn G (Cn & ->).
  eapply tri_seq; [ eapply tri_text; [ exact C3 | tauto ] | perm | ].
  intros s2 G (-> & ->). tstep tri_dup. intros pc G (Cc & ->).
  eapply tri_ret; [ | split; [ | split; [ | reflexivity ] ] ].
  - cbn [to_name to_file to_cid]. perm.
  - now repeat split.
  - repeat split; cbn; discriminate.
Qed.

Lemma tri_att_assign : forall U E o v o2 v2, catt o v -> catt o2 v2 -> watt v2 \/ nulls U ->
  tri U E (fatt o v ++ fatt o2 v2) (att_assign o o2)
    (fun o' G => catt o' v2 /\ watt v2 /\ G = fatt o2 v2 ++ fatt o' v2).
Proof.
  intros U E o v o2 v2 (C1 & C2 & C3) C' W. unfold att_assign. unfold fatt at 1.
  tstep tri_del_text. intros _ G ->. tstep tri_del_text. intros _ G ->. tstep tri_del_text. intros _ G ->.
  eapply tri_last; [ apply (tri_att_copy U _ o2 v2 C' W) | perm | ].
  intros o' G (Co & Wv & ->). exists (fatt o2 v2 ++ fatt o' v2). split; [ perm | auto ].
Qed.

Lemma tri_att_move_assign : forall U E o v o2 v2, catt o v -> catt o2 v2 ->
  tri U E (fatt o v ++ fatt o2 v2) (att_move_assign o o2)
    (fun oo G => oo = (o2, att_null) /\ G = fatt o2 v2).
Proof.
  intros U E o v o2 v2 (C1 & C2 & C3) C'. unfold att_move_assign. unfold fatt at 1.
  tstep tri_del_text. intros _ G ->. tstep tri_del_text. intros _ G ->. tstep tri_del_text. intros _ G ->.
  eapply tri_ret; [ perm | now split ].
Qed.

Lemma tri_read_att : forall U E o v, catt o v ->
  tri U E (fatt o v) (read_att o) (fun x G => x = v /\ G = fatt o v).
Proof.
  intros U E o [[n f] c] (C1 & C2 & C3). unfold read_att, fatt. cbn [fst snd] in *.
  tstep tri_peek. intros x G (-> & ->). tstep tri_peek. intros x G (-> & ->). tstep tri_peek. intros x G (-> & ->).
  eapply tri_ret; [ | split; reflexivity ]. perm.
Qed.

(** The previous text stays live. *)
Lemma tri_setContentId : forall U E o v F c oc, nulls U -> catt o v -> cin c (fatt o v ++ F) oc ->
  tri U E (fatt o v ++ F) (att_setContentId o c)
    (fun o' G => exists s, oc = Some s /\ catt o' (fst v, Some s) /\
       G = (fatt o' (fst v, Some s) ++ ftext (to_cid o) (snd v)) ++ F).
Proof.
  intros U E o v F c oc N (C1 & C2 & C3) C. unfold att_setContentId.
  eapply tri_seq; [ eapply tri_c_dup; [ exact C | now right ] | perm | ].
  intros p G (s & -> & Cp & ->).
  eapply tri_ret; [ | exists s; repeat split; eauto ].
  unfold fatt. cbn [to_name to_file to_cid fst snd]. perm.
Qed.

(** ** Credential *)

Definition vcred := (option str * option str * authmethod)%type.
Definition fcred (o : cred_obj) (v : vcred) : foot :=
  ftext (co_user o) (fst (fst v)) ++ ftext (co_pass o) (snd (fst v)).
Definition ccred (o : cred_obj) (v : vcred) : Prop :=
  ctext (co_user o) (fst (fst v)) /\ ctext (co_pass o) (snd (fst v)) /\ co_method o = snd v.
Definition wcred (v : vcred) : Prop := fst (fst v) <> None /\ snd (fst v) <> None.

Lemma tri_cred_new : forall U (E : foot -> Prop) F u p ou op, okU U -> E F ->
  cin u F ou -> cin p F op ->
  tri U E F (cred_new u p) (fun o G => exists v, ccred o v /\ wcred v /\ G = F ++ fcred o v /\
    exists x y, ou = Some x /\ op = Some y /\ v = (Some (cstr x), Some (cstr y), kImplicit)).
Proof.
  intros U E F u p ou op (N & Is) Ef Cu Cp. unfold cred_new.
  eapply tri_seq; [ eapply tri_c_read; exact Cu | perm | ]. intros x G (-> & ->). rewrite app_nil_r.
  eapply tri_seq; [ eapply tri_c_read; exact Cp | perm | ]. intros x G (-> & ->). rewrite app_nil_r.
  destruct (credential_new_cases ou op) as [(x & y & -> & -> & Ev) | [Ev | Ev]]; rewrite Ev.
  - apply tri_lift; try easy. intros a [= <-]. cbn [cr_user cr_pass cr_method].
    tstep tri_dup. intros pe G (Cpe & ->). tstep tri_dup. intros pn G (Cpn & ->).
    eapply tri_ret; [ | exists (Some (cstr x), Some (cstr y), kImplicit); repeat split; eauto 10; cbn; discriminate ].
    unfold fcred. cbn [co_user co_pass fst snd]. perm.
  - apply tri_lift; easy.
  - apply tri_lift; try easy. now intros w [= <-].
Qed.

Lemma tri_cred_new3 : forall U (E : foot -> Prop) F u p m ou op, okU U -> E F ->
  cin u F ou -> cin p F op ->
  tri U E F (cred_new3 u p m) (fun o G => exists v, ccred o v /\ wcred v /\ G = F ++ fcred o v /\
    exists x y, ou = Some x /\ op = Some y /\ v = (Some (cstr x), Some (cstr y), m)).
Proof.
  intros U E F u p m ou op O Ef Cu Cp h R S.
  pose proof (tri_cred_new U E F u p ou op O Ef Cu Cp h R S) as T. unfold cred_new3, hbind.
  destruct (cred_new u p h) as [[o | | w | | | ] h']; try exact T. cbn.
  destruct T as (G & (v & C & W & -> & x & y & -> & -> & ->) & S').
  destruct C as (A1 & A2 & A3).
  exists (F ++ fcred o (Some (cstr x), Some (cstr y), kImplicit)). split; [ | exact S' ].
  exists (Some (cstr x), Some (cstr y), m). repeat split; eauto 10; cbn; discriminate.
Qed.

Lemma tri_cred_destroy : forall U E o v, ccred o v ->
  tri U E (fcred o v) (cred_destroy o) (fun _ G => G = []).
Proof.
  intros U E o v (C1 & C2 & _). unfold cred_destroy, fcred.
  tstep tri_del_text. intros _ G ->.
  eapply tri_last; [ eapply tri_del_text; eauto | perm | ].
  intros _ G ->. exists []. split; [ perm | reflexivity ].
Qed.

Lemma tri_cred_copy : forall U E o v, ccred o v -> wcred v \/ nulls U ->
  tri U E (fcred o v) (cred_copy o) (fun o' G => ccred o' v /\ wcred v /\ G = fcred o v ++ fcred o' v).
Proof.
  intros U E o [[u p] m] (C1 & C2 & C3) N. unfold cred_copy, fcred, wcred in *. cbn [fst snd] in *.
  eapply tri_seq; [ eapply tri_text; [ exact C1 | tauto ] | perm | ].
  intros s G (-> & ->). tstep tri_dup. intros pe G (Ce & ->).
  eapply tri_seq; [ eapply tri_text; [ exact C2 | tauto ] | perm | ].
  intros s' G (-> & ->). tstep tri_dup. intros pn G (Cn & ->).
  eapply tri_ret; [ | split; [ | split; [ | reflexivity ] ] ].
  - cbn [co_user co_pass]. perm.
  - now repeat split.
  - repeat split; cbn; discriminate.
Qed.

Lemma tri_cred_assign : forall U E o v o2 v2, ccred o v -> ccred o2 v2 -> wcred v2 \/ nulls U ->
  tri U E (fcred o v ++ fcred o2 v2) (cred_assign o o2)
    (fun o' G => ccred o' v2 /\ wcred v2 /\ G = fcred o2 v2 ++ fcred o' v2).
Proof.
  intros U E o v o2 v2 (C1 & C2 & _) C' W. unfold cred_assign. unfold fcred at 1.
  tstep tri_del_text. intros _ G ->. tstep tri_del_text. intros _ G ->.
  eapply tri_last; [ apply (tri_cred_copy U _ o2 v2 C' W) | perm | ].
  intros o' G (Co & Wv & ->). exists (fcred o2 v2 ++ fcred o' v2). split; [ perm | auto ].
Qed.

Lemma tri_cred_move_assign : forall U E o v o2 v2, ccred o v -> ccred o2 v2 ->
  tri U E (fcred o v ++ fcred o2 v2) (cred_move_assign o o2)
    (fun oo G => oo = (o2, cred_null o2) /\ G = fcred o2 v2).
Proof.
  intros U E o v o2 v2 (C1 & C2 & _) C'. unfold cred_move_assign. unfold fcred at 1.
  tstep tri_del_text. intros _ G ->. tstep tri_del_text. intros _ G ->.
  eapply tri_ret; [ perm | now split ].
Qed.

Lemma tri_read_cred : forall U E o v, ccred o v ->
  tri U E (fcred o v) (read_cred o) (fun x G => x = v /\ G = fcred o v).
Proof.
  intros U E o [[u p] m] (C1 & C2 & C3). unfold read_cred, fcred. cbn [fst snd] in *. subst m.
  tstep tri_peek. intros x G (-> & ->). tstep tri_peek. intros x G (-> & ->).
  eapply tri_ret; [ | split; reflexivity ]. perm.
Qed.

(** The argument lies outside the text that the setter frees. *)
Lemma tri_setUsername : forall U (E : foot -> Prop) o v F c oc, okU U -> ccred o v ->
  cin c (ftext (co_pass o) (snd (fst v)) ++ F) oc -> E (fcred o v ++ F) ->
  tri U E (fcred o v ++ F) (cred_setUsername o c)
    (fun o' G => exists s, oc = Some s /\ ccred o' (Some s, snd (fst v), snd v) /\
       G = fcred o' (Some s, snd (fst v), snd v) ++ F).
Proof.
  intros U E o [[u p] m] F c oc (N & Is) (C1 & C2 & C3) C Ef. unfold cred_setUsername. cbn [fst snd] in *.
  unfold fcred in *. cbn [fst snd] in *.
  eapply tri_seq with (F := ftext (co_pass o) p ++ F) (X := ftext (co_user o) u);
    [ eapply tri_c_read; exact C | perm | ]. intros x G (-> & ->).
  eapply tri_pre with (G := (ftext (co_user o) u ++ ftext (co_pass o) p) ++ F); [ perm | ].
  destruct (plain_null_or_blank oc) as [(b & Eb) | [Eb | Eb]]; rewrite Eb.
  - apply tri_lift; try easy. intros b' [= <-]. destruct b.
    + apply tri_throw. exact Ef.
    + tstep tri_del_text. intros _ G ->.
      eapply tri_seq; [ eapply tri_c_dup; [ exact C | now right ] | perm | ].
      intros q G (s & -> & Cq & ->).
      eapply tri_ret; [ | exists s; repeat split; eauto ]. cbn [co_user co_pass]. perm.
  - apply tri_lift; easy.
  - apply tri_lift; try easy. now intros w [= <-].
Qed.

Lemma tri_setPassword : forall U (E : foot -> Prop) o v F c oc, okU U -> ccred o v ->
  cin c (ftext (co_user o) (fst (fst v)) ++ F) oc -> E (fcred o v ++ F) ->
  tri U E (fcred o v ++ F) (cred_setPassword o c)
    (fun o' G => exists s, oc = Some s /\ ccred o' (fst (fst v), Some s, snd v) /\
       G = fcred o' (fst (fst v), Some s, snd v) ++ F).
Proof.
  intros U E o [[u p] m] F c oc (N & Is) (C1 & C2 & C3) C Ef. unfold cred_setPassword. cbn [fst snd] in *.
  unfold fcred in *. cbn [fst snd] in *.
  eapply tri_seq with (F := ftext (co_user o) u ++ F) (X := ftext (co_pass o) p);
    [ eapply tri_c_read; exact C | perm | ]. intros x G (-> & ->).
  eapply tri_pre with (G := (ftext (co_user o) u ++ ftext (co_pass o) p) ++ F); [ perm | ].
  destruct oc as [[ | c0 s] | ].
  - apply tri_throw. exact Ef.
  - eapply tri_seq; [ eapply tri_del_text; eauto | perm | ]. intros _ G ->.
    eapply tri_seq; [ eapply tri_c_dup; [ exact C | now right ] | perm | ].
    intros q G (s' & Es & Cq & ->).
    eapply tri_ret; [ | exists s'; repeat split; eauto ]. cbn [co_user co_pass]. perm.
  - apply tri_throw. exact Ef.
Qed.
