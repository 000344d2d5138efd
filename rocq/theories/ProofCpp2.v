(** The setters and getters of the string API, the single-recipient
    constructor, and the comparison of addresses. *)

From Coq Require Import Ascii String List NArith ZArith Bool Arith Lia.
From Verif Require Import Base Lib ModelUtil ModelBase64 ModelAddress ModelAttachment
  ModelErrors ModelReply ModelMessage ModelState ModelClient ModelWorld ModelCpp SpecBase64 SpecMime SpecCpp
  ProofBase64 ProofAttachment ProofText ProofMime ProofCpp.
Import ListNotations.
Open Scope nat_scope.

Lemma set_username : forall c u c', ~ In NUL u -> cpp_setUsername c u = (Done tt, c') ->
  cpp_getUsername c' = u /\ cpp_getPassword c' = cpp_getPassword c /\ cr_method c' = cr_method c.
Proof.
  intros c u c' N H. unfold cpp_setUsername, setUsername, c_str in H.
  destruct (null_or_blank _) as [[] | | | | | ]; try discriminate H. injection H as <-.
  unfold cpp_getUsername, cpp_getPassword. cbn [cr_user cr_pass cr_method]. rewrite (cstr_nonul _ N). auto.
Qed.
Lemma set_password : forall c p c', ~ In NUL p -> cpp_setPassword c p = (Done tt, c') ->
  cpp_getPassword c' = p /\ cpp_getUsername c' = cpp_getUsername c /\ cr_method c' = cr_method c.
Proof.
  intros c p c' N H. unfold cpp_setPassword, setPassword, c_str in H. rewrite (cstr_nonul _ N) in H.
  destruct p; inversion H; subst. auto.
Qed.
Lemma set_content_id : forall a id, ~ In NUL id ->
  exists a', cpp_setContentId a id = Done a' /\ cpp_getContentId a' = id /\
    cpp_getName a' = cpp_getName a /\ cpp_getFilename a' = cpp_getFilename a.
Proof.
  intros a id N. unfold cpp_setContentId, setContentId, c_str. rewrite (cstr_nonul _ N).
  eexists. split; [ reflexivity | ]. auto.
Qed.
Lemma encoded_file : forall fs a,
  match fs (cpp_getFilename a) with
  | None => cpp_getBase64EncodedFile fs a = []
  | Some contents => (slen contents < 4294967296)%N -> mime_decode (cpp_getBase64EncodedFile fs a) = Some contents
  end.
Proof.
  intros fs a. unfold cpp_getFilename, cpp_getBase64EncodedFile, getBase64EncodedFile.
  destruct (fs (at_file a)) as [contents | ] eqn:F; [ | reflexivity ]. intros L.
  rewrite encode_no_nul. rewrite mime_decode_encode.
  unfold u32, slen in *. rewrite N.mod_small by exact L. rewrite Nnat.Nat2N.id. now rewrite firstn_all.
Qed.
Lemma shown_address : forall e n a, ~ In NUL e -> ~ In NUL n -> cpp_address_new e n = Done a ->
  cpp_address_str a = match n with [] => e | _ => n ++ B " <" ++ e ++ B ">" end.
Proof.
  intros e n a Ne Nn E. destruct (address_text e n a Ne Nn E) as (X & Y & _).
  unfold cpp_address_str, address_str. unfold cpp_getEmailAddress, cpp_getDisplayName in *. rewrite X, Y. reflexivity.
Qed.

(** ** The single-recipient constructor *)

Lemma single_elements : forall k from to subject body cc bcc atts,
  let m := message_new1 k from to subject body cc bcc (Some atts) (length atts) in
  m_kind m = k /\ m_from m = from /\ elements (m_to m) = [to] /\ elements (m_cc m) = listed cc /\
  elements (m_bcc m) = listed bcc /\ elements (m_atts m) = atts /\
  arr_count (m_cc m) = length (listed cc) /\ arr_count (m_bcc m) = length (listed bcc) /\
  arr_count (m_to m) = 1 /\ arr_count (m_atts m) = length atts.
Proof.
  intros k from to subject body cc bcc atts. cbn. rewrite firstn_all. destruct cc, bcc; cbn; repeat split.
Qed.

Lemma single_alike : forall k from to subject body cc bcc atts,
  alike (message_new1 k from to subject body cc bcc (Some atts) (length atts))
    (message_new k from (Some [to]) 1 subject body (Some (listed cc)) (length (listed cc))
       (Some (listed bcc)) (length (listed bcc)) (Some atts) (length atts)).
Proof.
  intros. unfold message_new1, message_new. constructor; cbn; try reflexivity; try apply al_same.
  - destruct cc; [ apply al_same | apply al_null ].
  - destruct bcc; [ apply al_same | apply al_null ].
Qed.

Lemma single_sent : forall k from to subject body cc bcc atts i w,
  step (OSend i (message_new1 k from to subject body cc bcc (Some atts) (length atts))) w =
  step (OSend i (message_new k from (Some [to]) 1 subject body (Some (listed cc)) (length (listed cc))
       (Some (listed bcc)) (length (listed bcc)) (Some atts) (length atts))) w.
Proof.
  intros. cbn [step]. unfold run_on. destruct (get_client w i); [ | reflexivity ].
  now rewrite (sendMail_alike _ _ _ (single_alike k from to subject body cc bcc atts)).
Qed.

(** ** Comparing addresses *)

Lemma same_address : forall e n a e' n' b,
  address_new (Some e) (Some n) = Done a -> address_new (Some e') (Some n') = Done b ->
  ~ In NUL e -> ~ In NUL n -> ~ In NUL e' -> ~ In NUL n' ->
  (address_eqb a b = true <-> e = e' /\ n = n').
Proof.
  intros e n a e' n' b Ea Eb N1 N2 N3 N4.
  destruct (address_new_done _ _ _ Ea) as (x & y & [= <-] & [= <-] & ->).
  destruct (address_new_done _ _ _ Eb) as (x' & y' & [= <-] & [= <-] & ->).
  unfold address_eqb. cbn [a_email a_name]. rewrite !cstr_nonul by assumption.
  rewrite andb_true_iff, !str_eqb_eq. reflexivity.
Qed.
