(** Programs whose connections can always be closed. *)

From Coq Require Import Ascii String List NArith ZArith Bool Lia ZifyBool ZifyNat ZifyN.
From Verif Require Import Base Lib ModelUtil ModelBase64 ModelAddress ModelAttachment
  ModelErrors ModelReply ModelMessage ModelState ModelClient ModelWorld
  ProofSteps ProofWalk ProofPhases ProofEstablish ProofLog ProofSend ProofWorld
  SpecAddress SpecText SpecReply SpecMime SpecDialogue SpecLife SpecDead
  ProofTls ProofTls2 ProofDialogue ProofMail ProofMail2 ProofLife ProofCode ProofDead ProofOwn ProofDiverge.
Import ListNotations.
Open Scope Z_scope.

(** A connected client has a way to write; the fallback of an opportunistic
    client counts if [F]. *)
Section Fine.
Variable F : Prop.
Definition fine (c : client) : Prop :=
  c_conn c = true -> c_kind c = KPlain \/ c_bio c <> None \/ (F /\ c_rawptr c = true /\ c_keep c = true).
Lemma fine_stable : forall c c', same6 c c' -> fine c -> fine c'.
Proof. intros c c' (A & B & C & D & E & G) H X. rewrite B in X. rewrite C, D, E, G. exact (H X). Qed.
Lemma fine_stuck : forall c, fine c -> ~ stuck c.
Proof. intros c Fc (_ & C & K & R & Bn). destruct (Fc C) as [X|[X|(_ & X & _)]]; [contradiction|contradiction|congruence]. Qed.
Lemma off_stable : forall c c', same6 c c' -> c_conn c = false -> c_conn c' = false.
Proof. intros c c' (A & B & _) H. congruence. Qed.
Lemma off_fine : forall c, c_conn c = false -> fine c.
Proof. intros c H X. congruence. Qed.

Lemma teardown_conn : forall s, c_conn (s_c (teardown s)) = false.
Proof. intros s. unfold teardown. destruct (c_kind (s_c s)); reflexivity. Qed.
Lemma fine_steps_stay : forall s s', steps stay s s' -> fine (s_c s) -> fine (s_c s').
Proof.
  intros s s' H. induction H as [s|l s1 s2 s3 E Pl S IH]; [auto|]. intros Fs. apply IH. clear IH S.
  destruct E; try contradiction; try exact Fs; try (apply off_fine, teardown_conn).
  - apply addLog_core in H as (C & _). core_facts C. eapply fine_stable; [|exact Fs]. repeat split; assumption.
Qed.
Lemma nd_cleanup_fine : nd fine cleanup.
Proof.
  intros s Fs. split; [apply cleanup_stops, fine_stuck, Fs|].
  destruct (stay_cleanup s) as [W _]. exact (fine_steps_stay _ _ W Fs).
Qed.
Lemma nd_cleanup_off : nd (fun c => c_conn c = false) cleanup.
Proof.
  intros s Fs. split; [apply cleanup_stops, fine_stuck, off_fine, Fs|].
  destruct (stay_cleanup s) as [W _]. refine (steps_conn_off stay _ _ _ W Fs). exact (fun x => x).
Qed.

(** ** A reply whose code is 0 *)
Definition zr (s s' : st) : Prop := exists t, s_t s' = s_t s ++ t /\ ~ reads_standard t.
Lemma reads_standard_l : forall a b, reads_standard (a ++ b) -> reads_standard a.
Proof. intros a b H ev d I. apply H. apply in_or_app. auto. Qed.
Lemma reads_standard_r : forall a b, reads_standard (a ++ b) -> reads_standard b.
Proof. intros a b H ev d I. apply H. apply in_or_app. auto. Qed.
Lemma zr_after : forall s s1 s', ext s s1 -> zr s1 s' -> zr s s'.
Proof.
  intros s s1 s' [a A] (t & T & N). exists (a ++ t). split; [rewrite T, A, app_assoc; reflexivity|].
  intros X. apply N. exact (reads_standard_r _ _ X).
Qed.
Lemma zr_before : forall s s1 s', zr s s1 -> ext s1 s' -> zr s s'.
Proof.
  intros s s1 s' (t & T & N) [a A]. exists (t ++ a). split; [rewrite A, T, app_assoc; reflexivity|].
  intros X. apply N. exact (reads_standard_l _ _ X).
Qed.
Lemma standard_cut : forall d n h, standard_reply d -> standard_reply h -> standard_reply (cstr (firstn n d) ++ h).
Proof.
  intros d n h [->|(c & r & -> & C)] H; [destruct n; exact H|]. destruct n as [|n]; [exact H|]. right.
  cbn [firstn cstr]. assert (N : Ascii.eqb c NUL = false) by (simpl in C; destruct C as [<-|[<-|[<-|[<-|[]]]]]; reflexivity).
  rewrite N. cbn. eauto.
Qed.
Lemma standard_heard : forall t, reads_only t -> reads_standard t -> standard_reply (fst (dialogue t)).
Proof.
  induction t as [|ev t IH]; intros R S; [left; reflexivity|].
  assert (X : standard_reply (fst (dialogue t))).
  { apply IH; [intros e H; apply R; right; exact H|]. intros e d H. apply S. right. exact H. }
  destruct ev; cbn [dialogue]; try exact X; try (destruct (R _ (or_introl eq_refl))).
  - destruct r as [d|]; [|exact X]. destruct (dialogue t) as [h l]. cbn [fst] in *. apply standard_cut; [|exact X].
    apply (S _ d (or_introl eq_refl)). left. eauto.
  - destruct r as [d|]; [|exact X]. destruct (dialogue t) as [h l]. cbn [fst] in *. apply standard_cut; [|exact X].
    apply (S _ d (or_introl eq_refl)). right. eauto.
Qed.
Lemma zero_reads : forall s s' t h, s_t s' = s_t s ++ t -> reads_only t -> dialogue t = (h, []) -> code_of h 0 -> zr s s'.
Proof.
  intros s s' t h T R D (x & y & -> & C). exists t. split; [exact T|]. intros S. apply standard_heard in S; [|exact R].
  rewrite D in S. cbn [fst] in S. apply standard_code in S. lia.
Qed.
Lemma zero_exchange : forall s s' d t h, s_t s' = s_t s ++ t -> exchange d t h -> code_of h 0 -> zr s s'.
Proof.
  intros s s' d t h T (ev & rest & -> & W & R & D) (x & y & -> & C). exists (ev :: rest). split; [exact T|].
  intros S. assert (S' : reads_standard rest) by (intros e z H; apply S; right; exact H).
  apply standard_heard in S'; [|exact R]. rewrite D in S'. cbn [fst] in S'. apply standard_code in S'. lia.
Qed.
Lemma zero_upgrade : forall s s', upgradeToSecureConnection s = (Done 0, s') -> zr s s'.
Proof.
  intros s s' H. unfold upgradeToSecureConnection in H. apply bind_done in H as (u & s1 & H1 & H).
  assert (G := grows_logc (B "STARTTLS" ++ CRLF) s). rewrite H1 in G. eapply zr_after; [exact G|].
  destruct (raw3_done _ _ _ _ _ _ H) as [X|[X|(_ & t & h & X & Y & Z)]]; [discriminate|discriminate X|discriminate X|].
  eapply zero_exchange; eassumption.
Qed.
Lemma zero_feedback : forall d err tmo s s', err <> 0 -> tmo <> 0 -> sendFeedback d err tmo s = (Done 0, s') -> zr s s'.
Proof.
  intros d err tmo s s' N1 N2 H. destruct (feedback_done _ _ _ _ _ _ H N1) as [X|[X|(_ & t & h & X & Y & Z)]]; [congruence|congruence|].
  eapply zero_exchange; eassumption.
Qed.
Lemma zero_ehlo_loop : forall fuel tmo o s s', tmo <> 0 -> ehlo_loop fuel tmo o s = (Done 0, s') -> zr s s'.
Proof.
  induction fuel as [|f IH]; intros tmo o s s' N H; cbn [ehlo_loop] in H; destruct (containsAllOptions o).
  - apply bind_done in H as (u & s1 & _ & H). apply ret_done in H as [H _]. discriminate H.
  - discriminate H.
  - apply bind_done in H as (u & s1 & _ & H). apply ret_done in H as [H _]. discriminate H.
  - apply bind_done in H as (code & s1 & H1 & H). assert (G := grows_reply s). rewrite H1 in G.
    destruct (code =? -1); [apply ret_done in H as [H _]; congruence|].
    destruct (negb (code =? 250)).
    + apply ret_done in H as [<- ->]. apply reply_trace in H1 as (_ & t & h & T & R & Dt & [X|C]); [discriminate X|].
      eapply zero_reads; eassumption.
    + unfold bind, getc in H. destruct (c_resp (s_c s1)); [|discriminate H].
      apply IH in H; [|exact N]. eapply zr_after; eassumption.
Qed.
Lemma zero_ehlo : forall err tmo s s', err <> 0 -> tmo <> 0 -> ehlo_with err tmo s = (Done 0, s') -> zr s s'.
Proof.
  intros err tmo s s' N1 N2 H. unfold ehlo_with in H. apply bind_done in H as (u & s0 & H0 & H).
  assert (G0 := grows_logc EHLO s). rewrite H0 in G0. apply bind_done in H as (code & s1 & H1 & H).
  assert (G1 := grows_feedback EHLO err tmo s0). rewrite H1 in G1. cbn [snd] in *. eapply zr_after; [exact G0|].
  destruct (negb (code =? 250)).
  - apply ret_done in H as [<- ->]. exact (zero_feedback _ _ _ _ _ N1 N2 H1).
  - unfold bind, getc, gete in H. destruct (c_resp (s_c s1)); [|discriminate H].
    apply zero_ehlo_loop in H; [|exact N2]. eapply zr_after; eassumption.
Qed.
Lemma zero_greeting : forall s s', checkServerGreetings s = (Done 0, s') -> zr s s'.
Proof.
  intros s s' H. unfold checkServerGreetings, bind at 1 2, getc, gete in H.
  destruct (wait_loop _ _ _ _) as [[o evs] rest] eqn:E.
  apply bind_done in H as (u2 & s2 & H2 & H). apply bind_done in H as (u3 & s3 & H3 & H).
  apply bind_done in H as (r & s4 & H4 & H). unfold lift in H4. inversion H4; subst o s4.
  inversion H2; subst. inversion H3; subst. 
  apply wait_loop_trace in E as [E1 E2]; [|left; eexists; reflexivity].
  destruct (dialogue_heard evs [] E1) as [_ X]. destruct (dialogue evs) as [h l] eqn:Dv. cbn in X. subst l.
  destruct r as [d|]; cbn [greeting_result] in H; [|apply ret_done in H as [H _]; discriminate H].
  apply bind_done in H as ([] & s5 & H5 & H). apply bind_done in H as ([] & s6 & H6 & H). apply ret_done in H as [Z ->].
  assert (E5 : s_t s5 = s_t s ++ evs) by (unfold logs in H5; apply addLog_core in H5 as (_ & _ & -> & _); reflexivity).
  assert (E6 : s_t s6 = s_t s5).
  { destruct (_ =? STATUS_CODE_SERVICE_READY) in H6; [unfold logc in H6; apply addLog_core in H6; tauto|apply ret_done in H6 as [_ ->]; reflexivity]. }
  eapply (zero_reads s s6 evs h); [congruence|exact E1|exact Dv|].
  destruct (greeting_prefix d) as [y Y]. exists (drop_last_byte d), y. split; [|exact Z].
  rewrite <- Y. apply E2. reflexivity.
Qed.

(** ** A connection that was established can be written to *)
Lemma establish_fine : forall s s', c_conn (s_c s) = false -> (c_kind (s_c s) = KOpp -> F) -> establish s = (Done 0, s') ->
  fine (set_conn true (s_c s')) \/ (c_kind (s_c s) = KOpp /\ zr s s').
Proof.
  intros s s' C Ko H. assert (Kd : c_kind (s_c s') = c_kind (s_c s)).
  { assert (X := steps_kind _ _ _ (proj1 (any_establish (mkMsg Plaintext (mkAddr [] []) (ANull 0) (ANull 0) (ANull 0) [] [] (ANull 0)) s C))). rewrite H in X. exact X. }
  unfold establish, bind at 1, getc in H. destruct (c_kind (s_c s)) eqn:K.
  - left. intros _. left. exact Kd.
  - assert (Sm : forall c, c_bio c <> None -> c_kind c = KOpp -> fine (set_conn true c)) by (intros c X _ _; right; left; exact X).
    unfold establishOpp in H. apply bind_done in H as (r & s1 & H1 & H).
    assert (G1 := grows_initialize s). rewrite H1 in G1. cbn [snd] in G1.
    destruct (Z.eqb_spec r 0) as [->|N]; cbn [negb] in H; [|apply ret_done in H as [H _]; congruence].
    apply bind_done in H as (g & s2 & H2 & H). assert (G2 := grows_greetings s1). rewrite H2 in G2. cbn [snd] in G2.
    destruct (negb (g =? _)); [right; split; [reflexivity|]; apply ret_done in H as [<- ->]; eapply zr_after; [exact G1|apply zero_greeting, H2]|].
    apply bind_done in H as (i & s3 & H3 & H). assert (G3 := grows_identify s2). rewrite H3 in G3. cbn [snd] in G3.
    assert (G13 := ext_trans _ _ _ G1 (ext_trans _ _ _ G2 G3)).
    destruct (negb (i =? _)); [right; split; [reflexivity|]; apply ret_done in H as [<- ->]; eapply zr_after; [exact (ext_trans _ _ _ G1 G2)|eapply zero_ehlo; [| |exact H3]; discriminate]|].
    unfold bind at 1, getc in H. apply bind_done in H as (tls & s4 & H4 & H). unfold lift in H4. assert (s4 = s3) by congruence. subst s4. clear H4.
    destruct tls.
    + apply bind_done in H as (v & s4 & H4 & H).
      match type of H4 with logc ?i s3 = _ => assert (G4 := grows_logc i s3) end. rewrite H4 in G4. cbn [snd] in G4.
      apply bind_done in H as (u & s5 & H5 & H).
      destruct (negb (u =? _)); [right; split; [reflexivity|]; apply ret_done in H as [<- ->]; eapply zr_after; [exact (ext_trans _ _ _ G13 G4)|apply zero_upgrade, H5]|].
      apply bind_done in H as (t & s6 & H6 & H).
      destruct (Z.eqb_spec t 0) as [->|N]; cbn [negb] in H; [|apply ret_done in H as [H _]; congruence].
      apply tls_done in H6 as (_ & _ & B6 & _). left. intros _. right. left. cbn.
      change (secure_tail s6 = (Done 0, s')) in H. apply secure_tail_bio in H. congruence.
    + apply bind_done in H as (v & s4 & H4 & H). apply bind_done in H as (v' & s5 & H5 & H). inversion H5; subst.
      apply ret_done in H as [_ ->]. left. intros _. right. right. cbn. split; [apply Ko; reflexivity|split; reflexivity].
  - left. intros _. right. left. cbn. unfold establishForced in H. apply bind_done in H as (r & s1 & H1 & H).
    destruct (Z.eqb_spec r 0) as [->|N]; cbn [negb] in H; [|apply ret_done in H as [H _]; congruence].
    apply bind_done in H as (t & s6 & H6 & H).
    destruct (Z.eqb_spec t 0) as [->|N]; cbn [negb] in H; [|apply ret_done in H as [H _]; congruence].
    apply tls_done in H6 as (_ & _ & B6 & _). change (forced_tail s6 = (Done 0, s')) in H. apply forced_tail_bio in H. congruence.
Qed.

(** ** Sending and destroying *)
Lemma send_ends : forall m s, fine (s_c s) -> (c_kind (s_c s) = KOpp -> F) ->
  (stops (sendMail m) s /\ fine (s_c (snd (sendMail m s)))) \/
  (c_kind (s_c s) = KOpp /\ c_conn (s_c s) = false /\ zr s (snd (sendMail m s))).
Proof.
  intros m s Fs Ko. assert (Tr : forall s, fine (s_c s) -> stops (mail_transaction m) s /\ fine (s_c (snd (mail_transaction m s)))).
  { intros x. apply (nd_transaction fine fine_stable nd_cleanup_fine). }
  destruct (c_conn (s_c s)) eqn:C.
  - left. unfold stops. rewrite sendMail_old by exact C. unfold bind, updc. apply Tr. intros _. apply Fs, C.
  - unfold stops. rewrite sendMail_new by exact C.
    destruct (nd_establish (fun c => c_conn c = false) off_stable nd_cleanup_off (fun b c H => H) (fun b c H => H) s C) as [N O].
    unfold stops in N. pose proof (establish_fine s) as EF. unfold bind. destruct (establish s) as [o s1]. cbn [fst snd] in *.
    destruct o as [r| | | | |]; try (left; split; [discriminate|apply off_fine, O]); [|congruence].
    unfold finish. destruct (Z.eqb_spec r 0) as [->|N0]; cbn [negb]; [|left; split; [discriminate|apply off_fine, O]].
    unfold bind, updc. destruct (EF _ C Ko eq_refl) as [X|[K Z]].
    + left. apply Tr. exact X.
    + right. split; [exact K|]. split; [reflexivity|]. eapply zr_before; [exact Z|].
      exact (steps_prefix _ _ _ (proj1 (stay_transaction m (mkSt (set_conn true (s_c s1)) (s_e s1) (s_t s1))))).
Qed.
Lemma destroy_ends : forall s, fine (s_c s) -> stops (cleanup;; ret 0) s.
Proof. intros s Fs. apply stops_bind; [apply cleanup_stops, fine_stuck, Fs|discriminate]. Qed.
End Fine.

(** ** Programs *)
Lemma check_nd : forall p, check_server_name p <> Diverge.
Proof.
  intros p. unfold check_server_name, null_or_blank. destruct p as [s|]; [|discriminate]. destruct (cstr s) eqn:E; [discriminate|].
  rewrite <- E. pose proof (trim_nd (cstr s)). destruct (trim (cstr s)) as [[|]| | | | |]; cbn; congruence.
Qed.
Lemma create_nd : forall o w x w', o <> Diverge -> create o w = (x, w') -> x <> Diverge.
Proof. intros o w x w' N H. unfold create in H. destruct o; inversion H; subst; congruence. Qed.
Lemma alter_nd : forall i f w x w', (forall c, f c <> Diverge) -> alter i f w = (x, w') -> x <> Diverge.
Proof.
  intros i f w x w' N H. unfold alter in H. destruct (get_client w i) as [c|]; [|inversion H; discriminate].
  specialize (N c). destruct (f c); inversion H; subst; congruence.
Qed.
Lemma fine_same : forall F c c', fine F c -> same6 c c' -> fine F c'.
Proof. intros F c c' H S. eapply fine_stable; eassumption. Qed.
Lemma fine_step : forall (F : Prop) o w x w' t, step o w = (x, w') -> w_trace w' = w_trace w ++ t ->
  (forall i c, get_client w i = Some c -> fine F c) ->
  (forall i c, get_client w i = Some c -> c_kind c = KOpp -> F /\ reads_standard t) ->
  (F -> forall i, o <> OSetKeep i false) ->
  x <> Diverge /\ (forall i c, get_client w' i = Some c -> fine F c).
Proof.
  intros F o w x w' t S T A Ko Nk.
  assert (SE : forall i m c, o = OSend i m -> get_client w i = Some c ->
    stops (sendMail m) (mkSt c (w_env w) (w_trace w)) /\ fine F (s_c (snd (sendMail m (mkSt c (w_env w) (w_trace w)))))).
  { intros i m c -> G. destruct (send_ends F m (mkSt c (w_env w) (w_trace w)) (A _ _ G)) as [X|(K & _ & t' & T' & N)]; [|exact X|].
    - intros K. exact (proj1 (Ko _ _ G K)).
    - exfalso. apply N. destruct (Ko _ _ G K) as [_ R]. cbn [step] in S. unfold run_on in S. rewrite G in S.
      destruct (sendMail m (mkSt c (w_env w) (w_trace w))) as [o' s'] eqn:Q. inversion S; subst. cbn in *.
      rewrite T in T'. apply app_inv_head in T'. subst t'. exact R. }
  split.
  - destruct o; cbn [step] in S.
    + eapply create_nd; [|exact S]. unfold client_new. pose proof (check_nd server). destruct (check_server_name server); cbn; congruence.
    + destruct (get_client w src) as [c|]; [|inversion S; discriminate]. eapply create_nd; [|exact S].
      unfold client_copy. destruct (c_server c); discriminate.
    + destruct (get_client w src); inversion S; discriminate.
    + destruct (get_client w dst); [|inversion S; discriminate]. destruct (get_client w src) as [c0|]; [|inversion S; discriminate].
      destruct (Nat.eqb _ _); [inversion S; discriminate|]. destruct (kind_eqb _ _); [|inversion S; discriminate].
      eapply alter_nd; [|exact S]. intros c1. unfold client_assign. destruct (c_server c0); discriminate.
    + destruct (get_client w dst); [|inversion S; discriminate]. destruct (get_client w src); [|inversion S; discriminate].
      destruct (Nat.eqb _ _); [inversion S; discriminate|]. destruct (kind_eqb _ _); inversion S; discriminate.
    + destruct (get_client w i) as [c|] eqn:G; unfold run_on in S; rewrite G in S; [|inversion S; discriminate].
      destruct (SE i m c eq_refl G) as [X _]. unfold stops in X. destruct (sendMail _ _). inversion S; subst. exact X.
    + eapply alter_nd; [|exact S]. intros c. unfold client_setServerName. pose proof (check_nd server). destruct (check_server_name server); cbn; congruence.
    + eapply alter_nd; [|exact S]; discriminate.
    + eapply alter_nd; [|exact S]; intros ?; discriminate.
    + eapply alter_nd; [|exact S]; intros ?; discriminate.
    + eapply alter_nd; [|exact S]; intros ?; discriminate.
    + eapply alter_nd; [|exact S]; intros ?; discriminate.
    + eapply alter_nd; [|exact S]. intros c1. cbn. destruct (c_kind c1); discriminate.
    + destruct (get_client w i) as [c|] eqn:G; unfold run_on in S; rewrite G in S; [|inversion S; discriminate].
      pose proof (destroy_ends F (mkSt c (w_env w) (w_trace w)) (A _ _ G)) as X. unfold stops in X.
      destruct ((cleanup;; ret 0) _). inversion S; subst. exact X.
  - intros i c G. assert (O := step_origin _ _ _ _ _ _ S G). inversion O; subst.
    + eapply A; eassumption.
    + unfold client_new in H0. destruct (check_server_name p) as [name| | | | |]; try discriminate H0.
      simpl in H0. injection H0 as <-. intros X. discriminate X.
    + unfold client_copy in H1. destruct (c_server c0); [|discriminate H1]. injection H1 as <-. intros X. discriminate X.
    + intros X. cbn in X. destruct (A _ _ H0 X) as [Y|[Y|(Y1 & Y2 & Y3)]]; cbn; auto.
    + intros X. discriminate X.
    + unfold client_assign in H4. destruct (c_server c0); [|discriminate H4]. injection H4 as <-. intros X. discriminate X.
    + intros X. cbn in X. destruct (A _ _ H1 X) as [Y|[Y|(Y1 & Y2 & Y3)]]; cbn; [left; congruence|auto|auto].
    + intros X. discriminate X.
    + exact (proj2 (SE _ _ _ eq_refl H0)).
    + unfold client_setServerName in H1. destruct (check_server_name p); try discriminate H1. simpl in H1. injection H1 as <-.
      eapply fine_same; [exact (A _ _ H0)|repeat split].
    + eapply fine_same; [exact (A _ _ H0)|repeat split].
    + intros X. exact (A _ _ H0 X).
    + eapply fine_same; [exact (A _ _ H0)|repeat split].
    + eapply fine_same; [exact (A _ _ H0)|repeat split].
    + intros X. cbn in X. destruct (A _ _ H0 X) as [Y|[Y|(Y1 & Y2 & Y3)]]; cbn; auto.
      destruct b; [auto|]. destruct (Nk Y1 _ eq_refl).
    + eapply fine_same; [exact (A _ _ H0)|repeat split].
Qed.

Lemma opp_step : forall o w x w', step o w = (x, w') -> (forall k p n, o = ONew k p n -> k <> KOpp) ->
  (forall i c, get_client w i = Some c -> c_kind c <> KOpp) -> (forall i c, get_client w' i = Some c -> c_kind c <> KOpp).
Proof.
  intros o w x w' S N A i c G. assert (O := step_origin _ _ _ _ _ _ S G). inversion O; subst; try (eapply A; eassumption).
  - unfold client_new in H0. destruct (check_server_name p) as [name| | | | |]; try discriminate H0. simpl in H0. injection H0 as <-.
    cbn. exact (N _ _ _ eq_refl).
  - unfold client_copy in H1. destruct (c_server c0); [|discriminate H1]. injection H1 as <-. exact (A _ _ H0).
  - exact (A _ _ H0).
  - exact (A _ _ H0).
  - unfold client_assign in H4. destruct (c_server c0); [|discriminate H4]. injection H4 as <-. exact (A _ _ H0).
  - exact (A _ _ H0).
  - exact (A _ _ H1).
  - assert (W := proj1 (sendMail_walk m (mkSt c0 (w_env w) (w_trace w)))). apply steps_kind in W. cbn [s_c] in W. rewrite W. exact (A _ _ H0).
  - unfold client_setServerName in H1. destruct (check_server_name p); try discriminate H1. simpl in H1. injection H1 as <-. exact (A _ _ H0).
  - exact (A _ _ H0).
  - exact (A _ _ H0).
  - exact (A _ _ H0).
  - exact (A _ _ H0).
  - exact (A _ _ H0).
  - exact (A _ _ H0).
Qed.

Lemma run_ends : forall (F : Prop) ops w, (forall i c, get_client w i = Some c -> fine F c) ->
  (F /\ never_releases_plain ops /\ reads_standard (w_trace (snd (run ops w))) \/
   ~ F /\ no_opportunistic ops /\ (forall i c, get_client w i = Some c -> c_kind c <> KOpp)) ->
  ~ In Diverge (fst (run ops w)).
Proof.
  intros F ops. induction ops as [|o ops IH]; intros w A C; [intros []|]. cbn [run] in *.
  destruct (step o w) as [x w1] eqn:S. destruct (step_trace _ _ _ _ S) as [t T].
  assert (Pre : exists t', w_trace (snd (if continues x then let '(xs, w2) := run ops w1 in (x :: xs, w2) else ([x], w1))) = w_trace w ++ t ++ t').
  { destruct (continues x).
    - destruct (run_trace ops w1) as [t' T']. destruct (run ops w1). cbn [snd] in *. exists t'. rewrite T', T, app_assoc. reflexivity.
    - exists []. cbn. rewrite app_nil_r. exact T. }
  destruct Pre as [t' Pre].
  assert (X : x <> Diverge /\ (forall i c, get_client w1 i = Some c -> fine F c)).
  { eapply fine_step; [exact S|exact T|exact A| |].
    - intros i c G K. destruct C as [(Hf & _ & R)|(_ & _ & N)]; [|destruct (N _ _ G K)]. split; [exact Hf|].
      rewrite Pre in R. apply reads_standard_r in R. exact (reads_standard_l _ _ R).
    - intros Hf i ->. destruct C as [(_ & N & _)|(N & _)]; [|contradiction]. apply (N i). left. reflexivity. }
  destruct X as [X1 X2]. destruct (continues x).
  - assert (IH1 : ~ In Diverge (fst (run ops w1))).
    { apply IH; [exact X2|]. destruct C as [(Hf & N & R)|(Hf & N & K)]; [left|right].
      - split; [exact Hf|]. split; [intros i H; apply (N i); right; exact H|]. destruct (run ops w1). exact R.
      - split; [exact Hf|]. split; [intros k p n H; apply (N k p n); right; exact H|].
        eapply opp_step; [exact S| |exact K]. intros k p n ->. apply (N k p n). left. reflexivity. }
    destruct (run ops w1). intros [H|H]; [exact (X1 H)|exact (IH1 H)].
  - intros [H|[]]. exact (X1 H).
Qed.
Lemma no_clients : forall e i c, get_client (initial_world e) i = Some c -> False.
Proof. intros e i c H. unfold get_client in H. destruct i; discriminate H. Qed.
Lemma ends_no_opportunistic : forall ops e, no_opportunistic ops -> ~ In Diverge (fst (run ops (initial_world e))).
Proof.
  intros ops e N. apply (run_ends False); [intros i c H; destruct (no_clients _ _ _ H)|]. right.
  split; [exact (fun x => x)|]. split; [exact N|]. intros i c H. destruct (no_clients _ _ _ H).
Qed.
Lemma ends_standard : forall ops e, never_releases_plain ops -> reads_standard (w_trace (snd (run ops (initial_world e)))) ->
  ~ In Diverge (fst (run ops (initial_world e))).
Proof.
  intros ops e N R. apply (run_ends True); [intros i c H; destruct (no_clients _ _ _ H)|]. left.
  split; [constructor|]. split; assumption.
Qed.
