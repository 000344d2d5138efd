(** Undefined behaviour and the communication log, for whole programs. *)

From Coq Require Import Ascii String List NArith ZArith Bool Lia ZifyBool ZifyNat ZifyN.
From Verif Require Import Base Lib ModelUtil ModelBase64 ModelAddress ModelAttachment
  ModelErrors ModelReply ModelMessage ModelState ModelClient ModelWorld SpecText SpecMime SpecSafety
  ProofText ProofSteps ProofWalk ProofPhases ProofEstablish ProofLog ProofSend ProofWorld.
Import ListNotations.
Open Scope Z_scope.

(** ** What holds of every client between operations *)

Section Program.
Variable ops : list op.

Definition server_from (c : client) : Prop :=
  match c_server c with
  | None => (exists i, In (OMove i) ops) \/ (exists i j, In (OMoveAssign i j) ops)
  | Some name => exists o s, In o ops /\ op_server o = Some s /\ name = cstr s
  end.
Definition port_from (c : client) : Prop := used_port ops (c_port c).
Definition cred_from (c : client) : Prop :=
  c_cred c <> None -> exists i cr, In (OSetCred i cr) ops.

Record fit (c : client) (t : list event) : Prop := mkFit {
  f_log : c_conn c = true -> good_log c;
  f_server : server_from c;
  f_port : port_from c;
  f_cred : cred_from c;
  f_sock : sock_ok c t;
  f_resp : resp_ok c t }.

Lemma fit_app : forall c t t', fit c t -> fit c (t ++ t').
Proof. intros c t t' []. constructor; auto using sock_ok_app, resp_ok_app. Qed.

Lemma config_fields : forall c d, config c = config d ->
  c_kind c = c_kind d /\ c_server c = c_server d /\ c_port c = c_port d /\ c_batch c = c_batch d /\
  c_timeout c = c_timeout d /\ c_cred c = c_cred d /\ c_selfsigned c = c_selfsigned d.
Proof. intros c d H. unfold config in H. inversion H. repeat split; assumption. Qed.

Lemma fit_steps : forall P s s', steps P s s' -> fit (s_c s) (s_t s) ->
  (c_conn (s_c s') = true -> good_log (s_c s')) -> fit (s_c s') (s_t s').
Proof.
  intros P s s' H F G. destruct (steps_sock_resp _ _ _ H) as [H1 H2]. assert (C := steps_config _ _ _ H).
  apply config_fields in C as (_ & C2 & C3 & _ & _ & C6 & _). destruct F. constructor; auto.
  - unfold server_from in *. rewrite C2. assumption.
  - unfold port_from in *. rewrite C3. assumption.
  - unfold cred_from in *. rewrite C6. assumption.
Qed.

Lemma fit_send : forall m s, fit (s_c s) (s_t s) -> fit (s_c (snd (sendMail m s))) (s_t (snd (sendMail m s))).
Proof.
  intros m s F. eapply fit_steps; [apply sendMail_walk|assumption|]. intros _.
  destruct (sendMail_good m s) as [[r B]|G]; [apply F| |exact G].
  assert (W := sendMail_walk m s). destruct (c_conn (s_c s)) eqn:Cn.
  - eapply steps_good; [apply W|]. apply F. assumption.
  - rewrite sendMail_fresh by assumption. eapply steps_good; [apply sendMail_walk|]. apply good_fresh.
Qed.

Lemma fit_config : forall c d t, fit c t -> c_conn d = false \/ (c_conn d = c_conn c /\ c_log d = c_log c /\ c_logsize d = c_logsize c) ->
  (c_server d = c_server c) -> c_port d = c_port c -> c_cred d = c_cred c ->
  c_sock d = 0 \/ c_sock d = c_sock c -> c_resp d = None \/ c_resp d = c_resp c -> fit d t.
Proof.
  intros c d t F HL HS HP HC HK HR. destruct F. constructor.
  - intros Cn. destruct HL as [HL|(HL1 & HL2 & HL3)]; [congruence|]. rewrite HL1 in Cn. apply f_log0 in Cn.
    unfold good_log in *. rewrite HL2, HL3. assumption.
  - unfold server_from in *. rewrite HS. assumption.
  - unfold port_from in *. rewrite HP. assumption.
  - unfold cred_from in *. rewrite HC. assumption.
  - unfold sock_ok in *. destruct HK as [->| ->]; auto.
  - unfold resp_ok in *. destruct HR as [->| ->]; auto. discriminate.
Qed.

Lemma check_server_done : forall p s, check_server_name p = Done s -> exists x, p = Some x /\ s = cstr x.
Proof.
  intros p s H. unfold check_server_name in H. destruct p as [x|]; [|discriminate H].
  destruct (null_or_blank (Some x)) as [b| | | | |]; try discriminate H. destruct b; [discriminate H|].
  simpl in H. injection H as <-. eauto.
Qed.

Lemma fit_step : forall o w x w', In o ops -> step o w = (x, w') -> all_clients fit w -> all_clients fit w'.
Proof.
  intros o w x w' Ho S A i c G. assert (O := step_origin _ _ _ _ _ _ S G).
  destruct (step_trace _ _ _ _ S) as [t' T].
  assert (E := step_effect _ _ _ _ S).
  assert (Same : forall j d, get_client w j = Some d -> fit d (w_trace w')).
  { intros j d X. rewrite T. apply fit_app. eapply A; eauto. }
  inversion O; subst.
  - eapply Same; eauto.
  - unfold client_new in H0. destruct (check_server_name p) as [name| | | | |] eqn:Y; try discriminate H0.
    simpl in H0. injection H0 as <-. apply check_server_done in Y as (s & -> & ->). constructor; simpl.
    + discriminate.
    + unfold server_from. simpl. do 2 eexists. split; [exact Ho|]. simpl. auto.
    + right. do 2 eexists. split; [exact Ho|]. simpl. auto.
    + unfold cred_from. simpl. congruence.
    + left. reflexivity.
    + unfold resp_ok. simpl. discriminate.
  - unfold client_copy in H1. destruct (c_server c0) as [name|] eqn:N; [|discriminate H1]. injection H1 as <-.
    eapply (fit_config c0); eauto; simpl; auto.
  - eapply (fit_config c0); eauto; simpl; auto.
  - constructor; simpl; unfold server_from, port_from, cred_from, resp_ok; simpl; try discriminate; auto.
    + left. eauto.
    + left. reflexivity.
    + congruence.
    + left. reflexivity.
  - unfold client_assign in H4. destruct (c_server c0) as [name|] eqn:N; [|discriminate H4]. injection H4 as <-.
    eapply (fit_config c0); eauto; simpl; auto.
  - eapply (fit_config c0); eauto; simpl; auto.
  - constructor; simpl; unfold server_from, port_from, cred_from, resp_ok; simpl; try discriminate; auto.
    + right. eauto.
    + left. reflexivity.
    + congruence.
    + left. reflexivity.
  - destruct E as [[E1 E2]|[(i' & m' & c' & E1 & E2 & E3 & E4 & E5)|(i' & c' & E1 & _)]]; [| |discriminate E1].
    + simpl in S. unfold run_on in S. rewrite H0 in S.
      destruct (sendMail m (mkSt c0 (w_env w) (w_trace w))) as [o s] eqn:F. injection S as _ <-. simpl in *.
      assert (X := fit_send m (mkSt c0 (w_env w) (w_trace w)) (A _ _ H0)). rewrite F in X. exact X.
    + injection E1 as <- <-. rewrite H0 in E2. injection E2 as <-. rewrite E5. apply fit_send. simpl. eapply A; eauto.
  - unfold client_setServerName in H1. destruct (check_server_name p) as [name| | | | |] eqn:Y; try discriminate H1.
    simpl in H1. injection H1 as <-. apply check_server_done in Y as (s & -> & ->).
    destruct (Same _ _ H0). constructor; simpl; auto.
    + unfold server_from. simpl. do 2 eexists. split; [exact Ho|]. simpl. auto.
  - destruct (Same _ _ H0). constructor; simpl; auto. right. do 2 eexists. split; [exact Ho|]. simpl. auto.
  - eapply (fit_config c0); eauto; simpl; auto.
  - eapply (fit_config c0); eauto; simpl; auto.
  - destruct (Same _ _ H0). constructor; simpl; auto. intros _. do 2 eexists. exact Ho.
  - eapply (fit_config c0); eauto; simpl; auto.
  - eapply (fit_config c0); eauto; simpl; auto.
Qed.

(** ** Undefined behaviour *)

Lemma dec_rev_length : forall k f n, (n < 10 ^ N.of_nat (S k))%N -> (length (dec_rev f n) <= S k)%nat.
Proof.
  induction k as [|k IH]; intros f n H; (destruct f as [|f]; [simpl; lia|]); cbn [dec_rev].
  - destruct (n <? 10)%N eqn:E; [simpl; lia|]. change (10 ^ N.of_nat 1)%N with 10%N in H. lia.
  - destruct (n <? 10)%N eqn:E; [simpl; lia|]. cbn [length]. apply le_n_S. apply IH.
    rewrite Nat2N.inj_succ, N.pow_succ_r' in H. apply N.div_lt_upper_bound; lia.
Qed.
Lemma dec_length : forall k n, (n < 10 ^ N.of_nat (S k))%N -> (slen (dec_of_N n) <= N.of_nat (S k))%N.
Proof.
  intros k n H. unfold slen, dec_of_N. rewrite rev_length.
  assert (X := dec_rev_length k (S (N.to_nat (N.size n))) n H). lia.
Qed.

Lemma trim_cause : forall s u, trim s = Undef u -> exists x, In x s /\ (128 <= code x)%N.
Proof.
  intros s u H. destruct (trim_defined s) as [[t E]|(_ & l & c & r & -> & Hc & _)]; [congruence|].
  exists c. split; [|assumption]. apply in_or_app. right. left. reflexivity.
Qed.

Lemma starttls_cause : forall r u, isStartTLSSupported (Some r) = Undef u -> exists x, In x r /\ (128 <= code x)%N.
Proof.
  intros r u H. unfold isStartTLSSupported in H. destruct (cstr r) eqn:E; [discriminate H|].
  destruct (trim (a :: s)) eqn:T; simpl in H; try discriminate H.
  - destruct a0; discriminate H.
  - apply trim_cause in T as (x & X & Y). exists x. split; [|assumption]. apply cstr_in. rewrite E. assumption.
Qed.

Lemma received_cause : forall t x, In x (received t) -> (128 <= code x)%N -> non_ascii_received t.
Proof.
  intros t x H X. unfold received in H. apply in_flat_map in H as (ev & E & R).
  destruct ev; try destruct R; simpl in R;
    (match goal with r : recv_res |- _ => destruct r as [d|]; [|destruct R] end);
    apply firstn_in in R; exists d, x; eauto.
Qed.

Lemma new_cause : forall p u, check_server_name p = Undef u ->
  u = UB_IsspaceNegative /\ exists s, p = Some s /\ ~ Forall ascii7 (cstr s).
Proof.
  intros p u H. unfold check_server_name in H. destruct p as [x|]; [|discriminate H].
  unfold null_or_blank in H. destruct (cstr x) eqn:E; [discriminate H|].
  destruct (trim (a :: s)) as [t| | | | |] eqn:T; simpl in H; try discriminate H.
  - destruct t; discriminate H.
  - injection H as <-. assert (U := trim_undef _ _ T). split; [assumption|]. exists x. split; [reflexivity|].
    rewrite E. intros F. apply trim_cause in T as (y & Y & Z). rewrite Forall_forall in F. specialize (F y Y).
    unfold ascii7 in F. lia.
Qed.

Lemma bad_arrays_ok : forall m, bad_arrays m -> ~ message_ok m.
Proof.
  intros m [n H] (A & B & C). unfold well_formed in *.
  destruct H as [H|[H|H]]; rewrite H in *;
    [destruct A as [l X]|destruct B as [l X]|destruct C as [l X]]; discriminate.
Qed.

Lemma used_port_bound : forall port, used_port ops port -> (slen (dec_of_N port) <= 10)%N.
Proof.
  intros port H. apply (dec_length 9). destruct H as [->|(o & n & _ & _ & ->)]; [lia|]. unfold u32.
  change (10 ^ N.of_nat 10)%N with 10000000000%N. lia.
Qed.

Lemma used_port_bound5 : (forall o n, In o ops -> op_port o = Some n -> (n < 65536)%N) ->
  forall port, used_port ops port -> (slen (dec_of_N port) <= 5)%N.
Proof.
  intros B port H. apply (dec_length 4). change (10 ^ N.of_nat 5)%N with 100000%N.
  destruct H as [->|(o & n & H1 & H2 & ->)]; [lia|]. specialize (B o n H1 H2). unfold u32.
  rewrite N.mod_small; lia.
Qed.

Lemma stuck_cause : forall (P : label -> Prop) u s, fit (s_c s) (s_t s) -> stuck P u s ->
  (P LNull -> exists i m, In (OSend i m) ops /\ ~ message_ok m) ->
  u <> UB_NullDeref PLog -> u <> UB_BufferOverflow BufLog -> cause ops (s_t s) u.
Proof.
  intros P u s F S PN N1 N2. destruct F as [FL FS FP FC FK FR].
  destruct u as [p|b| | | | | | ]; try (destruct S; fail).
  - destruct p; try (destruct S; fail); try congruence; simpl in S.
    + apply cause_array. auto.
    + apply cause_moved. unfold server_from in FS. rewrite S in FS. assumption.
    + apply cause_auth. apply FC. apply S.
  - destruct b; try (destruct S; fail); try congruence.
    + destruct S as (t & fd & d & T & L). apply cause_recv. exists fd, d. split; [|assumption].
      rewrite T. apply in_or_app. right. left. reflexivity.
    + destruct S as (t & host & T). apply cause_host. eauto.
    + destruct S as (name & X & L). apply cause_endpoint. unfold server_from in FS. rewrite X in FS.
      destruct FS as (o & s0 & O1 & O2 & ->). exists o, s0, (c_port (s_c s)). repeat split; auto.
  - destruct S as (r & H1 & H2). destruct (starttls_cause _ _ H2) as (y & Y1 & Y2).
    apply cause_isspace. left. eapply received_cause; [|exact Y2]. eapply FR; eauto.
  - simpl in S. apply cause_fd. unfold sock_ok in FK. destruct FK as [K|[K|(n & K & I)]]; [lia|lia|].
    exists n. split; [assumption|]. lia.
Qed.

Lemma client_copy_undef : forall c u, client_copy c = Undef u -> u = UB_NullDeref PServer /\ c_server c = None.
Proof. intros c u H. unfold client_copy in H. destruct (c_server c); inversion H; auto. Qed.
Lemma client_assign_undef : forall d c u, client_assign d c = Undef u -> u = UB_NullDeref PServer /\ c_server c = None.
Proof. intros d c u H. unfold client_assign in H. destruct (c_server c); inversion H; auto. Qed.

Lemma create_undef : forall o w u w', create o w = (Undef u, w') -> o = Undef u.
Proof. intros o w u w' H. unfold create in H. destruct o; inversion H; reflexivity. Qed.
Lemma alter_undef : forall i f w u w', alter i f w = (Undef u, w') -> exists c, get_client w i = Some c /\ f c = Undef u.
Proof.
  intros i f w u w' H. unfold alter in H. destruct (get_client w i) as [c|]; [|discriminate H].
  exists c. destruct (f c) eqn:E; inversion H; auto.
Qed.

Lemma step_undef : forall o w u w', In o ops -> step o w = (Undef u, w') -> all_clients fit w ->
  cause ops (w_trace w') u.
Proof.
  intros o w u w' Ho S A.
  assert (MV : forall j c, get_client w j = Some c -> c_server c = None -> cause ops (w_trace w') (UB_NullDeref PServer)).
  { intros j c G N. apply cause_moved. assert (F := f_server _ _ (A _ _ G)). unfold server_from in F.
    rewrite N in F. assumption. }
  assert (SV : forall s, op_server o = Some s -> ~ Forall ascii7 (cstr s) -> cause ops (w_trace w') UB_IsspaceNegative).
  { intros s H1 H2. apply cause_isspace. right. eauto. }
  destruct o; simpl in S;
    try (apply alter_undef in S as (c0 & G & S); discriminate S).
  - apply create_undef in S. unfold client_new in S.
    destruct (check_server_name server) eqn:E; try discriminate S. simpl in S. injection S as <-.
    apply new_cause in E as (-> & s & -> & F). apply (SV s); auto.
  - destruct (get_client w src) as [c|] eqn:G; [|discriminate S].
    apply create_undef in S. apply client_copy_undef in S as [-> N]. eauto.
  - destruct (get_client w src); discriminate S.
  - destruct (get_client w dst); [|discriminate S]. destruct (get_client w src) as [c0|] eqn:G; [|discriminate S].
    destruct (Nat.eqb _ _); [discriminate S|]. destruct (kind_eqb _ _); [|discriminate S].
    apply alter_undef in S as (c1 & _ & S). apply client_assign_undef in S as [-> N]. eauto.
  - destruct (get_client w dst); [|discriminate S]. destruct (get_client w src) as [c0|]; [|discriminate S].
    destruct (Nat.eqb _ _); [discriminate S|]. destruct (kind_eqb _ _); discriminate S.
  - unfold run_on in S. destruct (get_client w i) as [c|] eqn:G; [|discriminate S].
    assert (F := A _ _ G). set (s0 := mkSt c (w_env w) (w_trace w)) in *.
    destruct (sendMail m s0) as [x s] eqn:E. injection S as -> <-. simpl.
    assert (X := sendMail_stuck m s0 u (f_log _ _ F)). rewrite E in X. destruct (X eq_refl) as (X1 & X2 & X3).
    assert (F' := fit_send m s0 F). rewrite E in F'.
    eapply stuck_cause; eauto. intros Y. simpl in Y. exists i, m. split; [assumption|]. apply bad_arrays_ok. exact Y.
  - apply alter_undef in S as (c & G & S). unfold client_setServerName in S.
    destruct (check_server_name server) eqn:E; try discriminate S. simpl in S. injection S as <-.
    apply new_cause in E as (-> & s & -> & F). apply (SV s); auto.
  - apply alter_undef in S as (c0 & G & S). destruct (c_kind c0); discriminate S.
  - unfold run_on in S. destruct (get_client w i) as [c|] eqn:G; [|discriminate S].
    assert (F := A _ _ G). set (s0 := mkSt c (w_env w) (w_trace w)) in *.
    destruct ((cleanup;; ret 0) s0) as [x s] eqn:E. injection S as -> <-. simpl.
    assert (D : fst (cleanup s0) = Undef u /\ snd (cleanup s0) = s).
    { unfold bind in E. destruct (cleanup s0) as [y s1]. destruct y; inversion E; auto. }
    destruct D as [D1 D2].
    destruct (cleanup_stuck s0 u (f_log _ _ F) D1) as (X1 & X2 & X3). rewrite D2 in X1.
    destruct (cleanup_good s0 (f_log _ _ F)) as [GL|[_ X]]; [|rewrite X in D1; discriminate D1].
    assert (W := any_cleanup (mkMsg Plaintext (mkAddr [] []) (AArr []) (AArr []) (AArr []) [] [] (AArr [])) s0).
    destruct W as [W _]. rewrite D2 in W.
    assert (F' : fit (s_c s) (s_t s)).
    { eapply fit_steps; [exact W|exact F|]. intros _. eapply steps_good; eauto. }
    eapply stuck_cause; eauto. intros [].
Qed.

End Program.

Lemma initial_fit : forall ops e, all_clients (fit ops) (initial_world e).
Proof. intros ops e i c G. unfold get_client, initial_world in G. simpl in G. destruct i; discriminate G. Qed.

Lemma run_fit : forall ops e, all_clients (fit ops) (snd (run ops (initial_world e))).
Proof.
  intros ops e. apply (run_inv (fun o => In o ops)); [|auto|apply initial_fit].
  intros o w x w' Ho S. apply (fit_step ops o w x w' Ho S).
Qed.

Lemma run_cause : forall ops e u, In (Undef u) (fst (run ops (initial_world e))) ->
  cause ops (w_trace (snd (run ops (initial_world e)))) u.
Proof.
  intros ops e u H.
  apply (run_outcome (fun o => In o ops) (all_clients (fit ops))
    (fun x w => forall u, x = Undef u -> cause ops (w_trace w) u)) with (ops := ops) (w := initial_world e) (x := Undef u).
  - intros o w x w' Ho S. apply (fit_step ops o w x w' Ho S).
  - intros o w x w' Ho S A _ u' ->. eapply step_undef; eauto.
  - auto.
  - apply initial_fit.
  - assumption.
  - reflexivity.
  - reflexivity.
Qed.

Lemma endpoint_fits : forall ops e limit,
  (forall o s, In o ops -> op_server o = Some s -> (slen (cstr s) <= limit)%N) ->
  (limit <= 1012)%N \/ ((limit <= 1017)%N /\ forall o n, In o ops -> op_port o = Some n -> (n < 65536)%N) ->
  ~ In (Undef (UB_BufferOverflow BufEndpoint)) (fst (run ops (initial_world e))).
Proof.
  intros ops e limit HS HP H. apply run_cause in H. inversion H; subst.
  destruct H0 as (o & s & port & H1 & H2 & H3 & H4). specialize (HS o s H1 H2).
  destruct HP as [HP|[HP HB]].
  - assert (X := used_port_bound ops port H3). lia.
  - assert (X := used_port_bound5 ops HB port H3). lia.
Qed.

(** ** The communication log *)

Lemma show_crlf_eq : forall s, escape_crlf s = show_crlf s.
Proof. reflexivity. Qed.

Definition log_of (c : client) : str := getCommunicationLog c.

Lemma log_text_snoc : forall es p i, log_text (es ++ [(p, i)]) = log_text es ++ log_line (p, i).
Proof. intros. unfold log_text. rewrite map_app, concat_app. simpl. rewrite app_nil_r. reflexivity. Qed.

Definition shown (prefix item : str) : str :=
  if str_eqb prefix (B "c") then show_crlf (cstr item) else cstr item.

Lemma addLog_exact : forall item prefix s, good_log (s_c s) ->
  addLog item prefix s = (Throw, s) \/
  exists s', addLog item prefix s = (Done tt, s') /\ good_log (s_c s') /\
    log_of (s_c s') = log_of (s_c s) ++ log_line (prefix, shown prefix item).
Proof.
  intros item prefix s G. destruct (addLog_good item prefix s G) as [X|(lg & lg' & n & L & T & X & C & S & M)]; [auto|].
  right. exists (log_state s lg' n). split; [exact X|]. split.
  - exists lg'. rewrite C. repeat split; auto.
  - unfold log_of, getCommunicationLog. simpl. rewrite L. exact T.
Qed.

Lemma steps_log_grow : forall (P : label -> Prop) s s', (P LNewLog -> False) -> steps P s s' -> good_log (s_c s) ->
  exists es, log_of (s_c s') = log_of (s_c s) ++ log_text es.
Proof.
  intros P s s' N H. induction H; intros G; [exists []; rewrite app_nil_r; reflexivity|].
  destruct (IHsteps (estep_good _ _ _ H G)) as [es E].
  assert (S1 : exists es1, log_of (s_c s2) = log_of (s_c s1) ++ log_text es1).
  { destruct H; try (exists []; rewrite app_nil_r; reflexivity); try contradiction.
    - destruct (addLog_exact item prefix s G) as [X|(s0 & X & _ & Y)]; rewrite H in X; [discriminate X|].
      injection X as <-. exists [(prefix, shown prefix item)]. rewrite Y. unfold log_text. simpl.
      rewrite app_nil_r. reflexivity.
    - exists []. rewrite app_nil_r. unfold teardown. destruct (c_kind (s_c s)); reflexivity. }
  destruct S1 as [es1 E1]. exists (es1 ++ es). rewrite E, E1, <- app_assoc. f_equal.
  unfold log_text. rewrite map_app, concat_app. reflexivity.
Qed.

Lemma steps_log_any : forall P s s', steps P s s' -> good_log (s_c s) -> (exists es, log_of (s_c s) = log_text es) ->
  exists es, log_of (s_c s') = log_text es.
Proof.
  intros P s s' H. induction H; intros G [es E]; [eauto|]. apply IHsteps; [eapply estep_good; eauto|].
  clear IHsteps. destruct H; try (exists es; exact E).
  - destruct (addLog_exact item prefix s G) as [X|(s0 & X & _ & Y)]; rewrite H in X; [discriminate X|].
    injection X as <-. exists (es ++ [(prefix, shown prefix item)]). rewrite Y, E, log_text_snoc. reflexivity.
  - exists []. reflexivity.
  - exists es. unfold teardown. destruct (c_kind (s_c s)); exact E.
Qed.

Definition tx_label (m : message) (l : label) : Prop :=
  match l with LSend _ | LPuts _ => True | LNull => bad_arrays m | l => base l end.

Lemma tx_transaction : forall m s, walk (tx_label m) (mail_transaction m) s.
Proof.
  intros m s. apply wtransaction with (fs := e_fs (s_e s)); try reflexivity.
  - intros [] H; try destruct H; exact I.
  - intros H. exact H.
  - intros d _. split; exact I.
  - intros n H. exists n. exact H.
Qed.

Lemma sendMail_log : forall m s, (c_conn (s_c s) = true -> good_log (s_c s)) ->
  exists es, log_of (s_c (snd (sendMail m s))) = (if c_conn (s_c s) then log_of (s_c s) else []) ++ log_text es.
Proof.
  intros m s G. destruct (c_conn (s_c s)) eqn:Cn.
  - unfold sendMail, bind at 1, getc. rewrite Cn. unfold bind at 1, ret. cbn [negb Z.eqb]. unfold bind, updc.
    assert (W := tx_transaction m (c_state s (set_conn true))). destruct W as [W _].
    apply (steps_log_grow (tx_label m)) in W; [exact W|intros H; exact H|]. apply G. reflexivity.
  - rewrite sendMail_fresh by assumption. simpl.
    eapply steps_log_any; [apply sendMail_walk|apply good_fresh|]. exists []. reflexivity.
Qed.

Lemma run_on_get : forall {A} i (m : M A) f w c, get_client w i = Some c ->
  get_client (snd (run_on i m f w)) i = f (s_c (snd (m (mkSt c (w_env w) (w_trace w))))).
Proof.
  intros A i m f w c G. unfold run_on. rewrite G. destruct (m _) as [o s] eqn:E. simpl.
  unfold get_client in *. cbn [w_clients]. rewrite nth_list_set, Nat.eqb_refl.
  destruct (Nat.ltb_spec i (length (w_clients w))) as [L|L].
  - destruct (f (s_c s)); reflexivity.
  - apply nth_error_None in L. rewrite L in G. discriminate G.
Qed.

Lemma world_log : forall ops e i c m, let w := snd (run ops (initial_world e)) in
  get_client w i = Some c -> exists c' es,
  get_client (snd (step (OSend i m) w)) i = Some c' /\
  log_of c' = (if c_conn c then log_of c else []) ++ log_text es.
Proof.
  intros ops e i c m w G. assert (F := run_fit ops e i c G).
  destruct (sendMail_log m (mkSt c (w_env w) (w_trace w)) (f_log _ _ _ F)) as [es E].
  exists (s_c (snd (sendMail m (mkSt c (w_env w) (w_trace w))))), es. split; [|exact E].
  simpl. apply (run_on_get i (sendMail m) Some w c G).
Qed.

Lemma world_append : forall ops e i c item prefix s, let w := snd (run ops (initial_world e)) in
  get_client w i = Some c -> c_conn c = true -> s_c s = c ->
  addLog item prefix s = (Throw, s) \/
  exists s', addLog item prefix s = (Done tt, s') /\
    log_of (s_c s') = log_of c ++ log_line (prefix, shown prefix item).
Proof.
  intros ops e i c item prefix s w G Cn <-. assert (F := run_fit ops e i _ G).
  destruct (addLog_exact item prefix s (f_log _ _ _ F Cn)) as [X|(s' & X & _ & Y)]; [auto|]. right. eauto.
Qed.

Lemma no_log_ub : forall ops e,
  ~ In (Undef (UB_NullDeref PLog)) (fst (run ops (initial_world e))) /\
  ~ In (Undef (UB_BufferOverflow BufLog)) (fst (run ops (initial_world e))).
Proof. intros ops e. split; intros H; apply run_cause in H; inversion H. Qed.

(** A log always fits its allocation, with the terminating NUL. *)
Definition log_fits (c : client) : Prop :=
  forall lg, c_log c = Some lg -> (slen (lg_text lg) + 1 <= lg_cap lg)%N.

Lemma slen_take : forall n s, (slen (take n s) <= slen s)%N.
Proof.
  intros n s. unfold take. destruct (slen s <=? n)%N; [lia|]. unfold slen. rewrite firstn_length. lia.
Qed.

Lemma addLog_fits : forall item prefix s s', addLog item prefix s = (Done tt, s') -> log_fits (s_c s').
Proof.
  intros item prefix s s' H. unfold addLog, bind at 1, getc in H.
  destruct (c_log (s_c s)) as [lg|]; [|discriminate H]. cbv zeta in H.
  match type of H with context [if ?a then lift Throw else _] => destruct a end; [discriminate H|].
  match type of H with context [if ?a then updc _ else _] => destruct a eqn:E end; [|discriminate H].
  injection H as <-. intros l. cbn [s_c c_log set_log]. intros L. injection L as <-. cbn [lg_text lg_cap].
  apply andb_true_iff in E as [E _]. apply N.leb_le in E.
  eapply N.le_trans; [|exact E]. apply N.add_le_mono_r. apply slen_take.
Qed.

Lemma steps_fits : forall P s s', steps P s s' -> log_fits (s_c s) -> log_fits (s_c s').
Proof.
  intros P s s' H. induction H; auto. intros F. apply IHsteps. clear IHsteps H1. destruct H; try exact F.
  - eapply addLog_fits; eassumption.
  - intros l L. injection L as <-. unfold slen. simpl. unfold INITIAL_COMM_LOG_LENGTH. lia.
  - unfold teardown. destruct (c_kind (s_c s)); exact F.
Qed.

Lemma log_copy_fits : forall l lg, log_copy l = Some lg -> (slen (lg_text lg) + 1 <= lg_cap lg)%N.
Proof. intros [l|] lg H; [|discriminate H]. injection H as <-. cbn. lia. Qed.

Lemma run_log_fits : forall ops e i c, get_client (snd (run ops (initial_world e))) i = Some c -> log_fits c.
Proof.
  intros ops e.
  apply (run_inv (fun _ => True) (all_clients (fun c _ => log_fits c))); [|auto|intros [|i] c H; discriminate H].
  intros o w x w' _ S A. eapply all_clients_step; [|  |exact S|exact A]; [auto|]. clear S A.
  intros i c O A _. destruct O.
  - eapply A; eassumption.
  - unfold client_new, obind in H0. destruct (check_server_name p); inversion H0; subst. intros lg L; discriminate L.
  - unfold client_copy in H1. destruct (c_server c); inversion H1; subst. intros lg L. eapply log_copy_fits; exact L.
  - intros lg L. eapply A; eassumption.
  - intros lg L; discriminate L.
  - unfold client_assign in H4. destruct (c_server c); inversion H4; subst. intros lg L. eapply log_copy_fits; exact L.
  - intros lg L. eapply (A _ _ H1); exact L.
  - intros lg L; discriminate L.
  - destruct (sendMail_walk m (mkSt c (w_env w) (w_trace w))) as [W _].
    eapply steps_fits; [exact W|]. eapply A; eassumption.
  - unfold client_setServerName, obind in H1. destruct (check_server_name p); inversion H1; subst. exact (A _ _ H0).
  - exact (A _ _ H0).
  - exact (A _ _ H0).
  - exact (A _ _ H0).
  - exact (A _ _ H0).
  - exact (A _ _ H0).
  - exact (A _ _ H0).
Qed.

From Verif Require Import Samples.

Lemma recv_overflow : exists ops e, In (Undef (UB_BufferOverflow BufRecv)) (fst (run ops (initial_world e))).
Proof.
  exists [ONew KPlain server 25; OSend 0 hi].
  exists (wire (told "220 ready" ++ [RData (B "250-" ++ repeat "x"%char 1020)])).
  vm_compute. right. left. reflexivity.
Qed.

Lemma recv_only_then : forall ops e,
  In (Undef (UB_BufferOverflow BufRecv)) (fst (run ops (initial_world e))) ->
  exists fd d, In (EvRecv fd (RData d)) (w_trace (snd (run ops (initial_world e)))) /\ (1024 <= length d)%nat.
Proof. intros ops e H. apply run_cause in H. inversion H; subst. assumption. Qed.

Lemma endpoint_overflow : exists ops e,
  (forall o s, In o ops -> op_server o = Some s -> (slen (cstr s) <= 1018)%N) /\
  (forall o n, In o ops -> op_port o = Some n -> (n < 65536)%N) /\
  In (Undef (UB_BufferOverflow BufEndpoint)) (fst (run ops (initial_world e))).
Proof.
  exists [ONew KForced (Some (repeat "a"%char 1018)) 10000; OSend 0 hi], (tls_wire [] [] [good_tls]).
  split; [|split].
  - intros o s [<-|[<-|[]]] H; inversion H; subst. vm_compute. discriminate.
  - intros o n [<-|[<-|[]]] H; inversion H; subst. lia.
  - vm_compute. right. left. reflexivity.
Qed.
