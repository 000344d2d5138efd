(** The setting about self-signed certificates, and programs. *)

From Coq Require Import Ascii String List NArith ZArith Bool Lia.
From Verif Require Import Base Lib ModelUtil ModelBase64 ModelAddress ModelAttachment ModelMessage ModelReply ModelErrors ModelState ModelClient ModelWorld ModelWin
  SpecSelf ProofSelf.
Import ListNotations.
Open Scope Z_scope.

Ltac fldv := cbv [set_conn set_server set_port set_batch set_log set_resp set_timeout set_errno set_auth set_cred set_sock set_keep set_bio set_ctx set_selfsigned client_move client_moved client_move_assign c_kind c_conn c_server c_port c_batch c_log c_logsize c_resp c_timeout c_errno c_auth c_cred c_sock c_keep c_rawptr c_bio c_ctx c_selfsigned].
Definition same_o (x y : option client) : Prop := match x, y with Some a, Some b => same_but_setting a b | None, None => True | _, _ => False end.
Lemma same_refl : forall c, same_but_setting c c. Proof. intros []. eexists. fldv. reflexivity. Qed.
Lemma same_kind : forall a b, same_but_setting a b -> c_kind b = c_kind a. Proof. intros [] b (? & ->). reflexivity. Qed.
Lemma same_server : forall a b, same_but_setting a b -> c_server b = c_server a. Proof. intros [] b (? & ->). reflexivity. Qed.
Definition same_w (w1 w2 : world) : Prop :=
  Forall2 same_o (w_clients w1) (w_clients w2) /\ w_env w1 = w_env w2 /\ w_trace w1 = w_trace w2 /\ no_self_signed (w_env w1).
Lemma get_same : forall w1 w2 i, same_w w1 w2 -> same_o (get_client w1 i) (get_client w2 i).
Proof.
  intros w1 w2 i (F & _). unfold get_client. revert i. induction F as [|x y l1 l2 H F IH]; intros i; [destruct i; exact Logic.I|].
  destruct i; cbn [nth_error]; [|apply IH]. destruct x, y; exact H.
Qed.
Lemma set_same : forall l1 l2, Forall2 same_o l1 l2 -> forall i x y, same_o x y -> Forall2 same_o (list_set l1 i x) (list_set l2 i y).
Proof. induction 1 as [|u v l1 l2 H F IH]; intros i x y S; [destruct i; constructor|]. destruct i; cbn [list_set]; constructor; auto. Qed.
Lemma put_same : forall w1 w2 i x y, same_w w1 w2 -> same_o x y -> same_w (put_client i x w1) (put_client i y w2).
Proof. intros w1 w2 i x y (F & E) S. split; [apply set_same; assumption|exact E]. Qed.
Lemma push_same : forall w1 w2 x y, same_w w1 w2 -> same_but_setting x y -> same_w (push_client x w1) (push_client y w2).
Proof. intros w1 w2 x y (F & E) S. split; [apply Forall2_app; [exact F|constructor; [exact S|constructor]]|exact E]. Qed.
Definition same_result (o1 o2 : outcome client) : Prop :=
  match o1, o2 with
  | Done a, Done b => same_but_setting a b
  | Throw, Throw | Blocked, Blocked | Killed, Killed | Diverge, Diverge => True
  | Undef u, Undef v => u = v
  | _, _ => False
  end.
Lemma refl_result : forall o, same_result o o. Proof. intros [c| | | | |]; cbn; auto. apply same_refl. Qed.
Definition alike (r1 r2 : outcome Z * world) : Prop := fst r1 = fst r2 /\ same_w (snd r1) (snd r2).
Lemma create_same : forall w1 w2 o1 o2, same_w w1 w2 -> same_result o1 o2 -> alike (create o1 w1) (create o2 w2).
Proof. intros w1 w2 o1 o2 W R. destruct o1, o2; try contradiction; cbn in *; (split; [cbn; congruence|]); try exact W. apply push_same; assumption. Qed.
Lemma alter_same : forall w1 w2 i h1 h2, same_w w1 w2 -> (forall a b, same_but_setting a b -> same_result (h1 a) (h2 b)) -> alike (alter i h1 w1) (alter i h2 w2).
Proof.
  intros w1 w2 i h1 h2 W R. pose proof (get_same w1 w2 i W) as G. unfold alter. destruct (get_client w1 i) as [a|], (get_client w2 i) as [b|]; try contradiction; [|split; [reflexivity|exact W]].
  specialize (R a b G). destruct (h1 a), (h2 b); try contradiction; cbn in *; (split; [cbn; congruence|]); try exact W. apply put_same; assumption.
Qed.
Ltac same := match goal with H : same_but_setting ?a ?b |- _ => destruct a; destruct H as (? & ->) end; unfold same_but_setting; eexists; fldv; reflexivity.
Lemma member_same : forall {h : client -> option client} i (m : M Z) w1 w2, (forall a b, same_but_setting a b -> same_o (h a) (h b)) -> same_w w1 w2 -> ob m ->
  alike (run_on i m h w1) (run_on i m h w2).
Proof.
  intros h i m w1 w2 Hh W O. pose proof (get_same w1 w2 i W) as G. unfold run_on. destruct (get_client w1 i) as [a|], (get_client w2 i) as [b|]; try contradiction; [|split; [reflexivity|exact W]].
  destruct W as (F & Ew & Tw & N). assert (L : like (mkSt a (w_env w1) (w_trace w1)) (mkSt b (w_env w2) (w_trace w2))) by (split; [exact G|split; [exact Ew|split; [exact Tw|exact N]]]).
  specialize (O _ _ L). destruct (m (mkSt a _ _)) as [o1 q1], (m (mkSt b _ _)) as [o2 q2]. cbn [fst snd] in *.
  destruct O as [E (Lc & Le)]. split; [exact E|]. split; [apply set_same; [exact F|apply Hh, Lc]|exact Le].
Qed.
(** Calls without a connection; both systems share them. *)
Lemma plain_same : forall o1 o2 w1 w2, (forall i m, o1 <> OSend i m) -> (forall i, o1 <> ODestroy i) -> same_call o1 o2 -> same_w w1 w2 -> alike (step o1 w1) (step o2 w2).
Proof.
  intros o1 o2 w1 w2 NS ND C W.
  destruct o1; try (cbn [same_call] in C; subst o2).
  - apply create_same; [exact W|apply refl_result].
  - cbn [step]. pose proof (get_same w1 w2 src W) as G. destruct (get_client w1 src) as [a|], (get_client w2 src) as [b|]; try contradiction; [|split; [reflexivity|exact W]].
    apply create_same; [exact W|]. cbn [same_o] in G. unfold client_copy. rewrite (same_server a b G). destruct (c_server a); [|reflexivity]. cbn [same_result]. same.
  - cbn [step]. pose proof (get_same w1 w2 src W) as G. destruct (get_client w1 src) as [a|], (get_client w2 src) as [b|]; try contradiction; [|split; [reflexivity|exact W]].
    split; [reflexivity|]. cbn [snd]. cbn [same_o] in G. apply push_same; [apply put_same; [exact W|]; cbn [same_o]|]; same.
  - cbn [step]. pose proof (get_same w1 w2 dst W) as G. pose proof (get_same w1 w2 src W) as G'.
    destruct (get_client w1 dst) as [a|], (get_client w2 dst) as [b|]; try contradiction; [|split; [reflexivity|exact W]].
    destruct (get_client w1 src) as [a'|], (get_client w2 src) as [b'|]; try contradiction; [|split; [reflexivity|exact W]].
    destruct (Nat.eqb dst src); [split; [reflexivity|exact W]|]. cbn [same_o] in G, G'. rewrite (same_kind _ _ G), (same_kind _ _ G'). destruct (kind_eqb _ _); [|split; [reflexivity|exact W]].
    apply alter_same; [exact W|]. intros x y Gx. unfold client_assign. rewrite (same_server a' b' G'). destruct (c_server a'); [|reflexivity]. cbn [same_result]. rewrite (same_kind _ _ Gx). clear G Gx. same.
  - cbn [step]. pose proof (get_same w1 w2 dst W) as G. pose proof (get_same w1 w2 src W) as G'.
    destruct (get_client w1 dst) as [a|], (get_client w2 dst) as [b|]; try contradiction; [|split; [reflexivity|exact W]].
    destruct (get_client w1 src) as [a'|], (get_client w2 src) as [b'|]; try contradiction; [|split; [reflexivity|exact W]].
    destruct (Nat.eqb dst src); [split; [reflexivity|exact W]|]. cbn [same_o] in G, G'. rewrite (same_kind _ _ G), (same_kind _ _ G'). destruct (kind_eqb _ _); [|split; [reflexivity|exact W]].
    assert (K : same_but_setting (client_move_assign a a') (client_move_assign b b')).
    { unfold client_move_assign at 2. rewrite (same_kind _ _ G). clear G. same. }
    split; [reflexivity|]. cbn [snd]. apply put_same; [apply put_same; [exact W|exact K]|]. cbn [same_o]. clear G K. same.
  - exfalso. exact (NS _ _ eq_refl).
  - apply alter_same; [exact W|]. intros a b G. unfold client_setServerName, obind. destruct (check_server_name server); cbn [same_result]; try reflexivity; try exact Logic.I. same.
  - apply alter_same; [exact W|]. intros a b G. cbn [same_result]. same.
  - apply alter_same; [exact W|]. intros a b' G. cbn [same_result]. same.
  - apply alter_same; [exact W|]. intros a b G. cbn [same_result]. same.
  - apply alter_same; [exact W|]. intros a b G. cbn [same_result]. same.
  - apply alter_same; [exact W|]. intros a b' G. cbn [same_result]. same.
  - destruct o2; try discriminate C. cbn [same_call] in C. subst i0. apply alter_same; [exact W|]. intros a b' G. rewrite (same_kind _ _ G). destruct (c_kind a); cbn [same_result]; [exact Logic.I|same|same].
  - exfalso. exact (ND _ eq_refl).
Qed.
Lemma step_same : forall o1 o2 w1 w2, same_call o1 o2 -> same_w w1 w2 -> alike (step o1 w1) (step o2 w2).
Proof.
  intros o1 o2 w1 w2 C W. pose proof (plain_same o1 o2 w1 w2) as P. destruct o1; try (apply P; [discriminate|discriminate|exact C|exact W]).
  - cbn [same_call] in C. subst o2. exact (member_same (h := Some) i (sendMail m) w1 w2 (fun _ _ H => H) W (ob_send m)).
  - cbn [same_call] in C. subst o2. exact (member_same (h := fun _ => None) i (cleanup;; ret 0) w1 w2 (fun _ _ _ => Logic.I) W ob_destroy).
Qed.
Lemma run_same : forall ops1 ops2, Forall2 same_call ops1 ops2 -> forall w1 w2, same_w w1 w2 -> fst (run ops1 w1) = fst (run ops2 w2) /\ same_w (snd (run ops1 w1)) (snd (run ops2 w2)).
Proof.
  induction 1 as [|o1 o2 l1 l2 C F IH]; intros w1 w2 W; cbn [run]; [split; [reflexivity|exact W]|].
  destruct (step_same o1 o2 w1 w2 C W) as [E W']. destruct (step o1 w1) as [x1 v1], (step o2 w2) as [x2 v2]. cbn [fst snd] in *. subst x2.
  destruct (continues x1); [|split; [reflexivity|exact W']]. destruct (IH v1 v2 W') as [E' W'']. destruct (run l1 v1), (run l2 v2). cbn [fst snd] in *. subst. split; [reflexivity|exact W''].
Qed.
Lemma setting_irrelevant : forall ops1 ops2 e, no_self_signed e -> Forall2 same_call ops1 ops2 ->
  let a := run ops1 (initial_world e) in let b := run ops2 (initial_world e) in
  fst a = fst b /\ w_trace (snd a) = w_trace (snd b) /\
  forall i, match get_client (snd a) i, get_client (snd b) i with Some c, Some d => same_but_setting c d | None, None => True | _, _ => False end.
Proof.
  intros ops1 ops2 e N F a b. destruct (run_same ops1 ops2 F (initial_world e) (initial_world e)) as [E W]; [split; [constructor|split; [reflexivity|split; [reflexivity|exact N]]]|].
  split; [exact E|]. split; [apply W|]. intros i. exact (get_same _ _ i W).
Qed.

(** Windows. *)
Definition wlike (v1 v2 : vst) : Prop :=
  same_but_setting (v_c v1) (v_c v2) /\ v_on v1 = v_on v2 /\ v_e v1 = v_e v2 /\ v_w v1 = v_w v2 /\ v_t v1 = v_t v2 /\ no_self_signed (v_e v1).
Definition wtwo {A} (m1 m2 : W A) : Prop := forall v1 v2, wlike v1 v2 -> fst (m1 v1) = fst (m2 v2) /\ wlike (snd (m1 v1)) (snd (m2 v2)).
Definition wob {A} (m : W A) : Prop := wtwo m m.
Lemma wob_bind : forall {A C} (m1 m2 : W A) (k1 k2 : A -> W C), wtwo m1 m2 -> (forall a, wtwo (k1 a) (k2 a)) -> wtwo (wbind m1 k1) (wbind m2 k2).
Proof.
  intros A C m1 m2 k1 k2 H K s1 s2 L. specialize (H s1 s2 L). unfold wbind. destruct (m1 s1) as [o1 q1], (m2 s2) as [o2 q2]. cbn [fst snd] in *.
  destruct H as [-> L']. destruct o2 as [a| | | | |]; cbn [fst snd]; try (split; [reflexivity|exact L']). exact (K a q1 q2 L').
Qed.
Lemma wob_base : forall {A} (m1 m2 : M A), two m1 m2 -> wtwo (base m1) (base m2).
Proof.
  intros A m1 m2 H v1 v2 (X & On & Ee & Ew & Et & N).
  assert (L : like (mkSt (v_c v1) (v_e v1) []) (mkSt (v_c v2) (v_e v2) [])) by (split; [exact X|split; [exact Ee|split; [reflexivity|exact N]]]).
  specialize (H _ _ L). unfold base. destruct (m1 _) as [o1 q1], (m2 _) as [o2 q2]. cbn [fst snd] in *. destruct H as [-> (X1 & E1 & T1 & N1)].
  split; [reflexivity|]. split; [exact X1|]. cbn [v_on v_e v_w v_t]. rewrite T1, Et. refine (conj On (conj E1 (conj Ew (conj eq_refl N1)))).
Qed.
Lemma wob_getc : forall {A} (k : client -> W A), (forall c b, wtwo (k c) (k (set_selfsigned b c))) -> wtwo (wbind (base getc) k) (wbind (base getc) k).
Proof.
  intros A k H v1 v2 L. pose proof L as ((b & E) & L0). specialize (H (v_c v1) b).
  assert (L' : wlike (mkV (v_c v1) (v_on v1) (v_e v1) (v_w v1) (v_t v1 ++ [])) (mkV (v_c v2) (v_on v2) (v_e v2) (v_w v2) (v_t v2 ++ []))).
  { rewrite !app_nil_r. destruct v1, v2. exact L. }
  specialize (H _ _ L'). rewrite <- E in H. exact H.
Qed.
Lemma wob_gete : forall {A} (k : env -> W A), (forall e, no_self_signed e -> wtwo (k e) (k e)) -> wtwo (wbind (base gete) k) (wbind (base gete) k).
Proof.
  intros A k H v1 v2 L. pose proof L as (_ & _ & E & _ & _ & N). specialize (H (v_e v1) N).
  assert (L' : wlike (mkV (v_c v1) (v_on v1) (v_e v1) (v_w v1) (v_t v1 ++ [])) (mkV (v_c v2) (v_on v2) (v_e v2) (v_w v2) (v_t v2 ++ []))).
  { rewrite !app_nil_r. destruct v1, v2. exact L. }
  specialize (H _ _ L'). unfold wbind, base, gete. cbn [s_c s_e s_t map]. rewrite <- E. rewrite <- E in H. exact H.
Qed.
Lemma wob_ret : forall {A} (a : A), wtwo (wret a) (wret a). Proof. intros A a v1 v2 L. split; [reflexivity|exact L]. Qed.
Lemma wob_put : forall ev, wtwo (wput ev) (wput ev).
Proof. intros ev v1 v2 (X & On & Ee & Ew & Et & N). split; [reflexivity|]. split; [exact X|]. cbn. rewrite Et. refine (conj On (conj Ee (conj Ew (conj eq_refl N)))). Qed.
Lemma wob_set_on : forall b, wtwo (set_on b) (set_on b).
Proof. intros b v1 v2 (X & On & L). split; [reflexivity|]. split; [exact X|]. split; [reflexivity|exact L]. Qed.
Lemma wob_get_on : wtwo get_on get_on.
Proof. intros v1 v2 L. pose proof L as (_ & On & _). unfold get_on. cbn [fst snd]. rewrite On. split; [reflexivity|exact L]. Qed.
Lemma wob_next : forall {A} get (set : list A -> wenv -> wenv) (d : A), wtwo (next get set d) (next get set d).
Proof.
  intros A get set d v1 v2 L. pose proof L as (X & On & Ee & Ew & Et & N). unfold next. rewrite <- Ew. destruct (get (v_w v1)); (split; [reflexivity|]); [exact L|].
  split; [exact X|]. refine (conj On (conj Ee (conj eq_refl (conj Et N)))).
Qed.
Lemma wob_wsa : forall er, wob (addWSAMessage er).
Proof.
  intros er v1 v2 L. unfold addWSAMessage. pose proof L as (_ & _ & _ & Ew & _). rewrite <- Ew. destruct (x_format (v_w v1) er); [exact (wob_base _ _ (ob_addLog _ _) v1 v2 L)|exact (wob_ret tt v1 v2 L)].
Qed.
Ltac setter := apply ob_updc; intros [] ?; eexists; cbv [set_conn set_server set_port set_batch set_log set_resp set_timeout set_errno set_auth set_cred set_sock set_keep set_bio set_ctx set_selfsigned c_kind c_conn c_server c_port c_batch c_log c_logsize c_resp c_timeout c_errno c_auth c_cred c_sock c_keep c_rawptr c_bio c_ctx c_selfsigned]; reflexivity.
Ltac wsb := repeat (lazymatch goal with
  | |- wob _ => unfold wob
  | |- wtwo (let _ := _ in _) _ => cbv zeta
  | |- wtwo (wbind (base getc) _) (wbind (base getc) _) => apply wob_getc; intros ? ?; flds
  | |- wtwo (wbind (base gete) _) (wbind (base gete) _) => apply wob_gete; intros ? ?
  | |- wtwo (wbind _ _) (wbind _ _) => apply wob_bind; [|intros ?]
  | |- wtwo (wret _) (wret _) => apply wob_ret
  | |- wtwo (wput _) (wput _) => apply wob_put
  | |- wtwo (set_on _) (set_on _) => apply wob_set_on
  | |- wtwo get_on get_on => apply wob_get_on
  | |- wtwo (addWSAMessage _) _ => apply wob_wsa
  | |- wtwo (next _ _ _) (next _ _ _) => apply wob_next
  | |- wtwo (if ?b then _ else _) (if ?b then _ else _) => destruct b
  | |- wtwo (match ?x with _ => _ end) (match ?x with _ => _ end) => destruct x
  | |- wtwo (base _) (base _) => apply wob_base
  | |- two (let _ := _ in _) _ => cbv zeta
  | |- two (bind getc _) (bind getc _) => apply ob_getc; intros ? ?; flds
  | |- two (bind gete _) (bind gete _) => apply ob_gete; intros ? ?
  | |- two (bind _ _) (bind _ _) => apply ob_bind; [|intros ?]
  | |- two (ret _) (ret _) => apply ob_ret
  | |- two (lift _) (lift _) => apply ob_lift
  | |- two (fail_ub _) (fail_ub _) => apply ob_ub
  | |- two blocked blocked => apply ob_blocked
  | |- two diverge diverge => apply ob_diverge
  | |- two killed killed => apply ob_killed
  | |- two (upde _) (upde _) => apply ob_upde; let X := fresh "X" in intros [] X; exact X
  | |- two (emit _) (emit _) => apply ob_emit
  | |- two (emits _) (emits _) => apply ob_emits
  | |- two (updc _) (updc _) => setter
  | |- two (addLog _ _) (addLog _ _) => apply ob_addLog
  | |- two (logc _) (logc _) => apply ob_addLog
  | |- two (logs _) (logs _) => apply ob_addLog
  | |- two (log_errno _) (log_errno _) => apply ob_log_errno
  | |- two (setLastSocketErrNo _) (setLastSocketErrNo _) => apply ob_errno
  | |- two (setLastServerResponse _) (setLastServerResponse _) => apply ob_resp
  | |- two checkServerGreetings _ => apply ob_greetings
  | |- two checkServerGreetingsTLS _ => apply ob_greetings_tls
  | |- two wait_bio _ => apply ob_wait_bio
  | |- two (if ?b then _ else _) (if ?b then _ else _) => destruct b
  | |- two (match ?x with _ => _ end) (match ?x with _ => _ end) => destruct x
  | |- two sys_connect _ => unfold sys_connect
  | |- two (sys_send _) _ => unfold sys_send
  | |- two (sys_puts _ _) _ => unfold sys_puts
  | |- two close_socket _ => unfold close_socket
  | |- two free_tls _ => unfold free_tls
  | |- two fresh_id _ => unfold fresh_id
  | |- two getServerReplyTLS _ => unfold getServerReplyTLS
  end).
Lemma wob_doclean : wob doWSACleanup. Proof. unfold doWSACleanup. wsb. Qed.
Lemma wob_release : wob release_winsock. Proof. unfold release_winsock. wsb. apply wob_doclean. Qed.
Lemma wob_init : wob initializeSessionW. Proof. unfold initializeSessionW, initializeSessionWinSock. wsb; apply wob_doclean. Qed.
Lemma wob_mode : forall b, wob (setSocketMode b). Proof. intros b. unfold setSocketMode. wsb. Qed.
Lemma wob_raw_reply : wob getRawCommandReplyW. Proof. unfold getRawCommandReplyW. wsb; apply wob_mode. Qed.
Lemma wob_reply : wob getServerReplyW. Proof. unfold getServerReplyW. wsb; apply wob_raw_reply. Qed.
Lemma wob_cmd_with : forall cl d err, wob cl -> wob (sendCommandPtrW cl d err).
Proof. intros cl d err H. unfold sendCommandPtrW, sendRaw2W, sendCommandTLSW. wsb; exact H. Qed.
Lemma wob_cleanup_f : forall n, wob (cleanup_fW n).
Proof. induction n as [|n IH]; cbn [cleanup_fW]; [wsb|]. unfold sendQuitW, close_socketW. wsb; first [apply wob_release|apply wob_cmd_with, IH]. Qed.
Lemma wob_cleanup : wob cleanupW.
Proof. intros s1 s2 L. unfold cleanupW. pose proof L as (_ & _ & E & _). rewrite <- E. exact (wob_cleanup_f _ s1 s2 L). Qed.
Lemma wob_cmd : forall d err, wob (sendCommandPtrW cleanupW d err). Proof. intros. apply wob_cmd_with, wob_cleanup. Qed.
Lemma wob_raw3 : forall d err tmo, wob (sendRaw3W d err tmo). Proof. intros. unfold sendRaw3W, sendRaw2W. wsb; first [apply wob_cleanup|apply wob_raw_reply]. Qed.
Lemma wob_fb1 : forall d err tmo, wob (sendFeedbackW d err tmo). Proof. intros. unfold sendFeedbackW, sendFeedbackTLSW. wsb; first [apply wob_cleanup|apply wob_raw3|apply wob_reply]. Qed.
Lemma wob_fb : forall d err tmo, wob (sendFeedbackPtrW d err tmo). Proof. intros. unfold sendFeedbackPtrW. wsb; first [apply wob_raw3|apply wob_fb1]. Qed.
Lemma wob_ehlo_loop : forall n t o, wob (ehlo_loopW n t o). Proof. induction n as [|n IH]; intros t o; cbn [ehlo_loopW]; wsb; first [apply wob_reply|apply IH]. Qed.
Lemma wob_ehlo : forall err tmo, wob (ehlo_withW err tmo). Proof. intros. unfold ehlo_withW. wsb; first [apply wob_fb1|apply wob_ehlo_loop]. Qed.
Lemma wob_auth : wob authenticate_if_neededW. Proof. unfold authenticate_if_neededW, authenticateClientW, authPlainW, authLoginW, authXOauth2W. wsb; apply wob_fb. Qed.
Lemma wob_starttls : wob startTLSNegotiationW.
Proof.
  unfold startTLSNegotiationW. unfold wob. apply wob_bind; [wsb|intros ?]. apply wob_gete. intros e N. unfold no_self_signed in N. destruct (e_tls e) as [|t l]; [wsb|].
  inversion N as [|? ? Nt Nl]; subst. apply wob_bind; [apply wob_base, ob_upde; intros [] _; exact Nl|intros ?].
  unfold X509_V_ERR_DEPTH_ZERO_SELF_SIGNED_CERT. rewrite (proj2 (Z.eqb_neq _ _) Nt). cbn [andb]. wsb; apply wob_cleanup.
Qed.
Lemma wob_from : forall l r, wob (mail_from_loopW l r).
Proof. induction l as [|x l IH]; intros r; cbn [mail_from_loopW]; wsb; first [apply wob_fb|apply IH]. Qed.
Lemma wob_add : forall l r, wob (addMailRecipientsW l r).
Proof. induction l as [|x l IH]; intros r; cbn [addMailRecipientsW]; wsb; first [apply wob_fb|apply IH]. Qed.
Lemma wob_rcpts : forall l, wob (recipients_loopW l).
Proof. induction l as [|[k|x] l IH]; cbn [recipients_loopW]; [apply wob_ret|exact IH|]. wsb; first [apply wob_add|apply IH]. Qed.
Lemma wob_chunks : forall l err, wob (send_chunksW l err).
Proof. induction l as [|x l IH]; intros err; cbn [send_chunksW]; wsb; first [apply wob_cmd|apply IH]. Qed.
Lemma wob_transaction : forall m, wob (mail_transactionW m).
Proof.
  intros m. unfold mail_transactionW, setMailRecipientsW, setMailHeadersW, address_headerW, addMailHeaderW, setMailBodyW, sendQuitW. wsb; lazymatch goal with
  | |- wtwo (sendFeedbackPtrW _ _ _) _ => apply wob_fb
  | |- wtwo (sendCommandPtrW _ _ _) _ => apply wob_cmd
  | |- wtwo (send_chunksW _ _) _ => apply wob_chunks
  | |- wtwo (mail_from_loopW _ _) _ => apply wob_from
  | |- wtwo (recipients_loopW _) _ => apply wob_rcpts
  | |- wtwo cleanupW _ => apply wob_cleanup
  end.
Qed.
Lemma wob_establish : wob establishW.
Proof.
  unfold establishW, establishPlainW, establishOppW, establishForcedW, getServerSecureIdentificationW, upgradeToSecureConnectionW. wsb; lazymatch goal with
  | |- wtwo initializeSessionW _ => apply wob_init
  | |- wtwo (ehlo_withW _ _) _ => apply wob_ehlo
  | |- wtwo authenticate_if_neededW _ => apply wob_auth
  | |- wtwo startTLSNegotiationW _ => apply wob_starttls
  | |- wtwo (sendRaw3W _ _ _) _ => apply wob_raw3
  | |- wtwo ?x _ => apply wob_ehlo
  end.
Qed.
Lemma wob_send : forall m, wob (sendMailW m). Proof. intros m. unfold sendMailW. wsb; first [apply wob_establish|apply wob_transaction]. Qed.
Lemma wob_destroy : wob (cleanupW ;;# wret 0). Proof. wsb. apply wob_cleanup. Qed.


(** Programs on Windows. *)
Definition same_ww (w1 w2 : wworld) : Prop := same_w (ww w1) (ww w2) /\ ww_on w1 = ww_on w2 /\ ww_env w1 = ww_env w2 /\ ww_trace w1 = ww_trace w2.
Definition walike (r1 r2 : outcome Z * wworld) : Prop := fst r1 = fst r2 /\ same_ww (snd r1) (snd r2).
Lemma wmember_same : forall {k : client -> option client} i (m : W Z) w1 w2, (forall a b, same_but_setting a b -> same_o (k a) (k b)) -> same_ww w1 w2 -> wob m ->
  walike (run_onW i m k w1) (run_onW i m k w2).
Proof.
  intros k i m w1 w2 Hk S O. pose proof S as (W & On & Ew & Et). pose proof (get_same _ _ i W) as G. unfold run_onW.
  destruct (get_client (ww w1) i) as [a|], (get_client (ww w2) i) as [b|]; try contradiction; [|split; [reflexivity|exact S]].
  pose proof W as (F & Ee & _ & N).
  assert (L : wlike (mkV a (nth i (ww_on w1) false) (w_env (ww w1)) (ww_env w1) (ww_trace w1)) (mkV b (nth i (ww_on w2) false) (w_env (ww w2)) (ww_env w2) (ww_trace w2))).
  { split; [exact G|]. cbn [v_on v_e v_w v_t]. rewrite On. refine (conj eq_refl (conj Ee (conj Ew (conj Et N)))). }
  specialize (O _ _ L). destruct (m (mkV a _ _ _ _)) as [o1 q1], (m (mkV b _ _ _ _)) as [o2 q2]. cbn [fst snd] in *.
  destruct O as [E (Lc & Lo & Le & Lw & Lt & Ln)]. split; [exact E|]. split; [|cbn [snd ww_on ww_env ww_trace]; rewrite On, Lo; repeat split; assumption].
  split; [apply set_same; [exact F|apply Hk, Lc]|split; [exact Le|split; [reflexivity|exact Ln]]].
Qed.
Lemma wstep_same : forall o1 o2 w1 w2, same_call o1 o2 -> same_ww w1 w2 -> walike (wstep o1 w1) (wstep o2 w2).
Proof.
  intros o1 o2 w1 w2 C S. pose proof S as (W & On & Ew & Et).
  assert (Plain : (forall i m, o1 <> OSend i m) -> (forall i, o1 <> ODestroy i) ->
    let r o w := let '(x, w') := step o (ww w) in (x, mkWW w' (ww_on w ++ repeat false (length (w_clients w') - length (w_clients (ww w)))) (ww_env w) (ww_trace w)) in
    walike (r o1 w1) (r o2 w2)).
  { intros NS ND r. unfold r. assert (Len : forall a b, same_w a b -> length (w_clients a) = length (w_clients b)).
    { intros a b (F & _). induction F; cbn; auto. }
    pose proof (plain_same o1 o2 _ _ NS ND C W) as [E W']. destruct (step o1 (ww w1)) as [x1 u1], (step o2 (ww w2)) as [x2 u2]; cbn [fst snd] in *.
    split; [exact E|]. split; [exact W'|]. cbn [snd ww_on ww_env ww_trace]. rewrite (Len _ _ W), (Len _ _ W'), On. repeat split; assumption. }
  destruct o1; try (cbn [same_call] in C; subst o2); try (apply Plain; discriminate).
  - exact (wmember_same (k := Some) i (sendMailW m) w1 w2 (fun _ _ H => H) S (wob_send m)).
  - destruct o2; try discriminate C. apply Plain; discriminate.
  - exact (wmember_same (k := fun _ => None) i (cleanupW ;;# wret 0) w1 w2 (fun _ _ _ => Logic.I) S wob_destroy).
Qed.
Lemma wrun_same : forall ops1 ops2, Forall2 same_call ops1 ops2 -> forall w1 w2, same_ww w1 w2 -> fst (wrun ops1 w1) = fst (wrun ops2 w2) /\ same_ww (snd (wrun ops1 w1)) (snd (wrun ops2 w2)).
Proof.
  induction 1 as [|o1 o2 l1 l2 C F IH]; intros w1 w2 W; cbn [wrun]; [split; [reflexivity|exact W]|].
  destruct (wstep_same o1 o2 w1 w2 C W) as [E W']. destruct (wstep o1 w1) as [x1 v1], (wstep o2 w2) as [x2 v2]. cbn [fst snd] in *. subst x2.
  destruct (continues x1); [|split; [reflexivity|exact W']]. destruct (IH v1 v2 W') as [E' W'']. destruct (wrun l1 v1), (wrun l2 v2). cbn [fst snd] in *. subst. split; [reflexivity|exact W''].
Qed.
Lemma wsetting_irrelevant : forall ops1 ops2 e x, no_self_signed e -> Forall2 same_call ops1 ops2 ->
  let a := wrun ops1 (initial_wworld e x) in let b := wrun ops2 (initial_wworld e x) in
  fst a = fst b /\ ww_trace (snd a) = ww_trace (snd b) /\
  forall i, match get_client (ww (snd a)) i, get_client (ww (snd b)) i with Some c, Some d => same_but_setting c d | None, None => True | _, _ => False end.
Proof.
  intros ops1 ops2 e x N F a b. destruct (wrun_same ops1 ops2 F (initial_wworld e x) (initial_wworld e x)) as [E (W & _ & _ & T)].
  { split; [split; [constructor|split; [reflexivity|split; [reflexivity|exact N]]]|repeat split]. }
  split; [exact E|]. split; [exact T|]. intros i. exact (get_same _ _ i W).
Qed.
