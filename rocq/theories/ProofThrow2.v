(** Exceptions: mails and programs. *)

From Coq Require Import Ascii String List NArith ZArith Bool Lia ZifyBool ZifyNat ZifyN.
From Verif Require Import Base Lib ModelUtil ModelBase64 ModelAddress ModelAttachment
  ModelErrors ModelReply ModelMessage ModelState ModelClient ModelWorld ProofLog ProofForward ProofSafety ProofText
  SpecText SpecThrow ProofThrow.
Import ListNotations.
Open Scope Z_scope.

Section Mail.
Variables T V R0 : N.
Notation costs := (spends T V R0 (fun _ => 0%N)).

Lemma c_log_cmd {C} K L x (k : unit -> M C) : (2 * slen x + 10 <= L)%N -> (forall a, costs K (k a)) -> costs (L + K)%N (bind (logc x) k).
Proof. intros H1 H2. eapply spends_more; [eapply costs_bind; [apply costs_logc|exact H2]|lia]. Qed.

Lemma costs_from : forall l last, costs (total (fun f => 2 * slen f + 32) l)%N (mail_from_loop l last).
Proof.
  induction l as [|f l IH]; intros last; cbn [mail_from_loop total fold_right]; [apply costs_ret|].
  fold (total (fun f => 2 * slen f + 32)%N l). eapply spends_more; [eapply costs_bind; [apply costs_logc|]; intros _; eapply costs_bind; [apply costs_feedback_ptr|]; intros code; apply (spends_more _ _ _ _ (total (fun f => 2 * slen f + 32) l)%N); [|apply N.le_refl]|].
  - destruct (code =? 250); [apply costs_ret|]. destruct (negb _); [apply costs_ret|apply IH].
  - lia.
Qed.
Lemma rcpt_size a : (slen (rcpt_command a) <= address_size a + 13)%N.
Proof. unfold rcpt_command, address_size. rewrite !slen_app. change (slen (B "RCPT TO: <")) with 10%N. change (slen (B ">")) with 1%N. change (slen CRLF) with 2%N. lia. Qed.
Definition weight (l : list address) : N := (2 * total address_size l + 60 * N.of_nat (length l))%N.
Lemma costs_recipients : forall l r, costs (weight l) (addMailRecipients l r).
Proof.
  induction l as [|a l IH]; intros r; cbn [addMailRecipients]; [apply costs_ret|].
  pose proof (rcpt_size a). eapply spends_more; [eapply costs_bind; [apply costs_logc|]; intros _; eapply costs_bind; [apply costs_feedback_ptr|]; intros code; apply IH|].
  unfold weight. cbn [total fold_right length]. fold (total address_size l). lia.
Qed.
Definition arr_weight (x : arr address) : N := match x with ANull _ => 0 | AArr l => weight l end.
Lemma costs_recipients_loop : forall ls, costs (total arr_weight ls) (recipients_loop ls).
Proof.
  induction ls as [|[n|l] ls IH]; cbn [recipients_loop total fold_right arr_weight]; [apply costs_ret|exact IH|]. fold (total arr_weight ls).
  apply costs_bind; [apply costs_recipients|]. intros code. destruct (negb _); [apply costs_ret|exact IH].
Qed.
Lemma header_size f v : (slen (header_line f v) = slen f + slen v + 4)%N.
Proof. unfold header_line. rewrite !slen_app. change (slen (B ": ")) with 2%N. change (slen CRLF) with 2%N. lia. Qed.
Lemma address_str_size a : (slen (address_str a) <= address_size a + 3)%N.
Proof. unfold address_str, address_size. destruct (a_name a) eqn:E; [lia|]. rewrite !slen_app. change (slen (B " <")) with 2%N. change (slen (B ">")) with 1%N. lia. Qed.
Lemma addresses_size : forall l i, (slen (header_addresses_loop i l) <= total address_size l + 5 * N.of_nat (length l))%N.
Proof.
  induction l as [|a l IH]; intros i; cbn [header_addresses_loop length]; [apply N.le_0_l|]. rewrite !slen_app. pose proof (address_str_size a). specialize (IH (S i)).
  replace (total address_size (a :: l)) with (address_size a + total address_size l)%N by reflexivity. destruct i; [change (slen []) with 0%N|change (slen (B ", ")) with 2%N]; lia.
Qed.
Lemma costs_header f v err : err <> 0 -> costs (2 * (slen f + slen v) + 40)%N (addMailHeader f v err).
Proof. intros N. unfold addMailHeader. eapply spends_more; [eapply costs_bind; [apply costs_logc|]; intros _; now apply costs_command|]. rewrite header_size. lia. Qed.
Lemma costs_address_header f x : (slen f <= 10)%N -> costs (arr_weight x + 60)%N (address_header f x).
Proof.
  intros Lf. unfold address_header. destruct x as [[|n]|[|a l]]; try apply costs_ret; try apply costs_ub.
  eapply spends_more; [eapply (costs_bind _ _ _ _ 0); [apply costs_header; discriminate|]; intros _; apply costs_ret|]. unfold generateHeaderAddressValues, arr_weight, weight. pose proof (addresses_size (a :: l) 0). lia.
Qed.
Lemma costs_headers m : costs (2 * address_size (m_from m) + arr_weight (m_to m) + arr_weight (m_cc m) + 2 * slen (m_subject m) + 1000)%N (setMailHeaders m).
Proof.
  unfold setMailHeaders. pose proof (address_str_size (m_from m)). pose proof (header_size (B "Subject") (m_subject m)) as HS.
  set (K := (arr_weight (m_to m) + (arr_weight (m_cc m) + 2 * slen (m_subject m)) + 700)%N).
  apply (spends_more _ _ _ _ (2 * slen (B "DATA" ++ CRLF) + 10 + (22 + ((2 * (slen (B "From") + slen (address_str (m_from m))) + 40) + K)))); [|change (slen (B "DATA" ++ CRLF)) with 6%N; change (slen (B "From")) with 4%N; unfold K; lia].
  apply costs_bind; [apply costs_logc|]. intros _. apply costs_bind; [apply costs_feedback_ptr|]. intros d. destruct (negb _); [apply costs_ret|].
  apply costs_bind; [apply costs_header; discriminate|]. intros f. destruct (negb _); [apply costs_ret|].
  apply (spends_more _ _ _ _ ((arr_weight (m_to m) + 60) + ((arr_weight (m_cc m) + 60) + ((2 * slen (header_line (B "Subject") (m_subject m)) + 10) + (22 + ((2 * slen CONTENT_TYPE_LINE + 10) + (22 + 0))))))).
  2:{ rewrite HS. change (slen (B "Subject")) with 7%N. change (slen CONTENT_TYPE_LINE) with 49%N. unfold K. lia. }
  apply costs_bind; [apply costs_address_header; cbn; lia|]. intros _. apply costs_bind; [apply costs_address_header; cbn; lia|]. intros _.
  apply costs_bind; [apply costs_logc|]. intros _. apply costs_bind; [apply costs_command; discriminate|]. intros s. destruct (negb _); [apply costs_ret|].
  apply costs_bind; [apply costs_logc|]. intros _. apply costs_bind; [apply costs_command; discriminate|]. intros t. destruct (negb _); apply costs_ret.
Qed.
Lemma costs_chunks err : err <> 0 -> forall l, costs 22 (send_chunks l err).
Proof.
  intros NE. induction l as [|x l IH]; cbn [send_chunks]; [apply costs_ret|]. change 22%N with (22 + 0)%N. apply (spends_bind _ _ _ spared _ _ _ _ (spends_command _ _ _ x err NE)). intros code. unfold spared.
  destruct (code =? 0) eqn:E; cbn [negb]; [exact IH|apply costs_ret].
Qed.
Lemma costs_body m : costs (2 * slen (m_body m) + 1000)%N (setMailBody m).
Proof.
  unfold setMailBody. assert (L : (slen (body_text_part m) <= slen (m_body m) + 60)%N).
  { unfold body_text_part. rewrite !slen_app. change (slen (B "--sep")) with 5%N. change (slen CRLF) with 2%N. change (slen (B "Content-Type: ")) with 14%N. change (slen (B "; charset=UTF-8")) with 15%N. destruct (m_kind m); cbn [msg_mime]; [change (slen (B "text/plain")) with 10%N|change (slen (B "text/html")) with 9%N]; lia. }
  apply (spends_more _ _ _ _ ((2 * slen (body_text_part m) + 10) + (22 + ((2 * slen END_OF_DATA + 10) + (22 + (44 + 0)))))); [|change (slen END_OF_DATA) with 5%N; lia].
  apply costs_bind; [apply costs_logc|]. intros _. apply costs_gete. intros e _. apply costs_zero. { apply costs_lift. unfold body_real. destruct (m_atts m) as [[|]|[|]]; discriminate. }
  intros body. apply costs_bind; [apply costs_chunks; destruct (512 <? _)%nat; discriminate|]. intros r. destruct (negb _); [apply costs_ret|].
  apply costs_bind; [apply costs_logc|]. intros _. apply costs_bind; [apply costs_feedback_ptr|]. intros d. destruct (negb _); [apply costs_ret|].
  apply costs_getc. intros c _. destruct (c_batch c); [apply costs_ret|]. apply costs_bind; [|intros q; destruct (negb _); apply costs_ret].
  unfold sendQuitCommand, sendQuit_with. change 44%N with ((2 * slen (B "QUIT" ++ CRLF) + 10) + 22)%N. apply costs_bind; [apply costs_logc|]. intros _. now apply costs_command.
Qed.
Definition mail_cost (m : message) : N := (20 * message_size m + 200 * message_count m + 3000)%N.
Lemma costs_transaction m : costs (mail_cost m) (mail_transaction m).
Proof.
  unfold mail_transaction. set (KR := (8 * address_size (m_from m) + 400 + (arr_weight (m_to m) + (arr_weight (m_cc m) + (arr_weight (m_bcc m) + 0))))%N).
  assert (R : costs KR (setMailRecipients m)).
  { unfold setMailRecipients. eapply spends_more; [eapply costs_bind; [apply costs_from|]; intros code; apply (spends_more _ _ _ _ (total arr_weight [m_to m; m_cc m; m_bcc m])); [|apply N.le_refl]|].
    - destruct (negb _); [apply costs_ret|apply costs_recipients_loop].
    - unfold KR, mail_formats, address_size. cbn [total fold_right]. rewrite !slen_app. change (slen (B "MAIL FROM: <")) with 12%N. change (slen (B "MAIL FROM: ")) with 11%N. change (slen (B ">")) with 1%N. change (slen (B " ")) with 1%N. change (slen CRLF) with 2%N. lia. }
  apply (spends_more _ _ _ _ (KR + ((2 * address_size (m_from m) + arr_weight (m_to m) + arr_weight (m_cc m) + 2 * slen (m_subject m) + 1000) + ((2 * slen (m_body m) + 1000) + (22 + 0))))).
  2:{ unfold KR, mail_cost, message_size, message_count, arr_weight, array_size, array_count, weight. destruct (m_to m), (m_cc m), (m_bcc m); lia. }
  apply costs_bind; [exact R|]. intros r. destruct (negb _); [apply costs_ret|]. apply costs_bind; [apply costs_headers|]. intros h. destruct (negb _); [apply costs_ret|]. apply costs_bind; [apply costs_body|]. intros b. destruct (negb _); [apply costs_ret|].
  apply costs_getc. intros c _. apply costs_bind; [|intros _; apply costs_ret]. destruct (c_batch c); [apply costs_ret|apply costs_cleanup].
Qed.
Lemma costs_send m : costs (40 * unit_price T V + mail_cost m)%N (sendMail m).
Proof.
  unfold sendMail. apply costs_getc. intros c _. apply costs_bind. { destruct (c_conn c); [apply costs_ret|]. exact (u_establish T V R0). }
  intros r. destruct (negb _); [apply costs_ret|]. apply costs_zero; [now apply costs_updc|]. intros _. apply costs_transaction.
Qed.
End Mail.

Section World.
Variable T : N.
Definition op_cost (o : op) : N :=
  match o with OSend _ m => 40 * unit_price T T + mail_cost m | ODestroy _ => 22 | _ => 0 end.
Record holds (K : N) (w : world) : Prop := {
  h_errno : forall z, (slen (e_strerror (w_env w) z) <= T)%N;
  h_x509 : forall z, (slen (e_x509str (w_env w) z) <= T)%N;
  h_stock : (stock T (w_env w) <= K)%N;
  h_clients : forall c, In (Some c) (w_clients w) -> fit_client T c /\ (used c + stock T (w_env w) <= K)%N }.

Lemma holds_more K K' w : holds K w -> (K <= K')%N -> holds K' w.
Proof. intros [H1 H2 H3 H4] L. constructor; [assumption|assumption|lia|]. intros c I. destruct (H4 c I). split; [assumption|lia]. Qed.
Lemma in_list_set {A} (x v : A) : forall l i, In x (list_set l i v) -> In x l \/ x = v.
Proof. induction l as [|a l IH]; intros [|i] H; cbn in *; auto; destruct H as [<-|H]; auto. destruct (IH _ H); auto. Qed.
Lemma get_in w i c : get_client w i = Some c -> In (Some c) (w_clients w).
Proof. unfold get_client. destruct (nth_error (w_clients w) i) as [[d|]|] eqn:E; intros H; try discriminate. injection H as ->. exact (nth_error_In _ _ E). Qed.
Lemma holds_put K w i v : holds K w -> (forall c, v = Some c -> fit_client T c /\ (used c + stock T (w_env w) <= K)%N) -> holds K (put_client i v w).
Proof. intros [H1 H2 H3 H4] Hv. constructor; try assumption. intros c I. cbn in I. destruct (in_list_set _ _ _ _ I) as [J | J]; [exact (H4 c J)|]. now apply Hv. Qed.
Lemma holds_push K w c : holds K w -> fit_client T c /\ (used c + stock T (w_env w) <= K)%N -> holds K (push_client c w).
Proof. intros [H1 H2 H3 H4] Hv. constructor; try assumption. intros d I. cbn in I. apply in_app_or in I as [I | [I|[]]]; [exact (H4 d I)|]. now injection I as <-. Qed.

(** Running a member function. *)
Lemma run_on_keeps {A} K k (m : M A) i f w x w' :
  spends T T (stock T (w_env w)) (fun _ => 0%N) k m -> (2 * (K + k) < LIM)%N -> (forall c d, f c = Some d -> d = c) -> holds K w ->
  run_on i m f w = (x, w') -> continues x = true -> (holds (K + k) w' /\ x <> Throw) \/ (w' = w /\ x = Throw /\ get_client w i = None).
Proof.
  intros Hm L Hf H R C. unfold run_on in R. destruct (get_client w i) as [c|] eqn:G; [|injection R as <- <-; right; auto]. left.
  destruct H as [H1 H2 H3 H4]. destruct (H4 c (get_in _ _ _ G)) as [Fc Uc].
  assert (F : fit T T (stock T (w_env w)) (mkSt c (w_env w) (w_trace w))). { split; [|exact Fc]. split; [exact H1|]. split; [exact H2|apply N.le_refl]. }
  specialize (Hm _ F). destruct (m _) as [o s] eqn:Q. injection R as <- <-. unfold phi in Hm. cbn [s_c s_e] in Hm. destruct o as [a| | | | |]; try discriminate C; [|exfalso; lia].
  destruct Hm as [[(E1 & E2 & E3) Fc'] P]. split; [|discriminate]. constructor; cbn [w_env w_clients]; [exact E1|exact E2|lia|].
  intros d I. destruct (in_list_set _ _ _ _ I) as [J|J]; [destruct (H4 d J); split; [assumption|lia]|]. symmetry in J. apply Hf in J. subst d. split; [exact Fc'|lia].
Qed.

Lemma port_fits n : (slen (dec_of_N (u32 n)) <= 10)%N.
Proof. change 10%N with (N.of_nat 10). apply (dec_length 9). unfold u32. pose proof (N.mod_lt n 4294967296). change (10 ^ N.of_nat 10)%N with 10000000000%N. lia. Qed.
Lemma name_fits p s : check_server_name p = Done s -> (slen s <= slen (match p with Some x => x | None => [] end))%N.
Proof. unfold check_server_name. destruct (null_or_blank p) as [[]| | | | |]; cbn; intros H; try discriminate. injection H as <-. destruct p; [apply cstr_slen|cbn; lia]. Qed.
Lemma name_throw p : check_server_name p = Throw -> ~ usable p.
Proof.
  unfold check_server_name. destruct (null_or_blank p) as [b| | | | |] eqn:E; cbn; intros H; try discriminate.
  - apply null_or_blank_done in E. destruct b; [|discriminate]. intros U. apply E in U. discriminate.
  - exfalso. clear H. destruct p as [s|]; unfold null_or_blank in E; [|discriminate]. destruct (cstr s) as [|a l] eqn:Q; [discriminate|].
    assert (Tl : forall y, trimLeft y <> Throw). { induction y as [|q y IH]; cbn; [discriminate|]. destruct (isspace_char q) as [[]|]; congruence. }
    unfold trim, trimRight in E. pose proof (Tl (a :: l)). destruct (trimLeft (a :: l)) as [y| | | | |]; cbn in E; try congruence. pose proof (Tl (rev y)). destruct (trimLeft (rev y)) as [y2| | | | |]; cbn in E; try congruence.
Qed.
Lemma no_log c : c_log c = None -> used c = 0%N. Proof. unfold used. now intros ->. Qed.
Lemma log_copy_used l c d : c_log c = log_copy l -> c_log d = l -> used c = used d.
Proof. unfold used. intros -> ->. destruct l; reflexivity. Qed.

Lemma step_keeps K o w x w' : holds K w -> (slen (server_name o) <= T)%N -> (2 * (K + op_cost o) < LIM)%N -> step o w = (x, w') -> continues x = true ->
  holds (K + op_cost o) w' /\ (x = Throw -> w' = w /\ (legal w o -> unacceptable o)).
Proof.
  intros H Ln L S C.
  assert (Cl : forall c i, get_client w i = Some c -> fit_client T c /\ (used c + stock T (w_env w) <= K)%N) by (intros c i G; exact (h_clients _ _ H c (get_in _ _ _ G))).
  assert (St := h_stock _ _ H).
  assert (Same : forall P : Prop, w' = w -> P -> holds K w' /\ (x = Throw -> w' = w /\ P)) by (intros P -> p; auto).
  assert (Alter : forall i f, (forall c d, get_client w i = Some c -> f c = Done d -> fit_client T d /\ used d = used c) -> (forall c, get_client w i = Some c -> f c = Throw -> legal w o -> unacceptable o) -> (is_client w i \/ ~ legal w o) -> alter i f w = (x, w') -> holds K w' /\ (x = Throw -> w' = w /\ (legal w o -> unacceptable o))).
  { intros i f Fd Ft Is A. unfold alter in A. destruct (get_client w i) as [c|] eqn:G.
    - destruct (f c) as [d| | | | |] eqn:E; injection A as <- <-; try discriminate C.
      + split; [|discriminate]. apply holds_put; [exact H|]. intros d' Q. injection Q as <-. destruct (Fd c d eq_refl E) as [F1 F2]. split; [exact F1|]. rewrite F2. exact (proj2 (Cl c i G)).
      + split; [exact H|]. intros _. split; [reflexivity|]. exact (Ft c eq_refl E).
    - injection A as <- <-. split; [exact H|]. intros _. split; [reflexivity|]. intros Lg. exfalso. destruct Is as [[c Gc]|N]; [congruence|contradiction]. }
  assert (Dec : forall i, is_client w i \/ ~ is_client w i). { intros i. unfold is_client. destruct (get_client w i) as [c|]; [left; now exists c|right; intros [c Q]; discriminate]. }
  destruct o as [k p port|i|i|i j|i j|i m|i p|i n|i b|i n|i cr|i b|i b|i]; cbn [step op_cost] in *; rewrite ?N.add_0_r.
  - unfold client_new in S. destruct (check_server_name p) as [s| | | | |] eqn:E; cbn in S; injection S as <- <-; try discriminate C.
    + split; [|discriminate]. apply holds_push; [exact H|]. split; [|cbn; exact St]. split; [|apply port_fits]. intros n Q. cbn in Q. injection Q as <-. pose proof (name_fits _ _ E). unfold server_name in Ln. destruct p; [lia|cbn in *; lia].
    + apply Same; [reflexivity|]. intros _. exact (name_throw _ E).
  - destruct (get_client w i) as [c|] eqn:G; [|injection S as <- <-; apply Same; [reflexivity|]; intros [c Q]; congruence].
    unfold client_copy in S. destruct (Cl c i G) as [[F1 F2] F3]. destruct (c_server c) as [nm|] eqn:Sv; injection S as <- <-; try discriminate C.
    split; [|discriminate]. apply holds_push; [exact H|]. split; [split; [intros n Q; cbn in Q; injection Q as <-; exact (F1 _ eq_refl)|exact F2]|].
    rewrite (log_copy_used (c_log c) _ c); [exact F3|reflexivity|reflexivity].
  - destruct (get_client w i) as [c|] eqn:G; [|injection S as <- <-; apply Same; [reflexivity|]; intros [c Q]; congruence].
    injection S as <- <-. split; [|discriminate]. destruct (Cl c i G) as [F1 F3]. apply holds_push; [apply holds_put; [exact H|]|].
    + intros d Q. injection Q as <-. split; [split; [discriminate|cbn; lia]|cbn; exact St].
    + split; [exact F1|exact F3].
  - destruct (get_client w i) as [d|] eqn:Gi; [|injection S as <- <-; apply Same; [reflexivity|]; intros (c1 & c2 & Q & _); congruence].
    destruct (get_client w j) as [c|] eqn:G; [|injection S as <- <-; apply Same; [reflexivity|]; intros (c1 & c2 & _ & Q & _); congruence].
    destruct (Nat.eqb i j); [injection S as <- <-; split; [exact H|discriminate]|].
    destruct (kind_eqb (c_kind d) (c_kind c)) eqn:Kd; [|injection S as <- <-; apply Same; [reflexivity|]; intros (c1 & c2 & Q1 & Q2 & Q3); assert (c1 = d) by congruence; assert (c2 = c) by congruence; subst; rewrite Q3 in Kd; destruct (c_kind c); discriminate].
    unfold alter in S. rewrite Gi in S. unfold client_assign in S. destruct (Cl c j G) as [[F1 F2] F3]. destruct (c_server c) as [nm|] eqn:Sv; injection S as <- <-; try discriminate C.
    split; [|discriminate]. apply holds_put; [exact H|]. intros d' Q. injection Q as <-. split; [split; [intros n Q; cbn in Q; injection Q as <-; exact (F1 _ eq_refl)|exact F2]|].
    rewrite (log_copy_used (c_log c) _ c); [exact F3|reflexivity|reflexivity].
  - destruct (get_client w i) as [d|] eqn:Gi; [|injection S as <- <-; apply Same; [reflexivity|]; intros (c1 & c2 & Q & _); congruence].
    destruct (get_client w j) as [c|] eqn:G; [|injection S as <- <-; apply Same; [reflexivity|]; intros (c1 & c2 & _ & Q & _); congruence].
    destruct (Nat.eqb i j); [injection S as <- <-; split; [exact H|discriminate]|].
    destruct (kind_eqb (c_kind d) (c_kind c)) eqn:Kd; [|injection S as <- <-; apply Same; [reflexivity|]; intros (c1 & c2 & Q1 & Q2 & Q3); assert (c1 = d) by congruence; assert (c2 = c) by congruence; subst; rewrite Q3 in Kd; destruct (c_kind c); discriminate].
    injection S as <- <-. split; [|discriminate]. destruct (Cl c j G) as [F1 F3]. apply holds_put; [apply holds_put; [exact H|]|].
    + intros d' Q. injection Q as <-. split; [exact F1|exact F3].
    + intros d' Q. injection Q as <-. split; [split; [discriminate|cbn; lia]|cbn; exact St].
  - assert (SF : forall c d : client, Some c = Some d -> d = c) by congruence.
    destruct (run_on_keeps _ _ _ _ _ _ _ _ (costs_send T T _ m) L SF H S C) as [[H1 H2]|(-> & _ & G)]; [split; [exact H1|intros Q; contradiction]|].
    split; [apply (holds_more K); [exact H|lia]|]. intros _. split; [reflexivity|]. intros [c Q]. congruence.
  - apply (Alter i (fun c => client_setServerName c p)); [| |destruct (Dec i); auto|exact S].
    + intros c d G E. unfold client_setServerName in E. destruct (check_server_name p) as [s| | | | |] eqn:Q; try discriminate E. injection E as <-. destruct (Cl c i G) as [[_ F2] _]. split; [|reflexivity]. split; [|exact F2].
      intros n X. cbn in X. injection X as <-. pose proof (name_fits _ _ Q). unfold server_name in Ln. destruct p; [lia|cbn in *; lia].
    + intros c G E _. unfold client_setServerName in E. destruct (check_server_name p) as [s| | | | |] eqn:Q; try discriminate E. exact (name_throw _ Q).
  - eapply Alter; [| |destruct (Dec i); [left; eassumption|right; assumption]|exact S]; [intros c d G E; injection E as <-; destruct (Cl c i G) as [[F1 F2] _]; split; [split; [exact F1|apply port_fits]|reflexivity]|discriminate].
  - eapply Alter; [| |destruct (Dec i); [left; eassumption|right; assumption]|exact S]; [intros c d G E; injection E as <-; destruct (Cl c i G) as [F1 _]; split; [exact F1|reflexivity]|discriminate].
  - eapply Alter; [| |destruct (Dec i); [left; eassumption|right; assumption]|exact S]; [intros c d G E; injection E as <-; destruct (Cl c i G) as [F1 _]; split; [exact F1|reflexivity]|discriminate].
  - eapply Alter; [| |destruct (Dec i); [left; eassumption|right; assumption]|exact S]; [intros c d G E; injection E as <-; destruct (Cl c i G) as [F1 _]; split; [exact F1|reflexivity]|discriminate].
  - eapply Alter; [| |destruct (Dec i); [left; eassumption|right; assumption]|exact S]; [intros c d G E; injection E as <-; destruct (Cl c i G) as [F1 _]; split; [exact F1|reflexivity]|discriminate].
  - eapply Alter; [| | |exact S].
    + intros c d G E. cbv beta in E. destruct (Cl c i G) as [F1 _]. destruct (c_kind c); [discriminate E| |]; injection E as <-; (split; [exact F1|reflexivity]).
    + intros c G E (c' & G' & Nk). exfalso. cbv beta in E. assert (c' = c) by congruence. subst. destruct (c_kind c); [contradiction|discriminate E|discriminate E].
    + destruct (Dec i) as [D|D]; [left; exact D|right]. intros (c & G & _). apply D. now exists c.
  - assert (Q : spends T T (stock T (w_env w)) (fun _ => 0%N) 22 (cleanup ;; ret 0)). { change 22%N with (22 + 0)%N. apply costs_bind; [apply costs_cleanup|]. intros _. apply costs_ret. }
    assert (SF : forall c d : client, (fun _ : client => @None client) c = Some d -> d = c) by discriminate.
    destruct (run_on_keeps _ _ _ _ _ _ _ _ Q L SF H S C) as [[H1 H2]|(-> & _ & G)]; [split; [exact H1|intros X; contradiction]|].
    split; [apply (holds_more K); [exact H|lia]|]. intros _. split; [reflexivity|]. intros [c X]. congruence.
Qed.

Lemma run_keeps : forall ops K w, holds K w -> (forall o, In o ops -> slen (server_name o) <= T)%N -> (2 * (K + total op_cost ops) < LIM)%N ->
  Forall (fun x => continues x = true) (fst (run ops w)) -> holds (K + total op_cost ops) (snd (run ops w)).
Proof.
  induction ops as [|o ops IH]; intros K w H Ln L F; cbn [run] in *; [cbn; now rewrite N.add_0_r|].
  change (total op_cost (o :: ops)) with (op_cost o + total op_cost ops)%N in *.
  destruct (step o w) as [x w1] eqn:S. destruct (continues x) eqn:C; [|cbn in F; inversion F; congruence].
  destruct (step_keeps K o w x w1 H (Ln o (or_introl eq_refl)) ltac:(lia) S C) as [H1 _]. specialize (IH (K + op_cost o)%N w1 H1 (fun o' I => Ln o' (or_intror I)) ltac:(lia)).
  destruct (run ops w1) as [xs w2]. cbn in F |- *. inversion F; subst. rewrite N.add_assoc. now apply IH.
Qed.
End World.

(** Modest programs. *)
Lemma total_app {A} (f : A -> N) l1 l2 : total f (l1 ++ l2) = (total f l1 + total f l2)%N.
Proof. induction l1 as [|x l IH]; [reflexivity|]. cbn [app]. change (total f (x :: l ++ l2)) with (f x + total f (l ++ l2))%N. change (total f (x :: l)) with (f x + total f l)%N. rewrite IH. lia. Qed.
Lemma incoming_total T l : incoming T l = (price T * N.of_nat (length l) + 2 * total received l)%N.
Proof.
  induction l as [|r l IH]; [cbn; lia|]. change (total received (r :: l)) with (received r + total received l)%N. cbn [length]. destruct r; cbn [incoming received]; rewrite IH; lia.
Qed.
Lemma stock_total T e : stock T e = (price T * env_count e + 2 * env_size e)%N.
Proof. unfold stock, events_left, env_count, env_size. rewrite !incoming_total. lia. Qed.
Lemma op_cost_size T o : (2 * op_cost T o <= 900 * (T + 100) * op_count o + 50 * op_size o)%N.
Proof. destruct o; cbn [op_cost op_count op_size]; unfold mail_cost, unit_price, message_count; try lia. Qed.
Lemma cost_size T ops : (2 * total (op_cost T) ops <= 900 * (T + 100) * total op_count ops + 50 * total op_size ops)%N.
Proof.
  induction ops as [|o ops IH]; [cbn; lia|]. change (total (op_cost T) (o :: ops)) with (op_cost T o + total (op_cost T) ops)%N. change (total op_count (o :: ops)) with (op_count o + total op_count ops)%N. change (total op_size (o :: ops)) with (op_size o + total op_size ops)%N.
  pose proof (op_cost_size T o). nia.
Qed.
Lemma modest_cost T ops e : modest T ops e -> ops <> [] -> (2 * (stock T e + total (op_cost T) ops) < LIM)%N.
Proof.
  intros (_ & _ & _ & M) Ne. rewrite stock_total. pose proof (cost_size T ops). unfold LIM, price.
  assert (1 <= total op_count ops)%N. { destruct ops as [|o ops]; [contradiction|]. change (total op_count (o :: ops)) with (op_count o + total op_count ops)%N. destruct o; cbn [op_count]; unfold message_count; lia. }
  nia.
Qed.
Lemma initial_holds T ops e : modest T ops e -> holds T (stock T e) (initial_world e).
Proof. intros (M1 & M2 & _). constructor; [exact M1|exact M2|apply N.le_refl|]. intros c []. Qed.
Lemma survived_continues xs : survived xs -> Forall (fun x : outcome Z => continues x = true) xs.
Proof. apply Forall_impl. intros x [[n ->] | ->]; reflexivity. Qed.

Lemma only_unacceptable T ops o e w' : let w := snd (run ops (initial_world e)) in
  modest T (ops ++ [o]) e -> survived (fst (run ops (initial_world e))) -> legal w o -> step o w = (Throw, w') -> w' = w /\ unacceptable o.
Proof.
  intros w M S L E. pose proof (modest_cost _ _ _ M ltac:(now destruct ops)) as C. rewrite total_app in C. change (total (op_cost T) [o]) with (op_cost T o + 0)%N in C.
  destruct M as (M1 & M2 & M3 & M4). pose proof (initial_holds T (ops ++ [o]) e (conj M1 (conj M2 (conj M3 M4)))) as I.
  pose proof (run_keeps T ops _ _ I (fun o' Q => M3 o' (in_or_app _ _ _ (or_introl Q))) ltac:(lia) (survived_continues _ S)) as H.
  destruct (step_keeps T _ o w Throw w' H (M3 o (in_elt o ops [])) ltac:(lia) E eq_refl) as [_ Q].
  destruct (Q eq_refl) as [Q1 Q2]. split; [exact Q1|exact (Q2 L)].
Qed.

Lemma unacceptable_thrown o w : legal w o -> unacceptable o ->
  (forall k p port, o = ONew k p port -> outer_ascii p) -> (forall i p, o = OSetServer i p -> outer_ascii p) -> step o w = (Throw, w).
Proof.
  intros L U A1 A2. destruct o as [k p port|i|i|i j|i j|i m|i p|i n|i b|i n|i cr|i b|i b|i]; try exact (False_ind _ U); cbn [unacceptable] in U.
  - destruct (client_new_spec k p port (A1 _ _ _ eq_refl)) as [[X _]|[_ E]]; [contradiction|]. unfold step. rewrite E. reflexivity.
  - destruct L as [c G]. destruct (setServerName_spec c p (A2 _ _ eq_refl)) as [[X _]|[_ E]]; [contradiction|]. unfold step, alter. rewrite G, E. reflexivity.
Qed.
Lemma quiet_calls T ops o e : (forall k p port, o <> ONew k p port) -> (forall i p, o <> OSetServer i p) ->
  let w := snd (run ops (initial_world e)) in
  modest T (ops ++ [o]) e -> survived (fst (run ops (initial_world e))) -> legal w o -> fst (step o w) <> Throw.
Proof.
  intros N1 N2 w M S L E. destruct (step o w) as [x w'] eqn:Q. cbn in E. subst x. destruct (only_unacceptable T ops o e w' M S L Q) as [_ U].
  destruct o; try exact U; [now apply (N1 k server port)|now apply (N2 i server)].
Qed.
