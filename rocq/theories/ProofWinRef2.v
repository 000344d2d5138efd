(** References to WinSock: cleanup, the dialogue, connecting. *)

From Coq Require Import Ascii String List NArith ZArith Bool Lia.
From Verif Require Import Base ModelUtil ModelBase64 ModelAddress ModelAttachment
  ModelErrors ModelReply ModelMessage ModelState ModelClient ModelWorld ModelWin SpecWin ProofWin2 ProofWinRef.
Import ListNotations.
Open Scope Z_scope.

Section Walk.
Variable strict : bool.

(** ** Cleanup *)

Lemma R_doclean v : v_on v = true -> (strict = true -> c_sock (v_c v) = 0 /\ c_bio (v_c v) = None) ->
  R strict (is_done (fst (doWSACleanup v))) v (snd (doWSACleanup v)).
Proof.
  intros O Z M.
  set (r := match x_clean (v_w v) with [] => 0 | r :: _ => r end).
  set (x := match x_clean (v_w v) with [] => v_w v | _ :: l => set_xclean l (v_w v) end).
  set (v1 := mkV (v_c v) true (v_e v) x (v_t v ++ [WCleanup r])).
  set (body := if r =? 0 then wret tt
   else base (setLastSocketErrNo r) ;;# base (logc (B "WSACleanup failed with error: " ++ dec_of_N (Z.to_N r)))).
  assert (E : doWSACleanup v = (body ;;# set_on false) v1).
  { unfold doWSACleanup, wbind at 1, next. unfold body, v1, r, x. destruct v as [c on e y t]. cbn in O. subst on.
    cbn [v_w v_c v_on v_e v_t]. destruct (x_clean y); reflexivity. }
  rewrite E. clear E. clearbody r x.
  assert (N1 : r = 0 -> (body ;;# set_on false) v1 = (Done tt, mkV (v_c v) false (v_e v) x (v_t v ++ [WCleanup r]))).
  { intros Q. unfold body, v1. rewrite Q. reflexivity. }
  destruct (Z.eq_dec r 0) as [Q|Q].
  - rewrite (N1 Q). cbn [fst snd]. split; [intros S; destruct (Z S); unfold mine; cbn; auto|]. split; [split; [intros _ _; unfold linked; cbn; discriminate|try exact K2; reflexivity]|].
    exists [WCleanup r]. split; [reflexivity|]. split; [repeat constructor|]. rewrite O. cbn. intros n k L. cbn in *. destruct n as [|n]; [lia|].
    rewrite Q. cbn. exists n. repeat split; [lia|]. intros _. lia.
  - assert (X : body = base (setLastSocketErrNo r) ;;# base (logc (B "WSACleanup failed with error: " ++ dec_of_N (Z.to_N r)))).
    { unfold body. apply Z.eqb_neq in Q. now rewrite Q. }
    rewrite X. clear X N1. clearbody body. clear body.
    match goal with |- context [(?m ;;# set_on false) v1] => assert (Y : relW strict m) by (rel); pose (mm := m); fold mm in Y |- * end.
    assert (M1 : strict = true -> mine v1) by (intros S; destruct (Z S); unfold mine; cbn; auto).
    destruct (Y v1 M1) as (M2 & (L2 & K2) & tw & E2 & P2 & C2).
    assert (SC : (strict = true -> c_sock (v_c (snd (mm v1))) = 0 /\ c_bio (v_c (snd (mm v1))) = None) /\ v_on (snd (mm v1)) = true).
    { unfold mm, wbind, base. cbn [v_c v_e v_on v_w v_t]. unfold setLastSocketErrNo, updc. cbn [s_c s_e s_t v_c v_on v_e v_w v_t].
      match goal with |- context [logc ?a ?b] => destruct (tame_logc false a b) as (l & E3 & S3 & F3); destruct (logc a b) as [o s] end.
      cbn [snd fst v_c v_on s_c] in *. split; [|reflexivity]. intros S. destruct (Z S) as [Z1 Z2].
      destruct S3 as (_ & _ & S4 & S5). cbn in S4, S5. split; [destruct S4; congruence|destruct S5 as [|[|]]; congruence]. }
    destruct SC as [SC SO]. unfold wbind. destruct (mm v1) as [o v2]. cbn [fst snd] in *.
    assert (F : ~ Forall freed (WCleanup r :: tw)) by (intros F; inversion F; contradiction).
    cbn [v_t v1] in E2. rewrite <- app_assoc in E2. cbn in E2.
    assert (CC : forall b, b = true \/ b = false -> counted strict (v_on v) b (WCleanup r :: tw)).
    { intros b _ n k L. rewrite O in L. cbn in L. destruct n as [|n]; [lia|]. cbn [cnt]. apply Z.eqb_neq in Q. rewrite Q.
      destruct (C2 (S n) k) as (n' & E4 & L4 & _); [cbn; lia|]. exists n'. split; [exact E4|]. rewrite SO in L4.
      split; [destruct b; cbn in *; lia|]. intros; contradiction. }
    assert (PP : Forall passive (WCleanup r :: tw)) by (constructor; [reflexivity|exact P2]).
    destruct o as [a| | | | |]; cbn [fst snd is_done];
      try (split; [exact M2|]; split; [split; [discriminate|exact K2]|]; exists (WCleanup r :: tw); split; [exact E2|]; split; [exact PP|]; rewrite SO; apply CC; auto; fail).
    split; [intros S; destruct (SC S); unfold mine; cbn; auto|]. split; [split; [intros _ _; unfold linked; cbn; discriminate|exact K2]|].
    exists (WCleanup r :: tw). split; [exact E2|]. split; [exact PP|]. cbn. apply CC. auto.
Qed.
Lemma R_release v : (strict = true -> c_sock (v_c v) = 0 /\ c_bio (v_c v) = None) ->
  R strict (is_done (fst (release_winsock v))) v (snd (release_winsock v)).
Proof.
  intros Z. unfold release_winsock. unfold wbind at 1, get_on. unfold wbind at 2. destruct (v_on v) eqn:O.
  - pose proof (R_doclean v O Z) as X. unfold wbind. intros M. specialize (X M).
    assert (D : forall a v1, doWSACleanup v = (Done a, v1) -> v_on v1 = false).
    { unfold doWSACleanup. intros a v1 E. clear -E. revert E.
      unfold wbind at 1. destruct (next _ _ _ v) as [[] w]; try discriminate.
      unfold wbind at 1. destruct (wput _ w) as [[] w1]; try discriminate. unfold wbind at 1.
      match goal with |- context [let (_, _) := ?x in _] => destruct x as [[] w2] end; try discriminate.
      unfold set_on. intros E. now injection E as <- <-. }
    destruct (doWSACleanup v) as [[a| | | | |] v1]; cbn [fst snd is_done] in *; try exact X.
    specialize (D a v1 eq_refl). unfold set_on. cbn [fst snd is_done]. destruct v1; cbn in D; subst; exact X.
  - unfold wbind, wret, set_on. cbn. destruct v. cbn in O. subst. apply R_refl.
Qed.

(** The end of [cleanup]. *)
Definition finish (k : clientkind) : W unit :=
  base (updc (set_conn false)) ;;#
  base (match k with KPlain => ret tt | _ => free_tls end) ;;#
  close_socketW ;;#
  release_winsock.
Lemma R_then0 v v1 v2 d : R strict false v v1 -> R strict d v1 v2 -> (d = true -> v_on v2 = false) -> R strict d v v2.
Proof.
  intros H1 H2 O M. destruct (H1 M) as (M1 & (_ & K1) & tw1 & E1 & P1 & A1). destruct (H2 M1) as (M2 & (_ & K2) & tw2 & E2 & P2 & A2).
  split; [exact M2|]. split; [split; [intros D; unfold linked; rewrite (O D); discriminate|congruence]|].
  exists (tw1 ++ tw2). split; [now rewrite E2, E1, app_assoc|].
  split; [now apply Forall_app|]. eapply counted_app; eauto.
Qed.
Lemma release_off v a v1 : release_winsock v = (Done a, v1) -> v_on v1 = false.
Proof.
  unfold release_winsock. unfold wbind at 1. destruct (get_on v) as [[] w]; try discriminate. unfold wbind at 1.
  match goal with |- context [let (_, _) := ?x in _] => destruct x as [[] w2] end; try discriminate.
  unfold set_on. intros E. now injection E as <- <-.
Qed.
Lemma rel_finish v : R strict (is_done (fst (finish (c_kind (v_c v)) v))) v (snd (finish (c_kind (v_c v)) v)).
Proof.
  intros M. revert M. fold (R strict (is_done (fst (finish (c_kind (v_c v)) v))) v (snd (finish (c_kind (v_c v)) v))).
  destruct v as [c on e x t].
  set (v1 := mkV (set_conn false c) on e x (t ++ [])).
  assert (R1 : R strict false (mkV c on e x t) v1).
  { intros M. split; [exact M|]. split; [split; [discriminate|reflexivity]|]. exists []. split; [reflexivity|]. split; [constructor|apply counted_nil]. }
  set (fr := base (match c_kind c with KPlain => ret tt | _ => free_tls end)).
  assert (R2 : R strict false v1 (snd (fr v1))).
  { apply R_weak. assert (T : tame false (match c_kind c with KPlain => ret tt | _ => free_tls end)) by (destruct (c_kind c); [apply tame_ret|apply tame_free..]).
    destruct (T (mkSt (v_c v1) (v_e v1) [])) as (l & E & S & F). eapply R_base; eauto. }
  assert (F1 : fst (fr v1) = Done tt /\ v_on (snd (fr v1)) = on /\ (c_kind c = KPlain -> c_bio (v_c (snd (fr v1))) = c_bio c) /\
               (c_kind c <> KPlain -> c_bio (v_c (snd (fr v1))) = None)).
  { unfold fr, base, free_tls, bind, getc, ret, updc, emit. destruct (c_kind c); cbn.
    - repeat split; auto. contradiction.
    - destruct (c_ctx c), (c_bio c) eqn:B; cbn; repeat split; auto; discriminate.
    - destruct (c_ctx c), (c_bio c) eqn:B; cbn; repeat split; auto; discriminate. }
  set (v2 := snd (fr v1)) in *.
  assert (F3 : fst (close_socketW v2) = Done tt /\ c_sock (v_c (snd (close_socketW v2))) = 0 /\
               c_bio (v_c (snd (close_socketW v2))) = c_bio (v_c v2)).
  { unfold close_socketW, wbind, base, getc, close_socket, bind, updc, emit, ret, wput, wret.
    cbn. destruct (c_sock (v_c v2) =? 0) eqn:Q; cbn; rewrite ?Q; cbn; auto. }
  assert (R3 : R strict true v2 (snd (close_socketW v2))).
  { assert (T : relW strict close_socketW).
    { unfold close_socketW. apply rel_bind; [rel|]. intros c0. apply rel_bind; [rel|]. intros _. apply rel_base, tame_close. }
    specialize (T v2). destruct F3 as [F3 _]. rewrite F3 in T. exact T. }
  set (v3 := snd (close_socketW v2)) in *.
  assert (E : finish (c_kind c) (mkV c on e x t) = release_winsock v3).
  { unfold finish. unfold wbind at 1. change (base (updc (set_conn false)) (mkV c on e x t)) with (Done tt, v1).
    unfold wbind at 1. fold fr. destruct (fr v1) as [o w] eqn:Q. cbn [fst snd] in *. destruct F1 as [-> _]. subst v2.
    unfold wbind at 1. destruct (close_socketW w) as [o2 w2] eqn:Q2. cbn [fst snd] in *. destruct F3 as [-> _]. reflexivity. }
  cbn [v_c]. rewrite E.
  assert (R13 : R strict false (mkV c on e x t) v3).
  { eapply R_trans0; [exact R1|]. eapply R_trans0; [exact R2|]. apply R_weak, R3. }
  intros M. assert (Z : strict = true -> c_sock (v_c v3) = 0 /\ c_bio (v_c v3) = None).
  { intros S. destruct F3 as (_ & F3 & F4). split; [exact F3|]. rewrite F4. destruct F1 as (_ & _ & F5 & F6).
    destruct (M S) as (_ & _ & M3). cbn in M3. destruct (c_kind c) eqn:K; [rewrite F5; auto|apply F6; discriminate..]. }
  refine (R_then0 _ _ _ _ R13 (R_release v3 Z) _ M). intros D. destruct (release_winsock v3) as [o w] eqn:Q. cbn in *.
  destruct o; try discriminate. exact (release_off _ _ _ Q).
Qed.

Lemma rel_cleanup_f n : relW strict (cleanup_fW n).
Proof.
  induction n as [|n IH]; [apply rel_base, tame_diverge|]. cbn [cleanup_fW]. apply rel_getc. intros v.
  set (q := if c_batch (v_c v) && c_conn (v_c v) then _ <# sendQuitW (cleanup_fW n) ;; wret tt else wret tt).
  assert (Q : relW strict q).
  { unfold q. destruct (_ && _); [|apply rel_ret]. apply rel_bind; [now apply rel_quit|]. intros. apply rel_ret. }
  clearbody q. fold (finish (c_kind (v_c v))). specialize (Q v). intros M. destruct (Q M) as (_ & (_ & K) & _). revert M.
  fold (R strict (is_done (fst ((q ;;# finish (c_kind (v_c v))) v))) v (snd ((q ;;# finish (c_kind (v_c v))) v))).
  unfold wbind. destruct (q v) as [[a| | | | |] v1]; cbn [fst snd is_done] in *; try exact Q.
  rewrite <- K. eapply R_trans; [exact Q|]. apply rel_finish.
Qed.
Lemma rel_cleanup : relW strict cleanupW.
Proof. intros v. apply rel_cleanup_f. Qed.

(** ** The dialogue *)

Ltac call H := apply rel_bind; [apply H|intros ?].

Lemma rel_raw3 cmd err tm : relW strict (sendRaw3W cmd err tm).
Proof.
  unfold sendRaw3W. apply rel_bind; [apply rel_raw2, rel_cleanup|]. intros r. destruct (negb _); [rel|].
  call rel_raw_reply. destruct (negb _); [rel|]. call rel_cleanup. rel.
Qed.
Lemma rel_feedTLS cmd err tm : relW strict (sendFeedbackTLSW cmd err tm).
Proof.
  unfold sendFeedbackTLSW. apply rel_getc. intros v. destruct (c_bio (v_c v)) as [b|] eqn:E; [|apply rel_raw3].
  apply R_bind; [now apply R_puts|]. intros r. destruct r.
  1-2: call rel_reply; destruct (negb _); [rel|]; call rel_cleanup; rel.
  - apply rel_bind; [rel|]. intros _. call rel_cleanup. rel.
  - rel.
Qed.
Lemma rel_feed cmd err tm : relW strict (sendFeedbackW cmd err tm).
Proof. unfold sendFeedbackW. apply rel_bind; [rel|]. intros c. destruct (c_kind c); [apply rel_raw3|apply rel_feedTLS..]. Qed.
Lemma rel_feedptr cmd err tm : relW strict (sendFeedbackPtrW cmd err tm).
Proof. unfold sendFeedbackPtrW. apply rel_bind; [rel|]. intros c. destruct (c_rawptr c); [apply rel_raw3|apply rel_feed]. Qed.
Lemma rel_ptr cmd err : relW strict (sendCommandPtrW cleanupW cmd err).
Proof. apply rel_sendptr, rel_cleanup. Qed.

Ltac walk := repeat match goal with
  | |- relW _ (sendFeedbackPtrW _ _ _) => apply rel_feedptr
  | |- relW _ (sendFeedbackW _ _ _) => apply rel_feed
  | |- relW _ (sendRaw3W _ _ _) => apply rel_raw3
  | |- relW _ (sendCommandPtrW cleanupW _ _) => apply rel_ptr
  | |- relW _ (sendQuitW cleanupW) => apply rel_quit, rel_cleanup
  | |- relW _ cleanupW => apply rel_cleanup
  | |- relW _ getServerReplyW => apply rel_reply
  | |- relW _ (wret _) => apply rel_ret
  | |- relW _ (base _) => apply rel_base; tam; fail
  | |- relW _ (wbind _ _) => apply rel_bind; [|intros ?]
  | |- relW _ (match ?x with _ => _ end) => destruct x
  end.

Lemma rel_ehlo_loop n tc : forall op, relW strict (ehlo_loopW n tc op).
Proof. induction n as [|n IH]; intros op; cbn [ehlo_loopW]; walk. apply IH. Qed.
Lemma rel_ehlo err tm : relW strict (ehlo_withW err tm).
Proof. unfold ehlo_withW. walk. apply rel_ehlo_loop. Qed.
Lemma rel_secure : relW strict getServerSecureIdentificationW.
Proof. unfold getServerSecureIdentificationW. walk. apply rel_ehlo. Qed.
Lemma rel_auth_if : relW strict authenticate_if_neededW.
Proof.
  unfold authenticate_if_neededW, authenticateClientW, authPlainW, authLoginW, authXOauth2W. walk.
Qed.
Lemma rel_mail_from l : forall z, relW strict (mail_from_loopW l z).
Proof. induction l as [|f l IH]; intros z; cbn [mail_from_loopW]; walk. apply IH. Qed.
Lemma rel_add_rcpt l : forall z, relW strict (addMailRecipientsW l z).
Proof. induction l as [|f l IH]; intros z; cbn [addMailRecipientsW]; walk; apply IH. Qed.
Lemma rel_rcpts l : relW strict (recipients_loopW l).
Proof. induction l as [|a l IH]; cbn [recipients_loopW]; [walk|]. destruct a; [apply IH|]. call rel_add_rcpt. destruct (negb _); [walk|apply IH]. Qed.
Lemma rel_addr_header f a : relW strict (address_headerW f a).
Proof. unfold address_headerW, addMailHeaderW. destruct a as [[|n]|[|a l]]; walk. Qed.
Lemma rel_chunks l err : relW strict (send_chunksW l err).
Proof. induction l as [|x l IH]; cbn [send_chunksW]; walk. apply IH. Qed.
Lemma rel_transaction m : relW strict (mail_transactionW m).
Proof.
  unfold mail_transactionW. apply rel_bind; [unfold setMailRecipientsW; call rel_mail_from; destruct (negb _); [walk|apply rel_rcpts]|]. intros r.
  destruct (negb _); [walk|]. apply rel_bind.
  { unfold setMailHeadersW, addMailHeaderW. walk; apply rel_addr_header. }
  intros h. destruct (negb _); [walk|]. apply rel_bind.
  { unfold setMailBodyW. walk. apply rel_chunks. }
  intros b. walk.
Qed.
End Walk.
