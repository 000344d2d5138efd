(** References to WinSock: whole calls and programs. *)

From Coq Require Import Ascii String List NArith ZArith Bool Lia.
From Verif Require Import Base ModelUtil ModelBase64 ModelAddress ModelAttachment
  ModelErrors ModelReply ModelMessage ModelState ModelClient ModelWorld ModelWin SpecWin ProofWin2 ProofWinRef ProofWinRef2 ProofWinRef3.
Import ListNotations.
Open Scope Z_scope.

(** ** Functions that do not release the reference when they succeed *)

Lemma zero_bind2 {A C} z1 z (m : W A) (k : A -> W C) : zero z1 m -> (forall a, z1 a = true -> zero z (k a)) ->
  (forall a v x v', z1 a = false -> k a v = (Done x, v') -> z x = false) -> zero z (wbind m k).
Proof.
  intros H J N v a v' O. unfold wbind. destruct (m v) as [[x| | | | |] w] eqn:E; try discriminate. intros E2 Z.
  destruct (z1 x) eqn:Q; [|rewrite (N _ _ _ _ Q E2) in Z; discriminate]. eapply J; [exact Q| |exact E2|exact Z]. eapply H; eauto.
Qed.
Lemma zero_raw2 cw cmd err : err <> 0 -> zero (Z.eqb 0) (sendRaw2W cw cmd err).
Proof.
  intros N. assert (NE : (0 =? err) = false) by (apply Z.eqb_neq; congruence). unfold sendRaw2W. destruct (_ <? _)%N; zro.
  apply zero_not. intros w y w2. unfold wbind, wret. destruct (cw w) as [[]]; try discriminate. intros E. now injection E as <- <-.
Qed.
Lemma on_mode b : same_on (setSocketMode b). Proof. unfold setSocketMode. son. Qed.
Lemma on_raw_reply : same_on getRawCommandReplyW.
Proof. unfold getRawCommandReplyW. apply on_bind; [apply on_mode|]. intros _. son. all: try apply on_mode. Qed.
Lemma on_reply : same_on getServerReplyW.
Proof. unfold getServerReplyW. son. apply on_raw_reply. Qed.
Lemma zero_raw3 z cmd err tm : err <> 0 -> z err = false -> z tm = false -> zero z (sendRaw3W cmd err tm).
Proof.
  intros N Z1 Z2. unfold sendRaw3W. apply zero_bind2 with (z1 := Z.eqb 0); [now apply zero_raw2| |].
  - intros r E. apply Z.eqb_eq in E. subst r. cbn. apply zero_bind; [apply on_raw_reply|]. intros c. destruct (negb _); [zro|]. now apply zero_then.
  - intros a v x v' E. rewrite Z.eqb_sym in E. rewrite E. cbn. intros X. now injection X as <- <-.
Qed.
Lemma zero_feedTLS z cmd err tm : err <> 0 -> z err = false -> z tm = false -> zero z (sendFeedbackTLSW cmd err tm).
Proof.
  intros N Z1 Z2. unfold sendFeedbackTLSW. apply zero_bind; [son|]. intros c. destruct (c_bio c); [|now apply zero_raw3].
  apply zero_bind; [son|]. intros r.
  assert (X : zero z (code <# getServerReplyW ;; if negb (code =? -1) then wret code else cleanupW ;;# wret tm)).
  { apply zero_bind; [apply on_reply|]. intros x. destruct (negb _); [zro|]. now apply zero_then. }
  destruct r; [exact X|exact X| |zro]. apply zero_bind; [son|]. intros _. now apply zero_then.
Qed.
Lemma zero_feed z cmd err tm : err <> 0 -> z err = false -> z tm = false -> zero z (sendFeedbackW cmd err tm).
Proof. intros. unfold sendFeedbackW. apply zero_bind; [son|]. intros c. destruct (c_kind c); [now apply zero_raw3|now apply zero_feedTLS..]. Qed.
Lemma zero_ehlo_loop n tc z : forall op, zero z (ehlo_loopW n tc op).
Proof.
  intros op. apply zero_same. revert op. induction n as [|n IH]; intros op; cbn [ehlo_loopW]; destruct (containsAllOptions op); son.
  - apply on_reply.
  - apply IH.
Qed.
Lemma zero_ehlo err tm : err <> 0 -> (250 =? err) = false -> (250 =? tm) = false -> zero (Z.eqb 250) (ehlo_withW err tm).
Proof.
  intros N Z1 Z2. unfold ehlo_withW. apply zero_bind; [son|]. intros _.
  apply zero_bind2 with (z1 := Z.eqb 250); [now apply zero_feed| |].
  - intros c E. apply Z.eqb_eq in E. subst c. change (negb (250 =? 250)) with false. cbv iota. apply zero_bind; [son|]. intros c. destruct (c_resp c); [|zro]. apply zero_bind; [son|]. intros e. apply zero_ehlo_loop.
  - intros a v x v2 E. pose proof E as E2. rewrite Z.eqb_sym in E. rewrite E. cbn [negb]. intros X. injection X as <- <-. exact E2.
Qed.
Lemma zero_ident : zero (Z.eqb 250) sendServerIdentificationW.
Proof. apply zero_ehlo; [discriminate|reflexivity|reflexivity]. Qed.
Lemma zero_upgrade : zero (Z.eqb 220) upgradeToSecureConnectionW.
Proof. unfold upgradeToSecureConnectionW. apply zero_bind; [son|]. intros _. apply zero_raw3; [discriminate|reflexivity|reflexivity]. Qed.

Section Calls.
Variable strict : bool.

(** ** The negotiation *)

Definition relC {A} (m : W A) : Prop := forall v, v_on v = true -> c_kind (v_c v) <> KPlain -> R strict (is_done (fst (m v))) v (snd (m v)).
Definition relB {A} (m : W A) : Prop := forall v, v_on v = true -> c_kind (v_c v) <> KPlain ->
  R strict true v (snd (m v)) /\ v_on (snd (m v)) = true /\ c_kind (v_c (snd (m v))) = c_kind (v_c v).
Lemma relC_W {A} (m : W A) : relW strict m -> relC m.
Proof. intros H v _ _. apply H. Qed.
Lemma relC_bind {A C} (m : W A) (k : A -> W C) : relB m -> (forall a, relC (k a)) -> relC (wbind m k).
Proof.
  intros H J v O N. destruct (H v O N) as (H1 & H2 & H3). unfold wbind. destruct (m v) as [[a| | | | |] w]; cbn [fst snd is_done] in *; try (apply R_weak, H1).
  eapply R_trans; [exact H1|]. apply J; [exact H2|congruence].
Qed.
Lemma relC_B {A} (m : W A) : relB m -> relC m.
Proof. intros H v O N. apply R_weak, H; auto. Qed.
Lemma relB_base {A} (m : M A) : tame true m -> relB (base m).
Proof.
  intros H v O N. destruct (H (mkSt (v_c v) (v_e v) [])) as (l & E & S & F). unfold base. destruct (m _) as [o s]. cbn [snd v_on v_c s_c s_t] in *.
  destruct S as (S1 & S2 & S3 & S4). cbn in S1, S2, S3, E. split; [|auto]. intros M. split.
  - intros _. unfold mine. cbn. rewrite S1, O. split; [auto|]. split; [auto|]. contradiction.
  - split; [split; [intros _; unfold linked; cbn; now rewrite S2|exact S1]|]. exists (map WSock (s_t s)). split; [reflexivity|].
    cbn. rewrite E. eapply cnt_base; [|exact F]. auto.
Qed.
Lemma relB_same {A} (m : W A) : (forall v, v_c (snd (m v)) = v_c v /\ v_on (snd (m v)) = v_on v /\ exists tw, v_t (snd (m v)) = v_t v ++ tw /\ Forall passive tw /\ forall n, cnt strict n tw = Some n) -> relB m.
Proof.
  intros H v O N. destruct (H v) as (E1 & E2 & tw & E3 & P & C). split; [|split; congruence]. intros M. split.
  - intros S. specialize (M S). unfold mine in *. now rewrite E1, E2.
  - split; [split; [intros _; unfold linked; now rewrite E1, E2|congruence]|]. exists tw. split; [exact E3|]. split; [exact P|]. rewrite E2.
    intros n k L. exists n. auto.
Qed.
Lemma relB_next {T} get set (d : T) : relB (next get set d).
Proof. apply relB_same. intros v. unfold next. destruct (get (v_w v)); cbn; (split; [reflexivity|]); (split; [reflexivity|]); exists []; rewrite app_nil_r; auto. Qed.
Lemma relB_open st : relB (wput (WOpenStore st)).
Proof. apply relB_same. intros v. split; [reflexivity|]. split; [reflexivity|]. exists [WOpenStore st]. repeat constructor. Qed.
Lemma relB_shut : relB (wput WCloseStore).
Proof. apply relB_same. intros v. split; [reflexivity|]. split; [reflexivity|]. exists [WCloseStore]. repeat constructor. Qed.
Lemma tame_fresh any : tame any fresh_id.
Proof. unfold fresh_id. tam. Qed.
Lemma rel_startTLS : relC startTLSNegotiationW.
Proof.
  unfold startTLSNegotiationW.
  repeat (match goal with
  | |- relC (cleanupW ;;# _) => apply relC_W, rel_bind; [apply rel_cleanup|intros ?; rel; fail]
  | |- relC (wbind _ _) => apply relC_bind; [|intros ?]
  | |- relC (wret _) => apply relC_W, rel_ret
  | |- relC (base _) => apply relC_B
  | |- relC (match ?x with _ => _ end) => destruct x
  | |- relB (base fresh_id) => apply relB_base, tame_fresh
  | |- relB (base _) => apply relB_base; tam; fail
  | |- relB (next _ _ _) => apply relB_next
  | |- relB (wput (WOpenStore _)) => apply relB_open
  | |- relB (wput WCloseStore) => apply relB_shut
  end).
Qed.

(** ** Establishing the connection *)

Lemma relC_bindz {A C} z (m : W A) (k : A -> W C) : relW strict m -> zero z m ->
  (forall a, z a = true -> relC (k a)) -> (forall a, z a = false -> relW strict (k a)) -> relC (wbind m k).
Proof.
  intros H Z J J2 v O N. specialize (H v). intros M. destruct (H M) as (_ & (_ & KK) & _). revert M.
  fold (R strict (is_done (fst (wbind m k v))) v (snd (wbind m k v))).
  unfold wbind. destruct (m v) as [[a| | | | |] w] eqn:E; cbn [fst snd is_done] in *; try exact H.
  eapply R_trans; [exact H|]. destruct (z a) eqn:Q; [apply J; [exact Q|eapply Z; eauto|congruence]|now apply J2].
Qed.
Definition rest_plain : W Z :=
  g <# base checkServerGreetings ;;
  if negb (g =? STATUS_CODE_SERVICE_READY) then wret g else
  i <# sendServerIdentificationW ;;
  if negb (i =? STATUS_CODE_REQUESTED_MAIL_ACTION_OK_OR_COMPLETED) then wret i else
  authenticate_if_neededW.
Definition rest_opp : W Z :=
  g <# base checkServerGreetings ;;
  if negb (g =? STATUS_CODE_SERVICE_READY) then wret g else
  i <# sendServerIdentificationW ;;
  if negb (i =? STATUS_CODE_REQUESTED_MAIL_ACTION_OK_OR_COMPLETED) then wret i else
  c <# base getc ;;
  tls <# base (lift (isStartTLSSupported (c_resp c))) ;;
  if (tls : bool) then
    base (logc (B "Info: STARTTLS is available by the server, the communication will be encrypted.")) ;;#
    u <# upgradeToSecureConnectionW ;;
    if negb (u =? STATUS_CODE_SERVICE_READY) then wret u else
    t <# startTLSNegotiationW ;;
    if negb (t =? 0) then wret t else
    s <# getServerSecureIdentificationW ;;
    if negb (s =? STATUS_CODE_REQUESTED_MAIL_ACTION_OK_OR_COMPLETED) then wret s else
    authenticate_if_neededW
  else
    base (logc (B "Info: STARTTLS is not an available option by the server, the communication will then remain unencrypted.")) ;;#
    base (updc (set_keep true)) ;;#
    wret 0.
Definition rest_forced : W Z :=
  t <# startTLSNegotiationW ;;
  if negb (t =? 0) then wret t else
  g <# base checkServerGreetingsTLS ;;
  if negb (g =? STATUS_CODE_SERVICE_READY) then wret g else
  s <# getServerSecureIdentificationW ;;
  if negb (s =? STATUS_CODE_REQUESTED_MAIL_ACTION_OK_OR_COMPLETED) then wret s else
  authenticate_if_neededW.
Lemma rel_greetings : relW strict (base checkServerGreetings). Proof. apply rel_base, tame_greetings. Qed.
Lemma rel_greetingsTLS : relW strict (base checkServerGreetingsTLS). Proof. apply rel_base, tame_greetingsTLS. Qed.
Lemma rel_rest_plain : relW strict rest_plain.
Proof.
  unfold rest_plain. apply rel_bind; [apply rel_greetings|]. intros g. destruct (negb _); [rel|].
  apply rel_bind; [apply rel_ehlo|]. intros i. destruct (negb _); [rel|]. apply rel_auth_if.
Qed.
Lemma rel_secure_auth : relW strict (s <# getServerSecureIdentificationW ;;
    if negb (s =? STATUS_CODE_REQUESTED_MAIL_ACTION_OK_OR_COMPLETED) then wret s else
    authenticate_if_neededW).
Proof. apply rel_bind; [apply rel_secure|]. intros i. destruct (negb _); [rel|]. apply rel_auth_if. Qed.
Lemma relC_then {A C} (m : W A) (k : A -> W C) : relC m -> (forall a, relW strict (k a)) -> relC (wbind m k).
Proof.
  intros H J v O N. specialize (H v O N). unfold wbind. destruct (m v) as [[a| | | | |] w]; cbn [fst snd is_done] in *; try exact H.
  eapply R_trans; [exact H|]. apply J.
Qed.
Lemma relC_rest_opp : relC rest_opp.
Proof.
  unfold rest_opp. apply relC_bindz with (z := fun _ => true); [apply rel_greetings|apply zero_same, on_base| |discriminate].
  intros g _. destruct (negb _); [apply relC_W; rel|].
  apply relC_bindz with (z := Z.eqb 250); [apply rel_ehlo|apply zero_ident| |].
  2:{ intros i E. rewrite Z.eqb_sym in E. unfold STATUS_CODE_REQUESTED_MAIL_ACTION_OK_OR_COMPLETED. rewrite E. cbn [negb]. rel. }
  intros i E. destruct (negb _); [apply relC_W; rel|]. apply relC_bind; [apply relB_base; tam|]. intros c.
  apply relC_bind; [apply relB_base; tam|]. intros [|].
  - apply relC_bind; [apply relB_base; tam|]. intros _.
    apply relC_bindz with (z := Z.eqb 220); [|apply zero_upgrade| |].
    + unfold upgradeToSecureConnectionW. apply rel_bind; [rel|]. intros _. apply rel_raw3.
    + intros u Q. destruct (negb _); [apply relC_W; rel|]. apply relC_then; [apply rel_startTLS|]. intros t. destruct (negb _); [rel|]. apply rel_secure_auth.
    + intros u Q. rewrite Z.eqb_sym in Q. unfold STATUS_CODE_SERVICE_READY. rewrite Q. cbn [negb]. rel.
  - apply relC_W. rel.
Qed.
Lemma relC_rest_forced : relC rest_forced.
Proof.
  unfold rest_forced. apply relC_then; [apply rel_startTLS|]. intros t. destruct (negb _); [rel|].
  apply rel_bind; [apply rel_greetingsTLS|]. intros g. destruct (negb _); [rel|]. apply rel_secure_auth.
Qed.
Definition rest (k : clientkind) : W Z := match k with KPlain => rest_plain | KOpp => rest_opp | KForced => rest_forced end.
Lemma rel_rest v : v_on v = true -> R strict (is_done (fst (rest (c_kind (v_c v)) v))) v (snd (rest (c_kind (v_c v)) v)).
Proof.
  intros O. destruct (c_kind (v_c v)) eqn:Q; cbn [rest]; [apply rel_rest_plain|apply relC_rest_opp|apply relC_rest_forced]; congruence.
Qed.

(** The invariant of a client between calls. *)
Definition inv (v : vst) : Prop := (c_kind (v_c v) = KPlain -> c_bio (v_c v) = None) /\ (c_conn (v_c v) = true -> mine v).
Lemma mine_inv v : mine v -> inv v.
Proof. intros M. split; [apply M|auto]. Qed.

Lemma establish_eq v : establishW v = (r <# initializeSessionW ;; if negb (r =? 0) then wret r else rest (c_kind (v_c v))) v.
Proof.
  unfold establishW. unfold wbind at 1. unfold base at 1. unfold getc at 1. cbn [s_c s_e s_t map v_c v_e]. rewrite app_nil_r.
  destruct v as [c on e x t]. cbn [v_c v_on v_e v_w v_t]. destruct (c_kind c); reflexivity.
Qed.
Lemma establish_facts v : (strict = true -> inv v) -> c_conn (v_c v) = false ->
  let '(o, v') := establishW v in
  (strict = true -> inv v') /\ (o = Done 0 -> strict = true -> mine v') /\
  exists tw, v_t v' = v_t v ++ tw /\ existsb starts tw = true /\ count (v_on v = false) strict (v_on v) (v_on v') tw.
Proof.
  intros J CN. rewrite establish_eq. unfold wbind. pose proof (init_facts v) as H. destruct (initializeSessionW v) as [o v1].
  destruct H as ((K1 & K2 & K3) & On & tw & E & Q & ST & C).
  assert (J1 : strict = true -> inv v1).
  { intros S. destruct (J S) as [J1 _]. split; [|congruence]. rewrite K1. intros P. destruct K3 as [->| ->]; auto. }
  destruct o as [r| | | | |]; try (split; [exact J1|]; split; [discriminate|]; exists tw; auto; fail).
  destruct (r =? 0) eqn:R0; cbn [negb].
  - apply Z.eqb_eq in R0. subst r. specialize (On eq_refl). pose proof (rel_rest v1 On) as H. rewrite K1 in H.
    destruct (rest (c_kind (v_c v)) v1) as [o v2]. cbn [fst snd] in H. destruct H as (M & _ & t2 & E2 & _ & C2).
    { intros S. destruct (J1 S) as [J2 _]. unfold mine. auto. }
    split; [intros S; apply mine_inv, M, S|]. split; [auto|]. exists (tw ++ t2). split; [now rewrite E2, E, app_assoc|]. split; [now rewrite existsb_app, ST|].
    eapply count_weak; [|eapply count_app; [apply C|apply counted_count; exact C2]]. intros X. split; [exact X|exact Logic.I].
  - unfold wret. split; [exact J1|]. split; [|exists tw; auto]. intros X. injection X as ->. discriminate.
Qed.

(** ** Sending and destroying *)

Definition connected_part (m : message) : W Z := base (updc (set_conn true)) ;;# mail_transactionW m.
Lemma connected_facts m v : (strict = true -> mine v) -> let '(o, v') := connected_part m v in
  (strict = true -> mine v') /\ (is_done o = true -> linked v') /\
  exists tw, v_t v' = v_t v ++ tw /\ counted strict (v_on v) (v_on v') tw.
Proof.
  intros M. unfold connected_part, wbind, base, updc. cbn [s_c s_e s_t map v_c v_e v_on v_t v_w]. rewrite app_nil_r.
  set (v1 := mkV (set_conn true (v_c v)) (v_on v) (v_e v) (v_w v) (v_t v)). pose proof (rel_transaction strict m v1) as H.
  destruct (mail_transactionW m v1) as [o v']. cbn [fst snd] in H. destruct H as (M2 & (L2 & _) & tw & E & _ & C); [exact M|].
  split; [exact M2|]. split; [intros D; apply L2; [exact D|unfold linked; reflexivity]|]. exists tw. auto.
Qed.
Lemma send_facts m v : (strict = true -> inv v) -> let '(o, v') := sendMailW m v in
  (strict = true -> inv v') /\
  exists tw, v_t v' = v_t v ++ tw /\ (is_done o = true -> o = Done 0 \/ existsb starts tw = false -> linked v') /\ count (linked v) strict (v_on v) (v_on v') tw.
Proof.
  intros J. unfold sendMailW. unfold wbind at 1. unfold base at 1. unfold getc at 1. cbn [s_c s_e s_t map v_c v_e]. rewrite app_nil_r.
  assert (Ev : mkV (v_c v) (v_on v) (v_e v) (v_w v) (v_t v) = v) by now destruct v. rewrite Ev. clear Ev.
  fold (connected_part m). destruct (c_conn (v_c v)) eqn:CN.
  - unfold wbind, wret. cbn [negb]. change (0 =? 0) with true. cbn [negb].
    pose proof (connected_facts m v) as H. destruct (connected_part m v) as [o v']. destruct H as (M & L & tw & E & C).
    { intros S. now apply J. }
    split; [intros S; apply mine_inv, M, S|]. exists tw. split; [exact E|]. split; [intros D _; now apply L|]. now apply counted_count.
  - unfold wbind at 1. pose proof (establish_facts v J CN) as H. destruct (establishW v) as [o v1].
    destruct H as (J1 & M1 & tw & E & ST & C).
    assert (C0 : count (linked v) strict (v_on v) (v_on v1) tw).
    { eapply count_weak; [|exact C]. unfold linked. destruct (v_on v); [|auto]. intros X. rewrite X in CN; [discriminate|reflexivity]. }
    destruct o as [r| | | | |]; try (split; [exact J1|]; exists tw; split; [exact E|]; split; [discriminate|auto]; fail).
    destruct (r =? 0) eqn:R0; cbn [negb].
    + apply Z.eqb_eq in R0. subst r. pose proof (connected_facts m v1 (M1 eq_refl)) as H. destruct (connected_part m v1) as [o v'].
      destruct H as (M & L & t2 & E2 & C2). split; [intros S; apply mine_inv, M, S|].
      exists (tw ++ t2). split; [now rewrite E2, E, app_assoc|]. split; [intros D _; now apply L|].
      eapply count_weak; [|eapply count_app; [exact C0|apply counted_count; exact C2]]. intros X. split; [exact X|exact Logic.I].
    + unfold wret. split; [exact J1|]. exists tw. split; [exact E|]. split; [|exact C0]. intros _ [X|X]; [injection X as ->; discriminate|congruence].
Qed.

Lemma sW_tail k : stillW (base (match k with KPlain => ret tt | _ => free_tls end) ;;# close_socketW ;;# release_winsock).
Proof.
  apply sW_bind; [destruct k; [apply sW_base; apply sM_quiet; intros s; split; [reflexivity|apply K_refl]|apply sW_base, sM_free..]|].
  intros _. apply sW_bind; [apply sW_close|]. intros _. apply sW_release.
Qed.
Lemma finish_off k v a v' : finish k v = (Done a, v') -> v_on v' = false.
Proof.
  unfold finish. unfold wbind at 1. destruct (base _ v) as [[] w]; try discriminate. unfold wbind at 1.
  destruct (base _ w) as [[] w2]; try discriminate. unfold wbind at 1. destruct (close_socketW w2) as [[] w3]; try discriminate.
  apply release_off.
Qed.
Lemma cleanup_off v a v' : cleanupW v = (Done a, v') -> v_on v' = false.
Proof.
  unfold cleanupW, cleanup_fuel. cbn [cleanup_fW]. unfold wbind at 1. destruct (base getc v) as [[c| | | | |] w]; try discriminate.
  unfold wbind at 1. match goal with |- context [let (_, _) := ?x in _] => destruct x as [[] w2] end; try discriminate.
  apply (finish_off (c_kind c)).
Qed.
Lemma cleanup_closed v : c_conn (v_c v) = false -> cleanupW v = finish (c_kind (v_c v)) v.
Proof.
  intros CN. unfold cleanupW, cleanup_fuel. cbn [cleanup_fW]. unfold wbind at 1. unfold base at 1. unfold getc at 1. cbn [s_c s_e s_t map v_c v_e]. rewrite app_nil_r.
  assert (Ev : mkV (v_c v) (v_on v) (v_e v) (v_w v) (v_t v) = v) by now destruct v. rewrite Ev. clear Ev.
  rewrite CN, andb_false_r. reflexivity.
Qed.
Lemma destroy_facts v : (strict = true -> inv v) -> let '(o, v') := cleanupW v in
  (is_done o = true -> v_on v' = false) /\
  exists tw, v_t v' = v_t v ++ tw /\ counted strict (v_on v) (v_on v') tw.
Proof.
  intros J. destruct (cleanupW v) as [o v'] eqn:E. split; [destruct o; try discriminate; intros _; eapply cleanup_off; eauto|].
  destruct (c_conn (v_c v)) eqn:CN.
  - pose proof (rel_cleanup strict v) as H. rewrite E in H. cbn [fst snd] in H. destruct H as (_ & _ & tw & E2 & _ & C); [intros S; now apply J|]. exists tw. auto.
  - pose proof (rel_cleanup false v) as H. rewrite E in H. cbn [fst snd] in H. destruct H as (_ & _ & tw & E2 & _ & C); [discriminate|].
    exists tw. split; [exact E2|]. assert (Q : Forall quiet tw).
    { rewrite (cleanup_closed v CN) in E. unfold finish in E. unfold wbind at 1 in E. unfold base at 1, updc at 1 in E.
      cbn [s_c s_e s_t map v_c v_e v_on v_w v_t] in E. rewrite app_nil_r in E.
      match type of E with _ ?w = _ => destruct (sW_tail (c_kind (v_c v)) w) as (_ & t2 & E3 & Q) end. rewrite E in E3. cbn in E3.
      rewrite E2 in E3. apply app_inv_head in E3. now subst. }
    intros n k L. destruct (C n k L) as (n' & X & Y). exists n'. rewrite (cnt_quiet tw Q strict). auto.
Qed.
End Calls.
