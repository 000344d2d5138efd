(** The dialogue of a mail transaction. *)

From Coq Require Import Ascii String List NArith ZArith Bool Lia ZifyBool ZifyNat ZifyN.
From Verif Require Import Base Lib ModelUtil ModelBase64 ModelAddress ModelAttachment
  ModelErrors ModelReply ModelMessage ModelState ModelClient ModelWorld
  ProofSteps ProofWalk ProofPhases ProofEstablish ProofLog ProofSend ProofWorld
  SpecAddress SpecText SpecReply SpecMime SpecDialogue ProofReply ProofAddress ProofMime ProofTls.
Import ListNotations.
Open Scope Z_scope.

(** ** Reply codes *)

Lemma digit_of : forall c, strtol_digit c = true -> digit_value c (Z.of_N (code c - 48)).
Proof.
  intros c H. unfold strtol_digit in H. apply andb_prop in H as [H1 H2]. apply N.leb_le in H1, H2.
  split; [lia|]. replace (48 + Z.to_N (Z.of_N (code c - 48)))%N with (code c) by lia.
  symmetry. apply ascii_N_embedding.
Qed.
Lemma read_digits_bound : forall s acc, (0 <= acc)%Z -> (0 <= read_digits s acc < (acc + 1) * 10 ^ Z.of_nat (length s))%Z.
Proof.
  induction s as [|c s IH]; intros acc H; [simpl; lia|]. cbn [read_digits length].
  destruct (strtol_digit c) eqn:D.
  - apply digit_of in D as [D _]. specialize (IH (acc * 10 + Z.of_N (code c - 48)) ltac:(lia)).
    replace (Z.of_nat (S (length s))) with (1 + Z.of_nat (length s)) by lia. rewrite Z.pow_add_r by lia. nia.
  - assert (0 < 10 ^ Z.of_nat (S (length s))) by (apply Z.pow_pos_nonneg; lia). nia.
Qed.

Lemma extract_big : forall x v, extractReturnCode (Some x) = v -> 100 <= v ->
  exists c1 c2 c3 v1 v2 v3 r, x = c1 :: c2 :: c3 :: r /\ digit_value c1 v1 /\ digit_value c2 v2 /\ digit_value c3 v3 /\
    v = 100 * v1 + 10 * v2 + v3.
Proof.
  intros x v H Hv. unfold extractReturnCode in H. destruct (3 <=? length (cstr x))%nat eqn:L; [|lia].
  destruct (cstr_prefix x) as [y E]. destruct (cstr x) as [|c1 [|c2 [|c3 r]]]; try discriminate L.
  cbn [firstn] in H. exists c1, c2, c3.
  assert (B2 : forall a b, 0 <= read_digits [a; b] 0 <= 99).
  { intros a b. assert (X := read_digits_bound [a; b] 0 ltac:(lia)). change (10 ^ Z.of_nat (length [a; b])) with 100 in X. lia. }
  assert (B1 : forall a, 0 <= read_digits [a] 0 <= 99).
  { intros a. assert (X := read_digits_bound [a] 0 ltac:(lia)). change (10 ^ Z.of_nat (length [a])) with 10 in X. lia. }
  assert (Small : forall s, (length s <= 2)%nat -> match stoi s with Some v => v | None => -1 end <= 99).
  { intros s Hs. assert (Hk : (length (skip_spaces s) <= 2)%nat).
    { clear -Hs. induction s as [|a s IH]; simpl in *; [lia|]. specialize (IH ltac:(lia)). destruct (strtol_space a); simpl in *; lia. }
    unfold stoi. destruct (skip_spaces s) as [|a [|b [|d l]]]; simpl in Hk; try lia.
    - destruct (Ascii.eqb a _); [simpl; lia|]. destruct (Ascii.eqb a _); [simpl; lia|].
      destruct (strtol_digit a) eqn:D; [specialize (B1 a); lia|lia].
    - destruct (Ascii.eqb a _); [destruct (starts_with_digit [b]); [specialize (B1 b)|]; lia|].
      destruct (Ascii.eqb a _); [destruct (starts_with_digit [b]); [specialize (B1 b)|]; lia|].
      destruct (strtol_digit a) eqn:D; [specialize (B2 a b); lia|lia]. }
  destruct (strtol_space c1) eqn:S1.
  { assert (X : stoi [c1; c2; c3] = stoi [c2; c3]) by (unfold stoi; cbn [skip_spaces]; rewrite S1; reflexivity).
    rewrite X in H. specialize (Small [c2; c3] ltac:(simpl; lia)). lia. }
  unfold stoi in H. cbn [skip_spaces] in H. rewrite S1 in H.
  destruct (Ascii.eqb c1 "-"). { destruct (starts_with_digit _); [specialize (B2 c2 c3)|]; lia. }
  destruct (Ascii.eqb c1 "+"). { destruct (starts_with_digit _); [specialize (B2 c2 c3)|]; lia. }
  destruct (strtol_digit c1) eqn:D1; [|lia]. cbn [read_digits] in H. rewrite D1 in H.
  assert (V1 := digit_of _ D1).
  destruct (strtol_digit c2) eqn:D2; [|destruct V1; lia]. assert (V2 := digit_of _ D2).
  destruct (strtol_digit c3) eqn:D3; [|destruct V1, V2; lia]. assert (V3 := digit_of _ D3).
  exists (Z.of_N (code c1 - 48)), (Z.of_N (code c2 - 48)), (Z.of_N (code c3 - 48)), (r ++ y).
  rewrite E. repeat split; try (apply V1); try (apply V2); try (apply V3). lia.
Qed.

Lemma extract_code : forall (a b c : ascii) va vb vc x,
  digit_value a va -> digit_value b vb -> digit_value c vc -> 1 <= va ->
  extractReturnCode (Some x) = 100 * va + 10 * vb + vc -> exists r, x = [a; b; c] ++ r.
Proof.
  intros a b c va vb vc x [A1 A2] [B1 B2] [C1 C2] Ha H.
  destruct (extract_big _ _ H ltac:(lia)) as (c1 & c2 & c3 & v1 & v2 & v3 & r & -> & [X1 X2] & [Y1 Y2] & [Z1 Z2] & E).
  assert (va = v1 /\ vb = v2 /\ vc = v3) as (-> & -> & ->) by lia. subst. exists r. reflexivity.
Qed.
Lemma extract_250 : forall x, extractReturnCode (Some x) = 250 -> starts_with (B "250") x.
Proof. intros x H. apply (extract_code "2"%char "5"%char "0"%char 2 5 0); try exact H; try lia; split; try lia; reflexivity. Qed.
Lemma extract_501 : forall x, extractReturnCode (Some x) = 501 -> starts_with (B "501") x.
Proof. intros x H. apply (extract_code "5"%char "0"%char "1"%char 5 0 1); try exact H; try lia; split; try lia; reflexivity. Qed.
Lemma extract_354 : forall x, extractReturnCode (Some x) = 354 -> starts_with (B "354") x.
Proof. intros x H. apply (extract_code "3"%char "5"%char "4"%char 3 5 4); try exact H; try lia; split; try lia; reflexivity. Qed.

Lemma starts_app : forall p x y, starts_with p x -> starts_with p (x ++ y).
Proof. intros p x y [r ->]. exists (r ++ y). symmetry. apply app_assoc. Qed.

(** A standard reply is not read as 0. *)
Lemma standard_code : forall x y, standard_reply (x ++ y) -> extractReturnCode (Some x) = -1 \/ 2 <= extractReturnCode (Some x).
Proof.
  intros x y [H|(c & r & H & Hc)].
  - apply app_eq_nil in H as [-> _]. left. reflexivity.
  - destruct x as [|c' x]; [left; reflexivity|]. inversion H; subst c'.
    unfold extractReturnCode. destruct (3 <=? length (cstr (c :: x)))%nat eqn:L; [|left; reflexivity].
    assert (N : c <> NUL) by (simpl in Hc; destruct Hc as [<-|[<-|[<-|[<-|[]]]]]; discriminate).
    cbn [cstr] in *. apply Ascii.eqb_neq in N. rewrite N in *. cbn [firstn length] in *.
    destruct (cstr x) as [|c2 [|c3 r3]]; try discriminate L. cbn [firstn].
    right. assert (D : exists v, digit_value c v /\ 2 <= v).
    { simpl in Hc. destruct Hc as [<-|[<-|[<-|[<-|[]]]]]; [exists 2|exists 3|exists 4|exists 5]; (split; [split; [lia|reflexivity]|lia]). }
    destruct D as (v & D & Hv). apply strtol_digit_value in D as (D1 & V1 & S1 & M1 & P1 & _).
    unfold stoi. cbn [skip_spaces]. rewrite S1, M1, P1, D1. cbn [read_digits]. rewrite D1, V1.
    destruct (strtol_digit c2) eqn:E2; [|lia]. apply digit_of in E2 as [E2 _].
    destruct (strtol_digit c3) eqn:E3; [|lia]. apply digit_of in E3 as [E3 _]. lia.
Qed.

(** ** Composition *)

Lemma dialogue_app : forall t1 t2 l2, dialogue t2 = ([], l2) ->
  dialogue (t1 ++ t2) = (fst (dialogue t1), snd (dialogue t1) ++ l2).
Proof.
  induction t1 as [|ev t1 IH]; intros t2 l2 H; [exact H|]. specialize (IH t2 l2 H).
  destruct ev; cbn [dialogue app]; try exact IH;
    try (rewrite IH; destruct (dialogue t1); reflexivity);
    (destruct r; [rewrite IH; destruct (dialogue t1); reflexivity|exact IH]).
Qed.
Definition talk (t : list event) (l : list (str * str)) : Prop := dialogue t = ([], l).
Lemma talk_app : forall t1 t2 l1 l2, talk t1 l1 -> talk t2 l2 -> talk (t1 ++ t2) (l1 ++ l2).
Proof. intros t1 t2 l1 l2 H1 H2. unfold talk. rewrite (dialogue_app t1 t2 l2 H2), H1. reflexivity. Qed.
Lemma talk_nil : talk [] [].
Proof. reflexivity. Qed.
Lemma exchanges_app : forall t1 t2 l2, talk t2 l2 -> exchanges (t1 ++ t2) = exchanges t1 ++ l2.
Proof. intros t1 t2 l2 H. unfold exchanges. rewrite (dialogue_app t1 t2 l2 H). reflexivity. Qed.
Lemma talk_exchanges : forall t l, talk t l -> exchanges t = l.
Proof. intros t l H. unfold exchanges. rewrite H. reflexivity. Qed.

(** Events that are neither writes nor data. *)
Definition deaf (ev : event) : Prop :=
  match ev with EvSend _ _ _ | EvPuts _ _ _ | EvRecv _ (RData _) | EvRead _ (RData _) => False | _ => True end.
Lemma dialogue_deaf : forall t1 t2, Forall deaf t1 -> dialogue (t1 ++ t2) = dialogue t2.
Proof.
  induction t1 as [|ev t1 IH]; intros t2 H; [reflexivity|]. inversion H; subst. specialize (IH t2 H3).
  destruct ev; cbn [dialogue app]; try exact IH; try destruct H2; destruct r; [destruct H2|exact IH|destruct H2|exact IH].
Qed.
Lemma talk_deaf : forall t, Forall deaf t -> talk t [].
Proof. intros t H. unfold talk. rewrite <- (app_nil_r t). rewrite dialogue_deaf by assumption. reflexivity. Qed.
Lemma dialogue_heard : forall t1 t2, (forall ev, In ev t1 -> match ev with EvSend _ _ _ | EvPuts _ _ _ => False | _ => True end) ->
  dialogue (t1 ++ t2) = (fst (dialogue t1) ++ fst (dialogue t2), snd (dialogue t2)) /\ snd (dialogue t1) = [].
Proof.
  induction t1 as [|ev t1 IH]; intros t2 H; [simpl; destruct (dialogue t2); auto|].
  destruct (IH t2) as [IH1 IH2]; [intros; apply H; right; assumption|].
  assert (He := H ev (or_introl eq_refl)).
  destruct ev; cbn [dialogue app]; try (split; assumption); try destruct He;
    (destruct r; [rewrite IH1; destruct (dialogue t1) as [h l]; simpl in *; subst l; rewrite <- app_assoc; split; reflexivity|split; assumption]).
Qed.

(** ** Replies *)

Definition reads_only (t : list event) : Prop :=
  forall ev, In ev t -> match ev with EvSend _ _ _ | EvPuts _ _ _ => False | _ => True end.
Lemma reads_only_app : forall a b, reads_only a -> reads_only b -> reads_only (a ++ b).
Proof. intros a b H1 H2 ev H. apply in_app_or in H as [H|H]; [apply H1, H|apply H2, H]. Qed.
Lemma dialogue_reads : forall t1 t2, reads_only t1 ->
  dialogue (t1 ++ t2) = (fst (dialogue t1) ++ fst (dialogue t2), snd (dialogue t2)) /\ snd (dialogue t1) = [].
Proof. exact dialogue_heard. Qed.

Definition quiet_trace (s s' : st) : Prop := exists t, s_t s' = s_t s ++ t /\ Forall deaf t.
Lemma quiet_refl : forall s, quiet_trace s s.
Proof. intros s. exists []. rewrite app_nil_r. auto. Qed.
Lemma quiet_trans : forall a b c, quiet_trace a b -> quiet_trace b c -> quiet_trace a c.
Proof.
  intros a b c (t1 & E1 & D1) (t2 & E2 & D2). exists (t1 ++ t2). rewrite E2, E1, app_assoc. split; [reflexivity|].
  apply Forall_app. auto.
Qed.
Lemma sys_fcntl_trace : forall m s a s', sys_fcntl m s = (Done a, s') -> quiet_trace s s'.
Proof.
  intros m s a s' H. unfold sys_fcntl, bind, getc, gete, upde, emit, ret in H. destruct (e_fcntl (s_e s)); inversion H; subst;
  (eexists; split; [reflexivity|repeat constructor]).
Qed.
Lemma log_errno_trace : forall e s u s', log_errno e s = (Done u, s') -> quiet_trace s s'.
Proof.
  intros e s u s' H. unfold log_errno in H. apply bind_done in H as (u1 & s1 & H1 & H). unfold bind, gete in H.
  destruct u. apply logc_core in H as (_ & _ & H & _). inversion H1; subst. cbn in H. exists []. rewrite app_nil_r. auto.
Qed.
Lemma fcntl_trace : forall m s a s', (m = setSocketToNonBlocking \/ m = setSocketToBlocking) ->
  m s = (Done a, s') -> quiet_trace s s'.
Proof.
  intros m s a s' [-> | ->] H.
  - unfold setSocketToNonBlocking in H. apply bind_done in H as (g & s1 & H1 & H). apply sys_fcntl_trace in H1.
    apply bind_done in H as (u & s2 & H2 & H).
    assert (Q2 : quiet_trace s1 s2) by (destruct g; [eapply log_errno_trace; eassumption|apply ret_done in H2 as [_ ->]; apply quiet_refl]).
    apply bind_done in H as (r & s3 & H3 & H). apply sys_fcntl_trace in H3.
    assert (Q4 : quiet_trace s3 s').
    { destruct r; [apply bind_done in H as (u' & s4 & H4 & H); apply ret_done in H as [_ ->]; eapply log_errno_trace; eassumption|
        apply ret_done in H as [_ ->]; apply quiet_refl]. }
    eauto using quiet_trans.
  - unfold setSocketToBlocking in H. apply bind_done in H as (g & s1 & H1 & H). apply sys_fcntl_trace in H1.
    destruct g; [apply bind_done in H as (u & s2 & H2 & H); apply ret_done in H as [_ ->]; apply log_errno_trace in H2; eauto using quiet_trans|].
    apply bind_done in H as (r & s3 & H3 & H). apply sys_fcntl_trace in H3.
    assert (Q4 : quiet_trace s3 s').
    { destruct r; [apply bind_done in H as (u' & s4 & H4 & H); apply ret_done in H as [_ ->]; eapply log_errno_trace; eassumption|
        apply ret_done in H as [_ ->]; apply quiet_refl]. }
    eauto using quiet_trans.
Qed.

Lemma raw_loop_trace : forall fd tmo rs wait got acc w g full evs rest,
  raw_loop fd tmo wait got acc rs = (Done (w, g, full), evs, rest) ->
  reads_only evs /\ full = acc ++ fst (dialogue evs).
Proof.
  intros fd tmo rs. induction rs as [|r rs IH]; intros wait got acc w g full evs rest H; cbn [raw_loop] in H; [discriminate H|].
  destruct (rbytes r) as [|c0 d0] eqn:R.
  - assert (Q : dialogue [EvRecv fd r] = ([], [])).
    { destruct r; [|reflexivity]. unfold rbytes in R. cbn [dialogue]. unfold SERVERRESPONSE_BUFFER_LENGTH in R. rewrite R. reflexivity. }
    destruct (is_err r && got).
    { inversion H; subst. split; [intros ev [<-|[]]; exact I|]. rewrite Q. symmetry. apply app_nil_r. }
    destruct (wait + 1 <? tmo)%N.
    + destruct (raw_loop fd tmo (wait + 1) got acc rs) as [[o evs'] rest'] eqn:E. inversion H; subst o evs rest.
      apply IH in E as [E1 E2]. split; [intros ev [<-|[<-|He]]; [exact I|exact I|apply E1; exact He]|].
      assert (F : reads_only [EvRecv fd r]) by (intros ev [<-|[]]; exact I).
      change (EvRecv fd r :: EvSleep 1 :: evs') with ([EvRecv fd r] ++ EvSleep 1 :: evs').
      destruct (dialogue_reads _ (EvSleep 1 :: evs') F) as [-> _]. rewrite Q. exact E2.
    + inversion H; subst. split; [intros ev [<-|[<-|[]]]; exact I|].
      assert (F : reads_only [EvRecv fd r]) by (intros ev [<-|[]]; exact I).
      change [EvRecv fd r; EvSleep 1] with ([EvRecv fd r] ++ [EvSleep 1]).
      destruct (dialogue_reads _ [EvSleep 1] F) as [-> _]. rewrite Q. symmetry. apply app_nil_r.
  - assert (Q : dialogue [EvRecv fd r] = (cstr (c0 :: d0), [])).
    { destruct r; [|discriminate R]. unfold rbytes in R. unfold SERVERRESPONSE_BUFFER_LENGTH in R. rewrite <- R.
      unfold dialogue. rewrite app_nil_r. reflexivity. }
    assert (F : reads_only [EvRecv fd r]) by (intros ev [<-|[]]; exact I).
    destruct (SERVERRESPONSE_BUFFER_LENGTH <=? length (c0 :: d0))%nat; [discriminate H|].
    destruct (wait <? tmo)%N.
    + destruct (raw_loop fd tmo wait true (acc ++ cstr (c0 :: d0)) rs) as [[o evs'] rest'] eqn:E. inversion H; subst o evs rest.
      apply IH in E as [E1 E2]. split; [intros ev [<-|He]; [exact I|apply E1; exact He]|].
      change (EvRecv fd r :: evs') with ([EvRecv fd r] ++ evs').
      destruct (dialogue_reads _ evs' F) as [-> _]. rewrite Q. rewrite E2, <- app_assoc. reflexivity.
    + inversion H; subst. split; [exact F|]. rewrite Q. reflexivity.
Qed.

Lemma raw_reply_trace : forall s code s', getRawCommandReply s = (Done code, s') ->
  core (s_c s') = core (s_c s) /\
  exists t h, s_t s' = s_t s ++ t /\ reads_only t /\ dialogue t = (h, []) /\ (code = -1 \/ code = extractReturnCode (Some h)).
Proof.
  intros s code s' H. split; [eapply walk_core; [apply quiet_raw_reply|exact H]|].
  unfold getRawCommandReply in H.
  apply bind_done in H as (u1 & s1 & H1 & H). apply fcntl_trace in H1 as (t1 & T1 & D1); [|left; reflexivity].
  unfold bind at 1 2, getc, gete in H.
  destruct (raw_loop _ _ _ _ _ _) as [[o evs] rest] eqn:E.
  apply bind_done in H as (u2 & s2 & H2 & H). apply bind_done in H as (u3 & s3 & H3 & H).
  apply bind_done in H as (u4 & s4 & H4 & H). destruct o as [[[w g] full]| | | | |]; try discriminate H4.
  inversion H2; subst u2 s2. inversion H3; subst u3 s3. inversion H4; subst u4 s4. clear H2 H3 H4.
  apply raw_loop_trace in E as [E1 E2]. simpl in E2.
  apply bind_done in H as (u5 & s5 & H5 & H). apply fcntl_trace in H5 as (t5 & T5 & D5); [|right; reflexivity].
  cbn in T5.
  assert (T : exists c, s_t s' = s_t s5 /\ code = c /\ (c = -1 \/ c = extractReturnCode (Some full))).
  { destruct (_ || _).
    - apply bind_done in H as (u6 & s6 & H6 & H). apply bind_done in H as (u7 & s7 & H7 & H).
      apply ret_done in H as [-> ->]. destruct u7. apply logs_core in H7 as (_ & _ & H7 & _). inversion H6; subst.
      exists (extractReturnCode (Some (fst (dialogue evs)))). split; [exact H7|]. split; [reflexivity|right; reflexivity].
    - apply ret_done in H as [-> ->]. exists (-1). auto. }
  destruct T as (c & T6 & -> & Hc). exists (t1 ++ evs ++ t5), full.
  assert (R1 : forall t, Forall deaf t -> reads_only t).
  { intros t D ev He. rewrite Forall_forall in D. specialize (D ev He). destruct ev; try exact I; destruct D. }
  split; [rewrite T6, T5, T1, <- !app_assoc; reflexivity|].
  split; [apply reads_only_app; [apply R1, D1|apply reads_only_app; [exact E1|apply R1, D5]]|].
  split; [|exact Hc].
  rewrite dialogue_deaf by assumption. destruct (dialogue_reads evs t5 E1) as [-> _].
  rewrite (talk_deaf t5 D5). simpl. rewrite app_nil_r. subst full. reflexivity.
Qed.

Lemma wait_loop_trace : forall mk, ((exists fd, mk = EvRecv fd) \/ (exists i, mk = EvRead i)) ->
  forall rs tmo wait o evs rest, wait_loop mk tmo wait rs = (o, evs, rest) ->
  reads_only evs /\ (forall d, o = Done (Some d) -> fst (dialogue evs) = cstr d).
Proof.
  intros mk M. 
  assert (RO : forall r, match mk r with EvSend _ _ _ | EvPuts _ _ _ => False | _ => True end).
  { intros r. destruct M as [[fd ->] | [i ->]]; exact I. }
  assert (Q : forall r l, dialogue (mk r :: l) = (cstr (rbytes r) ++ fst (dialogue l), snd (dialogue l))).
  { intros r l. destruct M as [[fd ->] | [i ->]]; destruct r; cbn [dialogue rbytes]; destruct (dialogue l); reflexivity. }
  intros rs. induction rs as [|r rs IH]; intros tmo wait o evs rest H; cbn [wait_loop] in H.
  - inversion H; subst. split; [intros ev []|discriminate].
  - destruct (rbytes r) as [|c0 d0] eqn:R.
    + destruct (wait <? tmo)%N.
      * destruct (wait_loop mk tmo (wait + 1) rs) as [[o' evs'] rest'] eqn:E. inversion H; subst. apply IH in E as [E1 E2].
        split; [intros ev [<-|[<-|He]]; [apply RO|exact I|apply E1; exact He]|]. intros d Hd. rewrite Q, R. cbn. apply E2, Hd.
      * inversion H; subst. split; [intros ev [<-|[]]; apply RO|discriminate].
    + inversion H; subst. split; [intros ev [<-|[]]; apply RO|]. intros d Hd. destruct (wait <? tmo)%N; inversion Hd; subst.
      rewrite Q, R. cbn [dialogue fst]. apply app_nil_r.
Qed.

Lemma drop_prefix : forall d, exists y, cstr d = drop_last_byte d ++ y.
Proof.
  intros d. unfold drop_last_byte. set (n := (length d - 1)%nat). clearbody n. revert n.
  induction d as [|c d IH]; intros n; [rewrite firstn_nil; exists []; reflexivity|].
  destruct n; [exists (cstr (c :: d)); reflexivity|]. cbn [firstn cstr]. destruct (Ascii.eqb c NUL); [exists []; reflexivity|].
  destruct (IH n) as [y E]. exists y. rewrite E. reflexivity.
Qed.

Lemma wait_bio_trace : forall s r s', wait_bio s = (Done r, s') ->
  exists t h, s_t s' = s_t s ++ t /\ reads_only t /\ dialogue t = (h, []) /\ (forall d, r = Some d -> h = cstr d).
Proof.
  intros s r s' H. unfold wait_bio, bind at 1, getc in H. destruct (c_bio (s_c s)) as [b|].
  - unfold bind at 1, gete in H. destruct (wait_loop _ _ _ _) as [[o evs] rest] eqn:E.
    apply bind_done in H as (u2 & s2 & H2 & H). apply bind_done in H as (u3 & s3 & H3 & H).
    unfold lift in H. inversion H; subst o s'. inversion H2; subst. inversion H3; subst. cbn.
    apply wait_loop_trace in E as [E1 E2]; [|right; eexists; reflexivity].
    exists evs, (fst (dialogue evs)). split; [reflexivity|]. split; [exact E1|]. split.
    + assert (X := proj2 (dialogue_reads evs [] E1)). destruct (dialogue evs). cbn in *. subst. reflexivity.
    + intros d ->. apply E2. reflexivity.
  - unfold wait_null_bio, bind at 1, getc in H. apply bind_done in H as (u & s1 & H1 & H). apply ret_done in H as [-> ->].
    destruct (0 <? c_timeout (s_c s))%N.
    + inversion H1; subst. cbn. exists [EvSleep (c_timeout (s_c s))], [].
      split; [reflexivity|]. split; [intros ev [<-|[]]; exact I|]. split; [reflexivity|discriminate].
    + apply ret_done in H1 as [_ ->]. exists [], []. rewrite app_nil_r. repeat split; [intros ev []|discriminate].
Qed.

Definition code_of (h : str) (code : Z) : Prop := exists x y, h = x ++ y /\ code = extractReturnCode (Some x).

Lemma reply_trace : forall s code s', getServerReply s = (Done code, s') ->
  core (s_c s') = core (s_c s) /\
  exists t h, s_t s' = s_t s ++ t /\ reads_only t /\ dialogue t = (h, []) /\ (code = -1 \/ code_of h code).
Proof.
  intros s code s' H. unfold getServerReply, bind, getc in H.
  assert (T : getServerReplyTLS s = (Done code, s') -> core (s_c s') = core (s_c s) /\
    exists t h, s_t s' = s_t s ++ t /\ reads_only t /\ dialogue t = (h, []) /\ (code = -1 \/ code_of h code)).
  { clear H. intros H. split; [eapply walk_core; [apply walk_reply_tls; exact I|exact H]|].
    unfold getServerReplyTLS in H. apply bind_done in H as (r & s1 & H1 & H).
    apply wait_bio_trace in H1 as (t & h & T & RO & D & Hd). exists t, h.
    destruct r as [d|]; [|apply ret_done in H as [-> ->]; auto].
    apply bind_done in H as (u2 & s2 & H2 & H). apply bind_done in H as (u3 & s3 & H3 & H). apply ret_done in H as [-> ->].
    destruct u3. apply logs_core in H3 as (_ & _ & H3 & _). inversion H2; subst.
    split; [rewrite H3; exact T|]. split; [exact RO|]. split; [exact D|]. right.
    destruct (drop_prefix d) as [y E]. exists (drop_last_byte d), y. split; [|reflexivity]. rewrite <- E. apply Hd. reflexivity. }
  destruct (c_kind (s_c s)); [|apply T, H|apply T, H].
  apply raw_reply_trace in H as (C & t & h & T1 & RO & D & Hc). split; [exact C|]. exists t, h.
  split; [exact T1|]. split; [exact RO|]. split; [exact D|]. destruct Hc as [Hc|Hc]; [left; exact Hc|right].
  exists h, []. rewrite app_nil_r. auto.
Qed.

(** ** One command *)

(** A write of [d] that was not reported as failed. *)
Definition write_of (d : str) (ev : event) : Prop :=
  (exists fd r, ev = EvSend fd d r /\ (r = WFull \/ exists n, r = WPart n)) \/
  (exists i r, ev = EvPuts i d r /\ (r = WFull \/ exists n, r = WPart n)).
Lemma write_talk : forall d ev rest h, write_of d ev -> dialogue rest = (h, []) -> talk (ev :: rest) [(d, h)].
Proof.
  intros d ev rest h [(fd & r & -> & _)|(i & r & -> & _)] H; unfold talk; cbn [dialogue]; rewrite H; reflexivity.
Qed.

Definition exchange (d : str) (t : list event) (h : str) : Prop :=
  exists ev rest, t = ev :: rest /\ write_of d ev /\ reads_only rest /\ dialogue rest = (h, []).
Lemma exchange_talk : forall d t h, exchange d t h -> talk t [(d, h)].
Proof. intros d t h (ev & rest & -> & W & _ & D). apply write_talk; assumption. Qed.

Lemma sendRaw2_done : forall d err s s', sendRaw2 d err s = (Done 0, s') -> err <> 0 ->
  s_c s' = s_c s /\ exists ev, s_t s' = s_t s ++ [ev] /\ write_of (cstr d) ev.
Proof.
  intros d err s s' H N. unfold sendRaw2, sendRaw2_with in H. apply bind_done in H as (r & s1 & H1 & H).
  apply send_core in H1 as [C T].
  destruct r; try discriminate H;
    try (apply bind_done in H as (u & s2 & _ & H); apply bind_done in H as (u3 & s3 & _ & H); apply ret_done in H as [H _]; congruence);
    apply ret_done in H as [_ ->]; (split; [exact C|]); eexists; (split; [exact T|]); left; eexists _, _; (split; [reflexivity|]); first [left; reflexivity | right; eexists; reflexivity].
Qed.

Lemma raw3_done : forall d err tmo s code s', sendRaw3 d err tmo s = (Done code, s') -> err <> 0 ->
  code = err \/ code = tmo \/ (core (s_c s') = core (s_c s) /\
    exists t h, s_t s' = s_t s ++ t /\ exchange (cstr d) t h /\ code_of h code).
Proof.
  intros d err tmo s code s' H N. unfold sendRaw3 in H. apply bind_done in H as (r & s1 & H1 & H).
  destruct (r =? 0) eqn:R; cbn [negb] in H; [|apply ret_done in H as [-> _]; auto].
  apply Z.eqb_eq in R. subst r. apply sendRaw2_done in H1 as (C1 & ev & T1 & W1); [|exact N].
  apply bind_done in H as (c & s2 & H2 & H). apply raw_reply_trace in H2 as (C2 & t & h & T2 & RO & D & Hc).
  destruct (c =? -1) eqn:E; cbn [negb] in H.
  { apply bind_done in H as (u & s3 & _ & H). apply ret_done in H as [-> _]. auto. }
  apply ret_done in H as [-> ->]. apply Z.eqb_neq in E. right. right. split; [rewrite C2, C1; reflexivity|].
  exists (ev :: t), h. split; [rewrite T2, T1, <- app_assoc; reflexivity|].
  split; [exists ev, t; auto|]. destruct Hc as [Hc|Hc]; [congruence|]. exists h, []. rewrite app_nil_r. auto.
Qed.

Lemma puts_write : forall b d s r s', sys_puts b d s = (Done r, s') ->
  s_c s' = s_c s /\ s_t s' = s_t s ++ [EvPuts (bio_id b) d r].
Proof. exact puts_core. Qed.

Lemma feedback_done : forall d err tmo s code s', sendFeedback d err tmo s = (Done code, s') -> err <> 0 ->
  code = err \/ code = tmo \/ (core (s_c s') = core (s_c s) /\
    exists t h, s_t s' = s_t s ++ t /\ exchange (cstr d) t h /\ code_of h code).
Proof.
  intros d err tmo s code s' H N. unfold sendFeedback, bind at 1, getc in H.
  assert (T : sendFeedbackTLS d err tmo s = (Done code, s') ->
    code = err \/ code = tmo \/ (core (s_c s') = core (s_c s) /\
    exists t h, s_t s' = s_t s ++ t /\ exchange (cstr d) t h /\ code_of h code)).
  { clear H. intros H. unfold sendFeedbackTLS, bind at 1, getc in H. destruct (c_bio (s_c s)) as [b|].
    2: exact (raw3_done _ _ _ _ _ _ H N).
    apply bind_done in H as (r & s1 & H1 & H). apply puts_core in H1 as [C1 T1].
    assert (K : (r = WFull \/ exists n, r = WPart n) ->
      (code <- getServerReply;; if negb (code =? -1) then ret code else cleanup;; ret tmo) s1 = (Done code, s') ->
      code = err \/ code = tmo \/ (core (s_c s') = core (s_c s) /\
      exists t h, s_t s' = s_t s ++ t /\ exchange (cstr d) t h /\ code_of h code)).
    { clear H. intros W H. apply bind_done in H as (c & s2 & H2 & H). apply reply_trace in H2 as (C2 & t & h & T2 & RO & D & Hc).
      destruct (c =? -1) eqn:E; cbn [negb] in H.
      { apply bind_done in H as (u & s3 & _ & H). apply ret_done in H as [-> _]. auto. }
      apply ret_done in H as [-> ->]. apply Z.eqb_neq in E. right. right. split; [rewrite C2, C1; reflexivity|].
      exists (EvPuts (bio_id b) (cstr d) r :: t), h. split; [rewrite T2, T1, <- app_assoc; reflexivity|].
      destruct Hc as [Hc|Hc]; [congruence|]. split; [|exact Hc].
      eexists _, t. split; [reflexivity|]. split; [right; eexists _, _; split; [reflexivity|exact W]|auto]. }
    destruct r; [apply K; [left; reflexivity|exact H]|apply K; [right; eexists; reflexivity|exact H]| |discriminate H].
    apply bind_done in H as (u & s2 & _ & H); apply bind_done in H as (u3 & s3 & _ & H); apply ret_done in H as [H _]. auto. }
  destruct (c_kind (s_c s)); [exact (raw3_done _ _ _ _ _ _ H N)|exact (T H)|exact (T H)].
Qed.

Lemma fb_done : forall d err tmo s code s', sendFeedbackPtr d err tmo s = (Done code, s') -> err <> 0 ->
  code = err \/ code = tmo \/ (core (s_c s') = core (s_c s) /\
    exists t h, s_t s' = s_t s ++ t /\ exchange (cstr d) t h /\ code_of h code).
Proof.
  intros d err tmo s code s' H N. unfold sendFeedbackPtr, bind at 1, getc in H.
  destruct (c_rawptr (s_c s)); [exact (raw3_done _ _ _ _ _ _ H N)|exact (feedback_done _ _ _ _ _ _ H N)].
Qed.

(** A command without reply: success, or an event that reports the failure, or
    there is no channel. *)
Definition failed_text (D : str -> Prop) (t : list event) : Prop :=
  exists ev, In ev t /\ match ev with EvSend _ d (WErr _) | EvPuts _ d (WErr _) => D d | _ => False end.
Lemma failed_text_l : forall D a b, failed_text D a -> failed_text D (a ++ b).
Proof. intros D a b (ev & H & F). exists ev. split; [apply in_or_app; auto|exact F]. Qed.
Lemma failed_text_r : forall D a b, failed_text D b -> failed_text D (a ++ b).
Proof. intros D a b (ev & H & F). exists ev. split; [apply in_or_app; auto|exact F]. Qed.
Definition failed_write : list event -> Prop := failed_text recipient_field.
Lemma failed_write_l : forall a b, failed_write a -> failed_write (a ++ b).
Proof. exact (failed_text_l recipient_field). Qed.
Lemma failed_write_r : forall a b, failed_write b -> failed_write (a ++ b).
Proof. exact (failed_text_r recipient_field). Qed.
Lemma succeed_failed : forall t, fields_written t -> failed_write t -> False.
Proof. intros t H (ev & I & F). specialize (H ev I). destruct ev; try exact F; destruct r; try exact F; exact (H F). Qed.

Definition channel (c : client) : Prop := raw_command c = true \/ c_bio c <> None.
Lemma channel_core : forall c d, core c = core d -> channel d -> channel c.
Proof. intros c d H [R|R]; [left; rewrite (raw_command_core _ _ H); exact R|right; core_facts H; rewrite CFbio; exact R]. Qed.

Lemma steps_prefix : forall (P : label -> Prop) s s', steps P s s' -> exists t, s_t s' = s_t s ++ t.
Proof. intros P s s' H. exact (steps_trace _ _ _ H). Qed.
