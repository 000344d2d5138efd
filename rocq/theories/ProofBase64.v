(** Proofs about the model of src/base64.cpp. *)

From Coq Require Import Ascii String List NArith ZArith Bool Lia ZifyBool ZifyNat ZifyN.
From Verif Require Import Base Lib ModelBase64 SpecBase64.
Import ListNotations.

(** ** One group *)

Definition nb (b : bool) : N := if b then 1%N else 0%N.

Lemma land_fc : forall b0 b1 b2 b3 b4 b5 b6 b7,
  N.land (code (Ascii b0 b1 b2 b3 b4 b5 b6 b7)) 0xfc =
  (128 * nb b7 + 64 * nb b6 + 32 * nb b5 + 16 * nb b4 + 8 * nb b3 + 4 * nb b2)%N.
Proof. intros [] [] [] [] [] [] [] []; reflexivity. Qed.
Lemma land_03 : forall b0 b1 b2 b3 b4 b5 b6 b7,
  N.land (code (Ascii b0 b1 b2 b3 b4 b5 b6 b7)) 0x03 = (2 * nb b1 + nb b0)%N.
Proof. intros [] [] [] [] [] [] [] []; reflexivity. Qed.
Lemma land_f0 : forall b0 b1 b2 b3 b4 b5 b6 b7,
  N.land (code (Ascii b0 b1 b2 b3 b4 b5 b6 b7)) 0xf0 =
  (128 * nb b7 + 64 * nb b6 + 32 * nb b5 + 16 * nb b4)%N.
Proof. intros [] [] [] [] [] [] [] []; reflexivity. Qed.
Lemma land_0f : forall b0 b1 b2 b3 b4 b5 b6 b7,
  N.land (code (Ascii b0 b1 b2 b3 b4 b5 b6 b7)) 0x0f =
  (8 * nb b3 + 4 * nb b2 + 2 * nb b1 + nb b0)%N.
Proof. intros [] [] [] [] [] [] [] []; reflexivity. Qed.
Lemma land_c0 : forall b0 b1 b2 b3 b4 b5 b6 b7,
  N.land (code (Ascii b0 b1 b2 b3 b4 b5 b6 b7)) 0xc0 = (128 * nb b7 + 64 * nb b6)%N.
Proof. intros [] [] [] [] [] [] [] []; reflexivity. Qed.
Lemma land_3f : forall b0 b1 b2 b3 b4 b5 b6 b7,
  N.land (code (Ascii b0 b1 b2 b3 b4 b5 b6 b7)) 0x3f =
  (32 * nb b5 + 16 * nb b4 + 8 * nb b3 + 4 * nb b2 + 2 * nb b1 + nb b0)%N.
Proof. intros [] [] [] [] [] [] [] []; reflexivity. Qed.

(** The value of a sextet as a binary number. *)
Definition v6 (a b c d e f : bool) : N :=
  (32 * nb a + 16 * nb b + 8 * nb c + 4 * nb d + 2 * nb e + nb f)%N.

Lemma sextet_char_v6 : forall a b c d e f,
  sextet_char [a; b; c; d; e; f] = b64char (v6 a b c d e f).
Proof. intros [] [] [] [] [] []; reflexivity. Qed.

Lemma idx0_v6 : forall b0 b1 b2 b3 b4 b5 b6 b7,
  idx0 (Ascii b0 b1 b2 b3 b4 b5 b6 b7) = v6 b7 b6 b5 b4 b3 b2.
Proof. intros. unfold idx0. rewrite land_fc. destruct b7, b6, b5, b4, b3, b2; reflexivity. Qed.
Lemma idx1_v6 : forall a0 a1 a2 a3 a4 a5 a6 a7 b0 b1 b2 b3 b4 b5 b6 b7,
  idx1 (Ascii a0 a1 a2 a3 a4 a5 a6 a7) (Ascii b0 b1 b2 b3 b4 b5 b6 b7) =
  v6 a1 a0 b7 b6 b5 b4.
Proof.
  intros. unfold idx1. rewrite land_03, land_f0.
  destruct a1, a0, b7, b6, b5, b4; reflexivity.
Qed.
Lemma idx2_v6 : forall a0 a1 a2 a3 a4 a5 a6 a7 b0 b1 b2 b3 b4 b5 b6 b7,
  idx2 (Ascii a0 a1 a2 a3 a4 a5 a6 a7) (Ascii b0 b1 b2 b3 b4 b5 b6 b7) =
  v6 a3 a2 a1 a0 b7 b6.
Proof.
  intros. unfold idx2. rewrite land_0f, land_c0.
  destruct a3, a2, a1, a0, b7, b6; reflexivity.
Qed.
Lemma idx3_v6 : forall b0 b1 b2 b3 b4 b5 b6 b7,
  idx3 (Ascii b0 b1 b2 b3 b4 b5 b6 b7) = v6 b5 b4 b3 b2 b1 b0.
Proof. intros. unfold idx3. rewrite land_3f. reflexivity. Qed.

Lemma rfc_chars_step : forall a b c r,
  map sextet_char (sextets (bits (a :: b :: c :: r))) =
  enc_group a b c ++ map sextet_char (sextets (bits r)).
Proof.
  intros [] [] [] r. unfold enc_group.
  rewrite idx0_v6, idx1_v6, idx2_v6, idx3_v6, <- !sextet_char_v6. reflexivity.
Qed.

Lemma rfc_step : forall a b c r,
  rfc4648 (a :: b :: c :: r) = enc_group a b c ++ rfc4648 r.
Proof.
  intros. unfold rfc4648. rewrite rfc_chars_step, app_length.
  replace (length (enc_group a b c)) with 4%nat by reflexivity.
  replace ((4 + length (map sextet_char (sextets (bits r)))) mod 4)%nat
    with (length (map sextet_char (sextets (bits r))) mod 4)%nat.
  - rewrite app_assoc. reflexivity.
  - set (n := length (map sextet_char (sextets (bits r)))). lia.
Qed.

Lemma rfc_nil : rfc4648 [] = [].
Proof. reflexivity. Qed.
Lemma rfc_one : forall a, rfc4648 [a] = enc_tail 1 a NUL.
Proof.
  intros []. unfold rfc4648, enc_tail. simpl sextets.
  unfold NUL; rewrite idx0_v6. replace (ascii_of_nat 0) with (Ascii false false false false false false false false) by reflexivity.
  rewrite idx1_v6, <- !sextet_char_v6. reflexivity.
Qed.
Lemma rfc_two : forall a b, rfc4648 [a; b] = enc_tail 2 a b.
Proof.
  intros [] []. unfold rfc4648, enc_tail. simpl sextets.
  unfold NUL; rewrite idx0_v6. replace (ascii_of_nat 0) with (Ascii false false false false false false false false) by reflexivity.
  rewrite idx1_v6, idx2_v6, <- !sextet_char_v6. reflexivity.
Qed.

Lemma enc_group_length : forall a b c, length (enc_group a b c) = 4%nat.
Proof. reflexivity. Qed.

Lemma rfc_length : forall s, length (rfc4648 s) = (4 * ((length s + 2) / 3))%nat.
Proof.
  induction s as [| a | a b | a b c r IH] using three_ind.
  - reflexivity.
  - rewrite rfc_one. reflexivity.
  - rewrite rfc_two. reflexivity.
  - rewrite rfc_step, app_length, IH, enc_group_length. simpl length.
    set (n := length r). lia.
Qed.

(** ** Layout *)

Definition W : N := 65536.

Lemma broken_app : forall w a b k,
  broken_lines w k (a ++ b) = broken_lines w k a ++ broken_lines w (k + slen a)%N b.
Proof.
  induction a as [|c a IH]; intros b k; simpl.
  - unfold slen; simpl. rewrite N.add_0_r. reflexivity.
  - rewrite IH. rewrite <- app_assoc.
    replace (k + slen (c :: a))%N with (k + 1 + slen a)%N by (unfold slen; simpl length; lia).
    reflexivity.
Qed.

Lemma broken_group : forall a b c k, (k mod 4 = 0)%N ->
  broken_lines W k (enc_group a b c) =
  enc_group a b c ++ (if N.eqb ((k + 4) mod W) 0 then CRLF else []).
Proof.
  intros a b c k Hk. unfold enc_group, W. simpl broken_lines.
  assert (Hne : forall j, (j mod 4 <> 0)%N -> N.eqb (j mod 65536) 0 = false).
  { intros j Hj. apply N.eqb_neq. intros E. apply Hj.
    apply N.mod_divide in E; [|lia]. destruct E as [q ->].
    replace (q * 65536)%N with (q * 16384 * 4)%N by lia. apply N.mod_mul. lia. }
  rewrite !Hne by lia.
  replace (k + 1 + 1 + 1 + 1)%N with (k + 4)%N by lia.
  rewrite app_nil_r. reflexivity.
Qed.

Lemma enc_loop_layout : forall s x y k, (k mod 4 = 0)%N ->
  enc_loop s 0 x y k =
  broken_lines W k (firstn (4 * (length s / 3)) (rfc4648 s)) ++
  skipn (4 * (length s / 3)) (rfc4648 s).
Proof.
  induction s as [| a | a b | a b c r IH] using three_ind; intros x y k Hk.
  - reflexivity.
  - rewrite rfc_one. reflexivity.
  - rewrite rfc_two. reflexivity.
  - cbn [enc_loop].
    rewrite rfc_step.
    replace (4 * (length (a :: b :: c :: r) / 3))%nat with (length (enc_group a b c) + 4 * (length r / 3))%nat
      by (rewrite enc_group_length; simpl length; set (n := length r); lia).
    rewrite firstn_app_2, skipn_app.
    rewrite skipn_all2 by (rewrite enc_group_length; lia).
    replace (length (enc_group a b c) + 4 * (length r / 3) - length (enc_group a b c))%nat
      with (4 * (length r / 3))%nat by lia.
    rewrite broken_app, broken_group by assumption.
    rewrite IH by (set (n := length r) in *; lia).
    replace (slen (enc_group a b c)) with 4%N by reflexivity.
    replace (64 * 1024)%N with W by reflexivity.
    rewrite <- !app_assoc. reflexivity.
Qed.

Lemma encode_layout : forall s,
  Encode s =
  broken_lines 65536 0 (firstn (4 * (length s / 3)) (rfc4648 s)) ++
  skipn (4 * (length s / 3)) (rfc4648 s).
Proof. intros. apply enc_loop_layout. reflexivity. Qed.

Lemma broken_length : forall w s k, (0 < w)%N ->
  slen (broken_lines w k s) = (slen s + 2 * ((k + slen s) / w - k / w))%N.
Proof.
  induction s as [|c s IH]; intros k Hw.
  - unfold slen; simpl. rewrite N.add_0_r, N.sub_diag. reflexivity.
  - cbn [broken_lines]. rewrite app_cons. rewrite !slen_app, IH by assumption.
    replace (slen (c :: s)) with (1 + slen s)%N by (unfold slen; simpl length; lia).
    replace (slen [c]) with 1%N by reflexivity.
    replace (k + (1 + slen s))%N with (k + 1 + slen s)%N by lia.
    assert (H1 : ((k + 1) / w <= (k + 1 + slen s) / w)%N) by (apply N.div_le_mono; lia).
    destruct (N.eqb ((k + 1) mod w) 0) eqn:E.
    + apply N.eqb_eq in E.
      assert (H2 : ((k + 1) / w = k / w + 1)%N).
      { pose proof (N.div_mod (k + 1) w ltac:(lia)) as D. rewrite E in D.
        symmetry. apply N.div_unique with (r := 0%N) in D; [|lia].
        pose proof (N.div_mod k w ltac:(lia)) as D2.
        pose proof (N.mod_lt k w ltac:(lia)) as L2.
        pose proof (N.div_mod (k + 1) w ltac:(lia)) as D3. rewrite E in D3.
        assert (k / w < (k + 1) / w)%N by nia.
        assert ((k + 1) / w <= k / w + 1)%N by nia. lia. }
      replace (slen CRLF) with 2%N by reflexivity. lia.
    + apply N.eqb_neq in E.
      assert (H2 : ((k + 1) / w = k / w)%N).
      { pose proof (N.div_mod k w ltac:(lia)) as D2.
        pose proof (N.mod_lt k w ltac:(lia)) as L2.
        pose proof (N.div_mod (k + 1) w ltac:(lia)) as D3.
        pose proof (N.mod_lt (k + 1) w ltac:(lia)) as L3.
        assert ((k / w <= (k + 1) / w)%N) by (apply N.div_le_mono; lia).
        assert ((k + 1) / w < k / w + 1)%N by nia. lia. }
      replace (slen []) with 0%N by reflexivity. lia.
Qed.

Lemma encode_length : forall s,
  slen (Encode s) = (4 * ((slen s + 2) / 3) + 2 * (4 * (slen s / 3) / 65536))%N.
Proof.
  intros. rewrite encode_layout, slen_app, broken_length by reflexivity.
  set (m := (4 * (length s / 3))%nat).
  assert (Hl : length (rfc4648 s) = (4 * ((length s + 2) / 3))%nat) by apply rfc_length.
  assert (Hm : (m <= length (rfc4648 s))%nat) by (rewrite Hl; subst m; lia).
  unfold slen. rewrite firstn_length_le, skipn_length by assumption.
  subst m. rewrite N.add_0_l. rewrite Hl. lia.
Qed.

(** ** Characters *)

Lemma sextet_char_alphabet : forall a b c d e f,
  index_of (sextet_char [a; b; c; d; e; f]) alphabet 0 = Some (bits_value 0 [a; b; c; d; e; f]).
Proof. intros [] [] [] [] [] []; reflexivity. Qed.

Lemma sextet_char_bits : forall a b c d e f,
  char_bits (sextet_char [a; b; c; d; e; f]) = Some [a; b; c; d; e; f].
Proof. intros [] [] [] [] [] []; reflexivity. Qed.

Lemma alphabet_not_pad : forall a b c d e f, Ascii.eqb (sextet_char [a; b; c; d; e; f]) PAD = false.
Proof. intros [] [] [] [] [] []; reflexivity. Qed.
Lemma alphabet_not_linebreak : forall a b c d e f, is_linebreak (sextet_char [a; b; c; d; e; f]) = false.
Proof. intros [] [] [] [] [] []; reflexivity. Qed.

Definition six (l : list bool) : Prop := exists a b c d e f, l = [a; b; c; d; e; f].

Lemma six_sextets_step : forall a b c r, 
  sextets (bits (a :: b :: c :: r)) = sextets (bits [a; b; c]) ++ sextets (bits r).
Proof. intros [] [] [] r. reflexivity. Qed.

Lemma sextets_six : forall s, Forall six (sextets (bits s)).
Proof.
  induction s as [| a | a b | a b c r IH] using three_ind.
  - constructor.
  - destruct a. repeat constructor; repeat eexists; reflexivity.
  - destruct a, b. repeat constructor; repeat eexists; reflexivity.
  - rewrite six_sextets_step. apply Forall_app. split; [|assumption].
    destruct a, b, c. repeat constructor; repeat eexists; reflexivity.
Qed.

Lemma chars_bits_map : forall l, Forall six l ->
  chars_bits (map sextet_char l) = Some (concat l).
Proof.
  induction 1 as [|x l H Hl IH]; simpl; auto.
  destruct H as (a & b & c & d & e & f & ->). rewrite sextet_char_bits, IH. reflexivity.
Qed.

Lemma bytes_of_bits8 : forall c r, bytes_of_bits (bits8 c ++ r) = c :: bytes_of_bits r.
Proof. intros [] r. reflexivity. Qed.

Lemma bytes_of_sextets : forall s, bytes_of_bits (concat (sextets (bits s))) = s.
Proof.
  induction s as [| a | a b | a b c r IH] using three_ind.
  - reflexivity.
  - destruct a. reflexivity.
  - destruct a, b. reflexivity.
  - rewrite six_sextets_step, concat_app.
    replace (concat (sextets (bits [a; b; c]))) with (bits8 a ++ bits8 b ++ bits8 c)
      by (destruct a, b, c; reflexivity).
    rewrite <- !app_assoc, !bytes_of_bits8, IH. reflexivity.
Qed.

(** ** The standard decoder recovers the input *)

Lemma filter_broken : forall w s k,
  filter (fun c => negb (is_linebreak c)) (broken_lines w k s) =
  filter (fun c => negb (is_linebreak c)) s.
Proof.
  induction s as [|c s IH]; intros k; cbn [broken_lines]; auto.
  cbn [filter]. rewrite filter_app, IH.
  destruct ((k + 1) mod w =? 0)%N; reflexivity.
Qed.

Lemma rfc_no_linebreak : forall s, Forall (fun c => is_linebreak c = false) (rfc4648 s).
Proof.
  intros s. unfold rfc4648. apply Forall_app. split.
  - apply Forall_map. eapply Forall_impl; [| apply sextets_six].
    intros l (a & b & c & d & e & f & ->). apply alphabet_not_linebreak.
  - apply Forall_forall. intros c H. apply repeat_spec in H. subst. reflexivity.
Qed.

Lemma filter_id : forall (f : ascii -> bool) s, Forall (fun c => f c = true) s -> filter f s = s.
Proof. induction 1; simpl; auto. rewrite H, IHForall. reflexivity. Qed.

Lemma encode_filter : forall s,
  filter (fun c => negb (is_linebreak c)) (Encode s) = rfc4648 s.
Proof.
  intros. rewrite encode_layout, filter_app, filter_broken, <- filter_app, firstn_skipn.
  apply filter_id. eapply Forall_impl; [| apply rfc_no_linebreak]. intros c ->. reflexivity.
Qed.

Lemma strip_pad_repeat : forall k l, (k <= 2)%nat ->
  Forall (fun c => Ascii.eqb c PAD = false) l ->
  strip_pad 2 (repeat PAD k ++ l) = l.
Proof.
  intros k l Hk Hl.
  assert (H0 : forall n, strip_pad n l = l).
  { intros [|n]; destruct l as [|c l']; auto. inversion Hl; subst. cbn. rewrite H1. reflexivity. }
  destruct k as [|[|[|k]]]; [| | | lia]; [apply (H0 2%nat) | apply (H0 1%nat) | apply (H0 0%nat)].
Qed.

Lemma sextets_length_mod : forall s, (length (map sextet_char (sextets (bits s))) mod 4 <> 1)%nat.
Proof.
  induction s as [| a | a b | a b c r IH] using three_ind.
  - discriminate.
  - destruct a; discriminate.
  - destruct a, b; discriminate.
  - rewrite rfc_chars_step, app_length, enc_group_length.
    set (n := length (map sextet_char (sextets (bits r)))) in *. lia.
Qed.

Lemma repeat_rev : forall {A} (x : A) n, rev (repeat x n) = repeat x n.
Proof.
  intros A x n. induction n; simpl; auto. rewrite IHn.
  clear. induction n; simpl; congruence.
Qed.

Lemma mime_decode_encode : forall s, mime_decode (Encode s) = Some s.
Proof.
  intros s. unfold mime_decode. rewrite encode_filter.
  replace (Nat.eqb (length (rfc4648 s) mod 4) 0) with true
    by (rewrite rfc_length; symmetry; apply Nat.eqb_eq; rewrite Nat.mul_comm; apply Nat.mod_mul; lia).
  unfold rfc4648. set (cs := map sextet_char (sextets (bits s))).
  rewrite rev_app_distr, repeat_rev, strip_pad_repeat.
  - rewrite rev_involutive. subst cs. rewrite chars_bits_map by apply sextets_six.
    simpl. rewrite bytes_of_sextets. reflexivity.
  - pose proof (sextets_length_mod s). subst cs.
    set (n := length (map sextet_char (sextets (bits s)))) in *. lia.
  - apply Forall_rev. subst cs. apply Forall_map. eapply Forall_impl; [| apply sextets_six].
    intros l (a & b & c & d & e & f & ->). apply alphabet_not_pad.
Qed.

Lemma index_of_In : forall l c k n, index_of c l k = Some n -> In c l.
Proof.
  induction l as [|x l IH]; intros c k n; simpl; [discriminate|].
  destruct (Ascii.eqb x c) eqn:Ex; [apply Ascii.eqb_eq in Ex; auto |].
  intros E. right. eapply IH. exact E.
Qed.
Lemma In_index_of : forall l c k, In c l -> index_of c l k <> None.
Proof.
  induction l as [|x l IH]; intros c k; simpl; [tauto|].
  destruct (Ascii.eqb x c) eqn:Ex; [discriminate|].
  intros [->|H]; [rewrite Ascii.eqb_refl in Ex; discriminate | apply IH; assumption].
Qed.
Lemma in_alphabet_spec : forall c, in_alphabet c = true <-> In c alphabet.
Proof.
  intros c. unfold in_alphabet. destruct (index_of c alphabet 0) eqn:E; split; intros H; auto.
  - eapply index_of_In. exact E.
  - discriminate.
  - exfalso. eapply In_index_of; eassumption.
Qed.

Lemma encode_charset : forall s,
  Forall (fun c => In c alphabet \/ c = PAD \/ c = CR \/ c = LF) (Encode s).
Proof.
  intros s. apply Forall_forall. intros c Hc.
  destruct (is_linebreak c) eqn:E.
  - unfold is_linebreak in E. apply orb_true_iff in E.
    rewrite !Ascii.eqb_eq in E. tauto.
  - assert (Hin : In c (rfc4648 s)).
    { rewrite <- encode_filter. apply filter_In. rewrite E. auto. }
    unfold rfc4648 in Hin. apply in_app_or in Hin as [Hin|Hin].
    + left. apply in_map_iff in Hin as (l & <- & Hl).
      pose proof (sextets_six s) as H6. rewrite Forall_forall in H6.
      destruct (H6 l Hl) as (a & b & c & d & e & f & ->).
      apply in_alphabet_spec. unfold in_alphabet. rewrite sextet_char_alphabet. reflexivity.
    + apply repeat_spec in Hin. auto.
Qed.

Lemma crlf_only_plain : forall s t, Forall (fun c => is_linebreak c = false) s ->
  crlf_only (s ++ t) = crlf_only t.
Proof.
  induction s as [|c s IH]; intros t H; simpl; auto. inversion H; subst.
  unfold is_linebreak in H2. apply orb_false_iff in H2 as [-> ->]. simpl. auto.
Qed.

Lemma crlf_only_broken : forall w s k t, Forall (fun c => is_linebreak c = false) s ->
  crlf_only (broken_lines w k s ++ t) = crlf_only t.
Proof.
  induction s as [|c s IH]; intros k t H; cbn [broken_lines]; auto. inversion H; subst.
  rewrite app_cons, <- app_assoc.
  rewrite crlf_only_plain by (repeat constructor; assumption).
  destruct ((k + 1) mod w =? 0)%N; simpl; auto.
Qed.

Lemma encode_crlf_only : forall s, crlf_only (Encode s) = true.
Proof.
  intros s. rewrite encode_layout.
  pose proof (rfc_no_linebreak s) as H.
  rewrite <- (firstn_skipn (4 * (length s / 3)) (rfc4648 s)) in H.
  apply Forall_app in H as [H1 H2].
  rewrite crlf_only_broken by assumption.
  rewrite <- (app_nil_r (skipn _ _)), crlf_only_plain by assumption. reflexivity.
Qed.

(** ** Line length *)

Lemma longest_line_plain : forall s cur, Forall (fun c => is_linebreak c = false) s ->
  longest_line cur s = (cur + slen s)%N.
Proof.
  induction s as [|c s IH]; intros cur H; simpl.
  - unfold slen; simpl. lia.
  - inversion H; subst. rewrite H2, IH by assumption. unfold slen; simpl length. lia.
Qed.

Lemma longest_line_broken : forall s k cur t, 
  Forall (fun c => is_linebreak c = false) s ->
  Forall (fun c => is_linebreak c = false) t ->
  (cur = k mod W)%N ->
  (* the last line, with the tail [t] *)
  ((k + slen s) mod W + slen t <= W)%N ->
  (longest_line cur (broken_lines W k s ++ t) <= W)%N.
Proof.
  induction s as [|c s IH]; intros k cur t Hs Ht Hcur Hlast; cbn [broken_lines].
  - simpl. rewrite longest_line_plain by assumption. subst.
    unfold slen in Hlast at 1; simpl in Hlast. rewrite N.add_0_r in Hlast. assumption.
  - inversion Hs; subst. cbn [app longest_line]. rewrite H1.
    replace (k + slen (c :: s))%N with (k + 1 + slen s)%N in Hlast by (unfold slen; simpl length; lia).
    rewrite <- app_assoc.
    destruct ((k + 1) mod W =? 0)%N eqn:E.
    + apply N.eqb_eq in E. cbn [CRLF app longest_line]. 
      replace (is_linebreak CR) with true by reflexivity.
      replace (is_linebreak LF) with true by reflexivity.
      assert (k mod W + 1 <= W)%N by (unfold W in *; lia).
      assert (longest_line 0 (broken_lines W (k + 1) s ++ t) <= W)%N by (apply IH; auto).
      lia.
    + apply N.eqb_neq in E. cbn [app]. apply IH; auto. unfold W in *; lia.
Qed.

Lemma encode_longest_line : forall s, (longest_line 0 (Encode s) <= 65536)%N.
Proof.
  intros s. rewrite encode_layout.
  pose proof (rfc_no_linebreak s) as H.
  rewrite <- (firstn_skipn (4 * (length s / 3)) (rfc4648 s)) in H.
  apply Forall_app in H as [H1 H2].
  apply longest_line_broken; auto.
  rewrite N.add_0_l.
  assert (Hl : length (rfc4648 s) = (4 * ((length s + 2) / 3))%nat) by apply rfc_length.
  unfold slen. rewrite firstn_length_le, skipn_length, Hl by (rewrite Hl; lia).
  assert (forall m, (4 * m) mod W + 4 <= W)%N.
  { intros m. unfold W. change 65536%N with (4 * 16384)%N.
    rewrite N.mul_mod_distr_l by lia. pose proof (N.mod_lt m 16384 ltac:(lia)).
    change (4 * 16384)%N with 65536%N. lia. }
  specialize (H (N.of_nat (length s / 3))). unfold W in *. lia.
Qed.

(** ** Decode *)


Lemma in_alphabet_model : forall c,
  in_alphabet c = negb (Ascii.eqb c "="%char) && is_base64 c.
Proof. intros [[] [] [] [] [] [] [] []]; reflexivity. Qed.

(** The six bits of an alphabet character, and the model's view of it. *)
Lemma find_bits : forall c, in_alphabet c = true ->
  exists a b d e f g, char_bits c = Some [a; b; d; e; f; g] /\ b64find c = v6 a b d e f g.
Proof.
  intros [[] [] [] [] [] [] [] []] H; vm_compute in H; try discriminate;
    do 6 eexists; split; reflexivity.
Qed.

Lemma v6_land30 : forall a b c d e f, N.land (v6 a b c d e f) 0x30 = (32 * nb a + 16 * nb b)%N.
Proof. intros [] [] [] [] [] []; reflexivity. Qed.
Lemma v6_land0f : forall a b c d e f, N.land (v6 a b c d e f) 0xf = (8 * nb c + 4 * nb d + 2 * nb e + nb f)%N.
Proof. intros [] [] [] [] [] []; reflexivity. Qed.
Lemma v6_land3c : forall a b c d e f, N.land (v6 a b c d e f) 0x3c = (32 * nb a + 16 * nb b + 8 * nb c + 4 * nb d)%N.
Proof. intros [] [] [] [] [] []; reflexivity. Qed.
Lemma v6_land03 : forall a b c d e f, N.land (v6 a b c d e f) 0x3 = (2 * nb e + nb f)%N.
Proof. intros [] [] [] [] [] []; reflexivity. Qed.

Lemma dec0_bits : forall a b c d e f a' b' c' d' e' f',
  dec0 (v6 a b c d e f) (v6 a' b' c' d' e' f') = Ascii b' a' f e d c b a.
Proof.
  intros. unfold dec0. rewrite v6_land30.
  destruct a', b', a, b, c, d, e, f; reflexivity.
Qed.
Lemma dec1_bits : forall a b c d e f a' b' c' d' e' f',
  dec1 (v6 a b c d e f) (v6 a' b' c' d' e' f') = Ascii d' c' b' a' f e d c.
Proof.
  intros. unfold dec1. rewrite v6_land0f, v6_land3c.
  destruct c, d, e, f, a', b', c', d'; reflexivity.
Qed.
Lemma dec2_bits : forall a b c d e f a' b' c' d' e' f',
  dec2 (v6 a b c d e f) (v6 a' b' c' d' e' f') = Ascii f' e' d' c' b' a' f e.
Proof.
  intros. unfold dec2. rewrite v6_land03.
  destruct e, f, a', b', c', d', e', f'; reflexivity.
Qed.

Definition bits_of_run (s : str) : list bool :=
  match chars_bits s with Some l => l | None => [] end.

Lemma chars_bits_some : forall s, Forall (fun c => in_alphabet c = true) s ->
  chars_bits s = Some (bits_of_run s).
Proof.
  intros s H. unfold bits_of_run.
  assert (exists l, chars_bits s = Some l) as [l ->]; auto.
  induction H as [|c s Hc Hs [l IH]]; simpl; [eauto|].
  destruct (find_bits c Hc) as (a & b & d & e & f & g & -> & _). rewrite IH. eauto.
Qed.

Lemma bits_of_run_cons : forall c s, Forall (fun c => in_alphabet c = true) (c :: s) ->
  exists a b d e f g, bits_of_run (c :: s) = [a; b; d; e; f; g] ++ bits_of_run s /\
                      b64find c = v6 a b d e f g.
Proof.
  intros c s H. inversion H; subst.
  destruct (find_bits c H2) as (a & b & d & e & f & g & E1 & E2).
  do 6 eexists. split; [|exact E2].
  unfold bits_of_run at 1. simpl. rewrite E1, (chars_bits_some s) by assumption. reflexivity.
Qed.

Lemma leading_alphabet : forall s, Forall (fun c => in_alphabet c = true) (leading s).
Proof. induction s as [|c s IH]; simpl; [constructor|]. destruct (in_alphabet c) eqn:E; auto. Qed.

Lemma leading_length : forall s, (length (leading s) <= length s)%nat.
Proof. induction s; simpl; [lia|]. destruct (in_alphabet a); simpl; lia. Qed.

Lemma dec_tail_bits : forall arr, (length arr <= 3)%nat ->
  Forall (fun c => in_alphabet c = true) arr ->
  dec_tail arr = bytes_of_bits (bits_of_run arr).
Proof.
  intros arr Hl H. destruct arr as [|w [|x [|y [|z r]]]]; try (simpl in Hl; lia); auto.
  - destruct (bits_of_run_cons _ _ H) as (a & b & d & e & f & g & -> & E). reflexivity.
  - destruct (bits_of_run_cons _ _ H) as (a & b & d & e & f & g & -> & E). inversion H; subst.
    destruct (bits_of_run_cons _ _ H3) as (a' & b' & d' & e' & f' & g' & -> & E').
    cbn [dec_tail]. rewrite E, E', dec0_bits. reflexivity.
  - destruct (bits_of_run_cons _ _ H) as (a & b & d & e & f & g & -> & E). inversion H; subst.
    destruct (bits_of_run_cons _ _ H3) as (a' & b' & d' & e' & f' & g' & -> & E'). inversion H3; subst.
    destruct (bits_of_run_cons _ _ H5) as (a2 & b2 & d2 & e2 & f2 & g2 & -> & E2).
    cbn [dec_tail]. rewrite E, E', E2, dec0_bits, dec1_bits. reflexivity.
Qed.

Lemma dec_loop_spec : forall s arr n, (length arr <= 3)%nat ->
  Forall (fun c => in_alphabet c = true) arr ->
  (0 <= n)%Z -> (n + Z.of_nat (length (leading s)) <= INT_MAX)%Z ->
  dec_loop s arr n = Done (bytes_of_bits (bits_of_run (arr ++ leading s))).
Proof.
  induction s as [|c s IH]; intros arr n Hl Ha Hn Hb; cbn [dec_loop leading].
  - rewrite app_nil_r, dec_tail_bits by assumption. reflexivity.
  - cbn [leading] in Hb. rewrite <- in_alphabet_model.
    destruct (in_alphabet c) eqn:Ec.
    + cbn [length] in Hb. replace (n =? INT_MAX)%Z with false by lia.
      destruct arr as [|w [|x [|y [|z r]]]]; try (simpl in Hl; lia).
      * rewrite IH; [reflexivity | simpl; lia | repeat constructor; auto | lia | lia].
      * inversion Ha; subst. rewrite IH; [reflexivity | simpl; lia | repeat constructor; auto | lia | lia].
      * inversion Ha; subst. inversion H2; subst.
        rewrite IH; [reflexivity | simpl; lia | repeat constructor; auto | lia | lia].
      * rewrite IH; [| simpl; lia | constructor | lia | lia]. cbn [obind].
        assert (Hall : Forall (fun c => in_alphabet c = true) ([w; x; y] ++ c :: leading s)).
        { apply Forall_app. split; auto. constructor; auto. apply leading_alphabet. }
        cbn [app] in Hall |- *.
        destruct (bits_of_run_cons _ _ Hall) as (a & b & d & e & f & g & -> & E). inversion Hall; subst.
        destruct (bits_of_run_cons _ _ H2) as (a' & b' & d' & e' & f' & g' & -> & E'). inversion H2; subst.
        destruct (bits_of_run_cons _ _ H4) as (a2 & b2 & d2 & e2 & f2 & g2 & -> & E2). inversion H4; subst.
        destruct (bits_of_run_cons _ _ H6) as (a3 & b3 & d3 & e3 & f3 & g3 & -> & E3).
        rewrite E, E', E2, E3, dec0_bits, dec1_bits, dec2_bits. reflexivity.
    + rewrite app_nil_r, dec_tail_bits by assumption. reflexivity.
Qed.

Lemma decode_spec : forall s, (slen (leading s) < 2147483648)%N ->
  Decode s = Done (bytes_of_bits (bits_of_run (leading s))).
Proof.
  intros s H. unfold Decode.
  rewrite (dec_loop_spec s [] 0); [reflexivity | simpl; lia | constructor | lia |].
  unfold slen, INT_MAX in *. lia.
Qed.

Lemma bits_of_run_length : forall s, Forall (fun c => in_alphabet c = true) s ->
  length (bits_of_run s) = (6 * length s)%nat.
Proof.
  induction s as [|c s IH]; intros H; auto.
  destruct (bits_of_run_cons _ _ H) as (a & b & d & e & f & g & -> & _). inversion H; subst.
  rewrite app_length, IH by assumption. simpl length. lia.
Qed.

Lemma bytes_of_bits_length : forall n l, (length l <= n)%nat -> length (bytes_of_bits l) = (length l / 8)%nat.
Proof.
  induction n as [|n IH]; intros l H.
  - destruct l; [reflexivity | simpl in H; lia].
  - destruct l as [|b7 [|b6 [|b5 [|b4 [|b3 [|b2 [|b1 [|b0 r]]]]]]]]; try reflexivity.
    cbn [bytes_of_bits length]. rewrite IH by (simpl in H; lia).
    set (m := length r). lia.
Qed.

Lemma decode_total : forall s, (slen s < 2147483648)%N ->
  exists r, Decode s = Done r /\ chars_bits (leading s) <> None /\
            length r = (6 * length (leading s) / 8)%nat /\
            option_map bytes_of_bits (chars_bits (leading s)) = Some r.
Proof.
  intros s H. pose proof (leading_length s) as Hl. pose proof (leading_alphabet s) as Ha.
  exists (bytes_of_bits (bits_of_run (leading s))).
  rewrite decode_spec by (unfold slen in *; lia).
  rewrite (chars_bits_some _ Ha). repeat split; auto; try discriminate.
  rewrite (bytes_of_bits_length _ _ (le_n _)), bits_of_run_length by assumption. reflexivity.
Qed.

Lemma dec_loop_overflow : forall s arr n,
  (0 <= n <= INT_MAX)%Z -> (INT_MAX < n + Z.of_nat (length (leading s)))%Z ->
  dec_loop s arr n = Undef UB_SignedOverflow.
Proof.
  induction s as [|c s IH]; intros arr n Hn Hb; cbn [dec_loop leading] in *.
  - simpl in Hb. lia.
  - rewrite <- in_alphabet_model. destruct (in_alphabet c); [|simpl in Hb; lia].
    destruct (n =? INT_MAX)%Z eqn:E; auto.
    cbn [length] in Hb.
    assert (forall arr, dec_loop s arr (n + 1) = Undef UB_SignedOverflow) as Hall
      by (intros; apply IH; lia).
    destruct arr as [|w [|x [|y [|z r]]]]; rewrite ?Hall; reflexivity.
Qed.

Lemma decode_overflow : forall s, (2147483648 <= slen (leading s))%N ->
  Decode s = Undef UB_SignedOverflow.
Proof. intros. apply dec_loop_overflow; unfold INT_MAX, slen in *; lia. Qed.

Lemma decode_prefix : forall s, Decode s = Decode (leading s).
Proof.
  intros s. assert (leading (leading s) = leading s).
  { induction s as [|c s IH]; auto. simpl. destruct (in_alphabet c) eqn:E; auto. simpl. rewrite E, IH. reflexivity. }
  destruct (N.lt_ge_cases (slen (leading s)) 2147483648).
  - rewrite !decode_spec; rewrite ?H; auto.
  - rewrite !decode_overflow; rewrite ?H; auto.
Qed.

(** ** Decode after Encode *)

Lemma leading_app : forall s t, Forall (fun c => in_alphabet c = true) s ->
  leading (s ++ t) = s ++ leading t.
Proof. induction 1; simpl; auto. rewrite H, IHForall. reflexivity. Qed.

Lemma broken_short : forall w s k t, (0 < w)%N -> (k mod w + slen s <= w)%N ->
  exists u, broken_lines w k s ++ t = s ++ u ++ t /\ (u = [] \/ (u = CRLF /\ (k mod w + slen s = w)%N)).
Proof.
  induction s as [|c s IH]; intros k t Hw H; cbn [broken_lines].
  - exists []. auto.
  - replace (slen (c :: s)) with (1 + slen s)%N in * by (unfold slen; simpl length; lia).
    pose proof (N.mod_lt k w ltac:(lia)).
    destruct (N.eq_dec (k mod w + 1) w) as [E|E].
    + assert (s = []) by (destruct s; auto; unfold slen in H; simpl length in H; lia). subst.
      replace ((k + 1) mod w =? 0)%N with true.
      * exists CRLF. split; [reflexivity|]. right. split; [reflexivity|]. change (slen []) with 0%N. lia.
      * symmetry. apply N.eqb_eq. rewrite N.add_mod by lia.
        destruct (N.eq_dec w 1); [subst; apply N.mod_1_r|].
        rewrite (N.mod_small 1) by lia. rewrite E. apply N.mod_same. lia.
    + assert (E2 : ((k + 1) mod w = k mod w + 1)%N).
      { rewrite N.add_mod by lia. rewrite (N.mod_small 1) by lia. apply N.mod_small. lia. }
      rewrite E2. replace (k mod w + 1 =? 0)%N with false by (symmetry; apply N.eqb_neq; lia).
      destruct (IH (k + 1)%N t Hw) as (u & E3 & Hu); [rewrite E2; lia|].
      exists u. cbn [app]. rewrite E3. split; auto. destruct Hu as [->|[-> Hu]]; auto.
      right. split; auto. rewrite E2 in Hu. lia.
Qed.

Definition N49152 : nat := N.to_nat 49152.

Lemma bits_of_run_sextets : forall l, Forall six l ->
  bits_of_run (map sextet_char l) = concat l.
Proof. intros. unfold bits_of_run. rewrite chars_bits_map by assumption. reflexivity. Qed.

Lemma map_sextets_alphabet : forall s,
  Forall (fun c => in_alphabet c = true) (map sextet_char (sextets (bits s))).
Proof.
  intros s. apply Forall_map. eapply Forall_impl; [| apply sextets_six].
  intros l (a & b & c & d & e & f & ->). unfold in_alphabet. rewrite sextet_char_alphabet. reflexivity.
Qed.

Lemma leading_pads : forall n t, leading (repeat PAD n ++ CRLF ++ t) = [].
Proof. intros [|n] t; reflexivity. Qed.

(** [rfc4648] of a list whose length is a multiple of three has no padding. *)
Lemma rfc_app : forall k s t, length s = (3 * k)%nat -> rfc4648 (s ++ t) = rfc4648 s ++ rfc4648 t.
Proof.
  induction k as [|k IH]; intros s t H.
  - destruct s; [reflexivity | simpl in H; lia].
  - destruct s as [|a [|b [|c r]]]; try (simpl in H; lia).
    cbn [app]. rewrite !rfc_step, IH by (simpl in H; lia). rewrite app_assoc. reflexivity.
Qed.
Lemma rfc_nopad : forall k s, length s = (3 * k)%nat ->
  rfc4648 s = map sextet_char (sextets (bits s)).
Proof.
  induction k as [|k IH]; intros s H.
  - destruct s; [reflexivity | simpl in H; lia].
  - destruct s as [|a [|b [|c r]]]; try (simpl in H; lia).
    rewrite rfc_step, rfc_chars_step, IH by (simpl in H; lia). reflexivity.
Qed.

Lemma leading_rfc : forall s t, leading t = [] ->
  leading (rfc4648 s ++ t) = map sextet_char (sextets (bits s)).
Proof.
  intros s t Ht. unfold rfc4648. rewrite <- app_assoc, leading_app by apply map_sextets_alphabet.
  replace (leading (repeat PAD ((4 - length (map sextet_char (sextets (bits s))) mod 4) mod 4) ++ t)) with (@nil ascii).
  - apply app_nil_r.
  - destruct ((4 - length (map sextet_char (sextets (bits s))) mod 4) mod 4)%nat; simpl; auto.
Qed.

Lemma sextets_bits_length : forall s, length (map sextet_char (sextets (bits s))) = ((4 * length s + 2) / 3)%nat.
Proof.
  induction s as [| a | a b | a b c r IH] using three_ind.
  - reflexivity.
  - destruct a; reflexivity.
  - destruct a, b; reflexivity.
  - rewrite rfc_chars_step, app_length, IH, enc_group_length. simpl length.
    set (n := length r). lia.
Qed.

Lemma decode_of_run : forall s x, leading s = map sextet_char (sextets (bits x)) ->
  (slen x <= 49152)%N -> Decode s = Done x.
Proof.
  intros s x H Hx. rewrite decode_spec.
  - rewrite H, bits_of_run_sextets by apply sextets_six. rewrite bytes_of_sextets. reflexivity.
  - rewrite H. unfold slen in *. rewrite sextets_bits_length. lia.
Qed.

Lemma decode_encode : forall x, Decode (Encode x) = Done (firstn (N.to_nat 49152) x).
Proof.
  intros x. rewrite encode_layout.
  set (m := (4 * (length x / 3))%nat).
  assert (Hl : length (rfc4648 x) = (4 * ((length x + 2) / 3))%nat) by apply rfc_length.
  assert (Hm : (m <= length (rfc4648 x))%nat) by (rewrite Hl; subst m; lia).
  destruct (N.le_gt_cases (slen x) 49152) as [H|H].
  - rewrite (firstn_all_le (N.to_nat 49152) x) by (unfold slen in H; lia).
    destruct (broken_short 65536 (firstn m (rfc4648 x)) 0 (skipn m (rfc4648 x))) as (u & E & Hu).
    + reflexivity.
    + unfold slen in *. rewrite firstn_length_le by assumption. subst m. rewrite N.mod_0_l by lia. lia.
    + rewrite E. apply decode_of_run; [|assumption].
      destruct Hu as [->|[-> Hu]].
      * cbn [app]. rewrite firstn_skipn. rewrite <- (app_nil_r (rfc4648 x)). apply leading_rfc. reflexivity.
      * unfold slen in *. rewrite firstn_length_le in Hu by assumption.
        assert (m = length (rfc4648 x)) by (rewrite Hl; subst m; rewrite N.mod_0_l in Hu by lia; lia).
        rewrite H0, firstn_all, skipn_all. apply leading_rfc. reflexivity.
  - set (k := N.to_nat 49152). set (y := firstn k x). set (z := skipn k x).
    assert (Ly : length y = (3 * N.to_nat 16384)%nat).
    { subst y k. rewrite firstn_length_le by (unfold slen in H; lia). lia. }
    assert (Ex : rfc4648 x = rfc4648 y ++ rfc4648 z).
    { rewrite <- (rfc_app (N.to_nat 16384)) by assumption. subst y z. rewrite firstn_skipn. reflexivity. }
    assert (Lr : length (rfc4648 y) = N.to_nat 65536).
    { rewrite rfc_length, Ly. lia. }
    assert (Lm : (N.to_nat 65536 <= m)%nat) by (subst m; unfold slen in H; lia).
    assert (Ef : firstn m (rfc4648 x) = rfc4648 y ++ firstn (m - N.to_nat 65536) (rfc4648 z)).
    { rewrite Ex, firstn_app, firstn_all_le, Lr by lia. reflexivity. }
    rewrite Ef, broken_app, <- app_assoc.
    (* the first 65536 characters are followed by CRLF *)
    assert (Hb : broken_lines 65536 0 (rfc4648 y) = rfc4648 y ++ CRLF).
    { assert (forall s k', (k' mod 65536 + slen s = 65536)%N -> s <> [] ->
              broken_lines 65536 k' s = s ++ CRLF) as Hgen.
      { induction s as [|c s IH]; intros k' Hk Hne; [congruence|].
        replace (slen (c :: s)) with (1 + slen s)%N in Hk by (unfold slen; simpl length; lia).
        cbn [broken_lines app]. destruct s as [|c' s'].
        - unfold slen in Hk; simpl in Hk. replace ((k' + 1) mod 65536 =? 0)%N with true by lia. reflexivity.
        - replace ((k' + 1) mod 65536 =? 0)%N with false by (unfold slen in Hk; simpl length in Hk; lia).
          cbn [app]. rewrite IH; [reflexivity | unfold slen in *; simpl length in *; lia | discriminate]. }
      apply Hgen; [unfold slen; rewrite Lr; reflexivity |].
      intros E0. rewrite E0 in Lr. simpl in Lr. lia. }
    rewrite Hb, <- app_assoc. apply decode_of_run.
    + apply leading_rfc. reflexivity.
    + unfold slen. rewrite Ly. lia.
Qed.

Lemma decode_encode_iff : forall x,
  Decode (Encode x) = Done x <-> (slen x <= 49152)%N.
Proof.
  intros x. rewrite decode_encode.
  remember (N.to_nat 49152) as k eqn:Ek. split; intros H.
  - assert (E : firstn k x = x) by congruence.
    assert (L : length (firstn k x) = length x) by (rewrite E; reflexivity).
    rewrite firstn_length in L. unfold slen. lia.
  - rewrite firstn_all_le; auto. unfold slen in H. lia.
Qed.

(** Up to 49151 bytes there is no line break at all. *)
Lemma broken_none : forall s k, (k mod 65536 + slen s < 65536)%N -> broken_lines 65536 k s = s.
Proof.
  induction s as [|c s IH]; intros k H; cbn [broken_lines]; auto.
  replace (slen (c :: s)) with (1 + slen s)%N in H by (unfold slen; simpl length; lia).
  replace ((k + 1) mod 65536 =? 0)%N with false by lia.
  rewrite IH by lia. reflexivity.
Qed.
Lemma encode_one_line : forall x, (slen x < 49152)%N -> Encode x = rfc4648 x.
Proof.
  intros x H. rewrite encode_layout. rewrite broken_none.
  - apply firstn_skipn.
  - unfold slen in *. rewrite firstn_length_le by (rewrite rfc_length; lia).
    rewrite N.mod_0_l by lia. lia.
Qed.

Lemma decode_encode_loses : exists x : str, Decode (Encode x) <> Done x.
Proof.
  exists (repeat NUL (N.to_nat 49153)). intros H. apply decode_encode_iff in H.
  unfold slen in H. rewrite repeat_length in H. lia.
Qed.

Lemma decode_total_all : forall s : str,
  ((slen s < 2147483648)%N ->
   exists r, Decode s = Done r /\
             option_map bytes_of_bits (chars_bits (leading s)) = Some r /\
             length r = (6 * length (leading s) / 8)%nat) /\
  Decode s = Decode (leading s) /\
  ((2147483648 <= slen (leading s))%N -> Decode s = Undef UB_SignedOverflow).
Proof.
  intros s. split; [|split].
  - intros H. destruct (decode_total s H) as (r & H1 & _ & H2 & H3). exists r. auto.
  - apply decode_prefix.
  - apply decode_overflow.
Qed.
