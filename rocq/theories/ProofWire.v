(** The bytes of a mail. *)

From Coq Require Import Ascii String List NArith ZArith Bool Lia.
From Verif Require Import Base ModelUtil ModelBase64 ModelAddress ModelAttachment
  ModelErrors ModelReply ModelMessage ModelState ModelClient ModelWorld
  SpecAddress SpecReply SpecText SpecMime SpecTls SpecDialogue SpecWire
  Lib ProofBase64 ProofMime ProofAttachment.
Import ListNotations.
Open Scope N_scope.

(** ** Base64 text *)

Definition letter (c : ascii) : Prop := ascii7 c /\ c <> CR /\ c <> LF.

Lemma letter_table : forallb (fun c => (code c <? 128) && negb (Ascii.eqb c CR) && negb (Ascii.eqb c LF)) base64_chars = true.
Proof. vm_compute. reflexivity. Qed.
Lemma letter_b64 k : letter (b64char k).
Proof.
  unfold b64char. destruct (nth_in_or_default (N.to_nat k) base64_chars NUL) as [I|E]; [|rewrite E; repeat split; discriminate].
  apply (proj1 (forallb_forall _ _) letter_table) in I. revert I. generalize (nth (N.to_nat k) base64_chars NUL). intros c I.
  apply andb_true_iff in I as [I I2]. apply andb_true_iff in I as [I I1].
  split; [now apply N.ltb_lt|]. split; intros E; [rewrite E in I1; discriminate I1|rewrite E in I2; discriminate I2].
Qed.
Lemma letter_pad : letter "="%char. Proof. repeat split; discriminate. Qed.
Lemma group_letters a b c : Forall letter (enc_group a b c).
Proof. unfold enc_group. repeat (apply Forall_cons; [apply letter_b64|]). apply Forall_nil. Qed.
Lemma tail_letters i a b : Forall letter (enc_tail i a b).
Proof. destruct i as [|[|i]]; cbn [enc_tail app B]; repeat (apply Forall_cons; [first [apply letter_b64|apply letter_pad]|]); apply Forall_nil. Qed.
Lemma letters_unbroken l : Forall letter l -> unbroken l.
Proof.
  intros H. rewrite Forall_forall in H. split; intros I; destruct (H _ I) as (_ & A & A'); congruence.
Qed.

Lemma lines_step cur c r : c <> CR -> lines_from cur (c :: r) = lines_from (cur ++ [c]) r.
Proof.
  intros H. destruct r as [|d r]; [reflexivity|]. rewrite lines_from_step. destruct (Ascii.eqb_spec c CR); [congruence|reflexivity].
Qed.
Lemma lines_letters q : Forall letter q -> forall cur t, lines_from cur (q ++ t) = lines_from (cur ++ q) t.
Proof.
  induction 1 as [|c q L _ IH]; intros cur t; [now rewrite app_nil_r|]. cbn [app]. rewrite lines_step by apply L. rewrite IH, <- app_assoc. reflexivity.
Qed.
Lemma lines_break cur t : lines_from cur (CRLF ++ t) = cur :: lines_from [] t.
Proof. exact (lines_from_app [] cur t). Qed.

(** Lines of encoded text: letters only, at most 65536 of them. *)
Definition code_line (l : str) : Prop := Forall letter l /\ slen l <= 65536.
Lemma enc_lines bs : forall i a b o cur, Forall letter cur -> o mod 4 = 0 -> slen cur = o mod 65536 ->
  Forall code_line (lines_from cur (enc_loop bs i a b o)).
Proof.
  induction bs as [|x bs IH]; intros i a b o cur L M E; cbn [enc_loop].
  - rewrite <- (app_nil_r (enc_tail i a b)), lines_letters by apply tail_letters. cbn [lines_from]. apply Forall_cons; [|apply Forall_nil].
    split; [apply Forall_app; split; [exact L|apply tail_letters]|]. rewrite slen_app, E.
    assert (T : slen (enc_tail i a b) <= 4) by (destruct i as [|[|i]]; vm_compute; discriminate).
    pose proof (N.mod_lt o 65536 ltac:(discriminate)).
    assert (F : o mod 65536 <= 65532); [|lia]. zify. Z.to_euclidean_division_equations. lia.
  - destruct i as [|[|i]]; [now apply IH|now apply IH|]. cbv zeta. rewrite lines_letters by apply group_letters.
    assert (L' : Forall letter (cur ++ enc_group a b x)) by (apply Forall_app; split; [exact L|apply group_letters]).
    assert (E' : slen (cur ++ enc_group a b x) = o mod 65536 + 4) by (rewrite slen_app, E; reflexivity).
    assert (M' : (o + 4) mod 4 = 0) by (zify; Z.to_euclidean_division_equations; lia).
    change (64 * 1024) with 65536.
    destruct (N.eqb_spec ((o + 4) mod 65536) 0) as [Z|Z].
    + rewrite lines_break. apply Forall_cons.
      * split; [exact L'|]. rewrite E'. pose proof (N.mod_lt o 65536 ltac:(discriminate)). zify; Z.to_euclidean_division_equations; lia.
      * apply IH; [apply Forall_nil|exact M'|]. now rewrite Z.
    + cbn [app]. apply IH; [exact L'|exact M'|]. rewrite E'. zify; Z.to_euclidean_division_equations; lia.
Qed.
Lemma encode_lines s : Forall code_line (lines (Encode s)).
Proof. apply enc_lines; [apply Forall_nil|reflexivity|reflexivity]. Qed.
Lemma encode_seven s : seven_bit (Encode s).
Proof.
  eapply Forall_impl; [|apply encode_charset]. intros c [H|[-> | [-> | ->]]]; try reflexivity.
  assert (T : forallb (fun c => code c <? 128) SpecBase64.alphabet = true) by (vm_compute; reflexivity).
  apply (proj1 (forallb_forall _ _) T) in H. now apply N.ltb_lt.
Qed.

(** A text of at most 747 bytes is one short line; a longer one begins with a
    line that is too long. *)
Lemma lines_short cur s : Forall (fun l => (length l <= length cur + length s)%nat) (lines_from cur s).
Proof.
  revert cur. induction s as [ |c|c d s IH1 IH2] using two_ind; intros cur.
  - apply Forall_cons; [cbn; lia|apply Forall_nil].
  - apply Forall_cons; [rewrite app_length; cbn; lia|apply Forall_nil].
  - rewrite lines_from_step. destruct (_ && _).
    + apply Forall_cons; [lia|]. eapply Forall_impl; [|apply IH1]. cbn. intros; lia.
    + eapply Forall_impl; [|apply IH2]. intros l H. cbn in H. rewrite app_length in H. cbn in *. lia.
Qed.
Lemma lines_first cur s : exists l ls, lines_from cur s = (cur ++ l) :: ls.
Proof.
  revert cur. induction s as [ |c|c d s IH1 IH2] using two_ind; intros cur.
  - exists [], []. cbn. now rewrite app_nil_r.
  - now exists [c], [].
  - rewrite lines_from_step. destruct (_ && _).
    + exists [], (lines_from [] s). now rewrite app_nil_r.
    + destruct (IH2 (cur ++ [c])) as (l & ls & ->). exists ([c] ++ l), ls. now rewrite app_assoc.
Qed.
Lemma enc_split k : forall p r a b o, length p = (3 * k)%nat -> o + 4 * N.of_nat k < 65536 ->
  exists q a' b', enc_loop (p ++ r) 0 a b o = q ++ enc_loop r 0 a' b' (o + 4 * N.of_nat k) /\ length q = (4 * k)%nat /\ Forall letter q.
Proof.
  induction k as [|k IH]; intros p r a b o L O.
  - destruct p; [|discriminate]. exists [], a, b. rewrite N.add_0_r. auto.
  - destruct p as [|x [|y [|z p]]]; cbn [length] in L; try lia. cbn [app enc_loop]. cbv zeta.
    destruct (N.eqb_spec ((o + 4) mod (64 * 1024)) 0) as [Z|_]; [change (64 * 1024) with 65536 in Z; rewrite N.mod_small in Z; lia|].
    destruct (IH p r x y (o + 4)) as (q & a' & b' & E & Q & F); [lia|lia|].
    exists (enc_group x y z ++ q), a', b'. cbn [app]. rewrite E. split; [|split].
    + replace (o + 4 + 4 * N.of_nat k) with (o + 4 * N.of_nat (S k)) by lia. now rewrite app_assoc.
    + rewrite app_length, Q. cbn [length enc_group]. lia.
    + apply Forall_app. split; [apply group_letters|exact F].
Qed.
Lemma encode_fits s : Forall fits (lines (Encode s)) <-> slen s <= 747.
Proof.
  split.
  - intros H. destruct (N.le_gt_cases (slen s) 747) as [S|S]; [exact S|exfalso].
    assert (P : exists q t, Encode s = q ++ t /\ Forall letter q /\ (1000 <= length q)%nat).
    { destruct (N.le_gt_cases 750 (slen s)) as [Y|Y].
      - destruct (enc_split 250 (firstn 750 s) (skipn 750 s) NUL NUL 0) as (q & a & b & E & Q & F).
        + rewrite firstn_length. unfold slen in Y. lia.
        + reflexivity.
        + rewrite firstn_skipn in E. exists q, (enc_loop (skipn 750 s) 0 a b (0 + 4 * N.of_nat 250)). split; [exact E|]. split; [exact F|]. lia.
      - destruct (enc_split 249 (firstn 747 s) (skipn 747 s) NUL NUL 0) as (q & a & b & E & Q & F).
        + rewrite firstn_length. unfold slen in S. lia.
        + reflexivity.
        + rewrite firstn_skipn in E.
          assert (K : length (skipn 747 s) = 1%nat \/ length (skipn 747 s) = 2%nat) by (rewrite skipn_length; unfold slen in S, Y; lia).
          exists (q ++ enc_loop (skipn 747 s) 0 a b (0 + 4 * N.of_nat 249)), []. rewrite app_nil_r. split; [exact E|].
          destruct (skipn 747 s) as [|x [|y [|z l]]]; cbn [length] in K; try lia; cbn [enc_loop];
            (split; [apply Forall_app; split; [exact F|apply tail_letters]|rewrite app_length, Q; match goal with |- (1000 <= 4 * 249 + ?n)%nat => change n with 4%nat end; lia]). }
    destruct P as (q & t & E & F & Q). rewrite E in H. unfold lines in H. rewrite lines_letters in H by exact F. cbn [app] in H.
    destruct (lines_first q t) as (l & ls & X). rewrite X in H. apply Forall_inv in H. unfold fits in H. rewrite slen_app in H. unfold slen in H. lia.
  - intros H. eapply Forall_impl; [|apply lines_short]. intros l Hl. unfold fits. pose proof (encode_length s) as E. cbn [length] in Hl.
    assert (slen l <= slen (Encode s)) by (unfold slen; lia). zify. Z.to_euclidean_division_equations. lia.
Qed.
