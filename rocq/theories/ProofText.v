(** Proofs about src/stringutils.cpp, the Credential validation and the server
    name validation. *)

From Coq Require Import Ascii String List NArith ZArith Bool Lia ZifyBool ZifyNat ZifyN.
From Verif Require Import Base Lib ModelUtil ModelMessage ModelState ModelClient ModelWorld SpecText.
Import ListNotations.

Lemma isspace_true : forall c, isspace_char c = Some true <-> is_ws c.
Proof.
  intros c. unfold is_ws, ws_chars. split.
  - destruct c as [[] [] [] [] [] [] [] []]; vm_compute; intros H; try discriminate; tauto.
  - simpl. intros H. repeat (destruct H as [<-|H]; [reflexivity|]). destruct H.
Qed.
Lemma isspace_none : forall c, isspace_char c = None <-> (128 <= code c)%N.
Proof. intros c. unfold isspace_char. destruct (128 <=? code c)%N eqn:E; split; intros; try discriminate; try lia; auto. Qed.
Lemma is_ws_ascii7 : forall c, is_ws c -> ascii7 c.
Proof. intros c H. unfold ascii7. apply isspace_true in H. unfold isspace_char in H. destruct (128 <=? code c)%N eqn:E; [discriminate|lia]. Qed.
Lemma isspace_false : forall c, isspace_char c = Some false <-> solid c.
Proof.
  intros c. unfold solid, ascii7. pose proof (isspace_true c). pose proof (isspace_none c).
  destruct (isspace_char c) as [[]|] eqn:E.
  - split; [discriminate|]. intros [_ H1]. exfalso. apply H1. apply H. reflexivity.
  - split; auto. intros _. split.
    + destruct (N.lt_ge_cases (code c) 128); auto. apply H0 in H1. discriminate.
    + intros H1. apply H in H1. discriminate.
  - split; [discriminate|]. intros [H1 _]. assert (128 <= code c)%N by (apply H0; reflexivity). lia.
Qed.
Lemma is_ws_dec : forall c, is_ws c \/ ~ is_ws c.
Proof. intros. destruct (in_dec ascii_dec c ws_chars); auto. Qed.

(** ** trim *)

Lemma trimLeft_spec : forall s t, trimLeft s = Done t <->
  exists l, s = l ++ t /\ Forall is_ws l /\ begins solid t.
Proof.
  induction s as [|c s IH]; intros t; simpl.
  - split.
    + intros H. inversion H. exists []. repeat split; auto. left; reflexivity.
    + intros (l & E & _ & _). symmetry in E. apply app_eq_nil in E as [_ ->]. reflexivity.
  - destruct (isspace_char c) as [[]|] eqn:E.
    + rewrite IH. apply isspace_true in E. split.
      * intros (l & -> & Hl & Ht). exists (c :: l). repeat split; auto.
      * intros (l & E2 & Hl & Ht). destruct l as [|x l].
        -- simpl in E2. subst t. destruct Ht as [Ht|(c' & r & Ht & Hs)]; [discriminate|].
           inversion Ht; subst. destruct Hs. contradiction.
        -- inversion E2; subst. inversion Hl; subst. exists l. auto.
    + apply isspace_false in E. split.
      * intros H. inversion H; subst. exists []. repeat split; auto. right. eauto.
      * intros (l & E2 & Hl & Ht). destruct l as [|x l]; [simpl in E2; congruence|].
        inversion E2; subst. inversion Hl; subst. destruct E. contradiction.
    + split; [discriminate|]. apply isspace_none in E.
      intros (l & E2 & Hl & Ht). exfalso. destruct l as [|x l].
      * simpl in E2. subst t. destruct Ht as [Ht|(c' & r & Ht & Hs)]; [discriminate|].
        inversion Ht; subst. destruct Hs as [Hs _]. unfold ascii7 in Hs. lia.
      * inversion E2; subst. inversion Hl; subst. apply is_ws_ascii7 in H1. unfold ascii7 in H1. lia.
Qed.

Lemma trimLeft_cases : forall s, (exists t, trimLeft s = Done t) \/
  (trimLeft s = Undef UB_IsspaceNegative /\
   exists l c r, s = l ++ c :: r /\ Forall is_ws l /\ (128 <= code c)%N).
Proof.
  induction s as [|c s IH]; simpl.
  - left. eauto.
  - destruct (isspace_char c) as [[]|] eqn:E.
    + destruct IH as [H|(H & l & c' & r & -> & Hl & Hc)]; auto. right. split; auto.
      exists (c :: l), c', r. repeat split; auto. constructor; auto. apply isspace_true. auto.
    + left. eauto.
    + right. split; auto. exists [], c, s. repeat split; auto. apply isspace_none. auto.
Qed.

Lemma ends_rev : forall P t, ends P t <-> begins P (rev t).
Proof.
  intros P t. split; intros [H|(c & r & E & H)].
  - left. subst. reflexivity.
  - right. subst. rewrite rev_app_distr. exists c, (rev r). auto.
  - left. rewrite <- (rev_involutive t), H. reflexivity.
  - right. exists c, (rev r). split; auto. rewrite <- (rev_involutive t), E. reflexivity.
Qed.
Lemma begins_rev : forall P t, begins P t <-> ends P (rev t).
Proof. intros. rewrite ends_rev, rev_involutive. tauto. Qed.

Lemma trimRight_spec : forall s t, trimRight s = Done t <->
  exists r, s = t ++ r /\ Forall is_ws r /\ ends solid t.
Proof.
  intros s t. unfold trimRight. split.
  - destruct (trimLeft (rev s)) as [u| | | | |] eqn:E; simpl; intros H; inversion H; subst.
    apply trimLeft_spec in E as (l & E & Hl & Hu).
    exists (rev l). split; [|split].
    + rewrite <- (rev_involutive s), E, rev_app_distr. reflexivity.
    + apply Forall_rev. assumption.
    + apply begins_rev in Hu. assumption.
  - intros (r & -> & Hr & Ht). rewrite rev_app_distr.
    assert (trimLeft (rev r ++ rev t) = Done (rev t)) as ->.
    { apply trimLeft_spec. exists (rev r). split; [reflexivity | split].
      - apply Forall_rev. assumption.
      - apply ends_rev. assumption. }
    simpl. rewrite rev_involutive. reflexivity.
Qed.

Lemma trim_spec : forall s t, trim s = Done t <->
  exists l r, s = l ++ t ++ r /\ Forall is_ws l /\ Forall is_ws r /\
              begins solid t /\ ends solid t.
Proof.
  intros s t. unfold trim. split.
  - destruct (trimLeft s) as [u| | | | |] eqn:E; simpl; try discriminate.
    intros H. apply trimLeft_spec in E as (l & -> & Hl & Hu).
    apply trimRight_spec in H as (r & -> & Hr & Ht).
    exists l, r. repeat split; auto.
    destruct Hu as [Hu|(c & r' & Hu & Hs)].
    + apply app_eq_nil in Hu as [-> _]. left. reflexivity.
    + destruct t as [|c' t']; [left; reflexivity|]. inversion Hu; subst. right. eauto.
  - intros (l & r & -> & Hl & Hr & H1 & H2).
    destruct t as [|c t].
    + assert (trimLeft (l ++ [] ++ r) = Done []) as ->.
      { apply trimLeft_spec. exists (l ++ r). rewrite app_nil_r.
        split; [reflexivity | split; [apply Forall_app; auto | left; reflexivity]]. }
      reflexivity.
    + assert (trimLeft (l ++ (c :: t) ++ r) = Done ((c :: t) ++ r)) as ->.
      { apply trimLeft_spec. exists l. repeat split; auto.
        destruct H1 as [H1|(c' & r' & H1 & Hs)]; [discriminate|].
        inversion H1; subst. right. exists c', (r' ++ r). auto. }
      simpl obind. apply trimRight_spec. exists r. auto.
Qed.

Lemma trim_defined : forall s, (exists t, trim s = Done t) \/
  (trim s = Undef UB_IsspaceNegative /\
   exists l c r, s = l ++ c :: r /\ (128 <= code c)%N /\ (Forall is_ws l \/ Forall is_ws r)).
Proof.
  intros s. unfold trim.
  destruct (trimLeft_cases s) as [[t E]|(E & l & c & r & Es & Hl & Hc)].
  - rewrite E. simpl. unfold trimRight.
    destruct (trimLeft_cases (rev t)) as [[u Eu]|(Eu & l & c & r & Es & Hl & Hc)].
    + rewrite Eu. simpl. eauto.
    + rewrite Eu. simpl. right. split; auto.
      apply trimLeft_spec in E as (l0 & -> & Hl0 & _).
      exists (l0 ++ rev r), c, (rev l). split; [|split]; auto.
      * rewrite <- (rev_involutive t), Es, rev_app_distr. simpl. rewrite <- !app_assoc. reflexivity.
      * right. apply Forall_rev. assumption.
  - rewrite E. simpl. right. split; auto. exists l, c, r. auto.
Qed.

Lemma trim_ascii : forall s, Forall ascii7 s -> exists t, trim s = Done t.
Proof.
  intros s H. destruct (trim_defined s) as [E|(_ & l & c & r & -> & Hc & _)]; auto.
  exfalso. apply Forall_app in H as [_ H]. inversion H; subst. unfold ascii7 in *. lia.
Qed.

(** ** Case *)

Lemma lower_char_mapped : forall c, case_mapped upper_letters lower_letters c (lower_char c).
Proof.
  intros c. destruct (in_dec ascii_dec c upper_letters) as [H|H].
  - left. apply In_nth_error in H as [k Hk]. exists k. split; auto.
    do 26 (destruct k as [|k]; [simpl in Hk; inversion Hk; subst; reflexivity|]).
    simpl in Hk. destruct k; discriminate.
  - right. split; auto. unfold lower_char.
    destruct ((65 <=? code c)%N && (code c <=? 90)%N) eqn:E; auto.
    exfalso. apply H. revert E. clear.
    destruct c as [[] [] [] [] [] [] [] []]; vm_compute; intros; try discriminate; tauto.
Qed.
Lemma upper_char_mapped : forall c, case_mapped lower_letters upper_letters c (upper_char c).
Proof.
  intros c. destruct (in_dec ascii_dec c lower_letters) as [H|H].
  - left. apply In_nth_error in H as [k Hk]. exists k. split; auto.
    do 26 (destruct k as [|k]; [simpl in Hk; inversion Hk; subst; reflexivity|]).
    simpl in Hk. destruct k; discriminate.
  - right. split; auto. unfold upper_char.
    destruct ((97 <=? code c)%N && (code c <=? 122)%N) eqn:E; auto.
    exfalso. apply H. revert E. clear.
    destruct c as [[] [] [] [] [] [] [] []]; vm_compute; intros; try discriminate; tauto.
Qed.

Lemma map_Forall2 : forall {A C} (R : A -> C -> Prop) (f : A -> C) l,
  (forall x, R x (f x)) -> Forall2 R l (map f l).
Proof. intros. induction l; simpl; constructor; auto. Qed.

Lemma case_conversion : forall s,
  Forall2 (case_mapped upper_letters lower_letters) s (toLower s) /\
  Forall2 (case_mapped lower_letters upper_letters) s (toUpper s) /\
  toLower (toLower s) = toLower s /\ toUpper (toUpper s) = toUpper s /\
  toLower (toUpper s) = toLower s /\ toUpper (toLower s) = toUpper s /\
  length (toLower s) = length s /\ length (toUpper s) = length s.
Proof.
  intros s. unfold toLower, toUpper.
  split; [apply map_Forall2; apply lower_char_mapped|].
  split; [apply map_Forall2; apply upper_char_mapped|].
  rewrite !map_map, !map_length.
  repeat split; apply map_ext; intros [[] [] [] [] [] [] [] []]; reflexivity.
Qed.

(** ** Validation *)

Lemma trim_nil : forall s t, trim s = Done t -> (t = [] <-> Forall is_ws s).
Proof.
  intros s t H. apply trim_spec in H as (l & r & -> & Hl & Hr & H1 & _). split.
  - intros ->. apply Forall_app. auto.
  - intros H. apply Forall_app in H as [_ H]. apply Forall_app in H as [H _].
    destruct H1 as [->|(c & u & -> & [_ Hs])]; auto. inversion H; subst. contradiction.
Qed.

Lemma not_all_ws : forall s, ~ Forall is_ws s <-> exists c, In c s /\ ~ is_ws c.
Proof.
  intros s. split.
  - induction s as [|c s IH]; intros H; [exfalso; apply H; constructor|].
    destruct (is_ws_dec c) as [Hc|Hc].
    + destruct IH as (c' & H1 & H2); [intros Hs; apply H; constructor; auto|]. exists c'. simpl. auto.
    + exists c. simpl. auto.
  - intros (c & H1 & H2) H. rewrite Forall_forall in H. auto.
Qed.

Lemma null_or_blank_done : forall p b, null_or_blank p = Done b ->
  (b = false <-> usable p).
Proof.
  intros [s|] b H; simpl in H.
  - destruct (cstr s) as [|c r] eqn:E.
    + inversion H; subst. split; [discriminate|]. intros (s' & E1 & c & H1 & _).
      inversion E1; subst. rewrite E in H1. destruct H1.
    + destruct (trim (c :: r)) as [t| | | | |] eqn:Et; simpl in H; try discriminate.
      pose proof (trim_nil _ _ Et) as Hn. rewrite <- E in Hn.
      assert (Hu : usable (Some s) <-> t <> []).
      { unfold usable. split.
        - intros (s' & E1 & Hc) Ht. apply Hn in Ht. inversion E1; subst s'.
          apply not_all_ws in Hc. contradiction.
        - intros Ht. exists s. split; auto. apply not_all_ws. intros Hw. apply Ht. apply Hn. assumption. }
      rewrite Hu. destruct t; inversion H; subst; split; intros; congruence.
  - inversion H; subst. split; [discriminate|]. intros (s' & E1 & _). discriminate.
Qed.

Lemma null_or_blank_ascii : forall p, outer_ascii p -> exists b, null_or_blank p = Done b.
Proof.
  intros [s|] H; simpl in *; eauto.
  destruct (cstr s) eqn:E; eauto.
  destruct (trim_defined (a :: s0)) as [[t ->]|(_ & l & c & r & Es & Hc & Hw)]; simpl; eauto.
  specialize (H l c r Es Hw). unfold ascii7 in H. lia.
Qed.

Lemma ws_ascii7 : forall c, is_ws c -> ascii7 c.
Proof. unfold is_ws, ws_chars. intros c H. simpl in H. intuition subst; reflexivity. Qed.

Lemma first_ascii : forall l0 t l c r, l0 ++ t = l ++ c :: r -> Forall is_ws l0 -> Forall is_ws l ->
  (Forall is_ws t \/ exists x t', t = x :: t' /\ solid x) -> ascii7 c.
Proof.
  induction l0 as [|a l0 IH]; intros t l c r E H0 Hl Ht.
  - simpl in E. subst t. destruct Ht as [Ht|(x & t' & Ex & Hx)].
    + apply Forall_app in Ht as [_ Ht]. inversion Ht; subst. apply ws_ascii7. assumption.
    + destruct l as [|b l]; simpl in Ex; inversion Ex; subst; [apply Hx|].
      inversion Hl; subst. destruct Hx as [_ Hx]. contradiction.
  - inversion H0; subst. destruct l as [|b l]; simpl in E; inversion E; subst.
    + apply ws_ascii7. assumption.
    + inversion Hl; subst. apply (IH t l c r); auto.
Qed.

Lemma null_or_blank_outer : forall p b, null_or_blank p = Done b -> outer_ascii p.
Proof.
  intros [s|] b H; simpl in *; auto. destruct (cstr s) as [|x u] eqn:E.
  - intros l c r El. destruct l; discriminate.
  - destruct (trim (x :: u)) as [t| | | | |] eqn:Et; simpl in H; try discriminate. clear H.
    apply trim_spec in Et as (l0 & r0 & E0 & Hl0 & Hr0 & Hb & He). rewrite E0.
    intros l c r Ec [Hl|Hr].
    + apply (first_ascii l0 (t ++ r0) l c r); auto.
      destruct Hb as [->|(y & t' & -> & Hy)]; [left; auto|right; eexists; eexists; split; [reflexivity|auto]].
    + apply (first_ascii (rev r0) (rev t ++ rev l0) (rev r) c (rev l)).
      * transitivity (rev (l0 ++ t ++ r0)); [rewrite !rev_app_distr, <- app_assoc; reflexivity|].
        rewrite Ec, rev_app_distr. simpl. rewrite <- app_assoc. reflexivity.
      * apply Forall_rev. auto.
      * apply Forall_rev. auto.
      * destruct He as [->|(y & t' & -> & Hy)]; [left; apply Forall_rev; auto|].
        right. rewrite rev_app_distr. simpl. eauto.
Qed.

Lemma null_or_blank_never_throws : forall p,
  (exists b, null_or_blank p = Done b) \/ null_or_blank p = Undef UB_IsspaceNegative.
Proof.
  intros [s|]; simpl; eauto.
  destruct (cstr s) as [|c r] eqn:E; eauto.
  destruct (trim_defined (c :: r)) as [[t ->]|[-> _]]; simpl; eauto.
Qed.

Lemma null_or_blank_undef : forall p, null_or_blank p = Undef UB_IsspaceNegative <-> ~ outer_ascii p.
Proof.
  intros p. destruct (null_or_blank p) as [b| | | | |] eqn:E.
  all: try (split; [intros _ H; destruct (null_or_blank_ascii p H) as [b Eb]; congruence|]).
  - split; [discriminate|]. intros H. exfalso. apply H. eapply null_or_blank_outer. eassumption.
  - intros _. destruct (null_or_blank_never_throws p) as [[b Eb]|Eb]; congruence.
  - intros _. destruct (null_or_blank_never_throws p) as [[b Eb]|Eb]; congruence.
  - intros _. destruct (null_or_blank_never_throws p) as [[b Eb]|Eb]; congruence.
  - intros _. destruct (null_or_blank_never_throws p) as [[b Eb]|Eb]; congruence.
  - intros _. destruct (null_or_blank_never_throws p) as [[b Eb]|Eb]; congruence.
Qed.



(** *** Credential *)

Lemma credential_new_spec : forall user pass m, outer_ascii user ->
  (usable user /\ usable_password pass /\
   credential_new3 user pass m = Done (mkCred (ptext user) (ptext pass) m)) \/
  (~ (usable user /\ usable_password pass) /\ credential_new3 user pass m = Throw).
Proof.
  intros user pass m Ha. unfold credential_new3, credential_new.
  destruct (null_or_blank_ascii user Ha) as [b Eb]. rewrite Eb. simpl.
  apply null_or_blank_done in Eb. destruct b.
  - right. split; [|reflexivity]. intros [H _]. apply Eb in H. discriminate.
  - assert (Hu : usable user) by (apply Eb; reflexivity).
    destruct pass as [p|]; simpl.
    + destruct (cstr p) as [|c r] eqn:E.
      * right. split; auto. intros [_ (s & E1 & H)]. inversion E1; subst. contradiction.
      * left. split; auto. split; [exists p; split; auto; rewrite E; discriminate|].
        unfold ptext. rewrite ?E. reflexivity.
    + right. split; auto. intros [_ (s & E1 & H)]. discriminate.
Qed.

Lemma call_valid : forall c o, valid_credential c -> valid_credential (snd (call c o)).
Proof.
  intros c o Hc. destruct Hc as (H1 & H2 & H3 & H4). destruct o as [p|p|m]; simpl.
  - unfold setUsername. destruct (null_or_blank_never_throws p) as [[b Eb]|Eb]; rewrite Eb;
      [|unfold valid_credential; simpl; tauto].
    destruct b; [unfold valid_credential; simpl; tauto|].
    apply null_or_blank_done in Eb. destruct Eb as [Eb _]. destruct (Eb eq_refl) as (s & -> & Hs).
    split; [exact Hs | split; [exact H2 | split; [apply nul_notin_cstr | exact H4]]].
  - unfold setPassword, valid_credential. destruct p as [p|]; simpl; [|tauto].
    destruct (cstr p) as [|x r] eqn:E; simpl; [tauto|].
    split; [exact H1 | split; [discriminate | split; [exact H3 |]]].
    change (~ In NUL (x :: r)). rewrite <- E. apply nul_notin_cstr.
  - unfold valid_credential. simpl. tauto.
Qed.

Lemma call_spec : forall c o, (match o with CallUser p => outer_ascii p | _ => True end) ->
  (accepts o /\ fst (call c o) = Done tt /\
   snd (call c o) = match o with
                    | CallUser p => mkCred (ptext p) (cr_pass c) (cr_method c)
                    | CallPassword p => mkCred (cr_user c) (ptext p) (cr_method c)
                    | CallMethod m => mkCred (cr_user c) (cr_pass c) m
                    end) \/
  (~ accepts o /\ call c o = (Throw, c)).
Proof.
  intros c [p|p|m] Ha; simpl.
  - destruct (null_or_blank_ascii p Ha) as [b Eb]. unfold setUsername. rewrite Eb.
    apply null_or_blank_done in Eb. destruct b.
    + right. split; auto. intros H. apply Eb in H. discriminate.
    + left. split; [apply Eb; reflexivity|]. destruct p; auto.
  - unfold setPassword. destruct p as [p|].
    + destruct (cstr p) as [|x r] eqn:E.
      * right. split; auto. intros (s & E1 & H). inversion E1; subst. contradiction.
      * left. split; [exists p; split; auto; congruence|]. simpl. rewrite E. auto.
    + right. split; auto. intros (s & E1 & H). discriminate.
  - left. auto.
Qed.

Lemma credential_new_valid : forall user pass m c, credential_new3 user pass m = Done c -> valid_credential c.
Proof.
  intros user pass m c H. unfold credential_new3, credential_new in H.
  destruct (null_or_blank user) as [b| | | | |] eqn:Eb; simpl in H; try discriminate.
  apply null_or_blank_done in Eb. destruct b; simpl in H; [discriminate|].
  destruct Eb as [Eb _]. destruct (Eb eq_refl) as (s & -> & Hs).
  destruct pass as [p|]; simpl in H; [|discriminate].
  destruct (cstr p) as [|x r] eqn:E; simpl in H; [discriminate|]. inversion H; subst.
  split; [exact Hs | split; [discriminate | split; [apply nul_notin_cstr |]]].
  change (~ In NUL (x :: r)). rewrite <- E. apply nul_notin_cstr.
Qed.

Lemma calls_valid : forall ops c, valid_credential c ->
  valid_credential (fold_left (fun c o => snd (call c o)) ops c).
Proof. induction ops as [|o ops IH]; intros c H; simpl; auto. apply IH. apply call_valid. assumption. Qed.

(** *** Server name *)

Lemma check_server_name_spec : forall p, outer_ascii p ->
  (usable p /\ check_server_name p = Done (ptext p)) \/ (~ usable p /\ check_server_name p = Throw).
Proof.
  intros p Ha. unfold check_server_name.
  destruct (null_or_blank_ascii p Ha) as [b Eb]. rewrite Eb. simpl.
  apply null_or_blank_done in Eb. destruct b.
  - right. split; auto. intros H. apply Eb in H. discriminate.
  - left. split; auto. apply Eb. reflexivity.
Qed.

Lemma check_server_name_usable : forall p s, check_server_name p = Done s -> usable (Some s).
Proof.
  intros p s H. unfold check_server_name in H.
  destruct (null_or_blank p) as [b| | | | |] eqn:Eb; simpl in H; try discriminate.
  apply null_or_blank_done in Eb. destruct b; [discriminate|]. inversion H; subst.
  destruct Eb as [Eb _]. destruct (Eb eq_refl) as (s' & -> & Hs). exists (cstr s').
  split; auto. rewrite cstr_cstr. assumption.
Qed.

Lemma calls_history : forall ops c,
  Forall (fun o => match o with CallUser p => outer_ascii p | _ => True end) ops ->
  history c ops (fst (calls c ops)) (snd (calls c ops)).
Proof.
  induction ops as [|o ops IH]; intros c H; simpl; [constructor|].
  inversion H; subst. specialize (IH (snd (call c o)) H3).
  destruct (call_spec c o H2) as [(Ha & E1 & E2)|(Ha & E)].
  - rewrite E1. apply h_accepted; auto. rewrite <- E2. exact IH.
  - rewrite E in *. simpl in *. apply h_refused; auto.
Qed.

Lemma calls_always_valid : forall user pass m c ops,
  credential_new3 user pass m = Done c -> valid_credential (snd (calls c ops)).
Proof.
  intros user pass m c ops H. apply credential_new_valid in H. revert c H.
  induction ops as [|o ops IH]; intros c H; simpl; auto. apply IH. apply call_valid. assumption.
Qed.

Lemma setServerName_spec : forall c p, outer_ascii p ->
  (usable p /\ client_setServerName c p = Done (set_server (Some (ptext p)) c)) \/
  (~ usable p /\ client_setServerName c p = Throw).
Proof.
  intros c p H. unfold client_setServerName.
  destruct (check_server_name_spec p H) as [[H1 ->]|[H1 ->]]; simpl; auto.
Qed.

Lemma client_new_spec : forall k p port, outer_ascii p ->
  (usable p /\ exists c, client_new k p port = Done c /\ c_server c = Some (ptext p) /\
                         c_port c = u32 port /\ c_kind c = k /\ c_conn c = false) \/
  (~ usable p /\ client_new k p port = Throw).
Proof.
  intros k p port H. unfold client_new.
  destruct (check_server_name_spec p H) as [[H1 ->]|[H1 ->]]; simpl; auto.
  left. split; auto. eexists. repeat split.
Qed.

Lemma non_ascii_user : exists user pass,
  usable (Some user) /\ usable_password (Some pass) /\
  credential_new3 (Some user) (Some pass) kImplicit = Undef UB_IsspaceNegative.
Proof.
  exists [ascii_of_nat 195; ascii_of_nat 169], (B "secret"). split; [|split; [|reflexivity]].
  - eexists. split; [reflexivity|]. exists (ascii_of_nat 195). split; [left; reflexivity|].
    unfold is_ws, ws_chars. simpl. intuition discriminate.
  - eexists. split; [reflexivity|]. discriminate.
Qed.
Lemma non_ascii_server : exists name, usable (Some name) /\
  (forall k port, client_new k (Some name) port = Undef UB_IsspaceNegative) /\
  (forall c, client_setServerName c (Some name) = Undef UB_IsspaceNegative).
Proof.
  exists [ascii_of_nat 233]. split.
  - eexists. split; [reflexivity|]. exists (ascii_of_nat 233). split; [left; reflexivity|].
    unfold is_ws, ws_chars. simpl. intuition discriminate.
  - split; intros; reflexivity.
Qed.

Lemma undefined_users :
  (forall user pass m, credential_new3 user pass m = Undef UB_IsspaceNegative <-> ~ outer_ascii user) /\
  (forall c p, fst (setUsername c p) = Undef UB_IsspaceNegative <-> ~ outer_ascii p).
Proof.
  split.
  - intros user pass m. rewrite <- null_or_blank_undef. unfold credential_new3, credential_new.
    destruct (null_or_blank_never_throws user) as [[b E]|E]; rewrite E; simpl; [|tauto].
    split; [|discriminate]. destruct b; [discriminate|]. destruct pass as [x|]; simpl; [|discriminate].
    destruct (cstr x); discriminate.
  - intros c p. rewrite <- null_or_blank_undef. unfold setUsername.
    destruct (null_or_blank_never_throws p) as [[b E]|E]; rewrite E; simpl; [|tauto].
    split; [|discriminate]. destruct b; [discriminate|]. destruct p; discriminate.
Qed.

Lemma undefined_servers :
  (forall k p port, client_new k p port = Undef UB_IsspaceNegative <-> ~ outer_ascii p) /\
  (forall c p, client_setServerName c p = Undef UB_IsspaceNegative <-> ~ outer_ascii p).
Proof.
  split.
  - intros k p port. rewrite <- null_or_blank_undef. unfold client_new, check_server_name.
    destruct (null_or_blank_never_throws p) as [[b E]|E]; rewrite E; simpl; [|tauto].
    split; [|discriminate]. destruct b; discriminate.
  - intros c p. rewrite <- null_or_blank_undef. unfold client_setServerName, check_server_name.
    destruct (null_or_blank_never_throws p) as [[b E]|E]; rewrite E; simpl; [|tauto].
    split; [|discriminate]. destruct b; discriminate.
Qed.
