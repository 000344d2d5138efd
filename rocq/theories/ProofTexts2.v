(** Error texts and programs. *)

From Coq Require Import Ascii String List NArith ZArith Bool Lia.
From Verif Require Import Base Lib ModelUtil ModelBase64 ModelAddress ModelAttachment ModelMessage ModelReply ModelErrors ModelState ModelClient ModelWorld
  SpecTexts SpecText SpecThrow ProofTexts ProofThrow2 ProofSafety.
Import ListNotations.
Open Scope Z_scope.

Ltac fldin H := cbn [set_log c_kind c_conn c_server c_port c_batch c_resp c_timeout c_errno c_auth c_cred c_sock c_keep c_rawptr c_bio c_ctx c_selfsigned c_log] in H.
Ltac fldv := cbv [set_conn set_server set_port set_batch set_log set_timeout set_cred set_keep set_selfsigned client_move client_moved client_move_assign
  c_kind c_conn c_server c_port c_batch c_log c_logsize c_resp c_timeout c_errno c_auth c_cred c_sock c_keep c_rawptr c_bio c_ctx c_selfsigned].

Definition same_c (a b : client) : Prop := exists l z, b = set_log l z a /\ empty_alike l (c_log a).
Definition same_o (x y : option client) : Prop := match x, y with Some a, Some b => same_c a b | None, None => True | _, _ => False end.

Lemma same_refl : forall c, same_c c c.
Proof. intros []. eexists. eexists. split; [fldv; reflexivity|]. split; auto. Qed.
Lemma same_kind : forall a b, same_c a b -> c_kind b = c_kind a. Proof. intros [] b (? & ? & -> & _). reflexivity. Qed.
Lemma same_server : forall a b, same_c a b -> c_server b = c_server a. Proof. intros [] b (? & ? & -> & _). reflexivity. Qed.
Lemma empty_copy : forall l k, empty_alike l k -> empty_alike (log_copy l) (log_copy k).
Proof. intros l k H. unfold empty_alike in *. destruct l, k; cbn [log_copy]; [split; discriminate| | |split; auto]; destruct H as [H1 H2]; [discriminate (H2 eq_refl)|discriminate (H1 eq_refl)]. Qed.

Section Texts.
Variables f g : Z -> str.

Definition same_w (w1 w2 : world) : Prop :=
  Forall2 same_o (w_clients w1) (w_clients w2) /\ w_env w2 = texts f g (w_env w1) /\ w_trace w1 = w_trace w2.
Lemma get_same : forall w1 w2 i, same_w w1 w2 -> same_o (get_client w1 i) (get_client w2 i).
Proof.
  intros w1 w2 i (F & _). unfold get_client. revert i. induction F as [|x y l1 l2 H F IH]; intros i; [destruct i; exact Logic.I|].
  destruct i; cbn [nth_error]; [|apply IH]. destruct x, y; exact H.
Qed.
Lemma set_same : forall l1 l2, Forall2 same_o l1 l2 -> forall i x y, same_o x y -> Forall2 same_o (list_set l1 i x) (list_set l2 i y).
Proof. induction 1 as [|u v l1 l2 H F IH]; intros i x y S; [destruct i; constructor|]. destruct i; cbn [list_set]; constructor; auto. Qed.
Lemma put_same : forall w1 w2 i x y, same_w w1 w2 -> same_o x y -> same_w (put_client i x w1) (put_client i y w2).
Proof. intros w1 w2 i x y (F & E & T) S. split; [apply set_same; assumption|split; assumption]. Qed.
Lemma push_same : forall w1 w2 x y, same_w w1 w2 -> same_c x y -> same_w (push_client x w1) (push_client y w2).
Proof. intros w1 w2 x y (F & E & T) S. split; [apply Forall2_app; [exact F|constructor; [exact S|constructor]]|split; assumption]. Qed.
Definition same_result (o1 o2 : outcome client) : Prop :=
  match o1, o2 with
  | Done a, Done b => same_c a b
  | Throw, Throw | Blocked, Blocked | Killed, Killed | Diverge, Diverge => True
  | Undef u, Undef v => u = v
  | _, _ => False
  end.
Lemma refl_result : forall o, same_result o o. Proof. intros [c| | | | |]; cbn; auto. apply same_refl. Qed.
Definition alike (r1 r2 : outcome Z * world) : Prop := fst r1 = fst r2 /\ same_w (snd r1) (snd r2).
Lemma create_same : forall w1 w2 o1 o2, same_w w1 w2 -> same_result o1 o2 -> alike (create o1 w1) (create o2 w2).
Proof. intros w1 w2 o1 o2 W R. destruct o1, o2; try contradiction; cbn in *; (split; [cbn; congruence|]); try exact W. apply push_same; assumption. Qed.
Lemma alter_same : forall w1 w2 i h1 h2, same_w w1 w2 -> (forall a b, same_c a b -> same_result (h1 a) (h2 b)) -> alike (alter i h1 w1) (alter i h2 w2).
Proof.
  intros w1 w2 i h1 h2 W R. pose proof (get_same w1 w2 i W) as G. unfold alter. destruct (get_client w1 i) as [a|], (get_client w2 i) as [b|]; try contradiction; [|split; [reflexivity|exact W]].
  specialize (R a b G). destruct (h1 a), (h2 b); try contradiction; cbn in *; (split; [cbn; congruence|]); try exact W. apply put_same; assumption.
Qed.
(** A call that is part of a program, and may have failed while logging. *)
Definition failed (o : op) (w1 w2 : world) : Prop :=
  (forall k p port, o <> ONew k p port) /\ (forall i p, o <> OSetServer i p) /\ legal w1 o /\ legal w2 o /\ (bad (fst (step o w1)) \/ bad (fst (step o w2))).
Ltac same := match goal with H : same_c ?a ?b |- _ => destruct a; destruct H as (? & ? & -> & ?) end; unfold same_c; eexists; eexists; split; [fldv; reflexivity|first [assumption|split; auto; fail]].
Lemma member_same : forall {h : client -> option client} i (m : M Z) w1 w2, (forall a b, same_c a b -> same_o (h a) (h b)) -> same_w w1 w2 -> ob f g m ->
  alike (run_on i m h w1) (run_on i m h w2) \/ is_client w1 i /\ is_client w2 i /\ (bad (fst (run_on i m h w1)) \/ bad (fst (run_on i m h w2))).
Proof.
  intros h i m w1 w2 Hh W O. pose proof (get_same w1 w2 i W) as G. unfold run_on, is_client. destruct (get_client w1 i) as [a|], (get_client w2 i) as [b|]; try contradiction; [|left; split; [reflexivity|exact W]].
  destruct W as (F & Ew & Tw). assert (L : like f g (mkSt a (w_env w1) (w_trace w1)) (mkSt b (w_env w2) (w_trace w2))) by (split; [exact G|split; [exact Ew|exact Tw]]).
  specialize (O _ _ L). destruct (m (mkSt a _ _)) as [o1 q1], (m (mkSt b _ _)) as [o2 q2]. cbn [fst snd] in *.
  destruct O as [B1|[B2|[E (Lc & Le & Lt)]]]; [right; repeat (apply conj; eauto)|right; repeat (apply conj; eauto)|left].
  split; [exact E|]. split; [apply set_same; [exact F|apply Hh, Lc]|split; assumption].
Qed.
Lemma step_same : forall o w1 w2, same_w w1 w2 -> alike (step o w1) (step o w2) \/ failed o w1 w2.
Proof.
  intros o w1 w2 W. destruct o.
  - left. apply create_same; [exact W|apply refl_result].
  - left. cbn [step]. pose proof (get_same w1 w2 src W) as G. destruct (get_client w1 src) as [a|], (get_client w2 src) as [b|]; try contradiction; [|split; [reflexivity|exact W]].
    apply create_same; [exact W|]. cbn [same_o] in G. unfold client_copy. rewrite (same_server a b G). destruct (c_server a); [|reflexivity]. destruct a. destruct G as (l & z & -> & X). cbn [same_result].
    eexists. eexists. split; [fldv; reflexivity|]. fldin X. apply empty_copy, X.
  - left. cbn [step]. pose proof (get_same w1 w2 src W) as G. destruct (get_client w1 src) as [a|], (get_client w2 src) as [b|]; try contradiction; [|split; [reflexivity|exact W]].
    split; [reflexivity|]. cbn [snd]. cbn [same_o] in G. apply push_same; [apply put_same; [exact W|]; cbn [same_o]|]; same.
  - left. cbn [step]. pose proof (get_same w1 w2 dst W) as G. pose proof (get_same w1 w2 src W) as G'.
    destruct (get_client w1 dst) as [a|], (get_client w2 dst) as [b|]; try contradiction; [|split; [reflexivity|exact W]].
    destruct (get_client w1 src) as [a'|], (get_client w2 src) as [b'|]; try contradiction; [|split; [reflexivity|exact W]].
    destruct (Nat.eqb dst src); [split; [reflexivity|exact W]|]. cbn [same_o] in G, G'. rewrite (same_kind _ _ G), (same_kind _ _ G'). destruct (kind_eqb _ _); [|split; [reflexivity|exact W]].
    apply alter_same; [exact W|]. intros x y Gx. unfold client_assign. rewrite (same_server a' b' G'). destruct (c_server a'); [|reflexivity]. cbn [same_result]. rewrite (same_kind _ _ Gx).
    destruct a'. destruct G' as (l & z & -> & X). eexists. eexists. split; [fldv; reflexivity|]. fldin X. apply empty_copy, X.
  - left. cbn [step]. pose proof (get_same w1 w2 dst W) as G. pose proof (get_same w1 w2 src W) as G'.
    destruct (get_client w1 dst) as [a|], (get_client w2 dst) as [b|]; try contradiction; [|split; [reflexivity|exact W]].
    destruct (get_client w1 src) as [a'|], (get_client w2 src) as [b'|]; try contradiction; [|split; [reflexivity|exact W]].
    destruct (Nat.eqb dst src); [split; [reflexivity|exact W]|]. cbn [same_o] in G, G'. rewrite (same_kind _ _ G), (same_kind _ _ G'). destruct (kind_eqb _ _); [|split; [reflexivity|exact W]].
    assert (K : same_c (client_move_assign a a') (client_move_assign b b')).
    { unfold client_move_assign at 2. rewrite (same_kind _ _ G). clear G. destruct a'. destruct G' as (l & z & -> & X). eexists. eexists. split; [fldv; reflexivity|exact X]. }
    split; [reflexivity|]. cbn [snd]. apply put_same; [apply put_same; [exact W|exact K]|]. cbn [same_o]. clear G K. same.
  - cbn [step]. destruct (member_same (h := Some) i (sendMail m) w1 w2 (fun _ _ H => H) W (ob_send f g m)) as [A|(L1 & L2 & Q)]; [left; exact A|right].
    split; [discriminate|split; [discriminate|split; [exact L1|split; [exact L2|exact Q]]]].
  - left. apply alter_same; [exact W|]. intros a b G. unfold client_setServerName, obind. destruct (check_server_name server); cbn [same_result]; try reflexivity; try exact Logic.I. same.
  - left. apply alter_same; [exact W|]. intros a b G. cbn [same_result]. same.
  - left. apply alter_same; [exact W|]. intros a b' G. cbn [same_result]. same.
  - left. apply alter_same; [exact W|]. intros a b G. cbn [same_result]. same.
  - left. apply alter_same; [exact W|]. intros a b G. cbn [same_result]. same.
  - left. apply alter_same; [exact W|]. intros a b' G. cbn [same_result]. same.
  - left. apply alter_same; [exact W|]. intros a b' G. rewrite (same_kind _ _ G). destruct (c_kind a); cbn [same_result]; [exact Logic.I|same|same].
  - cbn [step]. destruct (member_same (h := fun _ => None) i (cleanup;; ret 0) w1 w2 (fun _ _ _ => Logic.I) W (ob_destroy f g)) as [A|(L1 & L2 & Q)]; [left; exact A|right].
    split; [discriminate|split; [discriminate|split; [exact L1|split; [exact L2|exact Q]]]].
Qed.

(** Programs. *)
Lemma run_snoc : forall pre o w, survived (fst (run pre w)) ->
  run (pre ++ [o]) w = (fst (run pre w) ++ [fst (step o (snd (run pre w)))], snd (step o (snd (run pre w)))).
Proof.
  induction pre as [|p pre IH]; intros o w S; cbn [run app] in *.
  - cbn [fst snd]. destruct (step o w) as [x w']. cbn [fst snd app]. destruct (continues x); reflexivity.
  - destruct (step p w) as [x w']. destruct (continues x) eqn:C.
    + specialize (IH o w'). destruct (run pre w') as [xs v]. cbn [fst snd] in *. inversion S; subst. rewrite (IH H2). reflexivity.
    + cbn [fst] in S. inversion S as [|? ? H _]; subst. destruct H as [[n ->]| ->]; discriminate C.
Qed.
Lemma total_part {A} (h : A -> N) l1 l2 : (total h l1 <= total h (l1 ++ l2))%N.
Proof. rewrite total_app. lia. Qed.
Lemma modest_part T l1 l2 e : modest T (l1 ++ l2) e -> modest T l1 e.
Proof.
  intros (A & B1 & C & D). split; [exact A|split; [exact B1|split; [intros o H; apply C, in_or_app; left; exact H|]]].
  pose proof (total_part op_count l1 l2). pose proof (total_part op_size l1 l2).
  assert (1000 * (T + 100) * (total op_count l1 + env_count e) <= 1000 * (T + 100) * (total op_count (l1 ++ l2) + env_count e))%N by (apply N.mul_le_mono_l; lia). lia.
Qed.
Lemma not_bad T pre o e : modest T (pre ++ [o]) e -> survived (fst (run pre (initial_world e))) -> (forall k p port, o <> ONew k p port) -> (forall i p, o <> OSetServer i p) ->
  legal (snd (run pre (initial_world e))) o -> ~ bad (fst (step o (snd (run pre (initial_world e))))).
Proof.
  intros M S N1 N2 L [X|X]; [exact (quiet_calls T pre o e N1 N2 M S L X)|].
  destruct (no_log_ub (pre ++ [o]) e) as [_ N]. apply N. rewrite (run_snoc _ _ _ S). cbn [fst]. apply in_or_app. right. left. exact X.
Qed.
Lemma run_same T e1 e2 : forall post pre, let w1 := snd (run pre (initial_world e1)) in let w2 := snd (run pre (initial_world e2)) in
  modest T (pre ++ post) e1 -> modest T (pre ++ post) e2 -> survived (fst (run pre (initial_world e1))) -> survived (fst (run pre (initial_world e2))) -> same_w w1 w2 ->
  fst (run post w1) = fst (run post w2) /\ same_w (snd (run post w1)) (snd (run post w2)).
Proof.
  induction post as [|o post IH]; intros pre w1 w2 M1 M2 S1 S2 W; [split; [reflexivity|exact W]|].
  assert (E0 : pre ++ o :: post = (pre ++ [o]) ++ post) by (rewrite <- app_assoc; reflexivity). rewrite E0 in M1, M2.
  destruct (step_same o w1 w2 W) as [[E W']|(N1 & N2 & L1 & L2 & Q)].
  2: { exfalso. destruct Q as [Q|Q]; revert Q; [apply (not_bad T)|apply (not_bad T)]; try assumption; eapply modest_part; eassumption. }
  specialize (IH (pre ++ [o])). cbv zeta in IH. rewrite (run_snoc pre o _ S1), (run_snoc pre o _ S2) in IH. cbn [fst snd] in IH. fold w1 in IH. fold w2 in IH.
  cbn [run]. destruct (step o w1) as [x1 v1], (step o w2) as [x2 v2]. cbn [fst snd] in *. subst x2.
  destruct (continues x1) eqn:C; [|split; [reflexivity|exact W']].
  assert (P : survived [x1]) by (constructor; [destruct x1; try discriminate C; eauto|constructor]).
  destruct (IH M1 M2 ltac:(apply Forall_app; split; [exact S1|exact P]) ltac:(apply Forall_app; split; [exact S2|exact P]) W') as [E' W''].
  destruct (run post v1), (run post v2). cbn [fst snd] in *. subst. split; [reflexivity|exact W''].
Qed.
End Texts.

Lemma texts_irrelevant : forall T ops e f g, modest T ops e -> modest T ops (texts f g e) ->
  let a := run ops (initial_world e) in let b := run ops (initial_world (texts f g e)) in
  fst a = fst b /\ w_trace (snd a) = w_trace (snd b) /\
  forall i, match get_client (snd a) i, get_client (snd b) i with Some c, Some d => same_but_log c d | None, None => True | _, _ => False end.
Proof.
  intros T ops e f g M1 M2 a b. destruct (run_same f g T e (texts f g e) ops [] M1 M2) as [E W]; [constructor|constructor|split; [constructor|split; reflexivity]|].
  cbn [run snd] in E, W. split; [exact E|split; [apply W|]]. intros i. pose proof (get_same f g _ _ i W) as G. subst a b.
  destruct (get_client _ i), (get_client _ i); try contradiction; [|exact Logic.I]. destruct G as (l & z & -> & _). exists l, z. reflexivity.
Qed.
